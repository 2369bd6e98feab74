(** Specification for the densities (C60, C75-C77). *)
From Coq Require Import Reals ZArith.
From Verif Require Import ExtModel BoundModel VecModel TransModel FrameBase KinModel KinSpec CutModel CutSpec.
Local Open Scope R_scope.

(** Energy of [k] in the rest frame of [P]. *)
Definition rest_energy (P k : vec4) : R := dot4 k P / sqrt (norm_sq4 P).
Definition degrees (a : R) : R := a * 180 / PI.
(** The cuts as the user writes them, with angles in degrees. *)
Record obeys_user (cut : cuts) (phi_h phi : R) (p k1 q ph : vec4) : Prop := ObeysUser {
  ou_x : obeys (c_x cut) (- norm_sq4 q / (2 * dot4 p q));
  ou_y : obeys (c_y cut) (dot4 p q / dot4 p k1);
  ou_z : obeys (c_z cut) (dot4 p ph / dot4 p q);
  ou_ph_t_sq : obeys (c_ph_t_sq cut) (- gram3 p q ph / gram2 p q);
  ou_phi_h : obeys (c_phi_h cut) (degrees phi_h);
  ou_phi : obeys (c_phi cut) (degrees phi);
  ou_Q_sq : obeys (c_Q_sq cut) (- norm_sq4 q);
  ou_t : obeys (c_t cut) (norm_sq4 (sub4 q ph));
  ou_W_sq : obeys (c_W_sq cut) (norm_sq4 (add4 p q));
  ou_r : obeys (c_r cut) (dot4 (sub4 k1 q) ph / dot4 k1 ph);
  ou_mx_sq : obeys (c_mx_sq cut) (norm_sq4 (sub4 (add4 p q) ph));
  ou_qt_to_Q : obeys (c_qt_to_Q cut) (across p ph q / (dot4 p ph / dot4 p q) / sqrt (- norm_sq4 q));
  ou_mom_q : obeys (c_lab_mom_q cut) (lab_mom p q);
  ou_mom_k2 : obeys (c_lab_mom_k2 cut) (lab_mom p (sub4 k1 q));
  ou_mom_h : obeys (c_lab_mom_h cut) (lab_mom p ph);
  ou_theta_q : obeys (c_lab_theta_q cut) (degrees (lab_theta p k1 q));
  ou_theta_k2 : obeys (c_lab_theta_k2 cut) (degrees (lab_theta p k1 (sub4 k1 q)));
  ou_theta_h : obeys (c_lab_theta_h cut) (degrees (lab_theta p k1 ph));
  (* a hadron at rest has no direction and fails a cut on its angle *)
  ou_moving_h : is_set (c_lab_theta_h cut) -> 0 < lab_mom p ph }.
Record obeys_user_rad (cut : cuts_rad) (tau phi_k : R) (p k1 q ph k n : vec4) : Prop := ObeysUserRad {
  ov_tau : obeys (d_tau cut) (dot4 n q / dot4 n p);
  ov_phi_k : obeys (d_phi_k cut) (degrees phi_k);
  ov_R : obeys (d_R cut) (2 * dot4 k p);
  ov_k_0_bar : obeys (d_k_0_bar cut) (rest_energy (sub4 (add4 p q) ph) k);
  ov_mom_k : obeys (d_lab_mom_k cut) (dot4 p k / sqrt (norm_sq4 p));
  ov_theta_k : obeys (d_lab_theta_k cut) (degrees (lab_theta p k1 n)) }.

(** Two angles that are the same direction. *)
Definition same_direction (a b : R) : Prop := cos a = cos b /\ sin a = sin b.
