(** Model of src/kinematics.cpp and include/sidis/kinematics.hpp over the real numbers: no rounding; square roots,
    logarithms and quotients only mean what the code computes inside their domains, which the theorems assume.
    Field names are those of the C++ structures with the prefix [k] (Kinematics) or [r] (KinematicsRad). *)
From Coq Require Import Reals ZArith.
From Verif Require Import ExtModel MathModel ParticleModel VecModel TransModel FrameBase.
Local Open Scope R_scope.

(** kinematics.hpp 75-237 *)
Record kin := Kin {
  ktarget : nucleus; kbeam : lepton; khadron : hadron;
  kS : R; kM : R; km : R; kmh : R; kMth : R; kx : R; ky : R; kz : R; kph_t_sq : R; kphi_h : R; kphi : R;
  kQ_sq : R; kQ : R; kt : R; kW_sq : R; kX : R; kS_x : R; kS_p : R; kV_1 : R; kV_2 : R; kV_m : R;
  kV_p : R; klambda_S : R; klambda_X : R; klambda_Y : R; klambda_1 : R; klambda_2 : R; klambda_3 : R;
  klambda_S_sqrt : R; klambda_X_sqrt : R; klambda_Y_sqrt : R; klambda_1_sqrt : R; klambda_2_sqrt : R;
  klambda_3_sqrt : R; kmx_sq : R; kmx : R; kvol_phi_h : R; kC_1 : R; kph_0 : R; kph_t : R; kph_l : R;
  kcos_phi_h : R; ksin_phi_h : R; kq_0 : R; kq_t : R; kq_l : R; kphi_q : R; kcos_phi_q : R;
  ksin_phi_q : R; kk2_0 : R; kk2_t : R; kk2_l : R; kk1_t : R; kcos_phi : R; ksin_phi : R }.
(** kinematics.hpp 244-570 *)
Record kinrad := KinRad {
  rtarget : nucleus; rbeam : lepton; rhadron : hadron;
  rS : R; rM : R; rm : R; rmh : R; rMth : R; rx : R; ry : R; rz : R; rph_t_sq : R; rphi_h : R; rphi : R;
  rQ_sq : R; rQ : R; rt : R; rW_sq : R; rX : R; rS_x : R; rS_p : R; rV_1 : R; rV_2 : R; rV_m : R;
  rV_p : R; rlambda_S : R; rlambda_X : R; rlambda_Y : R; rlambda_1 : R; rlambda_2 : R; rlambda_3 : R;
  rlambda_S_sqrt : R; rlambda_X_sqrt : R; rlambda_Y_sqrt : R; rlambda_1_sqrt : R; rlambda_2_sqrt : R;
  rlambda_3_sqrt : R; rmx_sq : R; rmx : R; rvol_phi_h : R; rC_1 : R; rph_0 : R; rph_t : R; rph_l : R;
  rcos_phi_h : R; rsin_phi_h : R; rq_0 : R; rq_t : R; rq_l : R; rphi_q : R; rcos_phi_q : R;
  rsin_phi_q : R; rk2_0 : R; rk2_t : R; rk2_l : R; rk1_t : R; rcos_phi : R; rsin_phi : R; rtau : R;
  rphi_k : R; rR : R; rcos_phi_k : R; rsin_phi_k : R; rtau_min : R; rtau_max : R; rlambda_H : R;
  rlambda_V : R; rlambda_RY : R; rlambda_RV : R; rmu : R; rlambda_z : R; rlambda_z_sqrt : R; rz_1 : R;
  rz_2 : R; rk_0 : R; rk_t : R; rk_l : R; rk_0_bar : R; rF_22 : R; rF_21 : R; rF_2p : R; rF_2m : R;
  rF_d : R; rF_1p : R; rF_IR : R; rvol_phi_k_R : R; rvol_phi_hk : R; rshift_Q_sq : R; rshift_Q : R;
  rshift_S_x : R; rshift_V_m : R; rshift_x : R; rshift_y : R; rshift_z : R; rshift_t : R; rshift_W_sq : R;
  rshift_lambda_Y : R; rshift_lambda_1 : R; rshift_lambda_2 : R; rshift_lambda_3 : R;
  rshift_lambda_Y_sqrt : R; rshift_lambda_1_sqrt : R; rshift_lambda_2_sqrt : R; rshift_lambda_3_sqrt : R;
  rshift_ph_t_sq : R; rshift_ph_t : R; rshift_ph_l : R; rshift_q_0 : R; rshift_q_t : R; rshift_q_l : R;
  rshift_k1_t : R; rshift_mx_sq : R; rshift_mx : R; rshift_vol_phi_h : R; rshift_C_1 : R;
  rshift_sin_phi_h : R; rshift_cos_phi_h : R; rshift_phi_h : R; rshift_sin_phi_q : R;
  rshift_cos_phi_q : R; rshift_phi_q : R }.

(** kinematics.cpp 16-112 *)
Definition make_kin (ps : parts) (S : R) (sp : phase_space) : kin :=
  let x := s_x sp in let y := s_y sp in let z := s_z sp in
  let ph_t_sq := s_ph_t_sq sp in let phi_h := s_phi_h sp in let phi := s_phi sp in
  (* lines 23-28 *)
  let phi_q := wrap_angle (PI - phi) in
  let M := a_M ps in let m := a_m ps in let mh := a_mh ps in let Mth := a_Mth ps in
  let cos_phi_h := cos phi_h in
  let sin_phi_h := sin phi_h in
  let cos_phi := cos phi in
  let sin_phi := sin phi in
  let cos_phi_q := - cos_phi in
  let sin_phi_q := sin_phi in
  (* lines 47-60 *)
  let Q_sq := S * x * y in
  let Q := sqrt Q_sq in
  let X := (1 - y) * S in
  let S_x := S * y in
  let S_p := S * (2 - y) in
  let lambda_S := sq S - 4 * sq M * sq m in
  let lambda_X := sq X - 4 * sq M * sq m in
  let lambda_Y := sq S_x + 4 * sq M * Q_sq in
  let lambda_1 := Q_sq * (S * X - sq M * Q_sq) - sq m * lambda_Y in
  let lambda_S_sqrt := sqrt lambda_S in
  let lambda_X_sqrt := sqrt lambda_X in
  let lambda_Y_sqrt := sqrt lambda_Y in
  let lambda_1_sqrt := sqrt lambda_1 in
  (* lines 64-67 *)
  let ph_0 := (z * S_x) / (2 * M) in
  let ph_t := sqrt ph_t_sq in
  let ph_ratio_sq := ph_t_sq / sq ph_0 + sq (mh / ph_0) in
  let ph_l := ph_0 * sqrt (1 - ph_ratio_sq) in
  (* lines 70-79 *)
  let q_0 := S_x / (2 * M) in
  let q_t := lambda_1_sqrt / lambda_S_sqrt in
  let q_l := (2 * sq M * Q_sq + S * S_x) / (2 * M * lambda_S_sqrt) in
  let k2_0 := X / (2 * M) in
  let k2_l := (S * X - 2 * sq M * Q_sq - 4 * sq M * sq m) / (2 * M * lambda_S_sqrt) in
  let k2_t := lambda_1_sqrt / lambda_S_sqrt in
  let k1_t := lambda_1_sqrt / lambda_Y_sqrt in
  (* lines 82-86 *)
  let V_1 := ph_0 * S / M - (ph_l * (S * S_x + 2 * sq M * Q_sq)) / (M * lambda_Y_sqrt) - 2 * ph_t * k1_t * cos_phi_h in
  let V_2 := ph_0 * X / M - (ph_l * (X * S_x - 2 * sq M * Q_sq)) / (M * lambda_Y_sqrt) - 2 * ph_t * k1_t * cos_phi_h in
  let V_p := 0.5 * (V_1 + V_2) in
  (* lines 92-99 *)
  let lambda_Y_ratio := (4 * sq M * Q_sq) / sq S_x in
  let V_m := - (ph_0 * S_x) / (2 * M) * sqrt1p_1m (lambda_Y_ratio - ph_ratio_sq * (1 + lambda_Y_ratio)) in
  let t := sq mh - Q_sq - 2 * V_m in
  let W_sq := sq M + S_x - Q_sq in
  let mx_sq := sq M + t + (1 - z) * S_x in
  let mx := sqrt mx_sq in
  (* lines 102-111 *)
  let lambda_2 := sq V_m + sq mh * Q_sq in
  let lambda_3 := V_m + z * Q_sq in
  let lambda_2_sqrt := sqrt lambda_2 in
  let lambda_3_sqrt := sqrt lambda_3 in
  let vol_phi_h := - 0.5 * ph_t * lambda_1_sqrt * sin_phi_h in
  let C_1 := (4 * M * ph_l * (Q_sq + 2 * x * sq M)) / sq (sq Q_sq) in
  {|
    ktarget := a_target ps; kbeam := a_beam ps; khadron := a_hadron ps; kS := S; kM := M; km := m;
    kmh := mh; kMth := Mth; kx := x; ky := y; kz := z; kph_t_sq := ph_t_sq; kphi_h := phi_h; kphi := phi;
    kQ_sq := Q_sq; kQ := Q; kt := t; kW_sq := W_sq; kX := X; kS_x := S_x; kS_p := S_p; kV_1 := V_1;
    kV_2 := V_2; kV_m := V_m; kV_p := V_p; klambda_S := lambda_S; klambda_X := lambda_X;
    klambda_Y := lambda_Y; klambda_1 := lambda_1; klambda_2 := lambda_2; klambda_3 := lambda_3;
    klambda_S_sqrt := lambda_S_sqrt; klambda_X_sqrt := lambda_X_sqrt; klambda_Y_sqrt := lambda_Y_sqrt;
    klambda_1_sqrt := lambda_1_sqrt; klambda_2_sqrt := lambda_2_sqrt; klambda_3_sqrt := lambda_3_sqrt;
    kmx_sq := mx_sq; kmx := mx; kvol_phi_h := vol_phi_h; kC_1 := C_1; kph_0 := ph_0; kph_t := ph_t;
    kph_l := ph_l; kcos_phi_h := cos_phi_h; ksin_phi_h := sin_phi_h; kq_0 := q_0; kq_t := q_t; kq_l := q_l;
    kphi_q := phi_q; kcos_phi_q := cos_phi_q; ksin_phi_q := sin_phi_q; kk2_0 := k2_0; kk2_t := k2_t;
    kk2_l := k2_l; kk1_t := k1_t; kcos_phi := cos_phi; ksin_phi := sin_phi |}.

(** kinematics.cpp 114-312 *)
Definition make_rad (kn : kin) (tau phi_k R : Reals.Rdefinitions.R) : kinrad :=
  (* initialiser list, lines 115-173 *)
  let S := kS kn in let M := kM kn in let m := km kn in let mh := kmh kn in let Mth := kMth kn in
  let x := kx kn in let y := ky kn in let z := kz kn in let ph_t_sq := kph_t_sq kn in
  let phi_h := kphi_h kn in let phi := kphi kn in let Q_sq := kQ_sq kn in let Q := kQ kn in let t := kt kn in
  let W_sq := kW_sq kn in let X := kX kn in let S_x := kS_x kn in let S_p := kS_p kn in let V_1 := kV_1 kn in
  let V_2 := kV_2 kn in let V_m := kV_m kn in let V_p := kV_p kn in let lambda_S := klambda_S kn in
  let lambda_X := klambda_X kn in let lambda_Y := klambda_Y kn in let lambda_1 := klambda_1 kn in
  let lambda_2 := klambda_2 kn in let lambda_3 := klambda_3 kn in let lambda_S_sqrt := klambda_S_sqrt kn in
  let lambda_X_sqrt := klambda_X_sqrt kn in let lambda_Y_sqrt := klambda_Y_sqrt kn in
  let lambda_1_sqrt := klambda_1_sqrt kn in let lambda_2_sqrt := klambda_2_sqrt kn in
  let lambda_3_sqrt := klambda_3_sqrt kn in let mx_sq := kmx_sq kn in let mx := kmx kn in
  let vol_phi_h := kvol_phi_h kn in let C_1 := kC_1 kn in let ph_0 := kph_0 kn in let ph_t := kph_t kn in
  let ph_l := kph_l kn in let cos_phi_h := kcos_phi_h kn in let sin_phi_h := ksin_phi_h kn in
  let q_0 := kq_0 kn in let q_t := kq_t kn in let q_l := kq_l kn in let phi_q := kphi_q kn in
  let cos_phi_q := kcos_phi_q kn in let sin_phi_q := ksin_phi_q kn in let k2_0 := kk2_0 kn in
  let k2_t := kk2_t kn in let k2_l := kk2_l kn in let k1_t := kk1_t kn in let cos_phi := kcos_phi kn in
  let sin_phi := ksin_phi kn in
  let cos_phi_k := cos phi_k in
  let sin_phi_k := sin phi_k in
  (* lines 180-193 *)
  let tau_min := (S_x - lambda_Y_sqrt) / (2 * sq M) in
  let tau_max := (S_x + lambda_Y_sqrt) / (2 * sq M) in
  let lambda_H := sq (z * S_x) - 4 * sq M * sq mh in
  let lambda_V := z * sq S_x - 4 * sq M * V_m in
  let lambda_RY := R * (S_x - 2 * sq M * tau) in
  let lambda_RV := (2 * M) / lambda_Y_sqrt * (2 * sq M * R * ph_t * sqrt ((tau - tau_min) * (tau_max - tau)) * cos (phi_h - phi_k) + lambda_RY * ph_l) in
  (* lines 197-215 *)
  let mu := ph_0 / M + 1 / lambda_Y_sqrt * ((2 * tau * sq M - S_x) * ph_l / M - 2 * M * ph_t * cos (phi_h - phi_k) * sqrt ((tau - tau_min) * (tau_max - tau))) in
  let lambda_z := (tau_max - tau) * (tau - tau_min) * lambda_1 in
  let lambda_z_sqrt := sqrt lambda_z in
  let z_1 := 1 / lambda_Y * (Q_sq * S_p + tau * (S * S_x + 2 * sq M * Q_sq) - 2 * M * lambda_z_sqrt * cos_phi_k) in
  let z_2 := 1 / lambda_Y * (Q_sq * S_p + tau * (X * S_x - 2 * sq M * Q_sq) - 2 * M * lambda_z_sqrt * cos_phi_k) in
  (* lines 218-221 *)
  let k_0 := R / (2 * M) in
  let k_t := (M * R * lambda_z_sqrt) / (lambda_1_sqrt * lambda_Y_sqrt) in
  let k_l := lambda_RY / (2 * M * lambda_Y_sqrt) in
  let k_0_bar := ((1 + tau - mu) * R) / (2 * mx) in
  (* lines 224-230 *)
  let F_22 := 1 / sq z_2 in
  let F_21 := 1 / sq z_1 in
  let F_2p := F_22 + F_21 in
  let F_2m := F_22 - F_21 in
  let F_d := 1 / (z_1 * z_2) in
  let F_1p := 1 / z_1 + 1 / z_2 in
  let F_IR := sq m * F_2p - (Q_sq + 2 * sq m) * F_d in
  (* lines 236-240 *)
  let vol_phi_k_R := - 0.5 * sin_phi_k * M * lambda_z_sqrt / lambda_Y_sqrt in
  let vol_phi_hk := 1 / (2 * lambda_1) * (R * vol_phi_h * (z_1 * lambda_Y - Q_sq * S_p - tau * (S * S_x + 2 * sq M * Q_sq)) + R * vol_phi_k_R * (S_x * (z * Q_sq * S_p - S * V_2 + X * V_1) - 4 * V_p * sq M * Q_sq)) in
  (* lines 242-252 *)
  let shift_Q_sq := Q_sq + R * tau in
  let shift_Q := sqrt shift_Q_sq in
  let shift_S_x := S_x - R in
  let shift_V_m := V_m + (lambda_RV - z * R * S_x) / (4 * sq M) in
  let shift_x := shift_Q_sq / shift_S_x in
  let shift_y := y - R / S in
  let shift_z := S_x / shift_S_x * z in
  let shift_t := t - R * tau + (z * R * S_x - lambda_RV) / (2 * sq M) in
  let shift_W_sq := W_sq - R * (1 + tau) in
  (* lines 254-265 *)
  let shift_lambda_Y := lambda_Y + sq R - 2 * lambda_RY in
  let shift_lambda_1 := lambda_1 + 1 / (4 * sq M) * ((sq R - 2 * lambda_RY) * lambda_S + R * (S - 2 * sq M * z_1) * (2 * S * S_x + 4 * sq M * Q_sq - R * (S - 2 * sq M * z_1))) in
  let shift_lambda_2 := sq shift_V_m + sq mh * shift_Q_sq in
  let shift_lambda_3 := shift_V_m + shift_z * shift_Q_sq in
  let shift_lambda_Y_sqrt := sqrt shift_lambda_Y in
  let shift_lambda_1_sqrt := sqrt shift_lambda_1 in
  let shift_lambda_2_sqrt := sqrt shift_lambda_2 in
  let shift_lambda_3_sqrt := sqrt shift_lambda_3 in
  (* lines 267-278 *)
  let shift_ph_t_sq := ph_t_sq + 1 / shift_lambda_Y * ((sq R - 2 * lambda_RY) * sq ph_l + (lambda_Y_sqrt * lambda_RV * ph_l) / M - sq lambda_RV / (4 * sq M)) in
  let shift_ph_t := sqrt shift_ph_t_sq in
  let shift_ph_l := 1 / shift_lambda_Y_sqrt * (lambda_Y_sqrt * ph_l - lambda_RV / (2 * M)) in
  let shift_q_0 := shift_S_x / (2 * M) in
  let shift_q_t := shift_lambda_1_sqrt / lambda_S_sqrt in
  let shift_q_l := q_l - R / (2 * M * lambda_S_sqrt) * (S - 2 * sq M * z_1) in
  let shift_k1_t := shift_lambda_1_sqrt / shift_lambda_Y_sqrt in
  let shift_mx_sq := mx_sq - R * (1 + tau) + (z * R * S_x - lambda_RV) / (2 * sq M) in
  let shift_mx := sqrt shift_mx_sq in
  (* lines 281-293 *)
  let shift_vol_phi_h := vol_phi_h + 1 / (2 * lambda_1) * (R * vol_phi_h * (tau * lambda_S + 2 * sq m * S_x + Q_sq * S - z_1 * (S * S_x + 2 * sq M * Q_sq)) + R * vol_phi_k_R * (2 * sq m * (4 * V_m * sq M - z * sq S_x) + S * (S * V_2 - X * V_1 - z * Q_sq * S_x) + 2 * V_1 * sq M * Q_sq)) in
  let shift_C_1 := (4 * M * shift_ph_l * (shift_Q_sq + 2 * shift_x * sq M)) / sq (sq shift_Q_sq) in
  (* lines 296-300 *)
  let shift_sin_phi_h := - 2 * shift_vol_phi_h / (shift_ph_t * shift_q_t * lambda_S_sqrt) in
  let shift_cos_phi_h := 1 / (4 * sq M * shift_ph_t * shift_q_t * shift_lambda_Y_sqrt * lambda_S_sqrt) * (shift_lambda_Y * (z * S * S_x - 2 * sq M * V_1) - (lambda_V - lambda_RV) * (S * shift_S_x + 2 * sq M * Q_sq + 2 * sq M * z_1 * R)) in
  let shift_phi_h := atan2 shift_sin_phi_h shift_cos_phi_h in
  (* lines 304-313 *)
  let shift_sin_phi_q := 1 / shift_q_t * (q_t * sin_phi_q - (2 * M) / lambda_Y_sqrt * (k_t * (- q_l * sin_phi * cos_phi_k + lambda_Y_sqrt / (2 * M) * cos_phi * sin_phi_k) + k_l * q_t * sin_phi)) in
  let shift_cos_phi_q := 1 / shift_q_t * (q_t * cos_phi_q - (2 * M) / lambda_Y_sqrt * (k_t * (q_l * cos_phi * cos_phi_k + lambda_Y_sqrt / (2 * M) * sin_phi * sin_phi_k) - k_l * q_t * cos_phi)) in
  let shift_phi_q := atan2 shift_sin_phi_q shift_cos_phi_q in
  {|
    rtarget := ktarget kn; rbeam := kbeam kn; rhadron := khadron kn; rS := S; rM := M; rm := m; rmh := mh;
    rMth := Mth; rx := x; ry := y; rz := z; rph_t_sq := ph_t_sq; rphi_h := phi_h; rphi := phi;
    rQ_sq := Q_sq; rQ := Q; rt := t; rW_sq := W_sq; rX := X; rS_x := S_x; rS_p := S_p; rV_1 := V_1;
    rV_2 := V_2; rV_m := V_m; rV_p := V_p; rlambda_S := lambda_S; rlambda_X := lambda_X;
    rlambda_Y := lambda_Y; rlambda_1 := lambda_1; rlambda_2 := lambda_2; rlambda_3 := lambda_3;
    rlambda_S_sqrt := lambda_S_sqrt; rlambda_X_sqrt := lambda_X_sqrt; rlambda_Y_sqrt := lambda_Y_sqrt;
    rlambda_1_sqrt := lambda_1_sqrt; rlambda_2_sqrt := lambda_2_sqrt; rlambda_3_sqrt := lambda_3_sqrt;
    rmx_sq := mx_sq; rmx := mx; rvol_phi_h := vol_phi_h; rC_1 := C_1; rph_0 := ph_0; rph_t := ph_t;
    rph_l := ph_l; rcos_phi_h := cos_phi_h; rsin_phi_h := sin_phi_h; rq_0 := q_0; rq_t := q_t; rq_l := q_l;
    rphi_q := phi_q; rcos_phi_q := cos_phi_q; rsin_phi_q := sin_phi_q; rk2_0 := k2_0; rk2_t := k2_t;
    rk2_l := k2_l; rk1_t := k1_t; rcos_phi := cos_phi; rsin_phi := sin_phi; rtau := tau; rphi_k := phi_k;
    rR := R; rcos_phi_k := cos_phi_k; rsin_phi_k := sin_phi_k; rtau_min := tau_min; rtau_max := tau_max;
    rlambda_H := lambda_H; rlambda_V := lambda_V; rlambda_RY := lambda_RY; rlambda_RV := lambda_RV;
    rmu := mu; rlambda_z := lambda_z; rlambda_z_sqrt := lambda_z_sqrt; rz_1 := z_1; rz_2 := z_2;
    rk_0 := k_0; rk_t := k_t; rk_l := k_l; rk_0_bar := k_0_bar; rF_22 := F_22; rF_21 := F_21; rF_2p := F_2p;
    rF_2m := F_2m; rF_d := F_d; rF_1p := F_1p; rF_IR := F_IR; rvol_phi_k_R := vol_phi_k_R;
    rvol_phi_hk := vol_phi_hk; rshift_Q_sq := shift_Q_sq; rshift_Q := shift_Q; rshift_S_x := shift_S_x;
    rshift_V_m := shift_V_m; rshift_x := shift_x; rshift_y := shift_y; rshift_z := shift_z;
    rshift_t := shift_t; rshift_W_sq := shift_W_sq; rshift_lambda_Y := shift_lambda_Y;
    rshift_lambda_1 := shift_lambda_1; rshift_lambda_2 := shift_lambda_2; rshift_lambda_3 := shift_lambda_3;
    rshift_lambda_Y_sqrt := shift_lambda_Y_sqrt; rshift_lambda_1_sqrt := shift_lambda_1_sqrt;
    rshift_lambda_2_sqrt := shift_lambda_2_sqrt; rshift_lambda_3_sqrt := shift_lambda_3_sqrt;
    rshift_ph_t_sq := shift_ph_t_sq; rshift_ph_t := shift_ph_t; rshift_ph_l := shift_ph_l;
    rshift_q_0 := shift_q_0; rshift_q_t := shift_q_t; rshift_q_l := shift_q_l; rshift_k1_t := shift_k1_t;
    rshift_mx_sq := shift_mx_sq; rshift_mx := shift_mx; rshift_vol_phi_h := shift_vol_phi_h;
    rshift_C_1 := shift_C_1; rshift_sin_phi_h := shift_sin_phi_h; rshift_cos_phi_h := shift_cos_phi_h;
    rshift_phi_h := shift_phi_h; rshift_sin_phi_q := shift_sin_phi_q; rshift_cos_phi_q := shift_cos_phi_q;
    rshift_phi_q := shift_phi_q |}.

(** kinematics.cpp 314-383 *)
Definition project (r : kinrad) : kin :=
  {|
    ktarget := rtarget r; kbeam := rbeam r; khadron := rhadron r; kS := rS r; kM := rM r; km := rm r;
    kmh := rmh r; kMth := rMth r; kx := rx r; ky := ry r; kz := rz r; kph_t_sq := rph_t_sq r;
    kphi_h := rphi_h r; kphi := rphi r; kQ_sq := rQ_sq r; kQ := rQ r; kt := rt r; kW_sq := rW_sq r;
    kX := rX r; kS_x := rS_x r; kS_p := rS_p r; kV_1 := rV_1 r; kV_2 := rV_2 r; kV_m := rV_m r;
    kV_p := rV_p r; klambda_S := rlambda_S r; klambda_X := rlambda_X r; klambda_Y := rlambda_Y r;
    klambda_1 := rlambda_1 r; klambda_2 := rlambda_2 r; klambda_3 := rlambda_3 r;
    klambda_S_sqrt := rlambda_S_sqrt r; klambda_X_sqrt := rlambda_X_sqrt r;
    klambda_Y_sqrt := rlambda_Y_sqrt r; klambda_1_sqrt := rlambda_1_sqrt r;
    klambda_2_sqrt := rlambda_2_sqrt r; klambda_3_sqrt := rlambda_3_sqrt r; kmx_sq := rmx_sq r;
    kmx := rmx r; kvol_phi_h := rvol_phi_h r; kC_1 := rC_1 r; kph_0 := rph_0 r; kph_t := rph_t r;
    kph_l := rph_l r; kcos_phi_h := rcos_phi_h r; ksin_phi_h := rsin_phi_h r; kq_0 := rq_0 r;
    kq_t := rq_t r; kq_l := rq_l r; kphi_q := rphi_q r; kcos_phi_q := rcos_phi_q r;
    ksin_phi_q := rsin_phi_q r; kk2_0 := rk2_0 r; kk2_t := rk2_t r; kk2_l := rk2_l r; kk1_t := rk1_t r;
    kcos_phi := rcos_phi r; ksin_phi := rsin_phi r |}.

(** kinematics.cpp 385-456 *)
Definition project_shift (r : kinrad) : kin :=
  {|
    ktarget := rtarget r; kbeam := rbeam r; khadron := rhadron r; kS := rS r; kM := rM r; km := rm r;
    kmh := rmh r; kMth := rMth r; kx := rshift_x r; ky := rshift_y r; kz := rshift_z r;
    kph_t_sq := rshift_ph_t_sq r; kphi_h := rshift_phi_h r; kphi := rphi r; kQ_sq := rshift_Q_sq r;
    kQ := rshift_Q r; kt := rshift_t r; kW_sq := rshift_W_sq r; kX := rX r; kS_x := rshift_S_x r;
    kS_p := rS_p r; kV_1 := rV_1 r; kV_2 := rV_2 r; kV_m := rshift_V_m r; kV_p := rV_p r;
    klambda_S := rlambda_S r; klambda_X := rlambda_X r; klambda_Y := rshift_lambda_Y r;
    klambda_1 := rshift_lambda_1 r; klambda_2 := rshift_lambda_2 r; klambda_3 := rshift_lambda_3 r;
    klambda_S_sqrt := rlambda_S_sqrt r; klambda_X_sqrt := rlambda_X_sqrt r;
    klambda_Y_sqrt := rshift_lambda_Y_sqrt r; klambda_1_sqrt := rshift_lambda_1_sqrt r;
    klambda_2_sqrt := rshift_lambda_2_sqrt r; klambda_3_sqrt := rshift_lambda_3_sqrt r;
    kmx_sq := rshift_mx_sq r; kmx := rshift_mx r; kvol_phi_h := rshift_vol_phi_h r; kC_1 := rshift_C_1 r;
    kph_0 := rph_0 r; kph_t := rshift_ph_t r; kph_l := rshift_ph_l r; kcos_phi_h := rshift_cos_phi_h r;
    ksin_phi_h := rshift_sin_phi_h r; kq_0 := rshift_q_0 r; kq_t := rshift_q_t r; kq_l := rshift_q_l r;
    kphi_q := rshift_phi_q r; kcos_phi_q := rshift_cos_phi_q r; ksin_phi_q := rshift_sin_phi_q r;
    kk2_0 := rk2_0 r; kk2_t := rk2_t r; kk2_l := rk2_l r; kk1_t := rshift_k1_t r; kcos_phi := rcos_phi r;
    ksin_phi := rsin_phi r |}.
