(** C17-C23: frames, kinematic invariants, final-state momenta, radiated photon. *)
From Coq Require Import Reals Lra Psatz.
From Verif Require Import ExtModel MathModel ParticleModel VecModel TransModel FrameBase KinModel KinSpec FrameModel FrameSpec
  VecTac KinEqs KinFinal FrameProofs KinAll KinFin.
Local Open Scope R_scope.

(** ** C17: frame changes *)
Theorem C17_target_lab_frame init pol : let p := in_p init in let k1 := in_k1 init in
  0 < norm_sq4 p -> 0 < t4 p -> 0 < sdot p k1 k1 ->
  exists T boost, target_from_lab init pol = Some T /\ lab_from_target init pol = Some (transpose4 T) /\ lorentz T /\ inverse4 T (transpose4 T) /\
    tapp4 T p = V4 (sqrt (norm_sq4 p)) 0 0 0 /\
    tapp4 T k1 = V4 (dot4 p k1 / sqrt (norm_sq4 p)) 0 0 (sqrt (sdot p k1 k1)) /\
    transform_to4 p VEC4_T = Some boost /\ lorentz boost /\ tapp4 boost p = V4 (sqrt (norm_sq4 p)) 0 0 0 /\
    x4 (tapp4 T (tapp4 (transpose4 boost) (mk4 0 pol))) = 0 /\ 0 <= y4 (tapp4 T (tapp4 (transpose4 boost) (mk4 0 pol))).
Proof. exact (target_lab_frame init pol). Qed.
Print Assumptions C17_target_lab_frame.
Theorem C17_lepton_frame ps S sp : admissible ps S sp ->
  let k := make_kin ps S sp in let L := lepton_from_target k in let qn := klambda_Y_sqrt k / (2 * kM k) in
  rot3 L /\ inverse3 L (target_from_lepton k) /\ 0 < qn /\ tapp3 L (sub3 (t_k1 k) (t_k2 k)) = V3 0 0 qn /\
  0 < x3 (tapp3 L (t_k1 k)) /\ y3 (tapp3 L (t_k1 k)) = 0.
Proof. exact (lepton_frame ps S sp). Qed.
Print Assumptions C17_lepton_frame.
Theorem C17_hadron_frame ps S sp : admissible ps S sp ->
  let k := make_kin ps S sp in let H := hadron_from_target k in let qn := klambda_Y_sqrt k / (2 * kM k) in
  rot3 H /\ inverse3 H (target_from_hadron k) /\ tapp3 H (sub3 (t_k1 k) (t_k2 k)) = V3 0 0 qn /\
  tapp3 H (tapp3 (target_from_lepton k) (l_ph k)) = V3 (kph_t k) 0 (kph_l k).
Proof. exact (hadron_frame ps S sp). Qed.
Print Assumptions C17_hadron_frame.
Theorem C17_virt_photon_frame ps S sp : admissible ps S sp -> let k := make_kin ps S sp in let V := virt_photon_from_target k in
  lorentz V /\ inverse4 V (target_from_virt_photon k) /\ tapp4 V (mk4 (kq_0 k) (sub3 (t_k1 k) (t_k2 k))) = V4 0 0 0 (kQ k).
Proof. exact (virt_frame ps S sp). Qed.
Print Assumptions C17_virt_photon_frame.
Theorem C17_real_photon_frame ps S sp tau phi_k R : admissible ps S sp -> tau_ok ps S sp tau -> 0 <= R ->
  let k := make_kin ps S sp in let r := make_rad k tau phi_k R in let P := real_photon_from_target r in let qn := klambda_Y_sqrt k / (2 * kM k) in
  rot3 P /\ inverse3 P (target_from_real_photon r) /\ tapp3 P (sub3 (t_k1 k) (t_k2 k)) = V3 0 0 qn /\
  tapp3 P (tapp3 (target_from_lepton k) (l_k r)) = V3 (rk_t r) 0 (rk_l r).
Proof. exact (real_frame ps S sp tau phi_k R). Qed.
Print Assumptions C17_real_photon_frame.
Theorem C17_shift_frame ps S sp tau phi_k R : admissible ps S sp -> tau_ok ps S sp tau -> 0 <= R < S * s_y sp -> 0 < s_ph_t_sq sp ->
  let k := make_kin ps S sp in let r := make_rad k tau phi_k R in 0 < rshift_ph_t r ->
  let Sh := shift_from_target r in
  rot3 Sh /\ inverse3 Sh (target_from_shift r) /\ rot3 (shift_from_hadron r) /\ inverse3 (shift_from_hadron r) (hadron_from_shift r) /\
  tapp3 Sh (tapp3 (target_from_lepton k) (sub3 (tapp3 (lepton_from_target k) (sub3 (t_k1 k) (t_k2 k))) (l_k r))) = V3 0 0 (rshift_lambda_Y_sqrt r / (2 * kM k)) /\
  tapp3 Sh (tapp3 (target_from_lepton k) (l_ph k)) = V3 (rshift_ph_t r) 0 (rshift_ph_l r).
Proof. exact (shift_frame ps S sp tau phi_k R). Qed.
Print Assumptions C17_shift_frame.
(** Target in flight, beam moving across it. *)
Example C17_target_example : let init := Initial P_ E_ (V4 5 0 0 4) (V4 13 5 0 12) in
  0 < norm_sq4 (in_p init) /\ 0 < t4 (in_p init) /\ 0 < sdot (in_p init) (in_k1 init) (in_k1 init) /\
  exists T, target_from_lab init (V3 0 1 0) = Some T /\ tapp4 T (V4 5 0 0 4) = V4 3 0 0 0.
Proof.
  intros init.
  assert (N : norm_sq4 (in_p init) = 3 * 3) by (subst init; cbn [in_p in_k1]; uvec; ring).
  assert (H2 : 0 < t4 (in_p init)) by (subst init; cbn [in_p in_k1]; uvec; lra).
  assert (H3 : 0 < sdot (in_p init) (in_k1 init) (in_k1 init)) by (subst init; unfold sdot; cbn [in_p in_k1]; uvec; lra).
  split; [rewrite N; lra|]. split; [auto|]. split; [auto|].
  destruct (C17_target_lab_frame init (V3 0 1 0)) as (T & b & H & _ & _ & _ & E & _); [rewrite N; lra|auto|auto|].
  exists T. split; [exact H|]. rewrite N, sqrt_square in E by lra. exact E.
Qed.

(** A point of phase space and a photon. *)
Definition ex_ps := Parts P_ E_ PI_P 1 (1 / 10) (1 / 2) 1.
Definition ex_sp := PhaseSpace (1 / 2) (1 / 2) (1 / 2) (1 / 4) 1 2.
Lemma ex_admissible : admissible ex_ps 20 ex_sp.
Proof. unfold admissible, ex_ps, ex_sp, sq. cbn [a_M a_m a_mh s_x s_y s_z s_ph_t_sq]. repeat split; lra. Qed.
Lemma ex_tau : tau_ok ex_ps 20 ex_sp 1.
Proof.
  unfold tau_ok, ex_ps, ex_sp, sq. cbn [a_M s_x s_y s_z]. 
  assert (8 <= sqrt (20 * (1 / 2) * (20 * (1 / 2)) + 4 * (1 * 1) * (20 * (1 / 2) * (1 / 2)))).
  { rewrite <- (sqrt_square 8) by lra. apply sqrt_le_1; lra. }
  lra.
Qed.
Example C17_example : rot3 (lepton_from_target (make_kin ex_ps 20 ex_sp)) /\
  inverse4 (virt_photon_from_target (make_kin ex_ps 20 ex_sp)) (target_from_virt_photon (make_kin ex_ps 20 ex_sp)) /\
  rot3 (real_photon_from_target (make_rad (make_kin ex_ps 20 ex_sp) 1 3 2)).
Proof.
  split; [apply C17_lepton_frame, ex_admissible|]. split; [apply C17_virt_photon_frame, ex_admissible|].
  apply C17_real_photon_frame; [apply ex_admissible|apply ex_tau|lra].
Qed.

(** ** C18: every stored quantity is the invariant it is named after, in any frame *)
Theorem C18_kinematics_invariants ps S sp e T : same_event e ps S sp -> lorentz T ->
  let k := make_kin ps S sp in let t := tapp4 T in
  transfer_names (kin_vals k) (t (v_p e)) (t (v_k1 e)) (t (v_q e)) (t (v_ph e)) /\
  lepton_names k (t (v_p e)) (t (v_k1 e)) (t (v_q e)) (t (v_ph e)).
Proof. exact (same_names e ps S sp T). Qed.
Print Assumptions C18_kinematics_invariants.
(** Points with enough energy are events. *)
Theorem C18_points_are_events ps S sp : admissible ps S sp -> exists e, same_event e ps S sp.
Proof. exact (admissible_event ps S sp). Qed.
Print Assumptions C18_points_are_events.
Theorem C18_photon_azimuth ps S sp : let k := make_kin ps S sp in
  cos (kphi_q k) = kcos_phi_q k /\ sin (kphi_q k) = ksin_phi_q k /\ - PI <= kphi_q k <= PI.
Proof. exact (phi_q_ok ps S sp). Qed.
Print Assumptions C18_photon_azimuth.
Example C18_example : (exists e, same_event e ex_ps 20 ex_sp) /\ kQ_sq (make_kin ex_ps 20 ex_sp) = 5 /\ kW_sq (make_kin ex_ps 20 ex_sp) = 6.
Proof. split; [apply C18_points_are_events, ex_admissible|]. unfold make_kin, ex_ps, ex_sp, sq. cbn [kQ_sq kW_sq a_M s_x s_y]. lra. Qed.

(** ** C19: final-state momenta are on shell and conserve momentum *)
Theorem C19_final_momenta init pol ps S sp : admissible ps S sp -> init_fits init ps S ->
  let k := make_kin ps S sp in
  exists f, make_final init pol k = Some f /\ fin_beam f = kbeam k /\ fin_hadron f = khadron k /\
    fin_k2 f = sub4 (in_k1 init) (fin_q f) /\ norm_sq4 (fin_k2 f) = sq (a_m ps) /\ norm_sq4 (fin_ph f) = sq (a_mh ps) /\
    transfer_names (kin_vals k) (in_p init) (in_k1 init) (fin_q f) (fin_ph f) /\ lepton_names k (in_p init) (in_k1 init) (fin_q f) (fin_ph f).
Proof. exact (final_all init pol ps S sp). Qed.
Print Assumptions C19_final_momenta.
Theorem C19_final_rad_momenta init pol ps S sp tau phi_k R : admissible ps S sp -> tau_ok ps S sp tau -> 0 <= R -> init_fits init ps S ->
  let k := make_kin ps S sp in let r := make_rad k tau phi_k R in
  exists g n, make_final_rad init pol r = Some g /\ finr_beam g = kbeam k /\ finr_hadron g = khadron k /\
    finr_k2 g = sub4 (in_k1 init) (finr_q g) /\ norm_sq4 (finr_k2 g) = sq (a_m ps) /\ norm_sq4 (finr_ph g) = sq (a_mh ps) /\
    transfer_names (kin_vals k) (in_p init) (in_k1 init) (finr_q g) (finr_ph g) /\ lepton_names k (in_p init) (in_k1 init) (finr_q g) (finr_ph g) /\
    finr_k g = scale4 (R / (2 * a_M ps)) n /\ dot4 n (in_p init) = a_M ps /\
    photon_names r (in_p init) (in_k1 init) (finr_q g) (finr_ph g) (finr_k g) n /\
    (R < S * s_y sp -> transfer_names (shift_vals r) (in_p init) (in_k1 init) (sub4 (finr_q g) (finr_k g)) (finr_ph g)).
Proof. exact (final_rad_all init pol ps S sp tau phi_k R). Qed.
Print Assumptions C19_final_rad_momenta.
Example C19_example : exists k1z, init_fits (Initial P_ E_ (V4 1 0 0 0) (V4 10 0 0 k1z)) ex_ps 20 /\
  exists f, make_final (Initial P_ E_ (V4 1 0 0 0) (V4 10 0 0 k1z)) (V3 1 0 0) (make_kin ex_ps 20 ex_sp) = Some f /\ norm_sq4 (fin_k2 f) = 1 / 100.
Proof.
  exists (sqrt (100 - 1 / 100)). set (i := Initial _ _ _ _).
  assert (F : init_fits i ex_ps 20).
  { unfold init_fits, i, ex_ps, sq. cbn [in_p in_k1 a_M a_m t4]. pose proof (sqrt_sqrt (100 - 1 / 100) ltac:(lra)).
    uvec. repeat split; nra. }
  split; [exact F|]. destruct (C19_final_momenta i (V3 1 0 0) _ _ _ ex_admissible F) as (f & E & _ & _ & _ & N & _).
  exists f. split; [exact E|]. rewrite N. unfold sq, ex_ps. cbn [a_m]. lra.
Qed.

(** ** C20: the radiated photon *)
Theorem C20_photon_invariants ps S sp tau phi_k R e f T : same_event e ps S sp -> same_photon f e tau phi_k R -> lorentz T ->
  let r := make_rad (make_kin ps S sp) tau phi_k R in let t := tapp4 T in
  photon_names r (t (v_p e)) (t (v_k1 e)) (t (v_q e)) (t (v_ph e)) (t (v_k e f)) (t (v_n f)).
Proof. exact (same_photon_names e f ps S sp tau phi_k R T). Qed.
Print Assumptions C20_photon_invariants.
Theorem C20_photon_exists ps S sp tau phi_k R e : same_event e ps S sp -> tau_ok ps S sp tau -> 0 <= R -> exists f, same_photon f e tau phi_k R.
Proof. exact (admissible_photon e ps S sp tau phi_k R). Qed.
Print Assumptions C20_photon_exists.
Example C20_example : exists e f, same_event e ex_ps 20 ex_sp /\ same_photon f e 1 3 2 /\
  norm_sq4 (v_k e f) = 0 /\ 2 * dot4 (v_k e f) (v_p e) = 2.
Proof.
  destruct (C18_points_are_events _ _ _ ex_admissible) as [e He]. destruct (C20_photon_exists _ _ _ 1 3 2 e He ex_tau ltac:(lra)) as [f Hf].
  exists e, f. split; [auto|]. split; [auto|]. pose proof (C20_photon_invariants _ _ _ _ _ _ _ _ _ He Hf lorentz_id) as N.
  cbv zeta in N. rewrite !VecProofs.id4_app in N. split; [apply N|]. rewrite <- (n_R _ _ _ _ _ _ _ N). reflexivity.
Qed.

(** ** C21: the shifted quantities are those of the transfer q - k *)
Theorem C21_shifted_invariants ps S sp tau phi_k R e f T : same_event e ps S sp -> same_photon f e tau phi_k R -> R < S * s_y sp -> lorentz T ->
  let r := make_rad (make_kin ps S sp) tau phi_k R in let t := tapp4 T in
  transfer_names (shift_vals r) (t (v_p e)) (t (v_k1 e)) (t (sub4 (v_q e) (v_k e f))) (t (v_ph e)).
Proof. exact (same_shift_names e f ps S sp tau phi_k R T). Qed.
Print Assumptions C21_shifted_invariants.
Example C21_example : (exists e f, same_event e ex_ps 20 ex_sp /\ same_photon f e 1 3 2) /\ 2 < 20 * s_y ex_sp /\
  rshift_Q_sq (make_rad (make_kin ex_ps 20 ex_sp) 1 3 2) = 7.
Proof.
  split; [destruct C20_example as (e & f & H1 & H2 & _); eauto|]. split; [unfold ex_sp; cbn [s_y]; lra|].
  transitivity (kQ_sq (make_kin ex_ps 20 ex_sp) + 2 * 1); [reflexivity|]. rewrite (proj1 (proj2 C18_example)). lra.
Qed.

(** ** C22: no radiation, no shift; forgetting the photon *)
Theorem C22_projection kn tau phi_k R : project (make_rad kn tau phi_k R) = kn.
Proof. exact (make_rad_copies kn tau phi_k R). Qed.
Print Assumptions C22_projection.
Theorem C22_zero_radiation ps S sp tau phi_k : admissible ps S sp -> tau_ok ps S sp tau -> 0 < s_ph_t_sq sp ->
  let k := make_kin ps S sp in let r := make_rad k tau phi_k 0 in
  shift_vals r = kin_vals k /\ rshift_sin_phi_q r = ksin_phi_q k /\ rshift_cos_phi_q r = kcos_phi_q k /\
  (- PI <= s_phi sp <= PI -> - PI < s_phi_h sp <= PI -> rshift_phi_h r = kphi_h k /\ rshift_phi_q r = kphi_q k).
Proof. exact (zero_R_all ps S sp tau phi_k). Qed.
Print Assumptions C22_zero_radiation.
Example C22_example : shift_vals (make_rad (make_kin ex_ps 20 ex_sp) 1 3 0) = kin_vals (make_kin ex_ps 20 ex_sp) /\
  rshift_phi_h (make_rad (make_kin ex_ps 20 ex_sp) 1 3 0) = 1.
Proof.
  destruct (C22_zero_radiation _ _ _ 1 3 ex_admissible ex_tau) as (E & _ & _ & A); [unfold ex_sp; cbn [s_ph_t_sq]; lra|].
  split; [exact E|]. pose proof PI2_3_2 as P. unfold PI2 in P.
  destruct A as [A1 _]; [unfold ex_sp; cbn [s_phi]; lra|unfold ex_sp; cbn [s_phi_h]; lra|]. rewrite A1. reflexivity.
Qed.

(** ** C23: forgetting the photon by shifting the transfer mixes two events *)
Theorem C23_project_shift_values r : kin_vals (project_shift r) = shift_vals r.
Proof. exact (project_shift_vals r). Qed.
Print Assumptions C23_project_shift_values.
(** The lepton invariants X, S_p, V_1, V_2, k2 of the result belong to the unshifted transfer: for no momenta do all fields hold. *)
Theorem C23_project_shift_refuted ps S sp tau phi_k R : R <> 0 ->
  let k := project_shift (make_rad (make_kin ps S sp) tau phi_k R) in
  forall p k1 q ph, ~ (transfer_names (kin_vals k) p k1 q ph /\ lepton_names k p k1 q ph).
Proof. exact (project_shift_inconsistent ps S sp tau phi_k R). Qed.
Print Assumptions C23_project_shift_refuted.
Example C23_example : let k := project_shift (make_rad (make_kin ex_ps 20 ex_sp) 1 3 2) in kS k = 20 /\ kX k = 10 /\ kS_x k = 8.
Proof.
  intros k. change (kS k) with 20. change (kX k) with ((1 - 1 / 2) * 20). change (kS_x k) with (20 * (1 / 2) - 2). lra.
Qed.
