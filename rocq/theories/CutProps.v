(** C08, C24-C28, C68, C69: kinematic limits, cuts and the phase-space samplers. *)
From Coq Require Import Reals Bool Lra Psatz.
From Verif Require Import ExtModel BoundModel BoundSpec BoundProofs MathModel MapModel ParticleModel VecModel TransModel FrameBase KinModel KinSpec CutModel CutSpec
  CutProofs CutBounds CutPhoton CutTake CutNames CutReach CutReach9 KinProps.
Local Open Scope R_scope.

(** ** C08: the reported factor is the determinant of the derivatives *)
Theorem C08_take_jacobian ps S : jacobian_of 6 kin_coord (take_kin ps S) (limits_plain ps S).
Proof. exact (take_kin_jacobian ps S). Qed.
Print Assumptions C08_take_jacobian.
Theorem C08_take_cut_jacobian cut ps S : jacobian_of 6 kin_coord (take_cut cut ps S) (limits_cut cut ps S).
Proof. exact (take_cut_jacobian cut ps S). Qed.
Print Assumptions C08_take_cut_jacobian.
Theorem C08_take_rad_jacobian ps S : 0 <= a_m ps -> jacobian_of 9 rad_coord (take9_kin ps S) (limits9_plain ps S).
Proof. exact (take9_kin_jacobian ps S). Qed.
Print Assumptions C08_take_rad_jacobian.
Theorem C08_take_rad_cut_jacobian cut cut_rad ps S : 0 <= a_m ps ->
  jacobian_of 9 rad_coord (take9_cut cut cut_rad ps S) (limits9_cut cut cut_rad ps S).
Proof. exact (take9_cut_jacobian cut cut_rad ps S). Qed.
Print Assumptions C08_take_rad_cut_jacobian.
Theorem C08_jacobian_nonneg (A : Type) n (coord : A -> nat -> R) F limits u a jac :
  jacobian_of n coord F limits -> unit_cube n u -> F u = Some (a, jac) -> 0 <= jac.
Proof. exact (fun J U E => jac_nonneg n coord F limits u a jac J U E). Qed.
Print Assumptions C08_jacobian_nonneg.
Theorem C08_jacobian_positive (A : Type) n (coord : A -> nat -> R) F limits u a jac :
  jacobian_of n coord F limits -> unit_cube n u -> F u = Some (a, jac) -> roomy n (limits a) -> 0 < jac.
Proof. exact (fun J U E Ro => jac_positive n coord F limits u a jac J U E Ro). Qed.
Print Assumptions C08_jacobian_positive.

(** ** C24, C25: the limits are exactly the physical region *)
Theorem C24_limits_sound ps S sp : masses_ok ps -> valid_kin (make_kin ps S sp) = true ->
  contains (x_bound ps S) (Fin (s_x sp)) = true /\ contains (y_bound ps S (s_x sp)) (Fin (s_y sp)) = true /\
  contains (z_bound ps S (s_x sp) (s_y sp)) (Fin (s_z sp)) = true /\
  contains (ph_t_sq_bound ps S (s_x sp) (s_y sp) (s_z sp)) (Fin (s_ph_t_sq sp)) = true.
Proof. exact (fun HP V => proj2 (proj1 (region_nested ps S sp HP) (proj1 (valid_region ps S sp HP) V))). Qed.
Print Assumptions C24_limits_sound.
Theorem C24_valid_is_physical ps S sp : masses_ok ps -> valid_kin (make_kin ps S sp) = true <-> region ps S sp.
Proof. exact (valid_region ps S sp). Qed.
Print Assumptions C24_valid_is_physical.
Theorem C24_S_min_exact ps S : masses_ok ps -> 0 < S -> valid (x_bound ps S) = true <-> S_min ps <= S.
Proof. exact (Smin_iff ps S). Qed.
Print Assumptions C24_S_min_exact.
Theorem C25_nested_limits_physical ps S sp : masses_ok ps -> 0 < S ->
  contains (x_bound ps S) (Fin (s_x sp)) = true -> contains (y_bound ps S (s_x sp)) (Fin (s_y sp)) = true ->
  contains (z_bound ps S (s_x sp) (s_y sp)) (Fin (s_z sp)) = true ->
  contains (ph_t_sq_bound ps S (s_x sp) (s_y sp) (s_z sp)) (Fin (s_ph_t_sq sp)) = true ->
  valid_kin (make_kin ps S sp) = true.
Proof.
  exact (fun HP HS X Y Z T => proj2 (valid_region ps S sp HP) (proj2 (region_nested ps S sp HP) (conj HS (conj X (conj Y (conj Z T)))))).
Qed.
Print Assumptions C25_nested_limits_physical.
Lemma ex_masses : masses_ok ex_ps.
Proof. unfold masses_ok, ex_ps. cbn [a_M a_m a_mh a_Mth]. lra. Qed.
Lemma ex_missing : 2 <= missing_sq ex_ps 20 ex_sp.
Proof.
  unfold missing_sq, qn_of, pl_of, Eh_of, q0_of, ex_ps, ex_sp, sq. cbn [a_M a_m a_mh a_Mth s_x s_y s_z s_ph_t_sq].
  set (A := sqrt _). set (B := sqrt _).
  assert (A1 : A * A = 30) by (unfold A; rewrite sqrt_sqrt; lra). assert (B1 : B * B = 23 / 4) by (unfold B; rewrite sqrt_sqrt; lra).
  assert (A0 : 5.45 <= A) by (unfold A; rewrite <- (sqrt_square 5.45) by lra; apply sqrt_le_1; lra).
  assert (B0 : 2.38 <= B) by (unfold B; rewrite <- (sqrt_square 2.38) by lra; apply sqrt_le_1; lra).
  assert (5.45 * 2.38 <= A * B) by (apply Rmult_le_compat; lra).
  replace ((A - B) * (A - B)) with (A * A - 2 * (A * B) + B * B) by ring. rewrite A1, B1. lra.
Qed.
Lemma ex_region : region ex_ps 20 ex_sp.
Proof.
  pose proof ex_missing as H. constructor; unfold Eh_of, q0_of, ex_ps, ex_sp, sq; cbn [a_M a_m a_mh a_Mth s_x s_y s_z s_ph_t_sq]; try lra.
  apply Rle_trans with 2; [lra|exact H].
Qed.
Example C24_example : valid_kin (make_kin ex_ps 20 ex_sp) = true /\ contains (x_bound ex_ps 20) (Fin (1 / 2)) = true.
Proof. assert (V : valid_kin (make_kin ex_ps 20 ex_sp) = true) by apply (C24_valid_is_physical _ _ _ ex_masses), ex_region. split; [exact V|]. exact (proj1 (C24_limits_sound _ _ _ ex_masses V)). Qed.
Example C25_example : contains (x_bound ex_ps 20) (Fin (1 / 2)) = true /\ contains (y_bound ex_ps 20 (1 / 2)) (Fin (1 / 2)) = true /\
  contains (z_bound ex_ps 20 (1 / 2) (1 / 2)) (Fin (1 / 2)) = true /\ contains (ph_t_sq_bound ex_ps 20 (1 / 2) (1 / 2) (1 / 2)) (Fin (1 / 4)) = true.
Proof. exact (C24_limits_sound ex_ps 20 ex_sp ex_masses (proj2 (C24_valid_is_physical _ _ _ ex_masses) ex_region)). Qed.

(** ** C26: generated points satisfy the cuts, whatever frame they are looked at in *)
Theorem C26_take_cut_sound cut ps S u k jac : masses_ok ps -> take_cut cut ps S u = Some (k, jac) ->
  k = make_kin ps S (sp_of k) /\ region ps S (sp_of k) /\
  forall e T, same_event e ps S (sp_of k) -> lorentz T ->
    obeys_cuts cut (kphi_h k) (kphi k) (tapp4 T (v_p e)) (tapp4 T (v_k1 e)) (tapp4 T (v_q e)) (tapp4 T (v_ph e)).
Proof. exact (take_cut_sound cut ps S u k jac). Qed.
Print Assumptions C26_take_cut_sound.
Theorem C26_take_rad_cut_sound cut cut_rad ps S u r jac : masses_ok ps -> 0 < a_Mth ps -> take9_cut cut cut_rad ps S u = Some (r, jac) ->
  let sp := sp_of (project r) in
  r = make_rad (make_kin ps S sp) (rtau r) (rphi_k r) (rR r) /\ region ps S sp /\
  0 <= rR r /\ sq (a_Mth ps) <= missing_rad_sq ps S sp (rtau r) (rphi_k r) (rR r) /\
  forall e f T, same_event e ps S sp -> same_photon f e (rtau r) (rphi_k r) (rR r) -> lorentz T -> let t := tapp4 T in
    obeys_cuts cut (rphi_h r) (rphi r) (t (v_p e)) (t (v_k1 e)) (t (v_q e)) (t (v_ph e)) /\
    obeys_cuts_rad cut_rad (rtau r) (rphi_k r) (t (v_p e)) (t (v_k1 e)) (t (v_q e)) (t (v_ph e)) (t (v_k e f)) (t (v_n f)).
Proof. exact (take9_cut_sound cut cut_rad ps S u r jac). Qed.
Print Assumptions C26_take_rad_cut_sound.
(** The test on the kinematics is exactly the test on the momenta. *)
Theorem C26_valid_cut_exact cut ps S sp : masses_ok ps -> admissible ps S sp -> exists e, same_event e ps S sp /\
  (valid_cut cut (make_kin ps S sp) = true <->
   region ps S sp /\ obeys_cuts cut (s_phi_h sp) (s_phi sp) (v_p e) (v_k1 e) (v_q e) (v_ph e)).
Proof. exact (valid_cut_iff_obeys cut ps S sp). Qed.
Print Assumptions C26_valid_cut_exact.
Theorem C26_valid_cut_rad_exact cut e f ps S sp tau phi_k R : masses_ok ps -> 0 < a_Mth ps -> same_event e ps S sp -> same_photon f e tau phi_k R ->
  valid_cut_rad cut (make_rad (make_kin ps S sp) tau phi_k R) = true <->
  (region ps S sp /\ - 1 <= n_ct ps S sp tau <= 1 /\ 0 <= R /\ sq (a_Mth ps) <= missing_rad_sq ps S sp tau phi_k R) /\
  obeys_cuts_rad cut tau phi_k (v_p e) (v_k1 e) (v_q e) (v_ph e) (v_k e f) (v_n f).
Proof. exact (fun HP Hth HE HF => iff_trans (valid_cut_rad_spec cut e f ps S sp tau phi_k R HP Hth HE HF) (and_iff_compat_r _ (valid_rad_spec ps S sp tau phi_k R HP Hth))). Qed.
Print Assumptions C26_valid_cut_rad_exact.
Definition none := BOUND_INVALID.
Definition Q_cut (b : bound) := Cuts none none none none none none b none none none none none none none none none none none.
Definition W_cut (b : bound) := Cuts none none none none none none none none b none none none none none none none none none.
Definition both_cut (q w : bound) := Cuts none none none none none none q none w none none none none none none none none none.
Lemma only_QW q w k : valid_kin k = true -> contains q (Fin (kQ_sq k)) = true -> (is_set w -> contains w (Fin (kW_sq k)) = true) -> valid_cut (both_cut q w) k = true.
Proof.
  intros V H1 H2. unfold valid_cut. cbv zeta. rewrite chain, !fails_chain. split; [exact V|]. cbn [both_cut c_x c_y c_z c_ph_t_sq c_phi_h c_phi c_Q_sq c_t c_W_sq c_r c_mx_sq c_qt_to_Q c_lab_mom_q c_lab_mom_k2 c_lab_mom_h c_lab_theta_q c_lab_theta_k2 c_lab_theta_h].
  unfold is_set, none, BOUND_INVALID, valid. cbn [bmin bmax eleb]. unfold is_set, valid in H2. repeat (split; [intros H; (discriminate || auto)|]). reflexivity.
Qed.
(** A sampled point with 1 <= Q^2 <= 10 and W^2 >= 4. *)
Definition ex_cut := both_cut (Bnd (Fin 1) (Fin 10)) (Bnd (Fin 4) PInf).
Lemma ex_cut_valid : valid_cut ex_cut (make_kin ex_ps 20 ex_sp) = true.
Proof.
  apply only_QW.
  - apply (C24_valid_is_physical _ _ _ ex_masses), ex_region.
  - change (kQ_sq (make_kin ex_ps 20 ex_sp)) with (20 * (1 / 2) * (1 / 2)). apply contains_points. unfold points. cbn [bmin bmax]. rewrite !le_FF. lra.
  - intros _. assert (E : kW_sq (make_kin ex_ps 20 ex_sp) = 6).
    { rewrite W_value. unfold ex_ps, ex_sp, sq. cbn [a_M s_x s_y]. lra. }
    rewrite E. apply contains_points. unfold points. cbn [bmin bmax]. rewrite !le_FF. split; [lra|constructor].
Qed.
Lemma ex_usable : usable ex_cut ex_ps 20.
Proof.
  repeat split.
  - intros _. exists 10. reflexivity.
  - intros _. exists 4. split; [reflexivity|]. unfold ex_ps, sq. cbn [a_M a_m]. lra.
  - intros H. discriminate.
  - intros H. discriminate.
Qed.
Lemma ex_angles : - PI <= s_phi_h ex_sp <= PI /\ - PI <= s_phi ex_sp <= PI.
Proof. unfold ex_sp. cbn [s_phi_h s_phi]. pose proof PI2_1. unfold PI2 in *. lra. Qed.
Example C26_example : exists u k jac, unit_cube 6 u /\ take_cut ex_cut ex_ps 20 u = Some (k, jac) /\ kQ_sq k = 5.
Proof.
  destruct (take_cut_onto ex_cut ex_ps 20 ex_sp ex_masses ex_usable ex_cut_valid) as (u & jac & U & E); try (intros _; apply ex_angles).
  exists u, (make_kin ex_ps 20 ex_sp), jac. split; [exact U|]. split; [exact E|].
  change (20 * (1 / 2) * (1 / 2) = 5). lra.
Qed.
Example C08_example : exists u k jac, unit_cube 6 u /\ take_kin ex_ps 20 u = Some (k, jac) /\ 0 <= jac /\ kx k = 1 / 2.
Proof.
  destruct (take_kin_onto ex_ps 20 ex_sp ex_masses ex_region) as (u & jac & U & E); try apply ex_angles.
  exists u, (make_kin ex_ps 20 ex_sp), jac. split; [exact U|]. split; [exact E|]. split; [|reflexivity].
  exact (C08_jacobian_nonneg _ _ _ _ _ _ _ _ (C08_take_jacobian ex_ps 20) U E).
Qed.

(** ** C27: a Q^2 cut with an infinite upper end removes everything *)
Theorem C27_unbounded_Q_sq_refuted cut ps S : is_set (c_Q_sq cut) -> bmax (c_Q_sq cut) = PInf -> forall u, take_cut cut ps S u = None.
Proof. exact (fun V E u => Q_inf_drops cut ps S u V E). Qed.
Print Assumptions C27_unbounded_Q_sq_refuted.
Example C27_lost_point : let cut := Q_cut (Bnd (Fin 1) PInf) in
  is_set (c_Q_sq cut) /\ bmax (c_Q_sq cut) = PInf /\ valid_cut cut (make_kin ex_ps 20 ex_sp) = true.
Proof.
  intros cut. split; [reflexivity|]. split; [reflexivity|]. apply only_QW.
  - apply (C24_valid_is_physical _ _ _ ex_masses), ex_region.
  - change (kQ_sq (make_kin ex_ps 20 ex_sp)) with (20 * (1 / 2) * (1 / 2)). apply contains_points. unfold points. cbn [bmin bmax]. rewrite le_FF. split; [lra|constructor].
  - intros H. discriminate.
Qed.
(** With a finite upper end nothing that passes is lost (any lower end, any other cuts as in [usable]). *)
Theorem C27_finite_Q_sq_partial cut ps S sp : masses_ok ps -> usable cut ps S -> valid_cut cut (make_kin ps S sp) = true ->
  (~ is_set (c_phi_h cut) -> - PI <= s_phi_h sp <= PI) -> (~ is_set (c_phi cut) -> - PI <= s_phi sp <= PI) ->
  exists u jac, unit_cube 6 u /\ take_cut cut ps S u = Some (make_kin ps S sp, jac).
Proof. exact (take_cut_onto cut ps S sp). Qed.
Print Assumptions C27_finite_Q_sq_partial.
Example C27_example : usable ex_cut ex_ps 20 /\ valid_cut ex_cut (make_kin ex_ps 20 ex_sp) = true.
Proof. exact (conj ex_usable ex_cut_valid). Qed.

(** ** C28: photon limits *)
Theorem C28_tau_bound_exact ps S sp tau : masses_ok ps -> region ps S sp ->
  contains (tau_bound (make_kin ps S sp)) (Fin tau) = true <->
  exists n, null_future n /\ tau = dot4 n (q_rest ps S sp) / dot4 n (p_rest ps).
Proof. exact (fun HP HR => tau_null ps S sp tau 0 (proj1 HP) (proj1 (region_q0 ps S sp HP HR)) (proj2 (region_q0 ps S sp HP HR))). Qed.
Print Assumptions C28_tau_bound_exact.
Theorem C28_R_bound_exact ps S sp tau phi_k : masses_ok ps -> 0 < a_Mth ps -> region ps S sp -> contains (tau_bound (make_kin ps S sp)) (Fin tau) = true ->
  exists Rmax, R_bound (make_kin ps S sp) tau phi_k = Bnd (Fin 0) (Fin Rmax) /\ 0 <= Rmax /\
    missing_rad_sq ps S sp tau phi_k Rmax = sq (a_Mth ps) /\
    (forall R, R <= Rmax <-> sq (a_Mth ps) <= missing_rad_sq ps S sp tau phi_k R).
Proof. exact (R_ends ps S sp tau phi_k). Qed.
Print Assumptions C28_R_bound_exact.
Theorem C28_shift_mx_is_missing_mass ps S sp tau phi_k R : masses_ok ps -> region ps S sp -> contains (tau_bound (make_kin ps S sp)) (Fin tau) = true ->
  rshift_mx_sq (make_rad (make_kin ps S sp) tau phi_k R) = missing_rad_sq ps S sp tau phi_k R.
Proof. exact (shift_mx ps S sp tau phi_k R). Qed.
Print Assumptions C28_shift_mx_is_missing_mass.
Theorem C28_valid_rad_exact ps S sp tau phi_k R : masses_ok ps -> 0 < a_Mth ps ->
  valid_rad (make_rad (make_kin ps S sp) tau phi_k R) = true <->
  region ps S sp /\ - 1 <= n_ct ps S sp tau <= 1 /\ 0 <= R /\ sq (a_Mth ps) <= missing_rad_sq ps S sp tau phi_k R.
Proof. exact (valid_rad_spec ps S sp tau phi_k R). Qed.
Print Assumptions C28_valid_rad_exact.
Lemma ex_tau_in : contains (tau_bound (make_kin ex_ps 20 ex_sp)) (Fin 1) = true.
Proof.
  apply (C28_tau_bound_exact _ _ _ _ ex_masses ex_region). destruct (region_q0 _ _ _ ex_masses ex_region) as [Hq HQ].
  pose proof (qn_pos ex_ps 20 ex_sp Hq HQ) as Hn. apply (tau_null ex_ps 20 ex_sp 1 0); auto; [apply ex_masses|]. apply tau_points; auto; [apply ex_masses|].
  unfold n_ct. rewrite le_div, div_le by auto. unfold qn_of, q0_of, ex_ps, ex_sp, sq. cbn [a_M s_x s_y]. set (A := sqrt _).
  assert (5 <= A) by (unfold A; rewrite <- (sqrt_square 5) by lra; apply sqrt_le_1; lra). lra.
Qed.
Example C28_example : masses_ok ex_ps /\ region ex_ps 20 ex_sp /\ contains (tau_bound (make_kin ex_ps 20 ex_sp)) (Fin 1) = true.
Proof. exact (conj ex_masses (conj ex_region ex_tau_in)). Qed.

(** ** C68: a lower W^2 cut keeps the points that satisfy it *)
Theorem C68_W_sq_cut_keeps_partial cut ps S sp w : masses_ok ps -> region ps S sp -> is_set (c_W_sq cut) -> bmin (c_W_sq cut) = Fin w ->
  sq (a_M ps) <= w -> (is_set (c_Q_sq cut) -> exists hi, bmax (c_Q_sq cut) = Fin hi) ->
  (is_set (c_phi_h cut) -> exists lo hi, ends (c_phi_h cut) lo hi) -> (is_set (c_phi cut) -> exists lo hi, ends (c_phi cut) lo hi) ->
  valid_cut cut (make_kin ps S sp) = true ->
  (~ is_set (c_phi_h cut) -> - PI <= s_phi_h sp <= PI) -> (~ is_set (c_phi cut) -> - PI <= s_phi sp <= PI) ->
  exists u jac, unit_cube 6 u /\ take_cut cut ps S u = Some (make_kin ps S sp, jac).
Proof. exact (W_keeps cut ps S sp w). Qed.
Print Assumptions C68_W_sq_cut_keeps_partial.
Theorem C68_low_W_sq_refuted cut ps S w : is_set (c_W_sq cut) -> bmin (c_W_sq cut) = Fin w -> 0 <= a_M ps -> 0 < S ->
  0 < sq S - 4 * sq (a_M ps) * sq (a_m ps) -> sq S - 4 * sq (a_M ps) * sq (a_m ps) + sq (a_M ps) * (w - sq (a_M ps)) < 0 -> w < sq (a_M ps) ->
  forall u, take_cut cut ps S u = None.
Proof. exact (fun V E HM HS HL HA Hw u => W_low_drops cut ps S w u V E HS HL Hw HA HM). Qed.
Print Assumptions C68_low_W_sq_refuted.
Theorem C68_no_lower_W_sq_refuted cut ps S : is_set (c_W_sq cut) -> bmin (c_W_sq cut) = NInf -> 0 < a_m ps -> 0 < S ->
  0 < sq S - 4 * sq (a_M ps) * sq (a_m ps) -> forall u, take_cut cut ps S u = None.
Proof. exact (fun V E Hm HS HL u => W_ninf_drops cut ps S u V E HS HL Hm). Qed.
Print Assumptions C68_no_lower_W_sq_refuted.
(** A physical point of low energy, W^2 > 1, lost by the harmless cut W^2 >= 0. *)
Definition low_ps := Parts P_ E_ PI_P 1 (1 / 100) (5 / 100) 1.
Definition low_sp := PhaseSpace (5 / 100) (70 / 100) (95 / 100) 0 1 2.
Lemma low_region : masses_ok low_ps /\ region low_ps (2 / 10) low_sp.
Proof.
  split; [unfold masses_ok, low_ps; cbn [a_M a_m a_mh a_Mth]; lra|].
  constructor; unfold missing_sq, qn_of, pl_of, Eh_of, q0_of, low_ps, low_sp, sq; cbn [a_M a_m a_mh a_Mth s_x s_y s_z s_ph_t_sq]; try lra.
  set (A := sqrt _). set (B := sqrt _).
  assert (A1 : A * A = 0.0119) by (unfold A; rewrite sqrt_sqrt; lra). assert (B1 : B * B = 0.00192225) by (unfold B; rewrite sqrt_sqrt; lra).
  assert (A0 : 0.109 <= A) by (unfold A; rewrite <- (sqrt_square 0.109) by lra; apply sqrt_le_1; lra).
  assert (B0 : 0.0438 <= B) by (unfold B; rewrite <- (sqrt_square 0.0438) by lra; apply sqrt_le_1; lra).
  assert (0.109 * 0.0438 <= A * B) by (apply Rmult_le_compat; lra).
  replace ((A - B) * (A - B)) with (A * A - 2 * (A * B) + B * B) by ring. rewrite A1, B1. lra.
Qed.
Lemma low_valid lo : ext_le lo (Fin 0) -> valid_cut (W_cut (Bnd lo PInf)) (make_kin low_ps (2 / 10) low_sp) = true.
Proof.
  intros L. unfold valid_cut. cbv zeta. rewrite chain, !fails_chain. split; [apply C24_valid_is_physical; apply low_region|].
  cbn [W_cut c_x c_y c_z c_ph_t_sq c_phi_h c_phi c_Q_sq c_t c_W_sq c_r c_mx_sq c_qt_to_Q c_lab_mom_q c_lab_mom_k2 c_lab_mom_h c_lab_theta_q c_lab_theta_k2 c_lab_theta_h].
  assert (E : kW_sq (make_kin low_ps (2 / 10) low_sp) = 1133 / 1000).
  { rewrite W_value. unfold low_ps, low_sp, sq. cbn [a_M s_x s_y]. lra. }
  rewrite E. unfold is_set at 1 2 3 4 5 6 7 8. unfold none, BOUND_INVALID. unfold valid. cbn [bmin bmax eleb].
  repeat (split; [intros H; discriminate|]). split.
  - intros _. apply contains_points. unfold points. cbn [bmin bmax]. split; [|constructor]. inversion L; constructor; lra.
  - repeat (split; [intros H; discriminate|]). reflexivity.
Qed.
Example C68_lost_point : let cut := W_cut (Bnd (Fin 0) PInf) in
  valid_cut cut (make_kin low_ps (2 / 10) low_sp) = true /\ forall u, take_cut cut low_ps (2 / 10) u = None.
Proof.
  intros cut. split; [apply low_valid; constructor; lra|].
  apply (C68_low_W_sq_refuted cut low_ps (2 / 10) 0); try reflexivity; unfold low_ps, sq; cbn [a_M a_m]; lra.
Qed.
Example C68_lost_point_unbounded : let cut := W_cut (Bnd NInf PInf) in
  valid_cut cut (make_kin low_ps (2 / 10) low_sp) = true /\ forall u, take_cut cut low_ps (2 / 10) u = None.
Proof.
  intros cut. split; [apply low_valid; constructor|].
  apply (C68_no_lower_W_sq_refuted cut low_ps (2 / 10)); try reflexivity; unfold low_ps, sq; cbn [a_M a_m]; lra.
Qed.
Example C68_example : is_set (c_W_sq ex_cut) /\ bmin (c_W_sq ex_cut) = Fin 4 /\ sq (a_M ex_ps) <= 4 /\ valid_cut ex_cut (make_kin ex_ps 20 ex_sp) = true.
Proof. split; [reflexivity|]. split; [reflexivity|]. split; [unfold ex_ps, sq; cbn [a_M]; lra|exact ex_cut_valid]. Qed.

(** ** C69: the samplers produce physical points only, and all of them *)
Theorem C69_take_physical ps S u k jac : masses_ok ps -> 0 < S -> unit_cube 6 u -> take_kin ps S u = Some (k, jac) ->
  k = make_kin ps S (sp_of k) /\ region ps S (sp_of k) /\ - PI <= kphi_h k <= PI /\ - PI <= kphi k <= PI /\ 0 <= jac.
Proof. exact (fun HP HS U E => conj (take_kin_make ps S u k jac E) (take_kin_physical ps S u k jac HP HS U E)). Qed.
Print Assumptions C69_take_physical.
Theorem C69_take_onto ps S sp : masses_ok ps -> region ps S sp -> - PI <= s_phi_h sp <= PI -> - PI <= s_phi sp <= PI ->
  exists u jac, unit_cube 6 u /\ take_kin ps S u = Some (make_kin ps S sp, jac).
Proof. exact (take_kin_onto ps S sp). Qed.
Print Assumptions C69_take_onto.
Theorem C69_take_rad_physical ps S u r jac : masses_ok ps -> 0 < a_Mth ps -> 0 < S -> unit_cube 9 u -> take9_kin ps S u = Some (r, jac) ->
  let sp := sp_of (project r) in
  r = make_rad (make_kin ps S sp) (rtau r) (rphi_k r) (rR r) /\ region ps S sp /\
  (exists n, null_future n /\ rtau r = dot4 n (q_rest ps S sp) / dot4 n (p_rest ps)) /\ - PI <= rphi_k r <= PI /\
  0 <= rR r /\ sq (a_Mth ps) <= missing_rad_sq ps S sp (rtau r) (rphi_k r) (rR r) /\ 0 <= jac.
Proof. exact (take9_physical ps S u r jac). Qed.
Print Assumptions C69_take_rad_physical.
Theorem C69_take_rad_onto ps S sp tau phi_k R : masses_ok ps -> 0 < a_Mth ps -> region ps S sp -> - PI <= s_phi_h sp <= PI -> - PI <= s_phi sp <= PI ->
  sq (a_m ps) * (sq (S * s_y sp) + 4 * sq (a_M ps) * (S * s_x sp * s_y sp)) < S * s_x sp * s_y sp * (S * (S * (1 - s_y sp)) - sq (a_M ps) * (S * s_x sp * s_y sp)) ->
  sq (a_Mth ps) < missing_sq ps S sp ->
  contains (tau_bound (make_kin ps S sp)) (Fin tau) = true -> - PI <= phi_k <= PI -> 0 <= R -> sq (a_Mth ps) <= missing_rad_sq ps S sp tau phi_k R ->
  exists u jac, unit_cube 9 u /\ take9_kin ps S u = Some (make_rad (make_kin ps S sp) tau phi_k R, jac).
Proof. exact (take9_onto ps S sp tau phi_k R). Qed.
Print Assumptions C69_take_rad_onto.
(** With cuts on the momenta and on the photon: every point that passes them. *)
Theorem C69_take_rad_cut_onto cut cut_rad ps S sp tau phi_k R : masses_ok ps -> 0 < a_Mth ps -> usable cut ps S ->
  (is_set (d_phi_k cut_rad) -> exists lo hi, ends (d_phi_k cut_rad) lo hi) ->
  valid_cut_both cut cut_rad (make_rad (make_kin ps S sp) tau phi_k R) = true ->
  (~ is_set (c_phi_h cut) -> - PI <= s_phi_h sp <= PI) -> (~ is_set (c_phi cut) -> - PI <= s_phi sp <= PI) -> (~ is_set (d_phi_k cut_rad) -> - PI <= phi_k <= PI) ->
  sq (a_m ps) * (sq (S * s_y sp) + 4 * sq (a_M ps) * (S * s_x sp * s_y sp)) < S * s_x sp * s_y sp * (S * (S * (1 - s_y sp)) - sq (a_M ps) * (S * s_x sp * s_y sp)) ->
  sq (a_Mth ps) < missing_sq ps S sp ->
  exists u jac, unit_cube 9 u /\ take9_cut cut cut_rad ps S u = Some (make_rad (make_kin ps S sp) tau phi_k R, jac).
Proof. exact (take9_cut_onto cut cut_rad ps S sp tau phi_k R). Qed.
Print Assumptions C69_take_rad_cut_onto.
Example C69_example : exists u r jac, unit_cube 9 u /\ take9_kin ex_ps 20 u = Some (r, jac) /\ rtau r = 1 /\ rphi_k r = 2 /\ rR r = 0.
Proof.
  pose proof PI2_1 as HPI. unfold PI2 in HPI.
  destruct (C28_R_bound_exact ex_ps 20 ex_sp 1 2 ex_masses ltac:(unfold ex_ps; cbn; lra) ex_region ex_tau_in) as (Rm & _ & H0 & _ & HI).
  destruct (C69_take_rad_onto ex_ps 20 ex_sp 1 2 0) as (u & jac & U & E);
    [exact ex_masses|unfold ex_ps; cbn [a_Mth]; lra|exact ex_region|apply ex_angles|apply ex_angles
    |unfold ex_ps, ex_sp, sq; cbn [a_M a_m s_x s_y]; lra|pose proof ex_missing; unfold ex_ps at 1, sq; cbn [a_Mth]; lra
    |exact ex_tau_in|lra|lra|apply HI; auto|].
  exists u, (make_rad (make_kin ex_ps 20 ex_sp) 1 2 0), jac. split; [exact U|]. split; [exact E|]. repeat split; reflexivity.
Qed.
