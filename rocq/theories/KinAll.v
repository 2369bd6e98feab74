(** Angles, admissible points and their events, the limit R = 0, final-state momenta. *)
From Coq Require Import Reals Lra Psatz Bool ZArith.
From Verif Require Import ExtModel BoundProofs MathModel MathProofs ParticleModel VecModel TransModel VecTac VecProofs TransProofs
  FrameBase KinModel KinEqs KinSpec KinProofs KinRadProofs KinEvent KinFinal FrameModel FrameProofs FrameRot.
Local Open Scope R_scope.

(** * Angles *)
Ltac rone := match goal with
  | |- context [if rltb ?a ?b then _ else _] => let E := fresh "E" in destruct (rltb a b) eqn:E; [apply rltb_spec in E|apply rltb_false in E]
  | |- context [if rleb ?a ?b then _ else _] => let E := fresh "E" in destruct (rleb a b) eqn:E; [apply rleb_spec in E|apply rleb_false in E]
  end.
Lemma atan2_angle a : - PI < a -> a <= PI -> atan2 (sin a) (cos a) = a.
Proof.
  intros H1 H2. pose proof PI_RGT_0 as HP. unfold atan2.
  assert (AT : forall b, - (PI / 2) < b -> b < PI / 2 -> atan (sin b / cos b) = b).
  { intros b h1 h2. change (sin b / cos b) with (tan b). apply atan_tan; lra. }
  destruct (Rlt_le_dec (PI / 2) a) as [h|h].
  - assert (C : cos a < 0) by (apply cos_lt_0; lra). assert (S : 0 <= sin a) by (apply sin_ge_0; lra).
    rone; [lra|]. rone; [|lra]. rone; [|lra].
    replace (sin a / cos a) with (sin (a - PI) / cos (a - PI)); [rewrite AT; lra|].
    rewrite sin_minus, cos_minus, sin_PI, cos_PI. field. lra.
  - destruct (Req_dec a (PI / 2)) as [->|n].
    + rewrite sin_PI2, cos_PI2. rone; [lra|]. rone; [lra|]. rone; lra.
    + destruct (Rlt_le_dec (- (PI / 2)) a) as [h'|h'].
      * assert (0 < cos a) by (apply cos_gt_0; lra). rone; [|lra]. apply AT; lra.
      * destruct (Req_dec a (- (PI / 2))) as [->|n'].
        -- rewrite sin_neg, cos_neg, sin_PI2, cos_PI2. repeat rone; lra.
        -- assert (C : cos a < 0). { rewrite <- (cos_neg a). apply cos_lt_0; lra. }
           assert (S : sin a < 0). { replace (sin a) with (- sin (- a)) by (rewrite sin_neg; ring). assert (0 < sin (- a)) by (apply sin_gt_0; lra). lra. }
           rone; [lra|]. rone; [|lra]. rone; [lra|].
           replace (sin a / cos a) with (sin (a + PI) / cos (a + PI)); [rewrite AT; lra|].
           rewrite sin_plus, cos_plus, sin_PI, cos_PI. field. lra.
Qed.
Lemma atan2_unit s c : s * s + c * c = 1 -> cos (atan2 s c) = c /\ sin (atan2 s c) = s /\ - PI < atan2 s c <= PI.
Proof.
  intros H. pose proof PI_RGT_0 as HP. assert (-1 <= c <= 1) as Hc by (split; nra).
  pose proof (acos_bound c) as AB. pose proof (cos_acos c Hc) as CA. pose proof (sin_acos c Hc) as SA.
  assert (R : sqrt (1 - c²) = Rabs s) by (replace (1 - c²) with (s²) by (unfold Rsqr; lra); apply sqrt_Rsqr_abs).
  rewrite R in SA.
  assert (exists a, - PI < a <= PI /\ cos a = c /\ sin a = s) as (a & Ha & <- & <-).
  { destruct (Rle_lt_dec 0 s).
    - exists (acos c). rewrite Rabs_right in SA by lra. repeat split; auto; lra.
    - exists (- acos c). rewrite Rabs_left in SA by lra. rewrite cos_neg, sin_neg. repeat split; try lra.
      destruct (Req_dec (acos c) PI) as [e|e]; [|lra]. exfalso. rewrite e, sin_PI in SA. lra. }
  rewrite atan2_angle by lra. auto.
Qed.
Lemma cos_period_Z x n : cos (x + 2 * PI * IZR n) = cos x /\ sin (x + 2 * PI * IZR n) = sin x.
Proof.
  assert (P : forall y k, cos (y + 2 * INR k * PI) = cos y /\ sin (y + 2 * INR k * PI) = sin y) by (intros; split; [apply cos_period|apply sin_period]).
  destruct (Z_le_gt_dec 0 n).
  - replace (2 * PI * IZR n) with (2 * INR (Z.to_nat n) * PI); [apply P|]. rewrite INR_IZR_INZ, Z2Nat.id by lia. ring.
  - destruct (P (x + 2 * PI * IZR n) (Z.to_nat (- n))) as [P1 P2]. rewrite <- P1, <- P2.
    replace (x + 2 * PI * IZR n + 2 * INR (Z.to_nat (- n)) * PI) with x; [auto|]. rewrite INR_IZR_INZ, Z2Nat.id, opp_IZR by lia. ring.
Qed.
Lemma fmod_spec x y : 0 < y -> exists n, x = fmod x y + y * IZR n /\ - y < fmod x y < y.
Proof.
  intros H. exists (rtrunc (x / y)). split; [unfold fmod; ring|]. unfold fmod, rtrunc.
  assert (X : x = y * (x / y)) by (field; lra).
  destruct (rleb 0 (x / y)) eqn:E.
  - apply rleb_spec in E. pose proof (base_Int_part (x / y)) as [B1 B2]. set (t := x / y) in *. rewrite X. split.
    + assert (0 <= y * (t - IZR (Int_part t))) by (apply Rmult_le_pos; lra). lra.
    + assert (0 < y * (1 - (t - IZR (Int_part t)))) by (apply Rmult_lt_0_compat; lra). lra.
  - apply rleb_false in E. pose proof (base_Int_part (- (x / y))) as [B1 B2]. set (t := x / y) in *. rewrite opp_IZR, X. split.
    + assert (0 < y * (1 - (- t - IZR (Int_part (- t))))) by (apply Rmult_lt_0_compat; lra). lra.
    + assert (0 <= y * (- t - IZR (Int_part (- t)))) by (apply Rmult_le_pos; lra). lra.
Qed.
Lemma wrap_angle_spec x : cos (wrap_angle x) = cos x /\ sin (wrap_angle x) = sin x /\ - PI <= wrap_angle x <= PI.
Proof.
  pose proof PI_RGT_0 as HP. destruct (fmod_spec x (2 * PI)) as (n & E & B); [lra|]. unfold wrap_angle. cbv zeta. set (r := fmod x (2 * PI)) in *.
  assert (C : forall k, cos (r + 2 * PI * IZR k) = cos x /\ sin (r + 2 * PI * IZR k) = sin x).
  { intros k. destruct (cos_period_Z r k) as [-> ->]. rewrite E. destruct (cos_period_Z r n) as [-> ->]. auto. }
  rone; [|rone].
  - destruct (C (-1)%Z) as [<- <-]. replace (r - 2 * PI) with (r + 2 * PI * -1) by ring. split; [auto|split; [auto|lra]].
  - destruct (C 1%Z) as [<- <-]. replace (r + 2 * PI) with (r + 2 * PI * 1) by ring. split; [auto|split; [auto|lra]].
  - destruct (C 0%Z) as [<- <-]. replace (r + 2 * PI * 0) with r by ring. split; [auto|split; [auto|lra]].
Qed.
Lemma wrap_angle_small phi : - PI <= phi <= PI -> - PI < wrap_angle (PI - phi).
Proof.
  intros H. pose proof PI_RGT_0 as HP. destruct (wrap_angle_spec (PI - phi)) as (C & S & B).
  destruct (Req_dec (wrap_angle (PI - phi)) (- PI)) as [e|e]; [|lra]. exfalso.
  rewrite e, cos_neg, cos_PI, cos_minus, cos_PI, sin_PI in C.
  assert (phi = 0). { assert (cos phi = 1) by lra.
    destruct (Rtotal_order phi 0) as [h|[h|h]]; auto; exfalso.
    - assert (cos phi < cos 0); [|rewrite cos_0 in *; lra]. rewrite <- (cos_neg phi). apply cos_decreasing_1; lra.
    - assert (cos phi < cos 0); [|rewrite cos_0 in *; lra]. apply cos_decreasing_1; lra. }
  subst phi. revert e. unfold wrap_angle, fmod, rtrunc. cbv zeta. rewrite Rminus_0_r.
  assert (Q : PI / (2 * PI) = / 2) by (field; lra). rewrite Q. replace (rleb 0 (/ 2)) with true by (symmetry; apply rleb_spec; lra).
  assert (I : Int_part (/ 2) = 0%Z). { unfold Int_part. rewrite <- (tech_up (/ 2) 1); [reflexivity|lra|lra]. }
  rewrite I, Rmult_0_r, Rminus_0_r. rone; [lra|]. rone; lra.
Qed.

(** * Events behind admissible points *)
Lemma same_event_parts e ps S sp : same_event e ps S sp -> ps = event_parts e (a_target ps) (a_beam ps) (a_hadron ps) (a_Mth ps).
Proof. intros (_ & _ & _ & H1 & H2 & H3). destruct ps as [tg bm hd M1 m1 mh1 th1]. unfold event_parts. cbn [a_target a_beam a_hadron a_M a_m a_mh a_Mth] in *. congruence. Qed.
Lemma same_kin_at e ps S sp : same_event e ps S sp ->
  kin_at (e_M e) (e_m e) (e_mh e) (a_Mth ps) (e_E e) (e_kx e) (e_kz e) (e_q0 e) (e_qz e) (e_Eh e) (e_pt e) (e_pl e) (e_phi_h e) (e_phi e) (make_kin ps S sp).
Proof.
  intros H. rewrite (same_event_parts _ _ _ _ H). destruct H as (H & <- & <- & _). cbn [event_parts a_Mth a_target a_beam a_hadron]. apply event_kin_at; auto.
Qed.
Lemma same_names e ps S sp T : same_event e ps S sp -> lorentz T -> let k := make_kin ps S sp in let t := tapp4 T in
  transfer_names (kin_vals k) (t (v_p e)) (t (v_k1 e)) (t (v_q e)) (t (v_ph e)) /\
  lepton_names k (t (v_p e)) (t (v_k1 e)) (t (v_q e)) (t (v_ph e)).
Proof.
  intros H [T1 T2] k t. unfold k. rewrite (same_event_parts _ _ _ _ H). destruct H as (H & <- & <- & _).
  destruct (event_names e (a_target ps) (a_beam ps) (a_hadron ps) (a_Mth ps) H) as [N1 N2].
  split; [apply T_transfer_names|apply T_lepton_names]; auto.
Qed.
Lemma admissible_event ps S sp : admissible ps S sp -> exists e, same_event e ps S sp.
Proof. intros H. exists (event_of ps S sp). apply event_of_ok; auto. Qed.

(** Photons of a given tau. *)
Lemma photon_exists e tau phi_k R : physical e -> 0 <= R ->
  (e_q0 e - e_qz e) / e_M e <= tau <= (e_q0 e + e_qz e) / e_M e ->
  exists f, photon_ok f /\ photon_tau e f = tau /\ f_phi f = phi_k /\ f_R f = R.
Proof.
  intros H HR [L1 L2]. pose proof (ph_M e H) as HM. pose proof (ph_qz e H) as Hq.
  set (ct := (e_q0 e - e_M e * tau) / e_qz e).
  assert (M1 : e_q0 e - e_qz e <= e_M e * tau).
  { apply Rmult_le_compat_l with (r := e_M e) in L1; [|lra]. replace (e_M e * ((e_q0 e - e_qz e) / e_M e)) with (e_q0 e - e_qz e) in L1 by (field; lra). lra. }
  assert (M2 : e_M e * tau <= e_q0 e + e_qz e).
  { apply Rmult_le_compat_l with (r := e_M e) in L2; [|lra]. replace (e_M e * ((e_q0 e + e_qz e) / e_M e)) with (e_q0 e + e_qz e) in L2 by (field; lra). lra. }
  assert (C : -1 <= ct <= 1).
  { unfold ct. split; apply Rmult_le_reg_r with (e_qz e); auto; unfold Rdiv; rewrite Rmult_assoc, Rinv_l by lra; lra. }
  exists (Photon R ct (sqrt (1 - ct * ct)) phi_k). cbn [f_R f_ct f_st f_phi photon_ok].
  assert (CC : 0 <= 1 - ct * ct) by nra.
  split; [|split; [|auto]].
  - unfold photon_ok. cbn [f_R f_ct f_st f_phi]. unfold sq. rewrite (sqrt_sqrt _ CC). split; [auto|]. split; [apply sqrt_pos|lra].
  - unfold photon_tau, v_n, v_q, v_p. cbn [f_ct f_st f_phi]. uvec. unfold ct. field. lra.
Qed.
Lemma same_Sx e ps S sp : same_event e ps S sp -> S * s_y sp = 2 * a_M ps * e_q0 e /\ S * s_x sp * s_y sp = sq (e_qz e) - sq (e_q0 e).
Proof.
  intros (H & <- & <- & <- & _). destruct H. unfold event_S, event_space, v_p, v_k1, v_q in *. cbn [s_x s_y]. unfold sq in *. uvec. split; field; repeat split; lra.
Qed.
Lemma admissible_photon e ps S sp tau phi_k R : same_event e ps S sp -> tau_ok ps S sp tau -> 0 <= R ->
  exists f, same_photon f e tau phi_k R.
Proof.
  intros H T HR. destruct (same_Sx _ _ _ _ H) as [Ex Ey]. unfold tau_ok in T. rewrite Ex, Ey in T. destruct H as (H & _ & _ & EM & _). rewrite <- EM in T.
  pose proof (ph_M e H). pose proof (ph_qz e H). apply photon_exists; auto.
  replace (sq (2 * e_M e * e_q0 e) + 4 * sq (e_M e) * (sq (e_qz e) - sq (e_q0 e))) with ((2 * e_M e * e_qz e) * (2 * e_M e * e_qz e)) in T by (unfold sq; ring).
  rewrite sqrt_square in T by nra. unfold sq in T.
  replace ((2 * e_M e * e_q0 e - 2 * e_M e * e_qz e) / (2 * (e_M e * e_M e))) with ((e_q0 e - e_qz e) / e_M e) in T by (field; lra).
  replace ((2 * e_M e * e_q0 e + 2 * e_M e * e_qz e) / (2 * (e_M e * e_M e))) with ((e_q0 e + e_qz e) / e_M e) in T by (field; lra). auto.
Qed.
Lemma same_photon_names e f ps S sp tau phi_k R T : same_event e ps S sp -> same_photon f e tau phi_k R -> lorentz T ->
  let r := make_rad (make_kin ps S sp) tau phi_k R in let t := tapp4 T in
  photon_names r (t (v_p e)) (t (v_k1 e)) (t (v_q e)) (t (v_ph e)) (t (v_k e f)) (t (v_n f)).
Proof.
  intros H (Hf & <- & <- & <-) [T1 T2] r t. unfold r. rewrite (same_event_parts _ _ _ _ H). destruct H as (H & <- & <- & _).
  apply T_photon_names; auto. apply event_photon_names; auto.
Qed.
Lemma same_shift_names e f ps S sp tau phi_k R T : same_event e ps S sp -> same_photon f e tau phi_k R -> R < S * s_y sp -> lorentz T ->
  let r := make_rad (make_kin ps S sp) tau phi_k R in let t := tapp4 T in
  transfer_names (shift_vals r) (t (v_p e)) (t (v_k1 e)) (t (sub4 (v_q e) (v_k e f))) (t (v_ph e)).
Proof.
  intros H (Hf & <- & <- & <-) HR [T1 T2] r t. destruct (same_Sx _ _ _ _ H) as [Ex _].
  unfold r. rewrite (same_event_parts _ _ _ _ H). destruct H as (H & <- & <- & EM & _).
  apply T_transfer_names; auto. apply event_shift_names; auto. unfold v_p, v_q. uvec. rewrite Ex, <- EM in HR. lra.
Qed.
Lemma same_rad_at e f ps S sp tau phi_k R : same_event e ps S sp -> same_photon f e tau phi_k R ->
  rad_at (e_M e) (e_mh e) (e_E e) (e_kx e) (e_kz e) (e_q0 e) (e_qz e) (e_Eh e) (e_pt e) (e_pl e) (e_phi_h e) (e_phi e)
    (f_R f / (2 * e_M e)) (f_ct f) (f_st f) (f_phi f) (make_rad (make_kin ps S sp) tau phi_k R).
Proof.
  intros H (Hf & <- & <- & <-). rewrite (same_event_parts _ _ _ _ H). destruct H as (H & <- & <- & _). apply event_rad_at; auto.
Qed.
