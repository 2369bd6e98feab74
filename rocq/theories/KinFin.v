(** Momenta and frames of an admissible point. *)
From Coq Require Import Reals Lra Psatz Bool.
From Verif Require Import ExtModel BoundProofs MathModel MathProofs ParticleModel VecModel TransModel VecTac VecProofs TransProofs
  FrameBase KinModel KinEqs KinSpec KinProofs KinRadProofs KinEvent KinFinal FrameModel FrameSpec FrameProofs FrameRot KinAll.
Local Open Scope R_scope.

(** * The limit R = 0 *)
Lemma transfer_names_unique v w p k1 q ph : transfer_names v p k1 q ph -> transfer_names w p k1 q ph ->
  0 < across p ph q -> 0 < across p k1 q -> 0 < sqrt (sdot p q q) -> 0 < sqrt (norm_sq4 p) -> v = w.
Proof.
  intros V W H1 H2 H3 H4. destruct V, W. destruct v as [a0 a1 a2 a3 a4 a5 a6 a7 a8 a9 a10 a11 a12 a13 a14 a15 a16 a17 a18 a19 a20 a21 a22 a23 a24 a25 a26 a27 a28 a29 a30], w as [b0 b1 b2 b3 b4 b5 b6 b7 b8 b9 b10 b11 b12 b13 b14 b15 b16 b17 b18 b19 b20 b21 b22 b23 b24 b25 b26 b27 b28 b29 b30].
  cbn [iQ_sq iQ ix iy iz it iW_sq iS_x iV_m iph_0 ilambda_Y ilambda_1 ilambda_2 ilambda_3 ilambda_Y_sqrt ilambda_1_sqrt ilambda_2_sqrt ilambda_3_sqrt
    imx_sq imx iph_t_sq iph_t iph_l iq_0 iq_t iq_l ik1_t ivol_phi_h iC_1 icos_phi_h isin_phi_h] in *.
  assert (C : a29 = b29).
  { apply Rmult_eq_reg_r with (across p ph q * across p k1 q); [rewrite n_cos_phi_h, n_cos_phi_h0 by assumption; reflexivity|].
    apply Rmult_integral_contrapositive_currified; lra. }
  assert (D : a30 = b30).
  { apply Rmult_eq_reg_r with (across p ph q * across p k1 q * sqrt (sdot p q q) * sqrt (norm_sq4 p)); [rewrite n_sin_phi_h, n_sin_phi_h0 by assumption; reflexivity|].
    repeat apply Rmult_integral_contrapositive_currified; lra. }
  clear n_cos_phi_h n_cos_phi_h0 n_sin_phi_h n_sin_phi_h0. subst. reflexivity.
Qed.
Lemma lorentz_id : lorentz TRANSFORM4_ID.
Proof. split; [intros; rewrite !id4_app; auto|]. uvec. ring. Qed.
Lemma same_pt e ps S sp : same_event e ps S sp -> sq (e_pt e) = s_ph_t_sq sp.
Proof. intros (_ & <- & _). reflexivity. Qed.
Lemma zero_R e f ps S sp tau phi_k : same_event e ps S sp -> same_photon f e tau phi_k 0 -> 0 < s_ph_t_sq sp ->
  let k := make_kin ps S sp in let r := make_rad k tau phi_k 0 in
  shift_vals r = kin_vals k /\ rshift_sin_phi_q r = ksin_phi_q k /\ rshift_cos_phi_q r = kcos_phi_q k.
Proof.
  intros H Hf Hpt k r.
  pose proof (same_kin_at _ _ _ _ H) as A. pose proof (same_rad_at _ _ _ _ _ _ _ _ H Hf) as B. fold k r in A, B.
  pose proof (proj1 (same_names _ _ _ _ _ H lorentz_id)) as N1. destruct (same_Sx _ _ _ _ H) as [Ex Eq].
  assert (Hph : physical e) by apply H. pose proof (physical_ok e Hph) as OK. assert (HM : 0 < e_M e) by apply OK. assert (Hqz : 0 < e_qz e) by apply OK.
  assert (Hq0 : 0 < e_q0 e) by apply OK. assert (Hux : 0 < e_kx e) by apply OK. 
  assert (EM : e_M e = a_M ps) by apply H.
  pose proof (same_shift_names _ _ _ _ _ _ _ _ TRANSFORM4_ID H Hf) as N2. rewrite Ex in N2.
  specialize (N2 ltac:(rewrite <- EM; nra) lorentz_id). cbv zeta in N1, N2. fold k in N1, N2. fold r in N2. rewrite !id4_app in N1, N2.
  assert (R0 : f_R f = 0) by apply Hf.
  replace (sub4 (v_q e) (v_k e f)) with (v_q e) in N2.
  2: { unfold v_k. rewrite R0. generalize (v_n f). intros v. destruct (v_q e). dv4 v. uvec. comps; field; lra. }
  split; [|].
  - pose proof (same_pt _ _ _ _ H) as Ept. unfold sq in Ept. assert (Hp0 : 0 <= e_pt e) by apply OK.
    assert (Hp : 0 < e_pt e) by nra.
    apply transfer_names_unique with (p := v_p e) (k1 := v_k1 e) (q := v_q e) (ph := v_ph e); auto.
    + unfold v_p, v_ph, v_q. rewrite (ac_phq _ _ _ _ _ _ _ _ _ _ _ (e_phi_h e) OK). auto.
    + unfold v_p, v_k1, v_q. rewrite (ac_k1q _ _ _ _ _ _ _ _ _ _ _ OK). auto.
    + unfold v_p, v_q. rewrite rest_sdot by auto. cbn [x4 y4 z4]. apply sqrt_lt_R0. nra.
    + unfold v_p. rewrite rest_pp. apply sqrt_lt_R0. nra.
  - rewrite R0 in B. replace (0 / (2 * e_M e)) with 0 in B by (field; lra).
    assert (X1 : SX1 (e_kx e) (e_kz e) (e_qz e) 0 (f_ct f) (f_st f) (f_phi f) = (e_qz e * e_kx e) * (e_qz e * e_kx e)).
    { unfold SX1, SL, SK. ring. }
    assert (X1p : 0 < SX1 (e_kx e) (e_kz e) (e_qz e) 0 (f_ct f) (f_st f) (f_phi f)) by (rewrite X1; repeat apply Rmult_lt_0_compat; auto).
    assert (X1s : sqrt (SX1 (e_kx e) (e_kz e) (e_qz e) 0 (f_ct f) (f_st f) (f_phi f)) = e_qz e * e_kx e) by (rewrite X1; apply sqrt_square; left; apply Rmult_lt_0_compat; auto).
    rewrite (rat_shift_sin_phi_q _ _ _ _ _ _ _ _ _ _ _ _ _ _ _ _ _ B X1p), (rat_shift_cos_phi_q _ _ _ _ _ _ _ _ _ _ _ _ _ _ _ _ _ B X1p), X1s,
      (at_sin_phi_q _ _ _ _ _ _ _ _ _ _ _ _ _ _ _ A), (at_cos_phi_q _ _ _ _ _ _ _ _ _ _ _ _ _ _ _ A).
    split; field; split; lra.
Qed.
Lemma shift_angles kn tau phi_k R : let r := make_rad kn tau phi_k R in
  rshift_phi_h r = atan2 (rshift_sin_phi_h r) (rshift_cos_phi_h r) /\ rshift_phi_q r = atan2 (rshift_sin_phi_q r) (rshift_cos_phi_q r).
Proof. split; reflexivity. Qed.
Lemma kin_angles ps S sp : let k := make_kin ps S sp in kphi_q k = wrap_angle (PI - s_phi sp) /\ kcos_phi_q k = - cos (s_phi sp) /\ ksin_phi_q k = sin (s_phi sp) /\
  kphi_h k = s_phi_h sp /\ kcos_phi_h k = cos (s_phi_h sp) /\ ksin_phi_h k = sin (s_phi_h sp).
Proof. repeat split; reflexivity. Qed.
Lemma zero_R_angles e f ps S sp tau phi_k : same_event e ps S sp -> same_photon f e tau phi_k 0 -> 0 < s_ph_t_sq sp ->
  - PI <= s_phi sp <= PI -> - PI < s_phi_h sp <= PI ->
  let k := make_kin ps S sp in let r := make_rad k tau phi_k 0 in
  rshift_phi_h r = kphi_h k /\ rshift_phi_q r = kphi_q k.
Proof.
  intros H Hf Hp B1 B2 k r. destruct (zero_R e f ps S sp tau phi_k H Hf Hp) as (V & Q1 & Q2). fold k r in V, Q1, Q2.
  destruct (shift_angles k tau phi_k 0) as [A1 A2]. fold r in A1, A2. rewrite A1, A2. clear A1 A2. destruct (kin_angles ps S sp) as (K1 & K2 & K3 & K4 & K5 & K6). fold k in K1, K2, K3, K4, K5, K6.
  assert (V1 : rshift_sin_phi_h r = ksin_phi_h k) by exact (f_equal isin_phi_h V).
  assert (V2 : rshift_cos_phi_h r = kcos_phi_h k) by exact (f_equal icos_phi_h V).
  rewrite V1, V2, Q1, Q2, K1, K2, K3, K4, K5, K6. split; [apply atan2_angle; lra|].
  destruct (wrap_angle_spec (PI - s_phi sp)) as (W1 & W2 & W3). pose proof (wrap_angle_small _ B1).
  replace (- cos (s_phi sp)) with (cos (PI - s_phi sp)) by (rewrite cos_minus, cos_PI, sin_PI; ring).
  replace (sin (s_phi sp)) with (sin (PI - s_phi sp)) by (rewrite sin_minus, cos_PI, sin_PI; ring).
  rewrite <- W1, <- W2. apply atan2_angle; lra.
Qed.

(** * Projection onto the shifted kinematics *)
Lemma project_shift_vals r : kin_vals (project_shift r) = shift_vals r.
Proof. reflexivity. Qed.
Lemma kin_SX ps S sp : let k := make_kin ps S sp in kS_x k = kS k - kX k.
Proof.
  unfold make_kin. cbv zeta. cbn [kS_x kS kX]. ring.
Qed.
Lemma project_shift_inconsistent ps S sp tau phi_k R : R <> 0 ->
  let k := project_shift (make_rad (make_kin ps S sp) tau phi_k R) in
  forall p k1 q ph, ~ (transfer_names (kin_vals k) p k1 q ph /\ lepton_names k p k1 q ph).
Proof.
  intros HR k p k1 q ph [[] []].
  assert (KX : kX k = kX (make_kin ps S sp)) by reflexivity. assert (KS : kS k = kS (make_kin ps S sp)) by reflexivity.
  assert (KSx : kS_x k = kS_x (make_kin ps S sp) - R) by reflexivity.
  pose proof (kin_SX ps S sp) as E. cbv zeta in E. change (iS_x (kin_vals k)) with (kS_x k) in n_S_x.
  assert (D : dot4 p (sub4 k1 q) = dot4 p k1 - dot4 p q) by (clear; vring). rewrite D in n_X. lra.
Qed.

(** * Final-state momenta *)
Lemma lift_t M A : tapp4 (lift4 A) (V4 M 0 0 0) = V4 M 0 0 0.
Proof. rewrite lift4_props. dt3 A. uvec. comps; ring. Qed.
Lemma inv_app A v : lorentz A -> tapp4 (transpose4 A) (tapp4 A v) = v.
Proof. intros H. destruct (lorentz_transpose A H) as (_ & _ & L). rewrite <- tmul4_app, L, id4_app. auto. Qed.
Lemma inv_app3 A v : rot3 A -> tapp3 (transpose3 A) (tapp3 A v) = v.
Proof. intros H. destruct (rot3_transpose A H) as (_ & _ & L). rewrite <- tmul3_app, L. clear. dv3 v. uvec. comps; ring. Qed.
Lemma mk4_V4 v : mk4 (t4 v) (r4 v) = v. Proof. destruct v. reflexivity. Qed.

Lemma final_frame init pol e ps S sp : same_event e ps S sp -> init_fits init ps S ->
  let k := make_kin ps S sp in
  exists lt, lab_from_target init pol = Some lt /\ lorentz lt /\
  let L := tmul4 lt (lift4 (target_from_lepton k)) in
  lorentz L /\ tapp4 L (v_p e) = in_p init /\ tapp4 L (v_k1 e) = in_k1 init /\ tapp4 L (v_q e) = tapp4 L (V4 (kq_0 k) 0 0 (klambda_Y_sqrt k / (2 * kM k))) /\
  tapp4 L (v_k2 e) = tapp4 lt (V4 (kk2_0 k) (kk2_t k * ksin_phi k) (kk2_t k * kcos_phi k) (kk2_l k)) /\
  tapp4 L (v_ph e) = tapp4 L (V4 (kph_0 k) (kph_t k * kcos_phi_h k) (kph_t k * ksin_phi_h k) (kph_l k)) /\
  tapp4 L (v_ph e) = tapp4 (tmul4 lt (lift4 (target_from_hadron k))) (V4 (kph_0 k) (kph_t k) 0 (kph_l k)).
Proof.
  intros H (F1 & F2 & F3 & F4) k. pose proof (same_kin_at _ _ _ _ H) as A. fold k in A.
  assert (Hph : physical e) by apply H. pose proof (physical_ok e Hph) as OK. assert (HM : 0 < e_M e) by apply OK.
  assert (EM : e_M e = a_M ps) by apply H. assert (Em : e_m e = a_m ps) by apply H. assert (ES : event_S e = S) by apply H.
  rewrite <- EM in F1. rewrite <- Em in F2. rewrite <- ES in F3. unfold event_S, v_p, v_k1 in F3. rewrite rest_dot in F3. cbn [t4] in F3.
  pose proof (kapp _ _ _ _ _ _ _ _ _ _ _ OK) as KP. pose proof (kap_sq (e_kx e) (e_kz e)) as KS.
  assert (SD : sdot (in_p init) (in_k1 init) (in_k1 init) = kap (e_kx e) (e_kz e) * kap (e_kx e) (e_kz e)).
  { unfold sdot. change (dot4 (in_k1 init) (in_k1 init)) with (norm_sq4 (in_k1 init)). change (dot4 (in_p init) (in_p init)) with (norm_sq4 (in_p init)).
    rewrite F1, F2, KS. pose proof (Hk1 _ _ _ _ _ _ _ _ _ _ _ OK) as E1. unfold sq.
    replace (dot4 (in_p init) (in_k1 init)) with (e_M e * e_E e) by lra.
    transitivity (e_E e * e_E e - e_m e * e_m e); [field; lra|]. lra. }
  destruct (target_from_lab_ok init pol) as (T & bo & T1 & T2 & T3 & T4 & T5 & _); [rewrite F1; unfold sq; nra|auto|rewrite SD; nra|].
  rewrite F1 in T4, T5. unfold sq in T4, T5. rewrite sqrt_square in T4, T5 by lra. rewrite SD, sqrt_square in T5 by lra.
  replace (dot4 (in_p init) (in_k1 init) / e_M e) with (e_E e) in T5 by (replace (dot4 (in_p init) (in_k1 init)) with (e_M e * e_E e) by lra; field; lra).
  exists (transpose4 T). split; [auto|]. destruct (lorentz_transpose T T3) as (TL & _ & _). split; [auto|]. cbv zeta.
  pose proof (lepton_rot _ _ _ _ _ _ _ _ _ _ _ _ _ _ OK _ A) as LR.
  set (tl := target_from_lepton k). assert (RL : rot3 tl) by (apply rot3_transpose; auto).
  assert (K1 : tapp3 tl (V3 (e_kx e) 0 (e_kz e)) = V3 0 0 (kap (e_kx e) (e_kz e))).
  { rewrite <- (lepton_k1 _ _ _ _ _ _ _ _ _ _ _ _ _ _ OK _ A). apply inv_app3. auto. }
  assert (K2 : tapp3 tl (V3 (e_kx e) 0 (e_kz e - e_qz e)) = V3 (kk2_t k * ksin_phi k) (kk2_t k * kcos_phi k) (kk2_l k)).
  { rewrite <- (lepton_k2 _ _ _ _ _ _ _ _ _ _ _ _ _ _ OK _ A). apply inv_app3. auto. }
  split; [apply lorentz_mul; auto; apply lorentz_lift; auto|].
  split; [rewrite tmul4_app; unfold v_p; rewrite lift_t, <- T4; apply inv_app; auto|].
  split; [rewrite tmul4_app, lift4_props; change (r4 (v_k1 e)) with (V3 (e_kx e) 0 (e_kz e)); rewrite K1; change (mk4 (t4 (v_k1 e)) (V3 0 0 (kap (e_kx e) (e_kz e)))) with (V4 (e_E e) 0 0 (kap (e_kx e) (e_kz e))); rewrite <- T5; apply inv_app; auto|].
  split; [rewrite (q_norm _ _ _ _ _ _ _ _ _ _ _ _ _ _ OK _ A), (at_q_0 _ _ _ _ _ _ _ _ _ _ _ _ _ _ _ A); reflexivity|].
  split.
  { rewrite tmul4_app. f_equal. replace (v_k2 e) with (V4 (e_E e - e_q0 e) (e_kx e) 0 (e_kz e - e_qz e)) by (unfold v_k2, v_k1, v_q; uvec; comps; ring).
    rewrite lift4_props. change (r4 _) with (V3 (e_kx e) 0 (e_kz e - e_qz e)). rewrite K2, (at_k2_0 _ _ _ _ _ _ _ _ _ _ _ _ _ _ _ A). reflexivity. }
  rewrite (at_ph_0 _ _ _ _ _ _ _ _ _ _ _ _ _ _ _ A), (at_ph_t _ _ _ _ _ _ _ _ _ _ _ _ _ _ _ A), (at_ph_l _ _ _ _ _ _ _ _ _ _ _ _ _ _ _ A),
    (at_cos_phi_h _ _ _ _ _ _ _ _ _ _ _ _ _ _ _ A), (at_sin_phi_h _ _ _ _ _ _ _ _ _ _ _ _ _ _ _ A).
  split; [reflexivity|].
  rewrite !tmul4_app, !lift4_props. f_equal. rewrite (hadron_app _ _ _ _ _ _ _ _ _ _ _ _ _ _ _ A). fold tl. unfold v_ph, r4. cbn [x3 y3 z3 t4 x4 y4 z4].
  f_equal. f_equal. f_equal; ring.
Qed.
Lemma T_k2 L e : tapp4 L (v_k2 e) = sub4 (tapp4 L (v_k1 e)) (tapp4 L (v_q e)).
Proof. rewrite T_sub. reflexivity. Qed.
Lemma final_ok init pol e ps S sp : same_event e ps S sp -> init_fits init ps S ->
  let k := make_kin ps S sp in
  exists f, make_final init pol k = Some f /\ fin_beam f = kbeam k /\ fin_hadron f = khadron k /\
    fin_k2 f = sub4 (in_k1 init) (fin_q f) /\ norm_sq4 (fin_k2 f) = sq (a_m ps) /\ norm_sq4 (fin_ph f) = sq (a_mh ps) /\
    transfer_names (kin_vals k) (in_p init) (in_k1 init) (fin_q f) (fin_ph f) /\ lepton_names k (in_p init) (in_k1 init) (fin_q f) (fin_ph f).
Proof.
  intros H F k. destruct (final_frame init pol e ps S sp H F) as (lt & E & LL & L1 & L2 & L3 & L4 & L5 & L6 & L7). fold k in L1, L2, L3, L4, L5, L6, L7.
  set (L := tmul4 lt (lift4 (target_from_lepton k))) in *.
  unfold make_final. rewrite E. eexists. split; [reflexivity|]. cbn [fin_beam fin_hadron fin_q fin_k2 fin_ph]. fold L.
  rewrite <- L4, <- L5, <- L7.
  split; [auto|]. split; [auto|].
  split; [rewrite T_k2, L3; reflexivity|].
  destruct (same_names _ _ _ _ _ H L1) as [N1 N2]. fold k in N1, N2. cbv zeta in N1, N2. rewrite L2, L3 in N1, N2.
  destruct H as (Hp & _ & _ & _ & <- & <-).
  split; [rewrite (T_norm L (proj1 L1)); apply Hp|]. split; [rewrite (T_norm L (proj1 L1)); apply Hp|]. auto.
Qed.
Lemma final_rad_ok init pol e f ps S sp tau phi_k R : same_event e ps S sp -> same_photon f e tau phi_k R -> init_fits init ps S ->
  let k := make_kin ps S sp in let r := make_rad k tau phi_k R in
  exists g n, make_final_rad init pol r = Some g /\ finr_beam g = kbeam k /\ finr_hadron g = khadron k /\
    finr_k2 g = sub4 (in_k1 init) (finr_q g) /\ norm_sq4 (finr_k2 g) = sq (a_m ps) /\ norm_sq4 (finr_ph g) = sq (a_mh ps) /\
    transfer_names (kin_vals k) (in_p init) (in_k1 init) (finr_q g) (finr_ph g) /\ lepton_names k (in_p init) (in_k1 init) (finr_q g) (finr_ph g) /\
    finr_k g = scale4 (R / (2 * a_M ps)) n /\ dot4 n (in_p init) = a_M ps /\
    photon_names r (in_p init) (in_k1 init) (finr_q g) (finr_ph g) (finr_k g) n /\
    (R < S * s_y sp -> transfer_names (shift_vals r) (in_p init) (in_k1 init) (sub4 (finr_q g) (finr_k g)) (finr_ph g)).
Proof.
  intros H Hf F k r. destruct (final_frame init pol e ps S sp H F) as (lt & E & LL & L1 & L2 & L3 & L4 & L5 & L6 & L7). fold k in L1, L2, L3, L4, L5, L6, L7.
  pose proof (same_rad_at _ _ _ _ _ _ _ _ H Hf) as B. fold k r in B.
  assert (PR : project r = k) by apply make_rad_copies.
  set (L := tmul4 lt (lift4 (target_from_lepton k))) in *.
  assert (EK : tapp4 L (V4 (rk_0 r) (rk_t r * rcos_phi_k r) (rk_t r * rsin_phi_k r) (rk_l r)) = tapp4 L (v_k e f)).
  { f_equal. rewrite (rat_k_0 _ _ _ _ _ _ _ _ _ _ _ _ _ _ _ _ _ B), (rat_k_t _ _ _ _ _ _ _ _ _ _ _ _ _ _ _ _ _ B), (rat_k_l _ _ _ _ _ _ _ _ _ _ _ _ _ _ _ _ _ B),
      (rat_cos_phi_k _ _ _ _ _ _ _ _ _ _ _ _ _ _ _ _ _ B), (rat_sin_phi_k _ _ _ _ _ _ _ _ _ _ _ _ _ _ _ _ _ B).
    unfold v_k, v_n. uvec. comps; ring. }
  exists {| finr_beam := kbeam k; finr_hadron := khadron k; finr_q := tapp4 L (v_q e); finr_k2 := tapp4 L (v_k2 e); finr_ph := tapp4 L (v_ph e); finr_k := tapp4 L (v_k e f) |}, (tapp4 L (v_n f)).
  cbn [finr_beam finr_hadron finr_q finr_k2 finr_ph finr_k].
  split.
  { unfold make_final_rad. rewrite E. cbv zeta. rewrite PR. fold L. rewrite EK, L4, L5, L6. reflexivity. }
  split; [auto|]. split; [auto|].
  split; [rewrite T_k2, L3; reflexivity|].
  destruct (same_names _ _ _ _ _ H L1) as [N1 N2]. fold k in N1, N2. cbv zeta in N1, N2. rewrite L2, L3 in N1, N2.
  pose proof (same_photon_names _ _ _ _ _ _ _ _ _ H Hf L1) as N3. cbv zeta in N3. fold k r in N3. rewrite L2, L3 in N3.
  pose proof (fun h => same_shift_names _ _ _ _ _ _ _ _ _ H Hf h L1) as N4. cbv zeta in N4. fold k r in N4. rewrite L2, L3 in N4.
  assert (Hp : physical e) by apply H. assert (HM : 0 < e_M e) by apply Hp.
  destruct H as (_ & _ & _ & <- & <- & <-). assert (ER : f_R f = R) by apply Hf.
  split; [rewrite (T_norm L (proj1 L1)); apply Hp|]. split; [rewrite (T_norm L (proj1 L1)); apply Hp|].
  split; [exact N1|]. split; [exact N2|].
  split; [rewrite T_scale, <- ER; reflexivity|].
  split; [rewrite <- L2, (proj1 L1); unfold v_n, v_p; uvec; ring|].
  split; [exact N3|]. intros h. rewrite T_sub. auto.
Qed.

(** * Frames of a point *)
Lemma inverse3_T a : rot3 a -> inverse3 a (transpose3 a) /\ inverse3 (transpose3 a) a.
Proof.
  intros H. destruct (rot3_transpose a H) as (H' & L1 & L2).
  assert (forall v, tapp3 a (tapp3 (transpose3 a) v) = v) as X1 by (intros v; rewrite <- tmul3_app, L1; clear; dv3 v; uvec; comps; ring).
  assert (forall v, tapp3 (transpose3 a) (tapp3 a v) = v) as X2 by (intros v; rewrite <- tmul3_app, L2; clear; dv3 v; uvec; comps; ring).
  split; intros v; auto.
Qed.
Lemma inverse4_T a : lorentz a -> inverse4 a (transpose4 a) /\ inverse4 (transpose4 a) a.
Proof.
  intros H. destruct (lorentz_transpose a H) as (H' & L1 & L2).
  assert (forall v, tapp4 a (tapp4 (transpose4 a) v) = v) as X1 by (intros v; rewrite <- tmul4_app, L1, id4_app; auto).
  assert (forall v, tapp4 (transpose4 a) (tapp4 a v) = v) as X2 by (intros v; rewrite <- tmul4_app, L2, id4_app; auto).
  split; intros v; auto.
Qed.
Lemma tt3 a : transpose3 (transpose3 a) = a.
Proof. dt3 a. reflexivity. Qed.
Lemma lepton_frame ps S sp : admissible ps S sp -> let k := make_kin ps S sp in let L := lepton_from_target k in let qn := klambda_Y_sqrt k / (2 * kM k) in
  rot3 L /\ inverse3 L (target_from_lepton k) /\ 0 < qn /\ tapp3 L (sub3 (t_k1 k) (t_k2 k)) = V3 0 0 qn /\
  0 < x3 (tapp3 L (t_k1 k)) /\ y3 (tapp3 L (t_k1 k)) = 0.
Proof.
  intros H k L qn. destruct (admissible_event _ _ _ H) as [e He]. pose proof (same_kin_at _ _ _ _ He) as A. fold k in A.
  pose proof (physical_ok e (proj1 He)) as OK. pose proof (lepton_rot _ _ _ _ _ _ _ _ _ _ _ _ _ _ OK _ A) as LR.
  assert (EQ : qn = e_qz e) by exact (q_norm _ _ _ _ _ _ _ _ _ _ _ _ _ _ OK _ A).
  assert (E1 : tapp3 L (t_k1 k) = V3 (e_kx e) 0 (e_kz e)).
  { unfold t_k1. rewrite (k1_norm _ _ _ _ _ _ _ _ _ _ _ _ _ _ OK _ A). exact (lepton_k1 _ _ _ _ _ _ _ _ _ _ _ _ _ _ OK _ A). }
  assert (E2 : tapp3 L (t_k2 k) = V3 (e_kx e) 0 (e_kz e - e_qz e)) by exact (lepton_k2 _ _ _ _ _ _ _ _ _ _ _ _ _ _ OK _ A).
  split; [auto|]. split; [apply inverse3_T; auto|]. split; [rewrite EQ; apply OK|].
  split.
  { transitivity (sub3 (tapp3 L (t_k1 k)) (tapp3 L (t_k2 k))); [clear; generalize (t_k1 k) (t_k2 k) L; intros; vring|].
    rewrite E1, E2, EQ. uvec. comps; ring. }
  rewrite E1. cbn [x3 y3]. split; [apply OK|auto].
Qed.
Lemma hadron_frame ps S sp : admissible ps S sp -> let k := make_kin ps S sp in let H := hadron_from_target k in let qn := klambda_Y_sqrt k / (2 * kM k) in
  rot3 H /\ inverse3 H (target_from_hadron k) /\ tapp3 H (sub3 (t_k1 k) (t_k2 k)) = V3 0 0 qn /\
  tapp3 H (tapp3 (target_from_lepton k) (l_ph k)) = V3 (kph_t k) 0 (kph_l k).
Proof.
  intros H k Hd qn. destruct (lepton_frame _ _ _ H) as (L1 & L2 & L3 & L4 & _). fold k in L1, L2, L3, L4. fold qn in L3, L4.
  destruct (admissible_event _ _ _ H) as [e He]. pose proof (same_kin_at _ _ _ _ He) as A. fold k in A.
  pose proof (physical_ok e (proj1 He)) as OK. pose proof (hadron_rot _ _ _ _ _ _ _ _ _ _ _ _ _ _ OK _ A) as LR.
  destruct (inverse3_T _ LR) as [I1 I2]. fold (hadron_from_target k) in I1, I2. fold Hd in I1, I2.
  split; [apply rot3_transpose; auto|]. split; [auto|]. split.
  - rewrite <- (proj2 (L2 (sub3 (t_k1 k) (t_k2 k)))), L4.
    replace (tapp3 (target_from_lepton k) (V3 0 0 qn)) with (tapp3 (target_from_hadron k) (V3 0 0 qn)); [apply I2|].
    rewrite (hadron_app _ _ _ _ _ _ _ _ _ _ _ _ _ _ _ A). f_equal. cbn [x3 y3 z3]. comps; ring.
  - replace (tapp3 (target_from_lepton k) (l_ph k)) with (tapp3 (target_from_hadron k) (V3 (kph_t k) 0 (kph_l k))); [apply I2|].
    rewrite (hadron_app _ _ _ _ _ _ _ _ _ _ _ _ _ _ _ A). f_equal. unfold l_ph. rewrite (at_phi_h _ _ _ _ _ _ _ _ _ _ _ _ _ _ _ A). cbn [x3 y3 z3]. comps; ring.
Qed.
Lemma virt_frame ps S sp : admissible ps S sp -> let k := make_kin ps S sp in let V := virt_photon_from_target k in
  lorentz V /\ inverse4 V (target_from_virt_photon k) /\ tapp4 V (mk4 (kq_0 k) (sub3 (t_k1 k) (t_k2 k))) = V4 0 0 0 (kQ k).
Proof.
  intros H k V. destruct (lepton_frame _ _ _ H) as (L1 & L2 & L3 & L4 & _). fold k in L1, L2, L3, L4.
  destruct (admissible_event _ _ _ H) as [e He]. pose proof (same_kin_at _ _ _ _ He) as A. fold k in A.
  pose proof (physical_ok e (proj1 He)) as OK. pose proof (virt_lorentz _ _ _ _ _ _ _ _ _ _ _ _ _ _ OK _ A) as LR.
  destruct (inverse4_T _ LR) as [I1 I2]. fold (virt_photon_from_target k) in I1, I2. fold V in I1, I2.
  split; [apply lorentz_transpose; auto|]. split; [auto|].
  replace (mk4 (kq_0 k) (sub3 (t_k1 k) (t_k2 k))) with (tapp4 (target_from_virt_photon k) (V4 0 0 0 (kQ k))); [apply I2|].
  rewrite (virt_q _ _ _ _ _ _ _ _ _ _ _ _ _ _ OK _ A), lift4_props, (at_q_0 _ _ _ _ _ _ _ _ _ _ _ _ _ _ _ A). cbn [t4]. f_equal.
  rewrite <- (proj2 (L2 (sub3 (t_k1 k) (t_k2 k)))), L4, (q_norm _ _ _ _ _ _ _ _ _ _ _ _ _ _ OK _ A), (hadron_app _ _ _ _ _ _ _ _ _ _ _ _ _ _ _ A).
  f_equal. unfold r4. cbn [x3 y3 z3 x4 y4 z4]. comps; ring.
Qed.
Lemma real_frame ps S sp tau phi_k R : admissible ps S sp -> tau_ok ps S sp tau -> 0 <= R ->
  let k := make_kin ps S sp in let r := make_rad k tau phi_k R in let P := real_photon_from_target r in let qn := klambda_Y_sqrt k / (2 * kM k) in
  rot3 P /\ inverse3 P (target_from_real_photon r) /\ tapp3 P (sub3 (t_k1 k) (t_k2 k)) = V3 0 0 qn /\
  tapp3 P (tapp3 (target_from_lepton k) (l_k r)) = V3 (rk_t r) 0 (rk_l r).
Proof.
  intros H Ht HR k r P qn. destruct (lepton_frame _ _ _ H) as (L1 & L2 & L3 & L4 & _). fold k in L1, L2, L3, L4. fold qn in L3, L4.
  destruct (admissible_event _ _ _ H) as [e He]. destruct (admissible_photon e ps S sp tau phi_k R He Ht HR) as [f Hf].
  pose proof (same_kin_at _ _ _ _ He) as A. fold k in A. pose proof (same_rad_at _ _ _ _ _ _ _ _ He Hf) as B. fold k r in B.
  assert (PR : project r = k) by apply make_rad_copies. rewrite <- PR in A.
  pose proof (physical_ok e (proj1 He)) as OK. pose proof (real_rot _ _ _ _ _ _ _ _ _ _ _ _ _ _ _ _ _ _ OK _ A B) as LR.
  destruct (inverse3_T _ LR) as [I1 I2]. fold (real_photon_from_target r) in I1, I2. fold P in I1, I2.
  split; [apply rot3_transpose; auto|]. split; [auto|]. split.
  - rewrite <- (proj2 (L2 (sub3 (t_k1 k) (t_k2 k)))), L4.
    replace (tapp3 (target_from_lepton k) (V3 0 0 qn)) with (tapp3 (target_from_real_photon r) (V3 0 0 qn)); [apply I2|].
    rewrite (real_app _ _ _ _ _ _ _ _ _ _ _ _ _ _ _ _ _ B), PR. f_equal. cbn [x3 y3 z3]. comps; ring.
  - replace (tapp3 (target_from_lepton k) (l_k r)) with (tapp3 (target_from_real_photon r) (V3 (rk_t r) 0 (rk_l r))); [apply I2|].
    rewrite (real_app _ _ _ _ _ _ _ _ _ _ _ _ _ _ _ _ _ B), PR. f_equal. unfold l_k. rewrite (rat_phi_k _ _ _ _ _ _ _ _ _ _ _ _ _ _ _ _ _ B). cbn [x3 y3 z3]. comps; ring.
Qed.
Lemma shift_frame ps S sp tau phi_k R : admissible ps S sp -> tau_ok ps S sp tau -> 0 <= R < S * s_y sp -> 0 < s_ph_t_sq sp ->
  let k := make_kin ps S sp in let r := make_rad k tau phi_k R in 0 < rshift_ph_t r ->
  let Sh := shift_from_target r in
  rot3 Sh /\ inverse3 Sh (target_from_shift r) /\ rot3 (shift_from_hadron r) /\ inverse3 (shift_from_hadron r) (hadron_from_shift r) /\
  tapp3 Sh (tapp3 (target_from_lepton k) (sub3 (tapp3 (lepton_from_target k) (sub3 (t_k1 k) (t_k2 k))) (l_k r))) = V3 0 0 (rshift_lambda_Y_sqrt r / (2 * kM k)) /\
  tapp3 Sh (tapp3 (target_from_lepton k) (l_ph k)) = V3 (rshift_ph_t r) 0 (rshift_ph_l r).
Proof.
  intros H Ht [HR0 HR] Hpt k r Hs Sh. destruct (lepton_frame _ _ _ H) as (L1 & L2 & L3 & L4 & _). fold k in L1, L2, L3, L4.
  destruct (hadron_frame _ _ _ H) as (H1 & H2 & H3 & H4). fold k in H1, H2, H3, H4.
  destruct (admissible_event _ _ _ H) as [e He]. destruct (admissible_photon e ps S sp tau phi_k R He Ht HR0) as [f Hf].
  pose proof (same_kin_at _ _ _ _ He) as A. fold k in A. pose proof (same_rad_at _ _ _ _ _ _ _ _ He Hf) as B. fold k r in B.
  assert (PR : project r = k) by apply make_rad_copies. rewrite <- PR in A.
  pose proof (physical_ok e (proj1 He)) as OK. assert (HM : 0 < e_M e) by apply OK. assert (OKf : ph_ok (f_R f / (2 * e_M e)) (f_ct f) (f_st f)) by (apply photon_ok_ph; [auto|apply Hf]).
  destruct (same_Sx _ _ _ _ He) as [Ex _]. assert (EM : e_M e = a_M ps) by apply He. rewrite <- EM in Ex. assert (EfR : f_R f = R) by apply Hf.
  pose proof (same_pt _ _ _ _ He) as Ept. unfold sq in Ept. assert (Hp0 : 0 <= e_pt e) by apply OK. assert (Hp : 0 < e_pt e) by nra.
  set (kk := f_R f / (2 * e_M e)) in *.
  assert (Hkk : kk < e_q0 e). { unfold kk. rewrite EfR. apply Rmult_lt_reg_r with (2 * e_M e); [lra|]. unfold Rdiv. rewrite Rmult_assoc, Rinv_l by lra. lra. }
  pose proof (SL_pos _ _ _ _ _ _ _ _ _ _ _ _ _ _ OK OKf Hkk) as HL.
  rewrite (rat_shift_ph_t _ _ _ _ _ _ _ _ _ _ _ _ _ _ _ _ _ B HL) in Hs.
  assert (HX : 0 < SHX (e_qz e) (e_pt e) (e_pl e) (e_phi_h e) kk (f_ct f) (f_st f) (f_phi f)).
  { destruct (Rlt_le_dec 0 (SHX (e_qz e) (e_pt e) (e_pl e) (e_phi_h e) kk (f_ct f) (f_st f) (f_phi f))) as [|h]; auto. exfalso.
    rewrite sqrt_neg_0 in Hs; [lra|]. apply Rmult_le_reg_r with (SL (e_qz e) kk (f_ct f) (f_st f)); auto. unfold Rdiv. rewrite Rmult_assoc, Rinv_l by lra. lra. }
  destruct (shift_facts _ _ _ _ _ _ _ _ _ _ _ _ _ _ _ _ _ _ OK OKf _ A B Hp HL HX) as (F1 & F2 & F3).
  destruct (inverse3_T _ F1) as [I1 I2]. fold (hadron_from_shift r) in I1, I2.
  assert (HR3 : rot3 (target_from_hadron k)) by (rewrite <- (tt3 (target_from_hadron k)); apply rot3_transpose; exact H1).
  assert (TS : rot3 (target_from_shift r)) by (unfold target_from_shift; rewrite PR; apply rot3_mul; auto; apply rot3_transpose; auto).
  destruct (inverse3_T _ TS) as [J1 J2]. fold (shift_from_target r) in J1, J2. fold Sh in J1, J2.
  split; [apply rot3_transpose; auto|]. split; [auto|]. split; [auto|]. split; [auto|].
  assert (ST : forall v w, tapp3 (shift_from_hadron r) v = w -> tapp3 Sh (tapp3 (target_from_hadron k) v) = w).
  { intros v w Ev. replace (tapp3 (target_from_hadron k) v) with (tapp3 (target_from_shift r) w); [apply J2|].
    unfold target_from_shift. rewrite PR, tmul3_app. f_equal. rewrite <- Ev. apply I2. }
  rewrite <- PR in H4, L4 |- *. pose proof (hadron_app _ _ _ _ _ _ _ _ _ _ _ _ _ _ _ A) as HA.
  split.
  - rewrite L4, (q_norm _ _ _ _ _ _ _ _ _ _ _ _ _ _ OK _ A), (at_M _ _ _ _ _ _ _ _ _ _ _ _ _ _ _ A), (rat_shift_lambda_Y_sqrt _ _ _ _ _ _ _ _ _ _ _ _ _ _ _ _ _ B).
    replace (2 * e_M e * sqrt (SL (e_qz e) kk (f_ct f) (f_st f)) / (2 * e_M e)) with (sqrt (SL (e_qz e) kk (f_ct f) (f_st f))) by (field; lra).
    rewrite <- (ST _ _ F2). f_equal. rewrite <- PR, HA. f_equal. unfold l_k.
    rewrite (rat_k_t _ _ _ _ _ _ _ _ _ _ _ _ _ _ _ _ _ B), (rat_k_l _ _ _ _ _ _ _ _ _ _ _ _ _ _ _ _ _ B), (rat_phi_k _ _ _ _ _ _ _ _ _ _ _ _ _ _ _ _ _ B).
    pose proof (cs_sq (e_phi_h e)) as C. unfold cosd. uvec. comps; ring [C].
  - rewrite (rat_shift_ph_t _ _ _ _ _ _ _ _ _ _ _ _ _ _ _ _ _ B HL), (rat_shift_ph_l _ _ _ _ _ _ _ _ _ _ _ _ _ _ _ _ _ B HL).
    rewrite <- (ST _ _ F3). f_equal. rewrite <- PR, HA. f_equal. unfold l_ph.
    rewrite (at_ph_t _ _ _ _ _ _ _ _ _ _ _ _ _ _ _ A), (at_ph_l _ _ _ _ _ _ _ _ _ _ _ _ _ _ _ A), (at_phi_h _ _ _ _ _ _ _ _ _ _ _ _ _ _ _ A). uvec. comps; ring.
Qed.

(** * Statements for admissible points *)
Lemma target_lab_frame init pol : let p := in_p init in let k1 := in_k1 init in
  0 < norm_sq4 p -> 0 < t4 p -> 0 < sdot p k1 k1 ->
  exists T boost, target_from_lab init pol = Some T /\ lab_from_target init pol = Some (transpose4 T) /\ lorentz T /\ inverse4 T (transpose4 T) /\
    tapp4 T p = V4 (sqrt (norm_sq4 p)) 0 0 0 /\
    tapp4 T k1 = V4 (dot4 p k1 / sqrt (norm_sq4 p)) 0 0 (sqrt (sdot p k1 k1)) /\
    transform_to4 p VEC4_T = Some boost /\ lorentz boost /\ tapp4 boost p = V4 (sqrt (norm_sq4 p)) 0 0 0 /\
    x4 (tapp4 T (tapp4 (transpose4 boost) (mk4 0 pol))) = 0 /\ 0 <= y4 (tapp4 T (tapp4 (transpose4 boost) (mk4 0 pol))).
Proof.
  intros p k1 H1 H2 H3. destruct (target_from_lab_ok init pol H1 H2 H3) as (T & b & A1 & A2 & A3 & A4).
  exists T, b. split; [auto|]. split; [auto|]. split; [auto|]. split; [apply inverse4_T; auto|exact A4].
Qed.
Lemma phi_q_ok ps S sp : let k := make_kin ps S sp in
  cos (kphi_q k) = kcos_phi_q k /\ sin (kphi_q k) = ksin_phi_q k /\ - PI <= kphi_q k <= PI.
Proof.
  intros k. destruct (kin_angles ps S sp) as (E1 & E2 & E3 & _). fold k in E1, E2, E3. rewrite E1, E2, E3.
  destruct (wrap_angle_spec (PI - s_phi sp)) as (W1 & W2 & W3). rewrite W1, W2, cos_minus, sin_minus, cos_PI, sin_PI. split; [ring|]. split; [ring|exact W3].
Qed.
Lemma final_all init pol ps S sp : admissible ps S sp -> init_fits init ps S ->
  let k := make_kin ps S sp in
  exists f, make_final init pol k = Some f /\ fin_beam f = kbeam k /\ fin_hadron f = khadron k /\
    fin_k2 f = sub4 (in_k1 init) (fin_q f) /\ norm_sq4 (fin_k2 f) = sq (a_m ps) /\ norm_sq4 (fin_ph f) = sq (a_mh ps) /\
    transfer_names (kin_vals k) (in_p init) (in_k1 init) (fin_q f) (fin_ph f) /\ lepton_names k (in_p init) (in_k1 init) (fin_q f) (fin_ph f).
Proof. intros H F. destruct (admissible_event _ _ _ H) as [e He]. exact (final_ok init pol e ps S sp He F). Qed.
Lemma final_rad_all init pol ps S sp tau phi_k R : admissible ps S sp -> tau_ok ps S sp tau -> 0 <= R -> init_fits init ps S ->
  let k := make_kin ps S sp in let r := make_rad k tau phi_k R in
  exists g n, make_final_rad init pol r = Some g /\ finr_beam g = kbeam k /\ finr_hadron g = khadron k /\
    finr_k2 g = sub4 (in_k1 init) (finr_q g) /\ norm_sq4 (finr_k2 g) = sq (a_m ps) /\ norm_sq4 (finr_ph g) = sq (a_mh ps) /\
    transfer_names (kin_vals k) (in_p init) (in_k1 init) (finr_q g) (finr_ph g) /\ lepton_names k (in_p init) (in_k1 init) (finr_q g) (finr_ph g) /\
    finr_k g = scale4 (R / (2 * a_M ps)) n /\ dot4 n (in_p init) = a_M ps /\
    photon_names r (in_p init) (in_k1 init) (finr_q g) (finr_ph g) (finr_k g) n /\
    (R < S * s_y sp -> transfer_names (shift_vals r) (in_p init) (in_k1 init) (sub4 (finr_q g) (finr_k g)) (finr_ph g)).
Proof.
  intros H Ht HR F. destruct (admissible_event _ _ _ H) as [e He]. destruct (admissible_photon e ps S sp tau phi_k R He Ht HR) as [f Hf].
  exact (final_rad_ok init pol e f ps S sp tau phi_k R He Hf F).
Qed.
Lemma zero_R_all ps S sp tau phi_k : admissible ps S sp -> tau_ok ps S sp tau -> 0 < s_ph_t_sq sp ->
  let k := make_kin ps S sp in let r := make_rad k tau phi_k 0 in
  shift_vals r = kin_vals k /\ rshift_sin_phi_q r = ksin_phi_q k /\ rshift_cos_phi_q r = kcos_phi_q k /\
  (- PI <= s_phi sp <= PI -> - PI < s_phi_h sp <= PI -> rshift_phi_h r = kphi_h k /\ rshift_phi_q r = kphi_q k).
Proof.
  intros H Ht Hp k r. destruct (admissible_event _ _ _ H) as [e He]. destruct (admissible_photon e ps S sp tau phi_k 0 He Ht (Rle_refl 0)) as [f Hf].
  destruct (zero_R e f ps S sp tau phi_k He Hf Hp) as (A & B & C). split; [exact A|]. split; [exact B|]. split; [exact C|].
  intros. apply (zero_R_angles e f ps S sp tau phi_k); auto.
Qed.
