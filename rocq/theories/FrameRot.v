(** Frame changes of a given event. *)
From Coq Require Import Reals Lra Psatz Bool.
From Verif Require Import ExtModel BoundProofs MathModel MathProofs ParticleModel VecModel TransModel VecTac VecProofs TransProofs
  FrameBase KinModel KinEqs KinSpec KinProofs KinRadProofs KinEvent KinFinal FrameModel FrameProofs.
Local Open Scope R_scope.

Lemma cs_sq a : cos a * cos a = 1 - sin a * sin a.
Proof. pose proof (cs1 a). lra. Qed.
(** Rows of a right-handed orthonormal basis. *)
Lemma rows_rot3 a b c : dot3 a a = 1 -> dot3 b b = 1 -> dot3 c c = 1 -> dot3 a b = 0 -> dot3 a c = 0 -> dot3 b c = 0 ->
  dot3 a (cross3 b c) = 1 -> rot3 (T3 a b c).
Proof.
  intros. apply rot3_of_transpose_r.
  - transitivity (mk_tr3 (dot3 a a) (dot3 a b) (dot3 a c) (dot3 a b) (dot3 b b) (dot3 b c) (dot3 a c) (dot3 b c) (dot3 c c)).
    + clear. dvars. uvec. comps; ring.
    + rewrite H, H0, H1, H2, H3, H4. reflexivity.
  - rewrite <- H5. clear. dvars. uvec. ring.
Qed.
Lemma rows_rot3_cross a b c : dot3 a a = 1 -> dot3 c c = 1 -> dot3 a c = 0 -> b = cross3 c a -> rot3 (T3 a b c).
Proof.
  intros Ha Hc Hac ->. apply rows_rot3; auto.
  - rewrite lagrange3, Ha, Hc, (dot3_comm c a), Hac. ring.
  - clear. dvars. uvec. ring.
  - clear. dvars. uvec. ring.
  - transitivity (dot3 a a * dot3 c c - dot3 a c * dot3 a c); [clear; dvars; uvec; ring|]. rewrite Ha, Hc, Hac. ring.
Qed.
Lemma rotz_rot3 c s : c * c = 1 - s * s -> rot3 (mk_tr3 c (- s) 0 s c 0 0 0 1).
Proof.
  intros H. split.
  - intros v w. dvars. uvec. ring [H].
  - uvec. ring [H].
Qed.

Lemma dot3_sub_l a b c : dot3 (sub3 a b) c = dot3 a c - dot3 b c.
Proof. clear. vring. Qed.
Lemma dot3_sub_r a b c : dot3 c (sub3 a b) = dot3 c a - dot3 c b.
Proof. clear. vring. Qed.
Lemma tapp3_rows a b c v : tapp3 (T3 a b c) v = V3 (dot3 a v) (dot3 b v) (dot3 c v).
Proof. clear. vring. Qed.
Lemma sub_add3 a b : a = add3 (sub3 a b) b.
Proof. vring. Qed.
Lemma cross_out1 a b v w : dot3 (cross3 (scale3 a v) (scale3 b w)) v = 0.
Proof. vring. Qed.
Lemma cross_out2 a b d v w : dot3 (cross3 (scale3 a v) (scale3 b w)) (add3 w (scale3 d v)) = 0.
Proof. vring. Qed.

Section FrameAt.
Variables M m mh Mth E ux uz q0 qz Eh pt pl phih phi : R.
Local Notation kap := (kap ux uz).
Local Notation Qs := (qz * qz - q0 * q0).
Hypothesis OK : ev_ok M m mh E ux uz q0 qz Eh pt pl.
Variable k : kin.
Hypothesis A : kin_at M m mh Mth E ux uz q0 qz Eh pt pl phih phi k.
Let t_k1 := V3 0 0 kap.
Let t_k2 := V3 (kk2_t k * ksin_phi k) (kk2_t k * kcos_phi k) (kk2_l k).

Lemma kapp : 0 < kap. Proof. exact (kap_pos _ _ _ _ _ _ _ _ _ _ _ OK). Qed.
Lemma lepton_rows : lepton_from_target k =
  T3 (V3 (uz / kap * sin phi) (uz / kap * cos phi) (ux / kap)) (V3 (- cos phi) (sin phi) 0) (V3 (- (ux / kap) * sin phi) (- (ux / kap) * cos phi) (uz / kap)).
Proof.
  pose proof kapp. destruct OK. unfold lepton_from_target.
  rewrite (at_M _ _ _ _ _ _ _ _ _ _ _ _ _ _ _ A), (at_lambda_Y_sqrt _ _ _ _ _ _ _ _ _ _ _ _ _ _ _ A), (at_q_t _ _ _ _ _ _ _ _ _ _ _ _ _ _ _ A), (at_q_l _ _ _ _ _ _ _ _ _ _ _ _ _ _ _ A),
    (at_sin_phi_q _ _ _ _ _ _ _ _ _ _ _ _ _ _ _ A), (at_cos_phi_q _ _ _ _ _ _ _ _ _ _ _ _ _ _ _ A).
  uvec. comps; try reflexivity; field; repeat split; lra.
Qed.
Lemma lepton_rot : rot3 (lepton_from_target k).
Proof.
  rewrite lepton_rows. pose proof kapp as KP. pose proof (kap_sq ux uz) as KS. pose proof (cs_sq phi) as CS.
  clear A t_k1 t_k2. set (s := sin phi) in *. set (c := cos phi) in *. clearbody s c. set (kp := kap) in *. clearbody kp.
  assert (N : uz / kp * (uz / kp) = 1 - ux / kp * (ux / kp)) by (field_simplify_eq; [lra|lra]).
  set (a := uz / kp) in *. set (b := ux / kp) in *. clearbody a b.
  apply rows_rot3_cross; uvec.
  - ring [CS N].
  - ring [CS N].
  - ring [CS N].
  - comps; try ring [CS N].
Qed.
Lemma lepton_k1 : tapp3 (lepton_from_target k) t_k1 = V3 ux 0 uz.
Proof. rewrite lepton_rows. subst t_k1. pose proof kapp. uvec. comps; field; lra. Qed.
Lemma t_k2_eq : t_k2 = V3 (qz * ux / kap * sin phi) (qz * ux / kap * cos phi) ((ux * ux + uz * (uz - qz)) / kap).
Proof.
  subst t_k2. rewrite (at_k2_t _ _ _ _ _ _ _ _ _ _ _ _ _ _ _ A), (at_k2_l _ _ _ _ _ _ _ _ _ _ _ _ _ _ _ A),
    (at_sin_phi _ _ _ _ _ _ _ _ _ _ _ _ _ _ _ A), (at_cos_phi _ _ _ _ _ _ _ _ _ _ _ _ _ _ _ A). reflexivity.
Qed.
Lemma lepton_k2 : tapp3 (lepton_from_target k) t_k2 = V3 ux 0 (uz - qz).
Proof.
  rewrite lepton_rows, t_k2_eq. pose proof kapp as KP. pose proof (kap_sq ux uz) as KS. pose proof (cs_sq phi) as CS.
  clear A t_k1 t_k2. set (s := sin phi) in *. set (c := cos phi) in *. clearbody s c. set (kp := kap) in *. clearbody kp.
  uvec. comps; (field_simplify_eq; [ring [CS KS]|lra]).
Qed.
Lemma q_norm : klambda_Y_sqrt k / (2 * kM k) = qz.
Proof. destruct OK. rewrite (at_lambda_Y_sqrt _ _ _ _ _ _ _ _ _ _ _ _ _ _ _ A), (at_M _ _ _ _ _ _ _ _ _ _ _ _ _ _ _ A). field. lra. Qed.
Lemma k1_norm : klambda_S_sqrt k / (2 * kM k) = kap.
Proof. destruct OK. rewrite (at_lambda_S_sqrt _ _ _ _ _ _ _ _ _ _ _ _ _ _ _ A), (at_M _ _ _ _ _ _ _ _ _ _ _ _ _ _ _ A). field. lra. Qed.

Lemma hadron_rot : rot3 (target_from_hadron k).
Proof.
  apply rot3_mul; [apply rot3_transpose, lepton_rot|].
  rewrite (at_cos_phi_h _ _ _ _ _ _ _ _ _ _ _ _ _ _ _ A), (at_sin_phi_h _ _ _ _ _ _ _ _ _ _ _ _ _ _ _ A). apply rotz_rot3, cs_sq.
Qed.
Lemma hadron_app v : tapp3 (target_from_hadron k) v = tapp3 (target_from_lepton k)
  (V3 (cos phih * x3 v - sin phih * y3 v) (sin phih * x3 v + cos phih * y3 v) (z3 v)).
Proof.
  unfold target_from_hadron. rewrite tmul3_app. f_equal.
  rewrite (at_cos_phi_h _ _ _ _ _ _ _ _ _ _ _ _ _ _ _ A), (at_sin_phi_h _ _ _ _ _ _ _ _ _ _ _ _ _ _ _ A). clear. dv3 v. uvec. comps; ring.
Qed.
Lemma virt_lorentz : lorentz (target_from_virt_photon k).
Proof.
  apply lorentz_mul; [apply lorentz_lift, hadron_rot|].
  rewrite (at_q_0 _ _ _ _ _ _ _ _ _ _ _ _ _ _ _ A), (at_Q _ _ _ _ _ _ _ _ _ _ _ _ _ _ _ A), (at_M _ _ _ _ _ _ _ _ _ _ _ _ _ _ _ A), (at_lambda_Y_sqrt _ _ _ _ _ _ _ _ _ _ _ _ _ _ _ A).
  destruct OK. assert (QP : 0 < sqrt Qs) by (apply sqrt_lt_R0; auto). pose proof (sqrt_sqrt Qs (Rlt_le _ _ Hsp)) as QQ.
  set (Q := sqrt Qs) in *. replace (2 * M * qz / (2 * M * Q)) with (qz / Q) by (field; lra).
  assert (N : qz / Q * (qz / Q) = 1 + q0 / Q * (q0 / Q)) by (field_simplify_eq; [nra|lra]).
  set (a := qz / Q) in *. set (b := q0 / Q) in *. clearbody a b. clear A t_k1 t_k2 Q QQ QP. split.
  - intros v w. dvars. uvec. ring [N].
  - uvec. ring [N].
Qed.
Lemma virt_q : tapp4 (target_from_virt_photon k) (V4 0 0 0 (kQ k)) = tapp4 (lift4 (target_from_hadron k)) (V4 q0 0 0 qz).
Proof.
  unfold target_from_virt_photon. rewrite tmul4_app. f_equal.
  rewrite (at_q_0 _ _ _ _ _ _ _ _ _ _ _ _ _ _ _ A), (at_Q _ _ _ _ _ _ _ _ _ _ _ _ _ _ _ A), (at_M _ _ _ _ _ _ _ _ _ _ _ _ _ _ _ A), (at_lambda_Y_sqrt _ _ _ _ _ _ _ _ _ _ _ _ _ _ _ A).
  destruct OK. assert (QP : 0 < sqrt Qs) by (apply sqrt_lt_R0; auto). uvec. comps; field; lra.
Qed.
End FrameAt.

Section FrameRad.
Variables M m mh Mth E ux uz q0 qz Eh pt pl phih phi : R.
Variables kk ct st phik : R.
Local Notation kap := (kap ux uz).
Local Notation SL := (SL qz kk ct st).
Local Notation SH := (SH qz pt pl phih kk ct st phik).
Local Notation SHX := (SHX qz pt pl phih kk ct st phik).
Local Notation cosd := (cosd phih phik).
Local Notation sind := (cos phih * sin phik - sin phih * cos phik).
Hypothesis OK : ev_ok M m mh E ux uz q0 qz Eh pt pl.
Hypothesis OKf : ph_ok kk ct st.
Variable r : kinrad.
Hypothesis A : kin_at M m mh Mth E ux uz q0 qz Eh pt pl phih phi (project r).
Hypothesis B : rad_at M mh E ux uz q0 qz Eh pt pl phih phi kk ct st phik r.

Lemma real_rot : rot3 (target_from_real_photon r).
Proof.
  apply rot3_mul; [apply rot3_transpose; eapply lepton_rot; eauto|].
  rewrite (rat_cos_phi_k _ _ _ _ _ _ _ _ _ _ _ _ _ _ _ _ _ B), (rat_sin_phi_k _ _ _ _ _ _ _ _ _ _ _ _ _ _ _ _ _ B). apply rotz_rot3, cs_sq.
Qed.
Lemma real_app v : tapp3 (target_from_real_photon r) v = tapp3 (target_from_lepton (project r))
  (V3 (cos phik * x3 v - sin phik * y3 v) (sin phik * x3 v + cos phik * y3 v) (z3 v)).
Proof.
  unfold target_from_real_photon. rewrite tmul3_app. f_equal.
  rewrite (rat_cos_phi_k _ _ _ _ _ _ _ _ _ _ _ _ _ _ _ _ _ B), (rat_sin_phi_k _ _ _ _ _ _ _ _ _ _ _ _ _ _ _ _ _ B). clear. dv3 v. uvec. comps; ring.
Qed.
(** The photon, the transfer and the hadron seen from the hadron frame. *)
Let h_q' := V3 (- (kk * st * cosd)) (- (kk * st * sind)) (qz - kk * ct).
Let h_ph := V3 pt 0 pl.
Lemma cd_sd : cosd * cosd = 1 - sind * sind.
Proof. unfold KinRadProofs.cosd. pose proof (cs_sq phih). pose proof (cs_sq phik). ring [H H0]. Qed.
Lemma h_q'q' : dot3 h_q' h_q' = SL.
Proof. subst h_q'. pose proof cd_sd as C. unfold KinRadProofs.SL. uvec. ring [C]. Qed.
Lemma h_phq' : dot3 h_ph h_q' = SH.
Proof. subst h_q' h_ph. unfold KinRadProofs.SH. uvec. ring. Qed.
Lemma h_phph : dot3 h_ph h_ph = pt * pt + pl * pl.
Proof. subst h_ph. uvec. ring. Qed.
Lemma shift_rows : 0 < pt -> 0 < SL -> 0 < SHX -> let ez := scale3 (/ sqrt SL) h_q' in
  let ex := scale3 (/ sqrt (SHX / SL)) (sub3 h_ph (scale3 (SH / SL) h_q')) in
  shift_from_hadron r = T3 ex (cross3 ez ex) ez.
Proof.
  intros Hp HL HX ez ex.
  assert (EM : rM r = M) by exact (at_M _ _ _ _ _ _ _ _ _ _ _ _ _ _ _ A).
  assert (EY : rlambda_Y r = 4 * (M * M) * (qz * qz)) by exact (at_lambda_Y _ _ _ _ _ _ _ _ _ _ _ _ _ _ _ A).
  assert (EYs : rlambda_Y_sqrt r = 2 * M * qz) by exact (at_lambda_Y_sqrt _ _ _ _ _ _ _ _ _ _ _ _ _ _ _ A).
  assert (Ept : rph_t r = pt) by exact (at_ph_t _ _ _ _ _ _ _ _ _ _ _ _ _ _ _ A).
  unfold shift_from_hadron. cbv zeta. rewrite EM, EY, EYs, Ept.
  rewrite (rat_R _ _ _ _ _ _ _ _ _ _ _ _ _ _ _ _ _ B), (rat_lambda_H _ _ _ _ _ _ _ _ _ _ _ _ _ _ _ _ _ B), (rat_lambda_V _ _ _ _ _ _ _ _ _ _ _ _ _ _ _ _ _ B),
    (rat_lambda_RY _ _ _ _ _ _ _ _ _ _ _ _ _ _ _ _ _ B), (rat_lambda_RV _ _ _ _ _ _ _ _ _ _ _ _ _ _ _ _ _ B), (rat_vol_phi_hk _ _ _ _ _ _ _ _ _ _ _ _ _ _ _ _ _ B),
    (rat_shift_lambda_Y _ _ _ _ _ _ _ _ _ _ _ _ _ _ _ _ _ B), (rat_shift_lambda_Y_sqrt _ _ _ _ _ _ _ _ _ _ _ _ _ _ _ _ _ B), (rat_shift_ph_t _ _ _ _ _ _ _ _ _ _ _ _ _ _ _ _ _ B HL).
  assert (HSp : 0 < sqrt (SHX / SL)) by (apply sqrt_lt_R0, Rdiv_lt_0_compat; auto).
  assert (HLs : 0 < sqrt SL) by (apply sqrt_lt_R0; auto).
  pose proof (sqrt_sqrt SL (Rlt_le _ _ HL)) as EL.
  set (sp := sqrt (SHX / SL)) in *. set (ls := sqrt SL) in *. clearbody sp ls.
  destruct OK. destruct OKf. pose proof cd_sd as C.
  assert (EST : st * st = 1 - ct * ct) by lra.
  assert (ESH : SH = (qz - kk * ct) * pl - kk * st * pt * cosd) by reflexivity.
  assert (ESL : SL = kk * st * (kk * st) + (qz - kk * ct) * (qz - kk * ct)) by reflexivity.
  subst ez ex h_ph h_q'. clear A B EM EY EYs Ept. revert C ESH. 
  generalize SH. generalize cosd. generalize sind. intros s c h C ESH. revert HL EL ESL. generalize SL. intros L HL EL ESL.
  unfold sq. uvec.
  subst h.
  comps; (field_simplify_eq; [|repeat split; nra]; ring [C EST EL ESL]).
Qed.
Lemma shift_facts : 0 < pt -> 0 < SL -> 0 < SHX ->
  rot3 (shift_from_hadron r) /\ tapp3 (shift_from_hadron r) h_q' = V3 0 0 (sqrt SL) /\
  tapp3 (shift_from_hadron r) h_ph = V3 (sqrt (SHX / SL)) 0 (SH / sqrt SL).
Proof.
  intros Hp HL HX. rewrite shift_rows by auto.
  assert (HSp : 0 < sqrt (SHX / SL)) by (apply sqrt_lt_R0, Rdiv_lt_0_compat; auto).
  assert (HLs : 0 < sqrt SL) by (apply sqrt_lt_R0; auto).
  assert (SP2 : sqrt (SHX / SL) * sqrt (SHX / SL) = SHX / SL) by (apply sqrt_sqrt; left; apply Rdiv_lt_0_compat; auto).
  pose proof (sqrt_sqrt SL (Rlt_le _ _ HL)) as EL.
  pose proof h_q'q' as Q1. pose proof h_phq' as Q2. pose proof h_phph as Q3.
  assert (EX : SHX = SL * (pt * pt + pl * pl) - SH * SH) by reflexivity.
  clear A B. set (sp := sqrt (SHX / SL)) in *. set (ls := sqrt SL) in *. clearbody sp ls h_q' h_ph.
  assert (D1 : dot3 (sub3 h_ph (scale3 (SH / SL) h_q')) h_q' = 0) by (rewrite dot3_sub_l, dot3_scale, Q1, Q2; field; lra).
  assert (D2 : dot3 (sub3 h_ph (scale3 (SH / SL) h_q')) h_ph = sp * sp).
  { rewrite dot3_sub_l, dot3_scale, (dot3_comm h_q'), Q2, Q3, SP2, EX. field. lra. }
  assert (D3 : dot3 (sub3 h_ph (scale3 (SH / SL) h_q')) (sub3 h_ph (scale3 (SH / SL) h_q')) = sp * sp).
  { rewrite dot3_sub_r, dot3_scale_r, D1, D2. ring. }
  set (pp := sub3 h_ph (scale3 (SH / SL) h_q')) in *. assert (EP : h_ph = add3 pp (scale3 (SH / SL) h_q')) by (apply sub_add3).
  clearbody pp. split; [|split].
  - apply rows_rot3_cross; auto.
    + rewrite dot3_scale, dot3_scale_r, D3. field. lra.
    + rewrite dot3_scale, dot3_scale_r, Q1, <- EL. field. lra.
    + rewrite dot3_scale, dot3_scale_r, D1. ring.
  - rewrite tapp3_rows. f_equal.
    + rewrite dot3_scale, D1. ring.
    + apply cross_out1.
    + rewrite dot3_scale, Q1, <- EL. field. lra.
  - rewrite tapp3_rows. f_equal.
    + rewrite dot3_scale, D2. field. lra.
    + rewrite EP. apply cross_out2.
    + rewrite dot3_scale, dot3_comm, Q2. field. lra.
Qed.
End FrameRad.
