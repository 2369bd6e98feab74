(** From field values to invariants of four-momenta. *)
From Coq Require Import Reals Lra Psatz.
From Verif Require Import ExtModel MathModel MathProofs ParticleModel VecModel TransModel VecTac VecProofs TransProofs
  FrameBase KinModel KinEqs KinSpec KinProofs KinRadProofs.
Local Open Scope R_scope.

(** Products in the rest frame. *)
Section Rest.
Variable M : R.
Hypothesis HM : 0 < M.
Let p := V4 M 0 0 0.
Lemma rest_pp : norm_sq4 p = M * M.
Proof. subst p. uvec. ring. Qed.
Lemma rest_M : sqrt (norm_sq4 p) = M.
Proof. rewrite rest_pp. apply sqrt_square. lra. Qed.
Lemma rest_dot a : dot4 p a = M * t4 a.
Proof. subst p. dvars. uvec. ring. Qed.
Lemma rest_sdot a b : sdot p a b = x4 a * x4 b + y4 a * y4 b + z4 a * z4 b.
Proof. unfold sdot. subst p. dvars. uvec. field. lra. Qed.
Lemma rest_gram2 a : gram2 p a = - (M * M) * sdot p a a.
Proof. rewrite rest_sdot. unfold gram2. subst p. dvars. uvec. ring. Qed.
Lemma rest_gram3 a b : gram3 p a b = M * M * (sdot p a a * sdot p b b - sdot p a b * sdot p a b).
Proof. rewrite !rest_sdot. unfold gram3. subst p. dvars. uvec. ring. Qed.
Lemma rest_along a b : along p a b = sdot p a b / sqrt (sdot p b b).
Proof. reflexivity. Qed.
Lemma rest_across a b : 0 < sdot p b b ->
  across p a b = sqrt (sdot p a a * sdot p b b - sdot p a b * sdot p a b) / sqrt (sdot p b b).
Proof.
  intros H. unfold across, along. rewrite <- sqrt_div_alt by auto. f_equal. unfold sq.
  replace (sdot p a b / sqrt (sdot p b b) * (sdot p a b / sqrt (sdot p b b))) with (sdot p a b * sdot p a b / (sqrt (sdot p b b) * sqrt (sdot p b b)))
    by (field; apply Rgt_not_eq, sqrt_lt_R0; auto).
  rewrite sqrt_sqrt by lra. field. lra.
Qed.
Lemma rest_det a b c : det_rows p a b c = M * dot3 (r4 a) (cross3 (r4 b) (r4 c)).
Proof. unfold det_rows. subst p. dvars. uvec. ring. Qed.
End Rest.

Section Ev.
Variables M m mh Mth E ux uz q0 qz Eh pt pl phih phi : R.
Variables kk ct st phik : R.
Local Notation Qs := (qz * qz - q0 * q0).
Local Notation kap := (kap ux uz).
Local Notation SQ := (SQ q0 qz kk ct).
Local Notation SV := (SV q0 qz Eh pt pl phih kk ct st phik).
Local Notation SL := (SL qz kk ct st).
Local Notation SK := (SK ux uz qz kk ct st phik).
Local Notation SH := (SH qz pt pl phih kk ct st phik).
Local Notation SX1 := (SX1 ux uz qz kk ct st phik).
Local Notation SHX := (SHX qz pt pl phih kk ct st phik).
Local Notation SD := (SD ux uz qz pt pl phih kk ct st phik).
Hypothesis OK : ev_ok M m mh E ux uz q0 qz Eh pt pl.
Let p := V4 M 0 0 0.
Let k1 := V4 E ux 0 uz.
Let q := V4 q0 0 0 qz.
Let ph := V4 Eh (pt * cos phih) (pt * sin phih) pl.
Let qs := V4 (q0 - kk) (- (kk * st * cos phik)) (- (kk * st * sin phik)) (qz - kk * ct).

Lemma HMp : 0 < M. Proof. apply OK. Qed.
Lemma sd_k1k1 : sdot p k1 k1 = kap * kap.
Proof. unfold p, k1. rewrite rest_sdot by apply HMp. cbn [x4 y4 z4]. rewrite kap_sq. ring. Qed.
Lemma sd_qq : sdot p q q = qz * qz.
Proof. unfold p, q. rewrite rest_sdot by apply HMp. cbn [x4 y4 z4]. ring. Qed.
Lemma sd_k1q : sdot p k1 q = uz * qz.
Proof. unfold p, q, k1. rewrite rest_sdot by apply HMp. cbn [x4 y4 z4]. ring. Qed.
Lemma sd_phq : sdot p ph q = pl * qz.
Proof. unfold p, q, ph. rewrite rest_sdot by apply HMp. cbn [x4 y4 z4]. ring. Qed.
Lemma sd_phph : sdot p ph ph = pt * pt + pl * pl.
Proof. unfold p, ph. rewrite rest_sdot by apply HMp. cbn [x4 y4 z4]. pose proof (sh_sq phih) as E_3. ring [E_3]. Qed.
Lemma sd_k1ph : sdot p k1 ph = ux * pt * cos phih + uz * pl.
Proof. unfold p, ph, k1. rewrite rest_sdot by apply HMp. cbn [x4 y4 z4]. ring. Qed.
Lemma sd_sym a b : sdot p a b = sdot p b a.
Proof. unfold p. rewrite !rest_sdot by apply HMp. ring. Qed.
Lemma sd_qsqs : sdot p qs qs = SL.
Proof. unfold p, qs, KinRadProofs.SL. rewrite rest_sdot by apply HMp. cbn [x4 y4 z4]. pose proof (sk_sq phik) as E_2. ring [E_2]. Qed.
Lemma sd_k1qs : sdot p k1 qs = SK.
Proof. unfold p, qs, k1, KinRadProofs.SK. rewrite rest_sdot by apply HMp. cbn [x4 y4 z4]. ring. Qed.
Lemma sd_phqs : sdot p ph qs = SH.
Proof. unfold p, qs, ph, KinRadProofs.SH, cosd. rewrite rest_sdot by apply HMp. cbn [x4 y4 z4]. ring. Qed.

Lemma Hkap : 0 < kap. Proof. exact (kap_pos _ _ _ _ _ _ _ _ _ _ _ OK). Qed.
Lemma s_qz : sqrt (qz * qz) = qz. Proof. apply sqrt_square. destruct OK; lra. Qed.
Lemma s_kap : sqrt (kap * kap) = kap. Proof. apply sqrt_square. pose proof Hkap. lra. Qed.
Lemma ac_phq : across p ph q = pt.
Proof.
  unfold p. rewrite rest_across; fold p; rewrite ?sd_phph, ?sd_qq, ?sd_phq; try apply HMp; [|destruct OK; nra].
  rewrite s_qz. rewrite (sqrt_sq_eq _ (pt * qz)); [field; destruct OK; lra|destruct OK; nra|ring].
Qed.
Lemma ac_qk1 : across p q k1 = qz * ux / kap.
Proof.
  unfold p. rewrite rest_across; fold p; rewrite ?sd_k1k1, ?sd_qq, ?(sd_sym q k1), ?sd_k1q; try apply HMp; [|pose proof Hkap; nra].
  rewrite s_kap. rewrite (sqrt_sq_eq _ (qz * ux)); [reflexivity|destruct OK; nra|rewrite kap_sq; ring].
Qed.
Lemma ac_k1q : across p k1 q = ux.
Proof.
  unfold p. rewrite rest_across; fold p; rewrite ?sd_k1k1, ?sd_qq, ?sd_k1q; try apply HMp; [|destruct OK; nra].
  rewrite s_qz. rewrite (sqrt_sq_eq _ (qz * ux)); [field; destruct OK; lra|destruct OK; nra|rewrite kap_sq; ring].
Qed.
Lemma al_phq : along p ph q = pl.
Proof. unfold along. rewrite sd_phq, sd_qq, s_qz. field. destruct OK; lra. Qed.
Lemma al_k1q : along p k1 q = uz.
Proof. unfold along. rewrite sd_k1q, sd_qq, s_qz. field. destruct OK; lra. Qed.
Lemma al_qk1 : along p q k1 = qz * uz / kap.
Proof. unfold along. rewrite sd_sym, sd_k1q, sd_k1k1, s_kap. field. pose proof Hkap; lra. Qed.
Lemma det_q : det_rows p ph k1 q = - M * qz * ux * pt * sin phih.
Proof. unfold p. rewrite rest_det. unfold ph, k1, q. uvec. ring. Qed.
Lemma g3_pk1q : gram3 p k1 q = M * M * (qz * qz) * (ux * ux).
Proof. unfold p. rewrite rest_gram3 by apply HMp. fold p. rewrite sd_k1k1, sd_qq, sd_k1q, kap_sq. ring. Qed.
Lemma g2_pq : gram2 p q = - (M * M) * (qz * qz).
Proof. unfold p. rewrite rest_gram2 by apply HMp. fold p. rewrite sd_qq. ring. Qed.
Lemma g3_pqph : gram3 p q ph = M * M * (qz * qz) * (pt * pt).
Proof. unfold p. rewrite rest_gram3 by apply HMp. fold p. rewrite (sd_sym q ph), sd_phph, sd_qq, sd_phq. ring. Qed.
Lemma v_MM : sqrt (norm_sq4 p) = M.
Proof. unfold p. apply rest_M, HMp. Qed.
Lemma nq : norm_sq4 q = - Qs.
Proof. unfold q. uvec. ring. Qed.
Lemma g2_qph : gram2 q ph = - ((q0 * Eh - qz * pl) * (q0 * Eh - qz * pl) + mh * mh * Qs).
Proof. pose proof (sh_sq phih) as E_3. rewrite (mh_sq _ _ _ _ _ _ _ _ _ _ _ OK). unfold gram2, q, ph. uvec. ring [E_3]. Qed.

Ltac cnd := pose proof Hkap; destruct OK; repeat split; try lra; try nra.
Ltac fld := field; cnd.
Lemma kin_names k : kin_at M m mh Mth E ux uz q0 qz Eh pt pl phih phi k ->
  transfer_names (kin_vals k) p k1 q ph /\ lepton_names k p k1 q ph.
Proof.
  intros A. pose proof (mh_sq _ _ _ _ _ _ _ _ _ _ _ OK) as E_4. pose proof (sh_sq phih) as E_3. pose proof (m_sq _ _ _ _ _ _ _ _ _ _ _ OK) as E_5.
  assert (dpq : dot4 p q = M * q0) by (unfold p, q; uvec; ring).
  assert (dpk : dot4 p k1 = M * E) by (unfold p, k1; uvec; ring).
  assert (dph : dot4 p ph = M * Eh) by (unfold p, ph; uvec; ring).
  assert (dqh : dot4 q ph = q0 * Eh - qz * pl) by (unfold q, ph; uvec; ring).
  assert (np : norm_sq4 p = M * M) by (unfold p; apply rest_pp).
  split; constructor; cbn [kin_vals iQ_sq iQ ix iy iz it iW_sq iS_x iV_m iph_0 ilambda_Y ilambda_1 ilambda_2 ilambda_3 ilambda_Y_sqrt
    ilambda_1_sqrt ilambda_2_sqrt ilambda_3_sqrt imx_sq imx iph_t_sq iph_t iph_l iq_0 iq_t iq_l ik1_t ivol_phi_h iC_1 icos_phi_h isin_phi_h];
    rewrite ?v_MM, ?ac_phq, ?ac_qk1, ?ac_k1q, ?al_phq, ?al_k1q, ?al_qk1, ?det_q, ?g3_pk1q, ?g2_pq, ?g3_pqph, ?nq, ?g2_qph, ?dpq, ?dpk, ?dph, ?dqh, ?np, ?sd_qq, ?sd_k1k1, ?s_qz, ?s_kap, ?sd_k1ph.
  - rewrite (at_Q_sq _ _ _ _ _ _ _ _ _ _ _ _ _ _ _ A). ring.
  - rewrite (at_Q _ _ _ _ _ _ _ _ _ _ _ _ _ _ _ A). f_equal. ring.
  - rewrite (at_x _ _ _ _ _ _ _ _ _ _ _ _ _ _ _ A). fld.
  - rewrite (at_y _ _ _ _ _ _ _ _ _ _ _ _ _ _ _ A). fld.
  - rewrite (at_z _ _ _ _ _ _ _ _ _ _ _ _ _ _ _ A). fld.
  - rewrite (at_t _ _ _ _ _ _ _ _ _ _ _ _ _ _ _ A), E_4. unfold q, ph. uvec. ring [E_3].
  - rewrite (at_W_sq _ _ _ _ _ _ _ _ _ _ _ _ _ _ _ A). unfold q, p. uvec. ring [E_3].
  - rewrite (at_S_x _ _ _ _ _ _ _ _ _ _ _ _ _ _ _ A). ring.
  - rewrite (at_V_m _ _ _ _ _ _ _ _ _ _ _ _ _ _ _ A). ring.
  - rewrite (at_ph_0 _ _ _ _ _ _ _ _ _ _ _ _ _ _ _ A). fld.
  - rewrite (at_lambda_Y _ _ _ _ _ _ _ _ _ _ _ _ _ _ _ A). ring.
  - rewrite (at_lambda_1 _ _ _ _ _ _ _ _ _ _ _ _ _ _ _ A). ring.
  - rewrite (at_lambda_2 _ _ _ _ _ _ _ _ _ _ _ _ _ _ _ A). ring.
  - rewrite (at_lambda_3 _ _ _ _ _ _ _ _ _ _ _ _ _ _ _ A). fld.
  - rewrite (at_lambda_Y_sqrt _ _ _ _ _ _ _ _ _ _ _ _ _ _ _ A). ring.
  - rewrite (at_lambda_1_sqrt _ _ _ _ _ _ _ _ _ _ _ _ _ _ _ A). symmetry. apply sqrt_sq_eq; [|ring]. destruct OK. assert (0 < M * qz) by nra. nra.
  - rewrite (at_lambda_2_sqrt _ _ _ _ _ _ _ _ _ _ _ _ _ _ _ A). f_equal. ring.
  - rewrite (at_lambda_3_sqrt _ _ _ _ _ _ _ _ _ _ _ _ _ _ _ A). f_equal. fld.
  - rewrite (at_mx_sq _ _ _ _ _ _ _ _ _ _ _ _ _ _ _ A). unfold q, p, ph. uvec. ring [E_3].
  - rewrite (at_mx _ _ _ _ _ _ _ _ _ _ _ _ _ _ _ A). f_equal. unfold q, p, ph. uvec. ring [E_3].
  - rewrite (at_ph_t_sq _ _ _ _ _ _ _ _ _ _ _ _ _ _ _ A). fld.
  - apply (at_ph_t _ _ _ _ _ _ _ _ _ _ _ _ _ _ _ A).
  - apply (at_ph_l _ _ _ _ _ _ _ _ _ _ _ _ _ _ _ A).
  - rewrite (at_q_0 _ _ _ _ _ _ _ _ _ _ _ _ _ _ _ A). fld.
  - apply (at_q_t _ _ _ _ _ _ _ _ _ _ _ _ _ _ _ A).
  - apply (at_q_l _ _ _ _ _ _ _ _ _ _ _ _ _ _ _ A).
  - apply (at_k1_t _ _ _ _ _ _ _ _ _ _ _ _ _ _ _ A).
  - apply (at_vol_phi_h _ _ _ _ _ _ _ _ _ _ _ _ _ _ _ A).
  - rewrite (at_C_1 _ _ _ _ _ _ _ _ _ _ _ _ _ _ _ A). unfold sq. fld.
  - intros _ _. rewrite (at_cos_phi_h _ _ _ _ _ _ _ _ _ _ _ _ _ _ _ A). ring.
  - intros _ _. rewrite (at_sin_phi_h _ _ _ _ _ _ _ _ _ _ _ _ _ _ _ A). ring.
  - rewrite (at_S _ _ _ _ _ _ _ _ _ _ _ _ _ _ _ A). ring.
  - apply (at_M _ _ _ _ _ _ _ _ _ _ _ _ _ _ _ A).
  - rewrite (at_m _ _ _ _ _ _ _ _ _ _ _ _ _ _ _ A). symmetry. apply sqrt_sq_eq; [destruct OK; lra|]. rewrite E_5. unfold k1. uvec. ring.
  - rewrite (at_m _ _ _ _ _ _ _ _ _ _ _ _ _ _ _ A). symmetry. apply sqrt_sq_eq; [destruct OK; lra|]. rewrite E_5. pose proof (Huz _ _ _ _ _ _ _ _ _ _ _ OK) as Hz.
    unfold k1, q. uvec. transitivity (E * E - ux * ux - uz * uz + (q0 * q0 - qz * qz) - 2 * E * q0 + 2 * uz * qz); [ring|rewrite Hz; ring].
  - rewrite (at_mh _ _ _ _ _ _ _ _ _ _ _ _ _ _ _ A). symmetry. apply sqrt_sq_eq; [destruct OK; lra|]. rewrite E_4. unfold ph. uvec. ring [E_3].
  - rewrite (at_X _ _ _ _ _ _ _ _ _ _ _ _ _ _ _ A). unfold k1, q, p. uvec. ring.
  - rewrite (at_S_p _ _ _ _ _ _ _ _ _ _ _ _ _ _ _ A). unfold k1, q, p. uvec. ring.
  - rewrite (at_V_1 _ _ _ _ _ _ _ _ _ _ _ _ _ _ _ A). unfold k1, ph. uvec. ring.
  - rewrite (at_V_2 _ _ _ _ _ _ _ _ _ _ _ _ _ _ _ A). unfold k1, q, ph. uvec. ring.
  - rewrite (at_V_p _ _ _ _ _ _ _ _ _ _ _ _ _ _ _ A). unfold k1, q, ph. uvec. ring.
  - rewrite (at_lambda_S _ _ _ _ _ _ _ _ _ _ _ _ _ _ _ A). unfold gram2, k1, p. uvec. ring.
  - rewrite (at_lambda_X _ _ _ _ _ _ _ _ _ _ _ _ _ _ _ A). unfold gram2, k1, p, q. uvec. ring.
  - rewrite (at_lambda_S_sqrt _ _ _ _ _ _ _ _ _ _ _ _ _ _ _ A). ring.
  - rewrite (at_lambda_X_sqrt _ _ _ _ _ _ _ _ _ _ _ _ _ _ _ A). do 2 f_equal. unfold p. rewrite rest_sdot by apply HMp. unfold k1, q. uvec. ring.
  - rewrite (at_k2_0 _ _ _ _ _ _ _ _ _ _ _ _ _ _ _ A). unfold k1, q, p. uvec. fld.
  - rewrite (at_k2_t _ _ _ _ _ _ _ _ _ _ _ _ _ _ _ A). unfold p. rewrite rest_across; fold p; rewrite ?sd_k1k1; try apply HMp; [|pose proof Hkap; nra].
    rewrite s_kap. f_equal. symmetry. apply sqrt_sq_eq; [destruct OK; nra|].
    unfold p. rewrite !rest_sdot by apply HMp. unfold k1, q. uvec. rewrite kap_sq. ring.
  - rewrite (at_k2_l _ _ _ _ _ _ _ _ _ _ _ _ _ _ _ A). unfold along. rewrite sd_k1k1, s_kap. f_equal. unfold p. rewrite rest_sdot by apply HMp.
    unfold k1, q. uvec. ring.
  - rewrite (at_cos_phi _ _ _ _ _ _ _ _ _ _ _ _ _ _ _ A), (at_sin_phi _ _ _ _ _ _ _ _ _ _ _ _ _ _ _ A), (at_cos_phi_h _ _ _ _ _ _ _ _ _ _ _ _ _ _ _ A), (at_sin_phi_h _ _ _ _ _ _ _ _ _ _ _ _ _ _ _ A), (at_phi _ _ _ _ _ _ _ _ _ _ _ _ _ _ _ A), (at_phi_h _ _ _ _ _ _ _ _ _ _ _ _ _ _ _ A). repeat split.
Qed.

Hypothesis OKf : ph_ok kk ct st.
Lemma SL_pos : kk < q0 -> 0 < SL.
Proof.
  intros H. unfold KinRadProofs.SL. pose proof (Rle_0_sqr (kk * st)) as H1. unfold Rsqr in H1.
  assert (0 < qz - kk * ct).
  { destruct OK, OKf. assert (ct <= 1) by nra. assert (q0 < qz) by nra. assert (kk * ct <= kk) by nra. lra. }
  nra.
Qed.
Lemma sd_qsk1 : sdot p qs k1 = SK. Proof. rewrite sd_sym. apply sd_k1qs. Qed.
Lemma sd_qsph : sdot p qs ph = SH. Proof. rewrite sd_sym. apply sd_phqs. Qed.
Lemma X1_a : SL * (kap * kap) - SK * SK = SX1.
Proof. unfold KinRadProofs.SX1. rewrite kap_sq. reflexivity. Qed.
Lemma ac_qsk1 : across p qs k1 = sqrt SX1 / kap.
Proof.
  unfold p. rewrite rest_across; fold p; rewrite ?sd_k1k1, ?sd_qsqs, ?sd_qsk1; try apply HMp; [|pose proof Hkap; nra].
  rewrite s_kap, X1_a. reflexivity.
Qed.
Lemma ac_k1qs : 0 < SL -> across p k1 qs = sqrt SX1 / sqrt SL.
Proof.
  intros H. unfold p. rewrite rest_across; fold p; rewrite ?sd_k1k1, ?sd_qsqs, ?sd_k1qs; try apply HMp; [|auto].
  rewrite <- X1_a. do 2 f_equal. ring.
Qed.
Lemma ac_phqs : 0 < SL -> across p ph qs = sqrt (SHX / SL).
Proof.
  intros H. unfold p. rewrite rest_across; fold p; rewrite ?sd_phph, ?sd_qsqs, ?sd_phqs; try apply HMp; [|auto].
  rewrite <- sqrt_div_alt by auto. do 2 f_equal. unfold KinRadProofs.SHX. ring.
Qed.
Lemma al_phqs : along p ph qs = SH / sqrt SL.
Proof. unfold along. rewrite sd_phqs, sd_qsqs. reflexivity. Qed.
Lemma al_k1qs : along p k1 qs = SK / sqrt SL.
Proof. unfold along. rewrite sd_k1qs, sd_qsqs. reflexivity. Qed.
Lemma al_qsk1 : along p qs k1 = SK / kap.
Proof. unfold along. rewrite sd_qsk1, sd_k1k1, s_kap. reflexivity. Qed.
Lemma det_qs : det_rows p ph k1 qs = M * SD.
Proof. unfold p. rewrite rest_det. unfold ph, k1, qs, KinRadProofs.SD. uvec. ring. Qed.
Lemma g3_pk1qs : gram3 p k1 qs = M * M * SX1.
Proof. unfold p. rewrite rest_gram3 by apply HMp. fold p. rewrite sd_k1k1, sd_qsqs, sd_k1qs, <- X1_a. ring. Qed.
Lemma g2_pqs : gram2 p qs = - (M * M) * SL.
Proof. unfold p. rewrite rest_gram2 by apply HMp. fold p. rewrite sd_qsqs. ring. Qed.
Lemma g3_pqsph : gram3 p qs ph = M * M * SHX.
Proof. unfold p. rewrite rest_gram3 by apply HMp. fold p. rewrite sd_phph, sd_qsqs, sd_qsph. unfold KinRadProofs.SHX. ring. Qed.
Lemma nqs : norm_sq4 qs = - SQ.
Proof.
  pose proof (st_sq _ _ _ OKf) as E_1. pose proof (sk_sq phik) as E_2. unfold qs, KinRadProofs.SQ. uvec. ring [E_1 E_2].
Qed.
Lemma SQ_pos : kk < q0 -> 0 < SQ.
Proof.
  intros H. unfold KinRadProofs.SQ. destruct OK, OKf. assert (q0 < qz) by nra. assert (-1 <= ct <= 1) by nra.
  assert (0 < (qz + q0 - 2 * kk) * (qz - q0)) by (apply Rmult_lt_0_compat; lra).
  assert (0 <= kk * qz * (1 - ct)) by (apply Rmult_le_pos; [apply Rmult_le_pos|]; lra).
  nra.
Qed.
Lemma X1_nn : 0 <= SX1.
Proof. exact (SX1_nn _ _ _ phih _ _ _ _ OKf). Qed.
Lemma dqsh : dot4 qs ph = SV.
Proof. unfold qs, ph, KinRadProofs.SV, cosd. uvec. ring. Qed.
Lemma g2_qsph : gram2 qs ph = - (SV * SV + mh * mh * SQ).
Proof.
  pose proof (sh_sq phih) as E_3. unfold gram2. rewrite dqsh. change (dot4 qs qs) with (norm_sq4 qs). rewrite nqs.
  rewrite (mh_sq _ _ _ _ _ _ _ _ _ _ _ OK). unfold ph. uvec. ring [E_3].
Qed.

Variable r : kinrad.
Hypothesis A : kin_at M m mh Mth E ux uz q0 qz Eh pt pl phih phi (project r).
Hypothesis K : rad_eqs r.
Hypothesis B : rad_at M mh E ux uz q0 qz Eh pt pl phih phi kk ct st phik r.
Lemma shift_names : kk < q0 -> transfer_names (shift_vals r) p k1 qs ph.
Proof.
  intros Hk. pose proof (SL_pos Hk) as HL. pose proof (sqrt_lt_R0 _ HL) as HsL. pose proof (SQ_pos Hk) as HQ. pose proof X1_nn as HX1.
  pose proof (mh_sq _ _ _ _ _ _ _ _ _ _ _ OK) as E_4. pose proof (sh_sq phih) as E_3. pose proof (m_sq _ _ _ _ _ _ _ _ _ _ _ OK) as E_5.
  pose proof (st_sq _ _ _ OKf) as E_1. pose proof (sk_sq phik) as E_2.
  assert (dpq : dot4 p qs = M * (q0 - kk)) by (unfold p, qs; uvec; ring).
  assert (dpk : dot4 p k1 = M * E) by (unfold p, k1; uvec; ring).
  assert (dph : dot4 p ph = M * Eh) by (unfold p, ph; uvec; ring).
  assert (np : norm_sq4 p = M * M) by (unfold p; apply rest_pp).
  constructor; cbn [shift_vals iQ_sq iQ ix iy iz it iW_sq iS_x iV_m iph_0 ilambda_Y ilambda_1 ilambda_2 ilambda_3 ilambda_Y_sqrt
    ilambda_1_sqrt ilambda_2_sqrt ilambda_3_sqrt imx_sq imx iph_t_sq iph_t iph_l iq_0 iq_t iq_l ik1_t ivol_phi_h iC_1 icos_phi_h isin_phi_h];
    rewrite ?v_MM, ?(ac_phqs HL), ?ac_qsk1, ?(ac_k1qs HL), ?al_phqs, ?al_k1qs, ?al_qsk1, ?det_qs, ?g3_pk1qs, ?g2_pqs, ?g3_pqsph, ?nqs, ?g2_qsph, ?dpq, ?dpk, ?dph, ?dqsh, ?np, ?sd_qsqs, ?sd_k1k1, ?s_kap, ?sd_k1ph.
  - rewrite (rat_shift_Q_sq _ _ _ _ _ _ _ _ _ _ _ _ _ _ _ _ _ B). ring.
  - rewrite (rat_shift_Q _ _ _ _ _ _ _ _ _ _ _ _ _ _ _ _ _ B). f_equal. ring.
  - rewrite (rat_shift_x _ _ _ _ _ _ _ _ _ _ _ _ _ _ _ _ _ B) by auto. fld.
  - rewrite (rat_shift_y _ _ _ _ _ _ _ _ _ _ _ _ _ _ _ _ _ B). fld.
  - rewrite (rat_shift_z _ _ _ _ _ _ _ _ _ _ _ _ _ _ _ _ _ B) by auto. fld.
  - rewrite (rat_shift_t _ _ _ _ _ _ _ _ _ _ _ _ _ _ _ _ _ B), E_4. rewrite <- dqsh. replace SQ with (- norm_sq4 qs) by (rewrite nqs; ring). unfold qs, ph. uvec. ring [E_3].
  - rewrite (rat_shift_W_sq _ _ _ _ _ _ _ _ _ _ _ _ _ _ _ _ _ B). replace SQ with (- norm_sq4 qs) by (rewrite nqs; ring). unfold qs, p. uvec. ring.
  - rewrite (rat_shift_S_x _ _ _ _ _ _ _ _ _ _ _ _ _ _ _ _ _ B). ring.
  - rewrite (rat_shift_V_m _ _ _ _ _ _ _ _ _ _ _ _ _ _ _ _ _ B). ring.
  - change (rph_0 r) with (kph_0 (project r)). rewrite (at_ph_0 _ _ _ _ _ _ _ _ _ _ _ _ _ _ _ A). fld.
  - rewrite (rat_shift_lambda_Y _ _ _ _ _ _ _ _ _ _ _ _ _ _ _ _ _ B). ring.
  - rewrite (rat_shift_lambda_1 _ _ _ _ _ _ _ _ _ _ _ _ _ _ _ _ _ B). ring.
  - rewrite (rat_shift_lambda_2 _ _ _ _ _ _ _ _ _ _ _ _ _ _ _ _ _ B). ring.
  - rewrite (rat_shift_lambda_3 _ _ _ _ _ _ _ _ _ _ _ _ _ _ _ _ _ B) by auto. fld.
  - rewrite (rat_shift_lambda_Y_sqrt _ _ _ _ _ _ _ _ _ _ _ _ _ _ _ _ _ B). ring.
  - rewrite (rat_shift_lambda_1_sqrt _ _ _ _ _ _ _ _ _ _ _ _ _ _ _ _ _ B). symmetry. apply sqrt_sq_eq; [pose proof (sqrt_pos SX1); destruct OK; nra|].
    transitivity (4 * (M * M) * (sqrt SX1 * sqrt SX1)); [rewrite sqrt_sqrt by auto|]; ring.
  - rewrite (rat_shift_lambda_2_sqrt _ _ _ _ _ _ _ _ _ _ _ _ _ _ _ _ _ B). f_equal. ring.
  - rewrite (rat_shift_lambda_3_sqrt _ _ _ _ _ _ _ _ _ _ _ _ _ _ _ _ _ B) by auto. f_equal. fld.
  - rewrite (rat_shift_mx_sq _ _ _ _ _ _ _ _ _ _ _ _ _ _ _ _ _ B). unfold qs, p, ph. uvec. ring.
  - rewrite (rat_shift_mx _ _ _ _ _ _ _ _ _ _ _ _ _ _ _ _ _ B). f_equal. unfold qs, p, ph. uvec. ring.
  - rewrite (rat_shift_ph_t_sq _ _ _ _ _ _ _ _ _ _ _ _ _ _ _ _ _ B) by auto. fld.
  - exact (rat_shift_ph_t _ _ _ _ _ _ _ _ _ _ _ _ _ _ _ _ _ B HL).
  - exact (rat_shift_ph_l _ _ _ _ _ _ _ _ _ _ _ _ _ _ _ _ _ B HL).
  - rewrite (rat_shift_q_0 _ _ _ _ _ _ _ _ _ _ _ _ _ _ _ _ _ B). fld.
  - exact (rat_shift_q_t _ _ _ _ _ _ _ _ _ _ _ _ _ _ _ _ _ B).
  - exact (rat_shift_q_l _ _ _ _ _ _ _ _ _ _ _ _ _ _ _ _ _ B).
  - exact (rat_shift_k1_t _ _ _ _ _ _ _ _ _ _ _ _ _ _ _ _ _ B HL).
  - exact (rat_shift_vol_phi_h _ _ _ _ _ _ _ _ _ _ _ _ _ _ _ _ _ B).
  - rewrite (re_shift_C_1 _ K), (rat_shift_ph_l _ _ _ _ _ _ _ _ _ _ _ _ _ _ _ _ _ B HL), (rat_shift_Q_sq _ _ _ _ _ _ _ _ _ _ _ _ _ _ _ _ _ B), (rat_shift_x _ _ _ _ _ _ _ _ _ _ _ _ _ _ _ _ _ B Hk).
    change (rM r) with (kM (project r)). rewrite (at_M _ _ _ _ _ _ _ _ _ _ _ _ _ _ _ A). unfold sq. fld.
  - intros H1 H2. assert (HX : 0 < SHX). { destruct (Rle_lt_dec SHX 0) as [Hx|]; auto. exfalso.
      assert (SHX / SL <= 0). { apply Rmult_le_reg_r with SL; auto. unfold Rdiv. rewrite Rmult_assoc, Rinv_l by lra. lra. }
      rewrite sqrt_neg_0 in H1 by auto. lra. }
    assert (HX' : 0 < SX1). { destruct HX1 as [|Hx]; auto. exfalso. rewrite <- Hx, sqrt_0 in H2. unfold Rdiv in H2. lra. }
    rewrite (rat_shift_cos_phi_h _ _ _ _ _ _ _ _ _ _ _ _ _ _ _ _ _ B HL HX HX'). pose proof (sqrt_lt_R0 _ HX').
    replace (SH / sqrt SL) with (SH * sqrt SL / SL). 2:{ apply Rmult_eq_reg_r with (sqrt SL); [|lra]. unfold Rdiv.
      rewrite !Rmult_assoc, Rinv_l, Rmult_1_r by lra. rewrite (Rmult_comm (/ SL)), <- (Rmult_assoc (sqrt SL)), sqrt_sqrt by lra. field. lra. }
    transitivity ((SL * (ux * pt * cos phih + uz * pl) - SH * SK) / (sqrt SL * sqrt SL)); [fld|]. rewrite sqrt_sqrt by lra. fld.
  - intros H1 H2. assert (HX : 0 < SHX). { destruct (Rle_lt_dec SHX 0) as [Hx|]; auto. exfalso.
      assert (SHX / SL <= 0). { apply Rmult_le_reg_r with SL; auto. unfold Rdiv. rewrite Rmult_assoc, Rinv_l by lra. lra. }
      rewrite sqrt_neg_0 in H1 by auto. lra. }
    assert (HX' : 0 < SX1). { destruct HX1 as [|Hx]; auto. exfalso. rewrite <- Hx, sqrt_0 in H2. unfold Rdiv in H2. lra. }
    rewrite (rat_shift_sin_phi_h _ _ _ _ _ _ _ _ _ _ _ _ _ _ _ _ _ B HL HX HX'). pose proof (sqrt_lt_R0 _ HX'). fld.
Qed.

Let n := V4 1 (st * cos phik) (st * sin phik) ct.
Let k := scale4 kk n.
Lemma sd_kq : sdot p k q = kk * ct * qz.
Proof. unfold p, q, k, n. rewrite rest_sdot by apply HMp. uvec. ring. Qed.
Lemma sd_kk : sdot p k k = kk * kk.
Proof.
  pose proof (st_sq _ _ _ OKf) as E_1. pose proof (sk_sq phik) as E_2.
  unfold p, k, n. rewrite rest_sdot by apply HMp. uvec. ring [E_1 E_2].
Qed.
Lemma photon_names_ok : photon_names r p k1 q ph k n.
Proof.
  pose proof (st_sq _ _ _ OKf) as E_1. pose proof (sk_sq phik) as E_2. pose proof (sh_sq phih) as E_3.
  pose proof (m_sq _ _ _ _ _ _ _ _ _ _ _ OK) as E_5. pose proof (mh_sq _ _ _ _ _ _ _ _ _ _ _ OK) as E_4.
  assert (dnp : dot4 n p = M) by (unfold n, p; uvec; ring).
  assert (dnk : dot4 n k1 = E - uz * ct - ux * st * cos phik) by (unfold n, k1; uvec; ring).
  assert (dnk2 : dot4 n (sub4 k1 q) = E - q0 - (uz - qz) * ct - ux * st * cos phik) by (unfold n, k1, q; uvec; ring).
  constructor; rewrite ?dnp, ?dnk, ?dnk2, ?v_MM.
  - unfold k, n. uvec. ring [E_1 E_2].
  - rewrite (rat_R _ _ _ _ _ _ _ _ _ _ _ _ _ _ _ _ _ B). unfold k, n, p. uvec. ring.
  - rewrite (rat_tau _ _ _ _ _ _ _ _ _ _ _ _ _ _ _ _ _ B). unfold n, q. uvec. fld.
  - rewrite (rat_mu _ _ _ _ _ _ _ _ _ _ _ _ _ _ _ _ _ B). unfold n, ph, cosd. uvec. fld.
  - apply (rat_z_1 _ _ _ _ _ _ _ _ _ _ _ _ _ _ _ _ _ B).
  - apply (rat_z_2 _ _ _ _ _ _ _ _ _ _ _ _ _ _ _ _ _ B).
  - rewrite (rat_k_0 _ _ _ _ _ _ _ _ _ _ _ _ _ _ _ _ _ B). unfold k, n, p. uvec. fld.
  - rewrite (rat_k_t _ _ _ _ _ _ _ _ _ _ _ _ _ _ _ _ _ B). unfold p. rewrite rest_across; fold p; rewrite ?sd_kk, ?sd_kq, ?sd_qq; try apply HMp; [|destruct OK; nra].
    rewrite s_qz. rewrite (sqrt_sq_eq _ (kk * st * qz)); [fld| |ring [E_1]]. destruct OK, OKf. apply Rmult_le_pos; [apply Rmult_le_pos|]; lra.
  - rewrite (rat_k_l _ _ _ _ _ _ _ _ _ _ _ _ _ _ _ _ _ B). unfold along. rewrite sd_kq, sd_qq, s_qz. fld.
  - rewrite (rat_k_0_bar _ _ _ _ _ _ _ _ _ _ _ _ _ _ _ _ _ B). f_equal; [|f_equal]; unfold k, n, p, q, ph, cosd; uvec; ring [E_3].
  - rewrite (rat_lambda_RY _ _ _ _ _ _ _ _ _ _ _ _ _ _ _ _ _ B). unfold k, n, p, q. uvec. ring.
  - rewrite (rat_lambda_RV _ _ _ _ _ _ _ _ _ _ _ _ _ _ _ _ _ B). unfold k, n, p, ph, cosd. uvec. ring.
  - rewrite (rat_lambda_H _ _ _ _ _ _ _ _ _ _ _ _ _ _ _ _ _ B). unfold gram2, p, ph. uvec. ring [E_3].
  - rewrite (rat_lambda_V _ _ _ _ _ _ _ _ _ _ _ _ _ _ _ _ _ B). unfold p, q, ph. uvec. ring.
  - rewrite (rat_vol_phi_k_R _ _ _ _ _ _ _ _ _ _ _ _ _ _ _ _ _ B), (rat_R _ _ _ _ _ _ _ _ _ _ _ _ _ _ _ _ _ B). unfold p. rewrite rest_det. unfold k, n, k1, q. uvec. fld.
  - rewrite (rat_vol_phi_hk _ _ _ _ _ _ _ _ _ _ _ _ _ _ _ _ _ B). unfold p. rewrite rest_det. unfold k, n, ph, q. uvec. ring.
  - intros Hz1 Hz2. rewrite (re_F_IR _ K), (re_F_2p _ K), (re_F_22 _ K), (re_F_21 _ K), (re_F_d _ K), (rat_z_1 _ _ _ _ _ _ _ _ _ _ _ _ _ _ _ _ _ B), (rat_z_2 _ _ _ _ _ _ _ _ _ _ _ _ _ _ _ _ _ B).
    change (rm r) with (km (project r)). change (rQ_sq r) with (kQ_sq (project r)).
    rewrite (at_m _ _ _ _ _ _ _ _ _ _ _ _ _ _ _ A), (at_Q_sq _ _ _ _ _ _ _ _ _ _ _ _ _ _ _ A).
    set (a := E - uz * ct - ux * st * cos phik) in *. set (b := E - q0 - (uz - qz) * ct - ux * st * cos phik) in *.
    pose proof (Huz _ _ _ _ _ _ _ _ _ _ _ OK) as Hz. unfold sq.
    transitivity (M * M * (m * m * (/ a * / a + / b * / b) - (Qs + 2 * (m * m)) * (/ a * / b))).
    { rewrite E_5. fld. }
    rewrite E_5. unfold k1, q. uvec. unfold Rdiv. generalize (/ a) (/ b). clear - Hz. intros x y.
    transitivity (M * M * ((E * E - ux * ux - uz * uz) * (x * x) + (E * E - ux * ux - uz * uz + (q0 * q0 - qz * qz) - 2 * E * q0 + 2 * uz * qz) * (y * y)
      - (2 * (E * E - ux * ux - uz * uz) - 2 * E * q0 + 2 * uz * qz) * (x * y))).
    + rewrite Hz. ring.
    + ring.
Qed.
End Ev.
