From Coq Require Import Reals Bool Lra Psatz.
From Verif Require Import ExtModel BoundModel BoundSpec BoundProofs MathModel MathProofs MapModel ParticleModel FrameBase KinModel KinEqs CutModel CutSpec.
Local Open Scope R_scope.

(** * Real inequalities *)
Lemma sqrt_sq_id a : 0 <= a -> sqrt a * sqrt a = a.
Proof. apply sqrt_sqrt. Qed.
Lemma sq_le_abs a b : 0 <= b -> a * a <= b * b -> a <= b /\ - a <= b.
Proof. intros. split; nra. Qed.
Lemma sq_mono a b : 0 <= a -> a <= b -> a * a <= b * b.
Proof. intros. nra. Qed.

(** Reversed triangle inequality for the recoil and the hadron. *)
Lemma threshold E P Eh pl pt2 mh Mth : 0 <= mh -> 0 <= Mth -> 0 <= pt2 -> 0 <= E - Eh -> 0 <= Eh ->
  Eh * Eh = mh * mh + pl * pl + pt2 -> Mth * Mth <= (E - Eh) * (E - Eh) - (P - pl) * (P - pl) - pt2 ->
  (Mth + mh) * (Mth + mh) <= E * E - P * P.
Proof.
  intros Hm Ht Hp HE Hh H1 H2. set (A := E - Eh) in *. set (u := P - pl) in *.
  set (pt := sqrt pt2). assert (Ept : pt * pt = pt2) by (apply sqrt_sqrt; auto).
  assert (Mth * mh + (u * pl - pt2) <= A * Eh).
  { apply sq_le_abs; [nra|].
    assert (S1 : 0 <= (Mth * pl - mh * u) * (Mth * pl - mh * u) + (Mth * pt + mh * pt) * (Mth * pt + mh * pt) + (u * pt + pt * pl) * (u * pt + pt * pl)).
    { pose proof (Rle_0_sqr (Mth * pl - mh * u)). pose proof (Rle_0_sqr (Mth * pt + mh * pt)). pose proof (Rle_0_sqr (u * pt + pt * pl)). unfold Rsqr in *. lra. }
    assert (S2 : (Mth * Mth + u * u + pt2) * (mh * mh + pl * pl + pt2) <= (A * A) * (Eh * Eh)).
    { rewrite H1. apply Rmult_le_compat_r; [nra|lra]. }
    rewrite <- Ept in *. nra. }
  replace E with (A + Eh) by (unfold A; ring). replace P with (u + pl) by (unfold u; ring). nra.
Qed.

(** * Momenta in terms of the fields *)
Section Point.
Variables (ps : parts) (S : R) (sp : phase_space).
Local Notation k := (make_kin ps S sp).
Local Notation M := (a_M ps).
Local Notation q0 := (q0_of ps S sp).
Local Notation qn := (qn_of ps S sp).
Local Notation Eh := (Eh_of ps S sp).
Local Notation pl := (pl_of ps S sp).
Hypothesis HM : 0 < a_M ps.

Lemma f_ph_0 : kph_0 k = Eh.
Proof. transitivity ((s_z sp * (S * s_y sp)) / (2 * M)); [reflexivity|]. unfold Eh_of, q0_of. field. lra. Qed.
Lemma f_Sx : kS_x k = 2 * M * q0.
Proof. transitivity (S * s_y sp); [reflexivity|]. unfold q0_of. field. lra. Qed.
Lemma f_Sx' : S * s_y sp = 2 * M * q0.
Proof. unfold q0_of. field. lra. Qed.
Lemma qn_sq : 0 <= S * s_x sp * s_y sp -> qn * qn = q0 * q0 + S * s_x sp * s_y sp.
Proof. intros H. unfold qn_of. rewrite sqrt_sqrt; [unfold sq; ring|]. unfold sq. nra. Qed.
Lemma f_lambda_Y : 0 <= S * s_x sp * s_y sp -> klambda_Y k = sq (2 * M * qn).
Proof.
  intros H. transitivity (sq (S * s_y sp) + 4 * sq M * (S * s_x sp * s_y sp)); [reflexivity|].
  rewrite f_Sx'. unfold sq. replace (2 * M * qn * (2 * M * qn)) with (4 * M * M * (qn * qn)) by ring. rewrite qn_sq by auto. ring.
Qed.
Lemma f_lambda_Y_sqrt : 0 <= S * s_x sp * s_y sp -> klambda_Y_sqrt k = 2 * M * qn.
Proof.
  intros H. transitivity (sqrt (klambda_Y k)); [reflexivity|]. rewrite f_lambda_Y by auto. unfold sq. apply sqrt_square.
  assert (0 <= qn) by apply sqrt_pos. nra.
Qed.
Lemma f_ratio : 0 < Eh -> 1 - (s_ph_t_sq sp / sq Eh + sq (a_mh ps / Eh)) = (sq Eh - sq (a_mh ps) - s_ph_t_sq sp) / sq Eh.
Proof. intros H. unfold sq. field. lra. Qed.
Lemma f_ph_l : 0 < Eh -> s_ph_t_sq sp + sq (a_mh ps) <= sq Eh -> kph_l k = pl.
Proof.
  intros H1 H2. transitivity (kph_0 k * sqrt (1 - (s_ph_t_sq sp / sq (kph_0 k) + sq (a_mh ps / kph_0 k)))); [reflexivity|].
  rewrite f_ph_0, f_ratio by auto. unfold pl_of. rewrite sqrt_div_alt by (unfold sq; nra).
  replace (sqrt (sq Eh)) with Eh by (unfold sq; rewrite sqrt_square; lra). field. lra.
Qed.
Lemma f_V_m : 0 < q0 -> 0 < Eh -> 0 <= S * s_x sp * s_y sp -> s_ph_t_sq sp + sq (a_mh ps) <= sq Eh ->
  kV_m k = q0 * Eh - qn * pl.
Proof.
  intros Hq H1 H0 H2. rewrite (ke_V_m _ (make_kin_eqs ps S sp)). rewrite f_ph_0, f_Sx.
  change (kM k) with M. change (kmh k) with (a_mh ps). change (kph_t_sq k) with (s_ph_t_sq sp). change (kQ_sq k) with (S * s_x sp * s_y sp).
  set (Q2 := S * s_x sp * s_y sp) in *.
  assert (Epl : pl * pl = sq Eh - sq (a_mh ps) - s_ph_t_sq sp) by (unfold pl_of; apply sqrt_sqrt; lra).
  assert (Ppl : 0 <= pl) by apply sqrt_pos. assert (Pqn : 0 <= qn) by apply sqrt_pos.
  match goal with |- context [sqrt1p_1m ?a] => assert (Ha : 1 + a = (qn * pl / (q0 * Eh)) * (qn * pl / (q0 * Eh))) end.
  { replace (qn * pl / (q0 * Eh) * (qn * pl / (q0 * Eh))) with ((qn * qn) * (pl * pl) / (q0 * q0 * (Eh * Eh))) by (field; lra).
    rewrite Epl, (qn_sq H0). fold Q2. unfold sq. field. repeat split; lra. }
  assert (Pr : 0 <= qn * pl / (q0 * Eh)).
  { apply Rmult_le_pos; [nra|]. apply Rlt_le, Rinv_0_lt_compat. nra. }
  rewrite sqrt1p_1m_eq, Ha by (pose proof (Rle_0_sqr (qn * pl / (q0 * Eh))) as Z; unfold Rsqr in Z; lra).
  rewrite sqrt_square by auto. field. repeat split; lra.
Qed.
Lemma f_mx_sq : 0 < q0 -> 0 < Eh -> 0 <= S * s_x sp * s_y sp -> s_ph_t_sq sp + sq (a_mh ps) <= sq Eh ->
  kmx_sq k = missing_sq ps S sp /\
  missing_sq ps S sp = (q0 + M) * (q0 + M) - qn * qn + sq (a_mh ps) - 2 * (q0 + M) * Eh + 2 * qn * pl.
Proof.
  intros Hq H1 H0 H2.
  assert (Epl : pl * pl = sq Eh - sq (a_mh ps) - s_ph_t_sq sp) by (unfold pl_of; apply sqrt_sqrt; lra).
  assert (EE : missing_sq ps S sp = (q0 + M) * (q0 + M) - qn * qn + sq (a_mh ps) - 2 * (q0 + M) * Eh + 2 * qn * pl).
  { unfold missing_sq, sq in *. replace ((qn - pl) * (qn - pl)) with (qn * qn - 2 * qn * pl + pl * pl) by ring. rewrite Epl. ring. }
  split; [|exact EE]. rewrite EE, (ke_mx_sq _ (make_kin_eqs ps S sp)), (ke_t _ (make_kin_eqs ps S sp)), (f_V_m Hq H1 H0 H2), f_Sx, (qn_sq H0).
  change (kM k) with M. change (kmh k) with (a_mh ps). change (kQ_sq k) with (S * s_x sp * s_y sp). change (kz k) with (s_z sp).
  unfold Eh_of. unfold sq. ring.
Qed.
End Point.

(** * Reading the checks *)
Lemma esqrt_fin a : 0 <= a -> esqrt (Fin a) = Fin (sqrt a).
Proof. intros. unfold esqrt. replace (rltb a 0) with false by (symmetry; apply rltb_false; lra). auto. Qed.
Lemma esqrt_neg a : a < 0 -> esqrt (Fin a) = NaN.
Proof. intros. unfold esqrt. replace (rltb a 0) with true by (symmetry; apply rltb_spec; lra). auto. Qed.
Lemma ediv_fin a b : b <> 0 -> ediv (Fin a) (Fin b) = Fin (a / b).
Proof. intros. unfold ediv. replace (reqb b 0) with false by (symmetry; apply reqb_false; auto). auto. Qed.
Lemma ediv_zero a : ediv (Fin a) (Fin 0) = sinf a.
Proof. unfold ediv. replace (reqb 0 0) with true by (symmetry; apply reqb_spec; auto). auto. Qed.

Lemma sinf_nonfinite a : eisfinite (sinf a) = false.
Proof. unfold sinf. destruct (rltb 0 a), (rltb a 0); reflexivity. Qed.

Lemma le_FF a b : ext_le (Fin a) (Fin b) <-> a <= b.
Proof. split; intros H; [inversion H; auto|constructor; auto]. Qed.

Lemma e_ph_l_iff k : 0 <= kph_t_sq k ->
  eisfinite (e_ph_l k) = true <-> kph_0 k <> 0 /\ kph_t_sq k + sq (kmh k) <= sq (kph_0 k).
Proof.
  intros Hp. unfold e_ph_l. cbv zeta. destruct (Req_dec (kph_0 k) 0) as [E|N].
  - rewrite E. replace (sq 0) with 0 by (unfold sq; ring). rewrite !ediv_zero. split; [|tauto].
    unfold sinf. destruct (rltb 0 (kph_t_sq k)) eqn:E1, (rltb (kph_t_sq k) 0) eqn:E2, (rltb 0 (kmh k)) eqn:E3, (rltb (kmh k) 0) eqn:E4; cbn; intros; discriminate.
  - assert (H2 : 0 < sq (kph_0 k)) by (unfold sq; nra).
    rewrite !ediv_fin by lra. cbn [eadd emul esub eneg].
    assert (EE : 1 + - (kph_t_sq k / sq (kph_0 k) + kmh k / kph_0 k * (kmh k / kph_0 k)) = (sq (kph_0 k) - (kph_t_sq k + sq (kmh k))) / sq (kph_0 k)).
    { unfold sq. field. auto. }
    rewrite EE. assert (0 < / sq (kph_0 k)) by (apply Rinv_0_lt_compat; auto).
    destruct (Rle_lt_dec (kph_t_sq k + sq (kmh k)) (sq (kph_0 k))) as [h|h].
    + rewrite esqrt_fin by (unfold Rdiv; nra). cbn. tauto.
    + rewrite esqrt_neg by (unfold Rdiv; nra). cbn. split; [discriminate|lra].
Qed.

Lemma chain a b : (if negb a then false else b) = true <-> a = true /\ b = true.
Proof. destruct a; cbn; split; intros; auto; try discriminate; tauto. Qed.

Lemma lepton_form ps S sp :
  klambda_1 (make_kin ps S sp) = S * s_x sp * s_y sp * (S * (S * (1 - s_y sp)) - sq (a_M ps) * (S * s_x sp * s_y sp))
    - sq (a_m ps) * (sq (S * s_y sp) + 4 * sq (a_M ps) * (S * s_x sp * s_y sp)).
Proof.
  transitivity (S * s_x sp * s_y sp * (S * ((1 - s_y sp) * S) - sq (a_M ps) * (S * s_x sp * s_y sp)) - sq (a_m ps) * (sq (S * s_y sp) + 4 * sq (a_M ps) * (S * s_x sp * s_y sp))); [reflexivity|].
  ring.
Qed.

Lemma region_q0 ps S sp : masses_ok ps -> region ps S sp -> 0 < q0_of ps S sp /\ 0 <= S * s_x sp * s_y sp.
Proof.
  intros (HM & _) [HS _ Hx Hy Hz _ _ [Hh _] _]. unfold Eh_of in Hh.
  assert (0 <= S * s_y sp) by nra. split; [|nra]. unfold q0_of in *.
  assert (0 < / (2 * a_M ps)) by (apply Rinv_0_lt_compat; lra). unfold Rdiv in *.
  destruct (Rle_lt_dec (S * s_y sp * / (2 * a_M ps)) 0); [|auto]. nra.
Qed.
(** Invariant mass of the whole final state. *)
Lemma region_W ps S sp : masses_ok ps -> region ps S sp ->
  sq (a_Mth ps + a_mh ps) <= sq (a_M ps) + (1 - s_x sp) * (S * s_y sp).
Proof.
  intros HP HR. destruct (region_q0 _ _ _ HP HR) as [Hq HQ]. destruct HP as (HM & Hm & Hmh & Hth & HN). destruct HR as [HS _ Hx Hy Hz Hpt _ [Hh1 Hh2] Hmis].
  set (q0 := q0_of ps S sp) in *. set (qn := qn_of ps S sp) in *. set (Eh := Eh_of ps S sp) in *. set (pl := pl_of ps S sp) in *.
  assert (Epl : pl * pl = sq Eh - sq (a_mh ps) - s_ph_t_sq sp) by (unfold pl, pl_of; apply sqrt_sqrt; fold Eh; lra).
  pose proof (qn_sq ps S sp HQ) as Eq. fold qn q0 in Eq.
  assert (HEh : Eh <= q0) by (unfold Eh, Eh_of; fold q0; nra).
  pose proof (threshold (q0 + a_M ps) qn Eh pl (s_ph_t_sq sp) (a_mh ps) (a_Mth ps)) as T.
  unfold missing_sq in Hmis. fold q0 qn Eh pl in Hmis. unfold sq in *.
  assert ((a_Mth ps + a_mh ps) * (a_Mth ps + a_mh ps) <= (q0 + a_M ps) * (q0 + a_M ps) - qn * qn) by (apply T; lra).
  pose proof (f_Sx' ps S sp HM) as ESx. fold q0 in ESx.
  replace ((1 - s_x sp) * (S * s_y sp)) with (S * s_y sp - S * s_x sp * s_y sp) by ring. rewrite ESx. lra.
Qed.

Lemma valid_region ps S sp : masses_ok ps -> valid_kin (make_kin ps S sp) = true <-> region ps S sp.
Proof.
  intros HP. pose proof HP as (HM & Hm & Hmh & Hth & HN). set (k := make_kin ps S sp).
  unfold valid_kin. rewrite !chain, !andb_true_iff, !rltb_spec, !rleb_spec.
  change (kS k) with S. change (kx k) with (s_x sp). change (ky k) with (s_y sp). change (kz k) with (s_z sp). change (kph_t_sq k) with (s_ph_t_sq sp).
  assert (LS : klambda_S k = sq S - 4 * sq (a_M ps) * sq (a_m ps)) by reflexivity.
  assert (QL : 0 < S -> eisfinite (e_q_l k) = true <-> 0 < klambda_S k).
  { intros HS. unfold e_q_l. change (kM k) with (a_M ps). change (kS k) with S. destruct (Rtotal_order (klambda_S k) 0) as [h|[h|h]].
    - rewrite esqrt_neg by auto. cbn. split; [discriminate|lra].
    - rewrite h, esqrt_fin, sqrt_0 by lra. cbn [emul]. rewrite Rmult_0_r, ediv_zero. rewrite sinf_nonfinite. split; (discriminate || lra).
    - rewrite esqrt_fin by lra. cbn [emul]. rewrite ediv_fin; [cbn; tauto|]. pose proof (sqrt_lt_R0 _ h). nra. }
  assert (QT : 0 < klambda_S k -> egeb (e_q_t k) (Fin 0) = true <-> 0 <= klambda_1 k).
  { intros h. unfold e_q_t, egeb. rewrite (esqrt_fin (klambda_S k)) by lra. pose proof (sqrt_lt_R0 _ h). destruct (Rle_lt_dec 0 (klambda_1 k)) as [g|g].
    - rewrite esqrt_fin, ediv_fin by lra. cbn [eleb]. rewrite rleb_spec. split; auto. intros _. apply Rmult_le_pos; [apply sqrt_pos|apply Rlt_le, Rinv_0_lt_compat; auto].
    - rewrite esqrt_neg by auto. cbn [ediv eleb]. split; [discriminate|lra]. }
  rewrite (lepton_form ps S sp : klambda_1 k = _) in QT.
  assert (PH0 : kph_0 k = Eh_of ps S sp) by (apply f_ph_0; auto).
  assert (PL : 0 <= s_ph_t_sq sp -> eisfinite (e_ph_l k) = true <-> kph_0 k <> 0 /\ s_ph_t_sq sp + sq (a_mh ps) <= sq (kph_0 k)) by (apply (e_ph_l_iff k)).
  rewrite PH0 in *. change (kmh k) with (a_mh ps). change (kMth k) with (a_Mth ps). change (kM k) with (a_M ps).
  split.
  - intros (H1 & H2 & H3 & H4 & H5 & H6 & H7 & H8 & H9 & H10 & H11 & H12 & _).
    apply QL in H9; auto. apply QT in H8; auto. pose proof H11 as H11'. apply PL in H11; auto. destruct H11 as [h1 h2].
    assert (Hq : 0 < q0_of ps S sp).
    { unfold Eh_of in *. assert (0 <= q0_of ps S sp); [|nra]. unfold q0_of. apply Rmult_le_pos; [nra|]. apply Rlt_le, Rinv_0_lt_compat. lra. }
    constructor; auto; try lra.
    assert (HQ : 0 <= S * s_x sp * s_y sp) by (apply Rmult_le_pos; [|lra]; apply Rmult_le_pos; lra).
    destruct (f_mx_sq ps S sp HM Hq) as [F _]; auto; [lra|].
    unfold e_mx, e_mx_sq in H6. rewrite H11' in H6. change (kmx_sq k) with (kmx_sq (make_kin ps S sp)) in H6. rewrite F in H6.
    destruct (Rle_lt_dec 0 (missing_sq ps S sp)) as [g|g].
    + rewrite esqrt_fin in H6 by auto. unfold egeb in H6. cbn [eleb] in H6. apply rleb_spec in H6.
      pose proof (sqrt_sqrt _ g). unfold sq. nra.
    + rewrite esqrt_neg in H6 by auto. discriminate.
  - intros HR. destruct (region_q0 _ _ _ HP HR) as [Hq HQ]. pose proof (region_W _ _ _ HP HR) as HW. destruct HR as [HS Hb Hx Hy Hz Hpt Hlep [Hh1 Hh2] Hmis].
    assert (H9 : eisfinite (e_q_l k) = true) by (apply QL; lra). assert (H8 : egeb (e_q_t k) (Fin 0) = true) by (apply QT; lra).
    assert (H11 : eisfinite (e_ph_l k) = true) by (apply PL; auto; split; lra).
    destruct (f_mx_sq ps S sp HM Hq) as [F F']; auto.
    assert (E6 : e_mx_sq k = Fin (missing_sq ps S sp)) by (unfold e_mx_sq; rewrite H11; change (kmx_sq k) with (kmx_sq (make_kin ps S sp)); rewrite F; auto).
    assert (0 <= missing_sq ps S sp) by (pose proof (Rle_0_sqr (a_Mth ps)) as Z; unfold Rsqr, sq in *; lra).
    assert (H6 : egeb (e_mx k) (Fin (a_Mth ps)) = true).
    { unfold e_mx, egeb. rewrite E6, esqrt_fin by auto. cbn [eleb]. apply rleb_spec. apply Rsqr_incr_0; [|auto|apply sqrt_pos]. unfold Rsqr, sq in *. rewrite sqrt_sqrt; auto. }
    assert (Epl : pl_of ps S sp * pl_of ps S sp = sq (Eh_of ps S sp) - sq (a_mh ps) - s_ph_t_sq sp) by (unfold pl_of; apply sqrt_sqrt; lra).
    pose proof (qn_sq ps S sp HQ) as Eq. pose proof (f_Sx' ps S sp HM) as ESx. assert (Ppl : 0 <= pl_of ps S sp) by apply sqrt_pos. assert (Pqn : 0 <= qn_of ps S sp) by apply sqrt_pos.
    set (q0 := q0_of ps S sp) in *. set (qn := qn_of ps S sp) in *. set (Eh := Eh_of ps S sp) in *. set (pl := pl_of ps S sp) in *.
    assert (H12 : a_mh ps <= Eh) by (unfold sq in *; nra).
    assert (H7 : eleb (e_mx_sq k) (Fin (S + sq (a_M ps) - sq (a_mh ps))) = true).
    { rewrite E6. cbn [eleb]. apply rleb_spec. rewrite F'.
      assert (G : (q0 + a_M ps) * (q0 + a_M ps) - qn * qn = sq (a_M ps) + (1 - s_x sp) * (S * s_y sp)).
      { rewrite Eq. replace ((1 - s_x sp) * (S * s_y sp)) with (S * s_y sp - S * s_x sp * s_y sp) by ring. rewrite ESx. unfold sq. ring. }
      assert (G2 : (1 - s_x sp) * (S * s_y sp) <= S) by nra.
      assert (G3 : a_mh ps * a_mh ps + qn * pl <= (q0 + a_M ps) * Eh).
      { apply sq_le_abs; [apply Rmult_le_pos; lra|].
        assert (X1 : a_mh ps * a_mh ps + qn * qn <= (q0 + a_M ps) * (q0 + a_M ps)).
        { assert (a_mh ps * a_mh ps <= sq (a_Mth ps + a_mh ps)) by (unfold sq; nra). lra. }
        assert (X2 : a_mh ps * a_mh ps + pl * pl <= Eh * Eh) by (unfold sq in *; lra).
        assert (X3 : (a_mh ps * a_mh ps + qn * qn) * (a_mh ps * a_mh ps + pl * pl) <= ((q0 + a_M ps) * (q0 + a_M ps)) * (Eh * Eh)) by (apply Rmult_le_compat; nra).
        pose proof (Rle_0_sqr (a_mh ps * (pl - qn))) as Z. unfold Rsqr in Z. nra. }
      rewrite G. unfold sq in *. lra. }
    assert (H10 : egeb (e_ph_t k) (Fin 0) = true).
    { unfold e_ph_t, egeb. change (kph_t_sq k) with (s_ph_t_sq sp). rewrite esqrt_fin by auto. cbn. apply rleb_spec, sqrt_pos. }
    repeat (split; [assumption|]). auto.
Qed.
