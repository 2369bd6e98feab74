(** Kinematics of events: existence of the event behind a phase-space point and invariance under changes of frame. *)
From Coq Require Import Reals Lra Psatz.
From Verif Require Import ExtModel MathModel MathProofs ParticleModel VecModel TransModel VecTac VecProofs TransProofs
  FrameBase KinModel KinEqs KinSpec KinProofs KinRadProofs KinEvent.
Local Open Scope R_scope.

(** Frame invariance. *)
Lemma T_add T a b : add4 (tapp4 T a) (tapp4 T b) = tapp4 T (add4 a b).
Proof. vring. Qed.
Lemma T_sub T a b : sub4 (tapp4 T a) (tapp4 T b) = tapp4 T (sub4 a b).
Proof. vring. Qed.
Lemma T_scale T s a : scale4 s (tapp4 T a) = tapp4 T (scale4 s a).
Proof. vring. Qed.
Lemma det_rows_det4 a b c d : det_rows a b c d = - det4 (T4 a b c d).
Proof. unfold det_rows. dvars. uvec. ring. Qed.
Lemma det4_rows_mul T a b c d : T4 (tapp4 T a) (tapp4 T b) (tapp4 T c) (tapp4 T d) = tmul4 (T4 a b c d) (transpose4 T).
Proof. vring. Qed.
Section Frame.
Variable T : tr4.
Hypothesis iso : forall v w, dot4 (tapp4 T v) (tapp4 T w) = dot4 v w.
Lemma T_norm a : norm_sq4 (tapp4 T a) = norm_sq4 a.
Proof. apply iso. Qed.
Lemma T_gram2 a b : gram2 (tapp4 T a) (tapp4 T b) = gram2 a b.
Proof. unfold gram2. rewrite !iso. reflexivity. Qed.
Lemma T_gram3 a b c : gram3 (tapp4 T a) (tapp4 T b) (tapp4 T c) = gram3 a b c.
Proof. unfold gram3. rewrite !iso. reflexivity. Qed.
Lemma T_sdot a b c : sdot (tapp4 T a) (tapp4 T b) (tapp4 T c) = sdot a b c.
Proof. unfold sdot. rewrite !iso. reflexivity. Qed.
Lemma T_along a b c : along (tapp4 T a) (tapp4 T b) (tapp4 T c) = along a b c.
Proof. unfold along. rewrite !T_sdot. reflexivity. Qed.
Lemma T_across a b c : across (tapp4 T a) (tapp4 T b) (tapp4 T c) = across a b c.
Proof. unfold across. rewrite !T_sdot, T_along. reflexivity. Qed.
Hypothesis det1 : det4 T = 1.
Lemma T_det a b c d : det_rows (tapp4 T a) (tapp4 T b) (tapp4 T c) (tapp4 T d) = det_rows a b c d.
Proof.
  rewrite !det_rows_det4. f_equal. rewrite det4_rows_mul, det4_mul, det4_transpose, det1. ring.
Qed.
Lemma T_transfer_names v p k1 q ph : transfer_names v p k1 q ph ->
  transfer_names v (tapp4 T p) (tapp4 T k1) (tapp4 T q) (tapp4 T ph).
Proof.
  intros H. destruct H. constructor;
    rewrite ?T_sub, ?T_add, ?T_sub, ?T_norm, ?T_gram2, ?T_gram3, ?T_across, ?T_along, ?T_sdot, ?T_det, ?iso; assumption.
Qed.
Lemma T_lepton_names k p k1 q ph : lepton_names k p k1 q ph ->
  lepton_names k (tapp4 T p) (tapp4 T k1) (tapp4 T q) (tapp4 T ph).
Proof.
  intros H. destruct H. constructor;
    rewrite ?T_sub, ?T_add, ?T_sub, ?T_norm, ?T_gram2, ?T_gram3, ?T_across, ?T_along, ?T_sdot, ?T_det, ?iso; assumption.
Qed.
Lemma T_photon_names r p k1 q ph k n : photon_names r p k1 q ph k n ->
  photon_names r (tapp4 T p) (tapp4 T k1) (tapp4 T q) (tapp4 T ph) (tapp4 T k) (tapp4 T n).
Proof.
  intros H. destruct H. constructor;
    rewrite ?T_sub, ?T_add, ?T_sub, ?T_norm, ?T_gram2, ?T_gram3, ?T_across, ?T_along, ?T_sdot, ?T_det, ?iso, ?T_scale, ?T_sub, ?T_norm; assumption.
Qed.
End Frame.

(** Physical events satisfy the hypotheses of the component lemmas. *)
Lemma physical_ok e : physical e -> ev_ok (e_M e) (e_m e) (e_mh e) (e_E e) (e_kx e) (e_kz e) (e_q0 e) (e_qz e) (e_Eh e) (e_pt e) (e_pl e).
Proof.
  intros [H1 H2 H3 H4 H5 H6 H7 H8 H9 H10 H11 H12 H13 H14 H15]. pose proof (sh_sq (e_phi_h e)) as E_3. destruct e as [M m mh E ux uz q0 qz Eh pt pl phih phi].
  unfold v_k1, v_k2, v_q, v_ph, v_k1, sq in *. cbn [e_M e_m e_mh e_E e_kx e_kz e_q0 e_qz e_Eh e_pt e_pl e_phi_h e_phi] in *.
  uvec. constructor; try lra.
  transitivity (Eh * Eh - pt * pt * (cos phih * cos phih + sin phih * sin phih) - pl * pl).
  { rewrite E_3. ring. } rewrite <- H6. ring.
Qed.
Lemma event_kin_at e tg bm hd Mth : physical e ->
  kin_at (e_M e) (e_m e) (e_mh e) Mth (e_E e) (e_kx e) (e_kz e) (e_q0 e) (e_qz e) (e_Eh e) (e_pt e) (e_pl e) (e_phi_h e) (e_phi e)
    (make_kin (event_parts e tg bm hd Mth) (event_S e) (event_space e)).
Proof.
  intros H. pose proof (physical_ok e H) as OK. destruct (make_kin_inputs (event_parts e tg bm hd Mth) (event_S e) (event_space e))
    as (I1 & I2 & I3 & I4 & I5 & I6 & I7 & I8 & I9 & I10 & I11 & I12).
  destruct e as [M m mh E ux uz q0 qz Eh pt pl phih phi].
  cbn [e_M e_m e_mh e_E e_kx e_kz e_q0 e_qz e_Eh e_pt e_pl e_phi_h e_phi] in *.
  apply kin_at_all; try assumption; [apply make_kin_eqs|..].
  - rewrite I1. unfold event_S, v_p, v_k1. uvec. cbn. ring.
  - rewrite I6. unfold event_space, v_p, v_q. cbn [s_x e_M e_q0 e_qz]. uvec. destruct OK. field. lra.
  - rewrite I7. unfold event_space, v_p, v_q, v_k1. cbn [s_y e_M e_q0 e_qz e_E e_kx e_kz]. uvec. destruct OK. field. lra.
  - rewrite I8. unfold event_space, v_p, v_q, v_ph. cbn [s_z e_M e_q0 e_qz e_Eh e_pt e_pl e_phi_h]. uvec. destruct OK. field. lra.
Qed.
Lemma event_names e tg bm hd Mth : physical e ->
  let k := make_kin (event_parts e tg bm hd Mth) (event_S e) (event_space e) in
  transfer_names (kin_vals k) (v_p e) (v_k1 e) (v_q e) (v_ph e) /\ lepton_names k (v_p e) (v_k1 e) (v_q e) (v_ph e).
Proof. intros H k. exact (kin_names _ _ _ _ _ _ _ _ _ _ _ _ _ _ (physical_ok e H) k (event_kin_at e tg bm hd Mth H)). Qed.

Lemma photon_ok_ph e f : 0 < e_M e -> photon_ok f -> ph_ok (f_R f / (2 * e_M e)) (f_ct f) (f_st f).
Proof.
  intros HM (H1 & H2 & H3). constructor; auto. apply Rmult_le_pos; auto. left. apply Rinv_0_lt_compat. lra.
Qed.
Lemma event_rad_at e f tg bm hd Mth : physical e -> photon_ok f ->
  let r := make_rad (make_kin (event_parts e tg bm hd Mth) (event_S e) (event_space e)) (photon_tau e f) (f_phi f) (f_R f) in
  rad_at (e_M e) (e_mh e) (e_E e) (e_kx e) (e_kz e) (e_q0 e) (e_qz e) (e_Eh e) (e_pt e) (e_pl e) (e_phi_h e) (e_phi e)
    (f_R f / (2 * e_M e)) (f_ct f) (f_st f) (f_phi f) r.
Proof.
  intros H Hf r. pose proof (physical_ok e H) as OK. pose proof (ph_M e H) as HM.
  apply rad_at_all with (m := e_m e) (Mth := Mth).
  - exact OK.
  - apply photon_ok_ph; auto.
  - apply make_rad_eqs.
  - unfold r. rewrite make_rad_copies. apply event_kin_at. auto.
  - unfold r. rewrite (proj1 (make_rad_inputs _ _ _ _)). unfold photon_tau, v_n, v_q, v_p. uvec. field. lra.
  - reflexivity.
  - unfold r. rewrite (proj2 (proj2 (make_rad_inputs _ _ _ _))). field. lra.
Qed.
Lemma event_shift_names e f tg bm hd Mth : physical e -> photon_ok f -> f_R f < 2 * dot4 (v_p e) (v_q e) ->
  let r := make_rad (make_kin (event_parts e tg bm hd Mth) (event_S e) (event_space e)) (photon_tau e f) (f_phi f) (f_R f) in
  transfer_names (shift_vals r) (v_p e) (v_k1 e) (v_qs e f) (v_ph e).
Proof.
  intros H Hf HR r. pose proof (physical_ok e H) as OK. pose proof (ph_M e H) as HM.
  replace (v_qs e f) with (V4 (e_q0 e - f_R f / (2 * e_M e)) (- (f_R f / (2 * e_M e) * f_st f * cos (f_phi f)))
    (- (f_R f / (2 * e_M e) * f_st f * sin (f_phi f))) (e_qz e - f_R f / (2 * e_M e) * f_ct f)) by (unfold v_qs, v_q, v_k, v_n; uvec; comps; ring).
  apply (shift_names _ (e_m e) _ Mth _ _ _ _ _ _ _ _ _ (e_phi e) _ _ _ _ OK (photon_ok_ph e f HM Hf)).
  - unfold r. rewrite make_rad_copies. apply event_kin_at. auto.
  - apply make_rad_eqs.
  - apply event_rad_at; auto.
  - unfold v_p, v_q in HR. uvec. apply Rmult_lt_reg_r with (2 * e_M e); [lra|]. unfold Rdiv. rewrite Rmult_assoc, Rinv_l by lra. lra.
Qed.
Lemma event_photon_names e f tg bm hd Mth : physical e -> photon_ok f ->
  let r := make_rad (make_kin (event_parts e tg bm hd Mth) (event_S e) (event_space e)) (photon_tau e f) (f_phi f) (f_R f) in
  photon_names r (v_p e) (v_k1 e) (v_q e) (v_ph e) (v_k e f) (v_n f).
Proof.
  intros H Hf r. pose proof (physical_ok e H) as OK. pose proof (ph_M e H) as HM.
  apply (photon_names_ok _ (e_m e) _ Mth _ _ _ _ _ _ _ _ _ (e_phi e) _ _ _ _ OK (photon_ok_ph e f HM Hf)).
  - unfold r. rewrite make_rad_copies. apply event_kin_at. auto.
  - apply make_rad_eqs.
  - apply event_rad_at; auto.
Qed.

(** Every admissible phase-space point comes from a physical event. *)
Definition event_of (ps : parts) (S : R) (sp : phase_space) : event :=
  let M := a_M ps in let m := a_m ps in let mh := a_mh ps in
  let E := S / (2 * M) in let q0 := S * s_y sp / (2 * M) in
  let Q2 := S * s_x sp * s_y sp in
  let qz := sqrt (q0 * q0 + Q2) in
  let uz := (2 * E * q0 + Q2) / (2 * qz) in
  let Eh := s_z sp * q0 in
  Event M m mh E (sqrt (E * E - m * m - uz * uz)) uz q0 qz Eh (sqrt (s_ph_t_sq sp)) (sqrt (Eh * Eh - s_ph_t_sq sp - mh * mh)) (s_phi_h sp) (s_phi sp).
Lemma event_of_ok ps S sp : admissible ps S sp ->
  let e := event_of ps S sp in
  physical e /\ event_space e = sp /\ event_S e = S /\ e_M e = a_M ps /\ e_m e = a_m ps /\ e_mh e = a_mh ps.
Proof.
  intros (HM & Hm & Hmh & HS & Hx & Hy & Hz & Hpt & HL & HE).
  set (M := a_M ps) in *. set (m := a_m ps) in *. set (mh := a_mh ps) in *.
  destruct sp as [x y z pt2 phih phi]. cbn [s_x s_y s_z s_ph_t_sq s_phi_h s_phi] in *. unfold sq in *.
  unfold event_of. fold M m mh. cbn [s_x s_y s_z s_ph_t_sq s_phi_h s_phi].
  set (E := S / (2 * M)). set (q0 := S * y / (2 * M)). set (Q2 := S * x * y) in *.
  assert (HQ : 0 < Q2) by (unfold Q2; repeat apply Rmult_lt_0_compat; auto).
  assert (HE0 : 0 < E) by (unfold E; apply Rdiv_lt_0_compat; lra).
  assert (Hq0 : 0 < q0) by (unfold q0; apply Rdiv_lt_0_compat; nra).
  assert (Hqq : 0 < q0 * q0 + Q2) by nra.
  pose proof (sqrt_lt_R0 _ Hqq) as Hqz. pose proof (sqrt_sqrt _ (Rlt_le _ _ Hqq)) as Eqz. set (qz := sqrt (q0 * q0 + Q2)) in *.
  set (uz := (2 * E * q0 + Q2) / (2 * qz)).
  assert (Huz : 2 * uz * qz = 2 * E * q0 + Q2) by (unfold uz; field; lra).
  assert (ES : S = 2 * M * E) by (unfold E; field; lra).
  assert (Ey : y = q0 / E) by (unfold q0, E; field; lra).
  assert (Hl : m * m * (qz * qz) * 4 < 4 * Q2 * E * (E - q0) - Q2 * Q2).
  { apply Rmult_lt_reg_l with (M * M); [nra|].
    replace (M * M * (m * m * (qz * qz) * 4)) with (m * m * (S * y * (S * y) + 4 * (M * M) * Q2)).
    - replace (M * M * (4 * Q2 * E * (E - q0) - Q2 * Q2)) with (Q2 * (S * (S * (1 - y)) - M * M * Q2)); auto.
      unfold E, q0. field. lra.
    - rewrite Eqz. unfold q0. field. lra. }
  assert (Hux : 0 < E * E - m * m - uz * uz).
  { apply Rmult_lt_reg_r with (4 * (qz * qz)); [nra|]. rewrite Rmult_0_l.
    replace ((E * E - m * m - uz * uz) * (4 * (qz * qz))) with (4 * E * E * (qz * qz) - m * m * (qz * qz) * 4 - (2 * uz * qz) * (2 * uz * qz)) by ring.
    rewrite Huz. rewrite Eqz at 1. nra. }
  pose proof (sqrt_lt_R0 _ Hux) as Hu. pose proof (sqrt_sqrt _ (Rlt_le _ _ Hux)) as Eu. set (ux := sqrt (E * E - m * m - uz * uz)) in *.
  assert (HE2 : 0 < E - q0).
  { destruct (Rle_lt_dec (E - q0) 0) as [h|]; auto. exfalso.
    assert (0 <= m * m * (qz * qz)) by nra. assert (0 <= Q2 * E * (q0 - E)) by (apply Rmult_le_pos; [apply Rlt_le; apply Rmult_lt_0_compat|]; lra).
    nra. }
  set (Eh := z * q0). assert (HEh : 0 < Eh) by (unfold Eh; apply Rmult_lt_0_compat; auto).
  assert (HP : 0 <= Eh * Eh - pt2 - mh * mh).
  { replace (z * (S * y) / (2 * M)) with Eh in HE by (unfold Eh, q0; field; lra). lra. }
  pose proof (sqrt_sqrt _ HP) as Epl. pose proof (sqrt_pos (Eh * Eh - pt2 - mh * mh)) as Hpl. set (pl := sqrt (Eh * Eh - pt2 - mh * mh)) in *.
  pose proof (sqrt_sqrt _ Hpt) as Ept. pose proof (sqrt_pos pt2) as Hptp. set (pt := sqrt pt2) in *.
  split; [|split; [|split; [|repeat split]]].
  - pose proof (sh_sq phih) as E_3.
    constructor; unfold v_k1, v_k2, v_q, v_ph, v_k1, sq; cbn [e_M e_m e_mh e_E e_kx e_kz e_q0 e_qz e_Eh e_pt e_pl e_phi_h e_phi]; auto; uvec; try lra.
    transitivity (Eh * Eh - pt * pt * (cos phih * cos phih + sin phih * sin phih) - pl * pl); [ring|]. rewrite E_3. lra.
  - unfold event_space, v_k1, v_k2, v_q, v_ph, v_p, sq; cbn [e_M e_m e_mh e_E e_kx e_kz e_q0 e_qz e_Eh e_pt e_pl e_phi_h e_phi]; auto; uvec.
    f_equal.
    + replace (q0 * q0 - 0 * 0 - 0 * 0 - qz * qz) with (- Q2) by lra. unfold Q2, q0. field. repeat split; lra.
    + rewrite Ey. field. lra.
    + unfold Eh. field. lra.
    + lra.
  - unfold event_S, v_p, v_k1. cbn [e_M e_E e_kx e_kz]. uvec. rewrite ES. ring.
Qed.
