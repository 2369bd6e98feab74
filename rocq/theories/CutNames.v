(** The cut variables of [valid] in terms of momenta. *)
From Coq Require Import Reals Bool Lra Psatz.
From Verif Require Import ExtModel BoundModel BoundSpec BoundProofs MathModel MathProofs MapModel ParticleModel VecModel TransModel VecTac
  VecProofs TransProofs FrameBase KinModel KinEqs KinSpec KinProofs KinRadProofs KinEvent KinFinal KinAll CutModel CutSpec CutProofs CutBounds CutPhoton.
Local Open Scope R_scope.

Lemma fails_chain c v r : (if fails c v then false else r) = true <-> (is_set c -> contains c v = true) /\ r = true.
Proof. unfold fails, is_set. destruct (valid c), (contains c v), r; cbn; intuition congruence. Qed.
Lemma obeys_nan c : (is_set c -> contains c NaN = true) <-> ~ is_set c.
Proof. unfold is_set, contains, valid. destruct (bmin c); cbn; intuition congruence. Qed.

Section RestAngles.
Variable (M : R). Hypothesis HM : 0 < M.
Let p := V4 M 0 0 0.
Lemma rs_nonneg a : 0 <= sdot p a a.
Proof. unfold p. rewrite rest_sdot by auto. nra. Qed.
Lemma rs_cs a b : sdot p a b * sdot p a b <= sdot p a a * sdot p b b.
Proof.
  unfold p. rewrite !rest_sdot by auto. destruct a as [a0 a1 a2 a3], b as [b0 b1 b2 b3]. cbn [x4 y4 z4].
  pose proof (Rle_0_sqr (a1 * b2 - a2 * b1)). pose proof (Rle_0_sqr (a1 * b3 - a3 * b1)). pose proof (Rle_0_sqr (a2 * b3 - a3 * b2)). unfold Rsqr in *. nra.
Qed.
Lemma mom_value l a : l = 4 * (M * M) * sdot p a a -> esqrt (Fin l) = Fin (2 * M * lab_mom p a).
Proof.
  intros ->. rewrite esqrt_fin by (apply Rmult_le_pos; [nra|apply rs_nonneg]). unfold lab_mom.
  replace (4 * (M * M) * sdot p a a) with ((2 * M) * (2 * M) * sdot p a a) by ring.
  rewrite sqrt_mult by (try apply rs_nonneg; nra). rewrite sqrt_square by lra. reflexivity.
Qed.
Lemma mom_div a : ediv (Fin (2 * M * lab_mom p a)) (Fin (2 * M)) = Fin (lab_mom p a).
Proof. rewrite ediv_fin by lra. f_equal. field. lra. Qed.
Lemma angle_value n a b : n = 4 * (M * M) * sdot p a b -> 0 < lab_mom p a -> 0 < lab_mom p b ->
  eacos (ediv (Fin n) (emul (Fin (2 * M * lab_mom p a)) (Fin (2 * M * lab_mom p b)))) = Fin (lab_theta p a b).
Proof.
  intros -> Ha Hb. cbn [emul]. assert (0 < lab_mom p a * lab_mom p b) by nra.
  assert (D : 2 * M * lab_mom p a * (2 * M * lab_mom p b) <> 0) by (apply Rgt_not_eq; repeat apply Rmult_lt_0_compat; lra).
  rewrite ediv_fin by exact D. replace (4 * (M * M) * sdot p a b / (2 * M * lab_mom p a * (2 * M * lab_mom p b))) with (sdot p a b / (lab_mom p a * lab_mom p b)) by (field; lra).
  set (c := sdot p a b / _). assert (C : - 1 <= c <= 1).
  { unfold c. rewrite le_div, div_le by auto. pose proof (rs_cs a b). assert (E : (lab_mom p a * lab_mom p b) * (lab_mom p a * lab_mom p b) = sdot p a a * sdot p b b).
    { unfold lab_mom. pose proof (sqrt_sqrt _ (rs_nonneg a)). pose proof (sqrt_sqrt _ (rs_nonneg b)). set (u := sqrt (sdot p a a)) in *. set (v := sqrt (sdot p b b)) in *.
      transitivity ((u * u) * (v * v)); [ring|congruence]. }
    rewrite <- E in *. split; nra. }
  unfold eacos. replace (rleb (-1) c) with true by (symmetry; apply rleb_spec; lra). replace (rleb c 1) with true by (symmetry; apply rleb_spec; lra). reflexivity.
Qed.
Lemma angle_rest n a b : n = 4 * (M * M) * sdot p a b -> 0 < lab_mom p a -> lab_mom p b = 0 ->
  eacos (ediv (Fin n) (emul (Fin (2 * M * lab_mom p a)) (Fin (2 * M * lab_mom p b)))) = NaN.
Proof.
  intros -> Ha E. pose proof (rs_cs a b) as CS. assert (Z : sdot p b b = 0).
  { unfold lab_mom in E. pose proof (sqrt_sqrt _ (rs_nonneg b)) as Q. rewrite E in Q. lra. }
  rewrite Z in CS. assert (sdot p a b = 0) as -> by nra. rewrite E. cbn [emul]. replace (2 * M * lab_mom p a * (2 * M * 0)) with 0 by ring.
  replace (4 * (M * M) * 0) with 0 by ring. unfold ediv. rewrite !(proj2 (reqb_spec 0 0) eq_refl). unfold sinf.
  repeat match goal with |- context [if ?b then _ else _] => destruct b end; reflexivity.
Qed.
End RestAngles.

Lemma T_obeys T cut a b p k1 q ph : (forall v w, dot4 (tapp4 T v) (tapp4 T w) = dot4 v w) ->
  obeys_cuts cut a b p k1 q ph <-> obeys_cuts cut a b (tapp4 T p) (tapp4 T k1) (tapp4 T q) (tapp4 T ph).
Proof.
  intros iso. split; intros H; destruct H; constructor; unfold lab_theta, lab_mom in *;
  rewrite ?T_sub, ?T_add, ?T_sub, ?(T_norm T iso), ?(T_gram2 T iso), ?(T_gram3 T iso), ?(T_across T iso), ?(T_along T iso), ?(T_sdot T iso), ?iso in *; assumption.
Qed.
Lemma T_obeys_rad T cut a b p k1 q ph k n : (forall v w, dot4 (tapp4 T v) (tapp4 T w) = dot4 v w) ->
  obeys_cuts_rad cut a b p k1 q ph k n <-> obeys_cuts_rad cut a b (tapp4 T p) (tapp4 T k1) (tapp4 T q) (tapp4 T ph) (tapp4 T k) (tapp4 T n).
Proof.
  intros iso. split; intros H; destruct H; constructor; unfold lab_theta, lab_mom in *;
  rewrite ?T_sub, ?T_add, ?T_sub, ?(T_norm T iso), ?(T_gram2 T iso), ?(T_gram3 T iso), ?(T_across T iso), ?(T_along T iso), ?(T_sdot T iso), ?iso in *; assumption.
Qed.

Lemma valid_cut_spec cut e ps S sp : 0 < a_mh ps -> same_event e ps S sp ->
  valid_cut cut (make_kin ps S sp) = true <->
  valid_kin (make_kin ps S sp) = true /\ obeys_cuts cut (s_phi_h sp) (s_phi sp) (v_p e) (v_k1 e) (v_q e) (v_ph e).
Proof.
  intros Hmh HE. pose proof (same_kin_at e ps S sp HE) as A. set (k := make_kin ps S sp) in *.
  assert (N : transfer_names (kin_vals k) (v_p e) (v_k1 e) (v_q e) (v_ph e) /\ lepton_names k (v_p e) (v_k1 e) (v_q e) (v_ph e)).
  { unfold k. rewrite (same_event_parts _ _ _ _ HE). destruct HE as (H & <- & <- & _). apply event_names; auto. }
  destruct N as [N L]. destruct HE as (HP & Esp & ES & EM & Em & Emh).
  pose proof (ph_M e HP) as HM. pose proof (ph_q0 e HP) as Hq0. pose proof (ph_qz e HP) as Hqz. pose proof (ph_kx e HP) as Hkx. pose proof (ph_Eh e HP) as HEh.
  pose proof (ph_k1 e HP) as K1. pose proof (ph_k2 e HP) as K2. pose proof (ph_ph e HP) as PH. pose proof (ph_space e HP) as SPC. pose proof (ph_E e HP) as HE0.
  assert (VP : v_p e = V4 (e_M e) 0 0 0) by reflexivity.
  assert (P1 : 0 < lab_mom (v_p e) (v_k1 e)). { unfold lab_mom. rewrite VP, rest_sdot by auto. unfold v_k1. cbn [x4 y4 z4]. apply sqrt_lt_R0. nra. }
  assert (P2 : 0 < lab_mom (v_p e) (v_q e)). { unfold lab_mom. rewrite VP, rest_sdot by auto. unfold v_q. cbn [x4 y4 z4]. apply sqrt_lt_R0. nra. }
  assert (P3 : 0 < lab_mom (v_p e) (v_k2 e)). { unfold lab_mom. rewrite VP, rest_sdot by auto. unfold v_k2, v_k1, v_q. uvec. apply sqrt_lt_R0.
    assert (0 < e_kx e * e_kx e) by (apply Rmult_lt_0_compat; auto). pose proof (Rle_0_sqr (e_kz e - e_qz e)) as SQ. unfold Rsqr in SQ. lra. }
  assert (Eq1 : esqrt (Fin (klambda_S k)) = Fin (2 * e_M e * lab_mom (v_p e) (v_k1 e))).
  { apply mom_value; auto. rewrite rest_sdot by auto. rewrite (at_lambda_S _ _ _ _ _ _ _ _ _ _ _ _ _ _ _ A). unfold v_k1. cbn [x4 y4 z4]. ring. }
  assert (Eq2 : esqrt (Fin (klambda_Y k)) = Fin (2 * e_M e * lab_mom (v_p e) (v_q e))).
  { apply mom_value; auto. rewrite rest_sdot by auto. rewrite (at_lambda_Y _ _ _ _ _ _ _ _ _ _ _ _ _ _ _ A). unfold v_q. cbn [x4 y4 z4]. ring. }
  assert (Eq3 : esqrt (Fin (klambda_X k)) = Fin (2 * e_M e * lab_mom (v_p e) (v_k2 e))).
  { apply mom_value; auto. rewrite rest_sdot by auto. rewrite (at_lambda_X _ _ _ _ _ _ _ _ _ _ _ _ _ _ _ A). unfold v_k2, v_k1, v_q. uvec. ring. }
  assert (CS1 : cos (e_phi_h e) * cos (e_phi_h e) + sin (e_phi_h e) * sin (e_phi_h e) = 1) by (pose proof (sin2_cos2 (e_phi_h e)); unfold Rsqr in *; lra).
  assert (PH' : e_Eh e * e_Eh e - e_pt e * e_pt e - e_pl e * e_pl e = e_mh e * e_mh e).
  { revert PH. unfold v_ph, sq. uvec. intros PH. rewrite <- PH. transitivity (e_Eh e * e_Eh e - e_pt e * e_pt e * (cos (e_phi_h e) * cos (e_phi_h e) + sin (e_phi_h e) * sin (e_phi_h e)) - e_pl e * e_pl e); [rewrite CS1; ring|ring]. }
  assert (Eq4 : esqrt (Fin (sq (kz k * kS_x k) - 4 * sq (kM k * kmh k))) = Fin (2 * e_M e * lab_mom (v_p e) (v_ph e))).
  { apply mom_value; auto. rewrite rest_sdot by auto.
    rewrite (at_z _ _ _ _ _ _ _ _ _ _ _ _ _ _ _ A), (at_S_x _ _ _ _ _ _ _ _ _ _ _ _ _ _ _ A), (at_M _ _ _ _ _ _ _ _ _ _ _ _ _ _ _ A), (at_mh _ _ _ _ _ _ _ _ _ _ _ _ _ _ _ A).
    unfold v_ph, sq. cbn [x4 y4 z4]. transitivity (4 * (e_M e * e_M e) * (e_Eh e * e_Eh e - e_mh e * e_mh e)); [field; lra|]. rewrite <- PH'.
    transitivity (4 * (e_M e * e_M e) * (e_pt e * e_pt e * (cos (e_phi_h e) * cos (e_phi_h e) + sin (e_phi_h e) * sin (e_phi_h e)) + e_pl e * e_pl e)); [rewrite CS1; ring|ring]. }
  assert (EkM : kM k = e_M e) by apply (at_M _ _ _ _ _ _ _ _ _ _ _ _ _ _ _ A).
  assert (KK : v_k1 e = v_k1 e) by auto.
  assert (On : e_E e * e_E e - e_kx e * e_kx e - e_kz e * e_kz e = e_m e * e_m e) by (revert K1; unfold v_k1, sq; uvec; lra).
  assert (On2 : (e_E e - e_q0 e) * (e_E e - e_q0 e) - e_kx e * e_kx e - (e_kz e - e_qz e) * (e_kz e - e_qz e) = e_m e * e_m e) by (revert K2; unfold v_k2, v_k1, v_q, sq; uvec; lra).
  assert (Aq : kS k * kS_x k + 2 * sq (kM k) * kQ_sq k = 4 * (e_M e * e_M e) * sdot (v_p e) (v_k1 e) (v_q e)).
  { rewrite VP, rest_sdot by auto. rewrite EkM, (at_S _ _ _ _ _ _ _ _ _ _ _ _ _ _ _ A), (at_S_x _ _ _ _ _ _ _ _ _ _ _ _ _ _ _ A), (at_Q_sq _ _ _ _ _ _ _ _ _ _ _ _ _ _ _ A).
    unfold v_k1, v_q, sq. cbn [x4 y4 z4]. nra. }
  assert (Ak : kS k * kX k - 2 * sq (kM k) * kQ_sq k - 4 * sq (kM k * km k) = 4 * (e_M e * e_M e) * sdot (v_p e) (v_k1 e) (v_k2 e)).
  { rewrite VP, rest_sdot by auto. rewrite EkM, (at_S _ _ _ _ _ _ _ _ _ _ _ _ _ _ _ A), (at_X _ _ _ _ _ _ _ _ _ _ _ _ _ _ _ A), (at_Q_sq _ _ _ _ _ _ _ _ _ _ _ _ _ _ _ A), (at_m _ _ _ _ _ _ _ _ _ _ _ _ _ _ _ A).
    unfold v_k2, v_k1, v_q, sq. uvec. nra. }
  assert (Ah : kz k * kS k * kS_x k - 2 * sq (kM k) * kV_1 k = 4 * (e_M e * e_M e) * sdot (v_p e) (v_k1 e) (v_ph e)).
  { rewrite VP, rest_sdot by auto. rewrite EkM, (at_S _ _ _ _ _ _ _ _ _ _ _ _ _ _ _ A), (at_z _ _ _ _ _ _ _ _ _ _ _ _ _ _ _ A), (at_S_x _ _ _ _ _ _ _ _ _ _ _ _ _ _ _ A), (at_V_1 _ _ _ _ _ _ _ _ _ _ _ _ _ _ _ A).
    unfold v_k1, v_ph, sq. cbn [x4 y4 z4]. field. lra. }
  assert (V1 : 0 < kV_1 k).
  { rewrite (at_V_1 _ _ _ _ _ _ _ _ _ _ _ _ _ _ _ A). apply Rmult_lt_0_compat; [lra|].
    set (c := cos (e_phi_h e)) in *. assert (c * c <= 1) by (pose proof (Rle_0_sqr (sin (e_phi_h e))); unfold Rsqr in *; lra).
    assert (W : (e_kz e * e_pl e + e_kx e * e_pt e * c) * (e_kz e * e_pl e + e_kx e * e_pt e * c) <= (e_kz e * e_kz e + e_kx e * e_kx e) * (e_pl e * e_pl e + e_pt e * e_pt e)).
    { pose proof (Rle_0_sqr (e_kz e * (e_pt e * c) - e_kx e * e_pl e)). unfold Rsqr in *.
      assert (0 <= (e_kz e * e_kz e + e_kx e * e_kx e) * (e_pt e * e_pt e * (1 - c * c))) by (apply Rmult_le_pos; [nra|apply Rmult_le_pos; nra]). nra. }
    assert (0 < e_mh e) by lra. set (w := e_kz e * e_pl e + e_kx e * e_pt e * c) in *.
    assert (e_kz e * e_kz e + e_kx e * e_kx e <= e_E e * e_E e) by nra. assert (e_pl e * e_pl e + e_pt e * e_pt e < e_Eh e * e_Eh e) by nra.
    assert (0 < e_kz e * e_kz e + e_kx e * e_kx e) by nra.
    assert ((e_kz e * e_kz e + e_kx e * e_kx e) * (e_pl e * e_pl e + e_pt e * e_pt e) < (e_E e * e_E e) * (e_Eh e * e_Eh e)) by (apply Rle_lt_trans with ((e_E e * e_E e) * (e_pl e * e_pl e + e_pt e * e_pt e)); [apply Rmult_le_compat_r; nra|apply Rmult_lt_compat_l; nra]).
    assert (0 < e_E e * e_Eh e) by nra. assert (w < e_E e * e_Eh e) by nra. unfold w in *. lra. }
  assert (Z0 : 0 < kz k) by (rewrite (at_z _ _ _ _ _ _ _ _ _ _ _ _ _ _ _ A); apply Rmult_lt_0_compat; [|apply Rinv_0_lt_compat]; lra).
  assert (Q0 : 0 < kQ_sq k) by (pose proof (n_Q_sq _ _ _ _ _ N) as E; cbn [kin_vals iQ_sq] in E; lra).
  assert (PT : 0 <= kph_t_sq k) by (rewrite (at_ph_t_sq _ _ _ _ _ _ _ _ _ _ _ _ _ _ _ A); nra).
  assert (QT : ediv (esqrt (ediv (Fin (kph_t_sq k)) (Fin (kQ_sq k)))) (Fin (kz k)) = Fin (across (v_p e) (v_ph e) (v_q e) / (dot4 (v_p e) (v_ph e) / dot4 (v_p e) (v_q e)) / sqrt (- norm_sq4 (v_q e)))).
  { rewrite ediv_fin by lra. rewrite esqrt_fin by (apply Rmult_le_pos; [lra|apply Rlt_le, Rinv_0_lt_compat; auto]). rewrite ediv_fin by lra. f_equal.
    rewrite sqrt_div by lra. pose proof (n_Q_sq _ _ _ _ _ N) as E1. pose proof (n_z _ _ _ _ _ N) as E2. pose proof (n_ph_t _ _ _ _ _ N) as E3. cbn [kin_vals iQ_sq iz iph_t] in E1, E2, E3.
    rewrite <- E1, <- E2, <- E3. change (kph_t k) with (sqrt (kph_t_sq k)). pose proof (sqrt_lt_R0 _ Q0). field. lra. }
  unfold valid_cut. cbv zeta. rewrite chain, Eq1, Eq2, Eq3, Eq4, QT. replace (Fin (2 * kM k)) with (Fin (2 * e_M e)) by (rewrite EkM; reflexivity). rewrite !mom_div by auto.
  rewrite !fails_chain.
  rewrite ediv_fin by lra.
  pose proof (angle_value (e_M e) HM _ (v_k1 e) (v_q e) Aq P1 P2) as AQ. pose proof (angle_value (e_M e) HM _ (v_k1 e) (v_k2 e) Ak P1 P3) as AK.
  rewrite <- VP in AQ, AK. rewrite AQ, AK. match goal with |- context [eacos ?a] => remember (eacos a) as TH eqn:ETH end.
  pose proof N as [N1 N2 N3 N4 N5 N6 N7 N8 N9 N10 N11 N12 N13 N14 N15 N16 N17 N18 N19 N20 N21 N22 N23 N24 N25 N26 N27 N28 N29 N30 N31].
  cbn [kin_vals ix iy iz iQ_sq it iW_sq imx_sq iph_t_sq] in N3, N4, N5, N1, N6, N7, N19, N21.
  assert (VR : kV_2 k / kV_1 k = dot4 (sub4 (v_k1 e) (v_q e)) (v_ph e) / dot4 (v_k1 e) (v_ph e)).
  { rewrite (n_V_2 _ _ _ _ _ L). rewrite (n_V_1 _ _ _ _ _ L) in *. field. lra. }
  rewrite VR, N1, N3, N4, N5, N6, N7, N19, N21.
  change (kphi_h k) with (s_phi_h sp). change (kphi k) with (s_phi sp). unfold v_k2.
  destruct (Rle_lt_or_eq_dec 0 (lab_mom (v_p e) (v_ph e)) (sqrt_pos _)) as [P4|P4].
  - pose proof (angle_value (e_M e) HM _ (v_k1 e) (v_ph e) Ah P1 P4) as AH. rewrite <- VP in AH. rewrite AH in ETH. subst TH.
    split; [intros H; decompose [and] H; split; [auto|constructor; auto]|intros [H1 []]; repeat (split; [assumption|]); reflexivity].
  - pose proof (angle_rest (e_M e) HM _ (v_k1 e) (v_ph e) Ah P1 (eq_sym P4)) as AH. rewrite <- VP in AH. rewrite AH in ETH. subst TH. rewrite obeys_nan.
    split; [intros H; decompose [and] H; split; [auto|constructor; auto; try (intros W; exfalso; auto)]|].
    intros [H1 OB]. pose proof (oc_moving_h _ _ _ _ _ _ _ OB) as MH. destruct OB. repeat (split; [assumption|]). split; [|reflexivity]. intros W. specialize (MH W). lra.
Qed.

(** Radiative cuts. *)
Lemma valid_rad_spec ps S sp tau phi_k R : masses_ok ps -> 0 < a_Mth ps ->
  valid_rad (make_rad (make_kin ps S sp) tau phi_k R) = true <->
  region ps S sp /\ - 1 <= n_ct ps S sp tau <= 1 /\ 0 <= R /\ sq (a_Mth ps) <= missing_rad_sq ps S sp tau phi_k R.
Proof.
  intros HP Hth. set (k := make_kin ps S sp). set (r := make_rad k tau phi_k R). unfold valid_rad. rewrite !chain. unfold r at 1. rewrite make_rad_copies.
  unfold k at 1. rewrite valid_region by auto. rewrite !andb_true_iff.
  split.
  - intros (HR & (T1 & T2) & (R1 & R2) & _). destruct (region_q0 _ _ _ HP HR) as [Hq HQ]. pose proof HP as (HM & _).
    pose proof (tau_ends ps S sp HM Hq HQ) as TE. fold k in TE.
    assert (C : contains (tau_bound k) (Fin tau) = true).
    { rewrite TE. unfold contains. cbn [bmin bmax eleb]. apply rleb_spec in T1. apply rleb_spec in T2. pose proof (make_rad_eqs k tau phi_k R) as E. fold r in E.
      rewrite (re_tau_min _ E) in T1. rewrite (re_tau_max _ E) in T2. change (rlambda_Y_sqrt r) with (klambda_Y_sqrt k) in *. change (rS_x r) with (kS_x k) in *. unfold k in T1, T2.
      rewrite (f_lambda_Y_sqrt ps S sp HM HQ), (f_Sx ps S sp HM) in T1, T2. change (rM r) with (a_M ps) in *. change (rtau r) with tau in *.
      replace ((2 * a_M ps * q0_of ps S sp - 2 * a_M ps * qn_of ps S sp) / (2 * sq (a_M ps))) with ((q0_of ps S sp - qn_of ps S sp) / a_M ps) in T1 by (unfold sq; field; lra).
      replace ((2 * a_M ps * q0_of ps S sp + 2 * a_M ps * qn_of ps S sp) / (2 * sq (a_M ps))) with ((q0_of ps S sp + qn_of ps S sp) / a_M ps) in T2 by (unfold sq; field; lra).
      rewrite (proj2 (rleb_spec _ _) T1), (proj2 (rleb_spec _ _) T2). reflexivity. }
    split; [auto|]. split; [apply tau_points; auto|]. apply rleb_spec in R1. split; [exact R1|].
    destruct (R_ends ps S sp tau phi_k HP Hth HR C) as (Rm & E & _ & _ & H). fold k in E. apply H.
    unfold r in R2. rewrite make_rad_copies in R2. change (rtau (make_rad k tau phi_k R)) with tau in R2. change (rphi_k (make_rad k tau phi_k R)) with phi_k in R2.
    rewrite E in R2. cbn [bmax eleb] in R2. apply rleb_spec in R2. exact R2.
  - intros (HR & T & R1 & R2). destruct (region_q0 _ _ _ HP HR) as [Hq HQ]. pose proof HP as (HM & _).
    pose proof (tau_ends ps S sp HM Hq HQ) as TE. fold k in TE. assert (C : contains (tau_bound k) (Fin tau) = true) by (apply tau_points; auto).
    split; [auto|]. destruct (R_ends ps S sp tau phi_k HP Hth HR C) as (Rm & E & _ & _ & H). fold k in E.
    pose proof C as C'. rewrite TE in C. unfold contains in C. cbn [bmin bmax eleb] in C. apply andb_true_iff in C. destruct C as [T1 T2].
    pose proof (make_rad_eqs k tau phi_k R) as EQ. fold r in EQ.
    split; [split|].
    + rewrite (re_tau_min _ EQ). change (rlambda_Y_sqrt r) with (klambda_Y_sqrt k). change (rS_x r) with (kS_x k). unfold k.
      rewrite (f_lambda_Y_sqrt ps S sp HM HQ), (f_Sx ps S sp HM). change (rM r) with (a_M ps). change (rtau r) with tau.
      replace ((2 * a_M ps * q0_of ps S sp - 2 * a_M ps * qn_of ps S sp) / (2 * sq (a_M ps))) with ((q0_of ps S sp - qn_of ps S sp) / a_M ps) by (unfold sq; field; lra). auto.
    + rewrite (re_tau_max _ EQ). change (rlambda_Y_sqrt r) with (klambda_Y_sqrt k). change (rS_x r) with (kS_x k). unfold k.
      rewrite (f_lambda_Y_sqrt ps S sp HM HQ), (f_Sx ps S sp HM). change (rM r) with (a_M ps). change (rtau r) with tau.
      replace ((2 * a_M ps * q0_of ps S sp + 2 * a_M ps * qn_of ps S sp) / (2 * sq (a_M ps))) with ((q0_of ps S sp + qn_of ps S sp) / a_M ps) by (unfold sq; field; lra). auto.
    + split; [split|reflexivity]; [apply rleb_spec; exact R1|]. unfold r. rewrite make_rad_copies. change (rtau (make_rad k tau phi_k R)) with tau. change (rphi_k (make_rad k tau phi_k R)) with phi_k.
      rewrite E. cbn [bmax eleb]. apply rleb_spec. apply H. exact R2.
Qed.
Lemma valid_cut_rad_spec cut e f ps S sp tau phi_k R : masses_ok ps -> 0 < a_Mth ps -> same_event e ps S sp -> same_photon f e tau phi_k R ->
  valid_cut_rad cut (make_rad (make_kin ps S sp) tau phi_k R) = true <->
  valid_rad (make_rad (make_kin ps S sp) tau phi_k R) = true /\
  obeys_cuts_rad cut tau phi_k (v_p e) (v_k1 e) (v_q e) (v_ph e) (v_k e f) (v_n f).
Proof.
  intros HP Hth HE HF. pose proof (same_kin_at e ps S sp HE) as A. set (k := make_kin ps S sp) in *. set (r := make_rad k tau phi_k R).
  assert (N : photon_names r (v_p e) (v_k1 e) (v_q e) (v_ph e) (v_k e f) (v_n f)).
  { destruct HF as (Hf & <- & <- & <-). unfold r, k. rewrite (same_event_parts _ _ _ _ HE). destruct HE as (H & <- & <- & _). apply event_photon_names; auto. }
  destruct HE as (HPh & Esp & ES & EM & Em & Emh). pose proof (ph_M e HPh) as HM. pose proof (ph_kx e HPh) as Hkx.
  assert (VP : v_p e = V4 (e_M e) 0 0 0) by reflexivity.
  assert (P1 : 0 < lab_mom (v_p e) (v_k1 e)). { unfold lab_mom. rewrite VP, rest_sdot by auto. unfold v_k1. cbn [x4 y4 z4]. apply sqrt_lt_R0. nra. }
  destruct HF as (Hf & Etau & Ephi & ER). destruct Hf as (F1 & F2 & F3). unfold sq in F3.
  assert (CS1 : cos (f_phi f) * cos (f_phi f) + sin (f_phi f) * sin (f_phi f) = 1) by (pose proof (sin2_cos2 (f_phi f)); unfold Rsqr in *; lra).
  assert (Pn : lab_mom (v_p e) (v_n f) = 1).
  { unfold lab_mom. rewrite VP, rest_sdot by auto. unfold v_n. cbn [x4 y4 z4]. rewrite <- sqrt_1. f_equal. rewrite <- F3.
    transitivity (f_st f * f_st f * (cos (f_phi f) * cos (f_phi f) + sin (f_phi f) * sin (f_phi f)) + f_ct f * f_ct f); [ring|rewrite CS1; ring]. }
  assert (Eq1 : esqrt (Fin (klambda_S k)) = Fin (2 * e_M e * lab_mom (v_p e) (v_k1 e))).
  { apply mom_value; auto. rewrite rest_sdot by auto. rewrite (at_lambda_S _ _ _ _ _ _ _ _ _ _ _ _ _ _ _ A). unfold v_k1. cbn [x4 y4 z4]. ring. }
  assert (TH : eacos (ediv (Fin (rS r - 2 * sq (rM r) * rz_1 r)) (esqrt (Fin (rlambda_S r)))) = Fin (lab_theta (v_p e) (v_k1 e) (v_n f))).
  { change (rlambda_S r) with (klambda_S k). rewrite Eq1. change (rS r) with (kS k). change (rM r) with (kM k).
    rewrite (at_S _ _ _ _ _ _ _ _ _ _ _ _ _ _ _ A), (at_M _ _ _ _ _ _ _ _ _ _ _ _ _ _ _ A).
    pose proof (angle_value (e_M e) HM _ (v_k1 e) (v_n f) eq_refl P1) as AV. rewrite <- VP, Pn in AV. rewrite <- AV by lra. f_equal. cbn [emul].
    assert (D : 2 * e_M e * lab_mom (v_p e) (v_k1 e) <> 0) by (apply Rgt_not_eq; repeat apply Rmult_lt_0_compat; lra).
    assert (D' : 2 * e_M e * lab_mom (v_p e) (v_k1 e) * (2 * e_M e * 1) <> 0) by (apply Rgt_not_eq; repeat apply Rmult_lt_0_compat; lra).
    rewrite (ediv_fin _ _ D), (ediv_fin _ _ D'). f_equal. rewrite (n_z_1 _ _ _ _ _ _ _ N).
    replace (2 * e_M e * e_E e - 2 * sq (e_M e) * (dot4 (v_n f) (v_k1 e) / dot4 (v_n f) (v_p e))) with (2 * e_M e * sdot (v_p e) (v_k1 e) (v_n f)).
    { field. split; lra. }
    rewrite VP, rest_sdot by auto. unfold v_n, v_k1, sq. uvec. field. lra. }
  unfold valid_cut_rad. cbv zeta. rewrite chain, !fails_chain, TH.
  assert (KB : valid_rad r = true -> ediv (Fin ((1 + rtau r - rmu r) * rR r)) (Fin (2 * rmx r)) = Fin (dot4 (v_k e f) (sub4 (add4 (v_p e) (v_q e)) (v_ph e)) / sqrt (norm_sq4 (sub4 (add4 (v_p e) (v_q e)) (v_ph e))))).
  { intros V. unfold r, k in V. apply valid_rad_spec in V; auto. destruct V as (HR & T & HRR & _).
    destruct (region_q0 _ _ _ HP HR) as [Hq HQ]. destruct (f_mx_sq ps S sp (proj1 HP) Hq) as [F _]; try apply HR; auto. fold k in F.
    assert (0 < rmx r). { change (rmx r) with (sqrt (kmx_sq k)). apply sqrt_lt_R0. rewrite F. pose proof (rg_missing _ _ _ HR). unfold sq in *. nra. }
    rewrite ediv_fin by lra. f_equal. rewrite <- (n_k_0_bar _ _ _ _ _ _ _ N). symmetry. apply (re_k_0_bar _ (make_rad_eqs k tau phi_k R)). }
  pose proof N as [N0 NR Nt Nmu Nz1 Nz2 Nk0 _ _ _ _ _ _ _ _ _ _].
  split.
  - intros (V & H). rewrite (KB V) in H. rewrite Nk0, NR, Nt in H. decompose [and] H. split; [exact V|constructor; auto].
  - intros [V []]. split; [exact V|]. rewrite (KB V), Nk0, NR, Nt. repeat (split; [assumption|]). reflexivity.
Qed.
