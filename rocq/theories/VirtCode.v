(** The formulas of cross_section.cpp are the limits of the one-loop integrals. *)
From Coq Require Import Reals Lra Lia.
From Coquelicot Require Import Coquelicot.
From Verif Require Import ExtModel MathModel MathProofs BoundProofs DilogSpec DilogProofs KinModel XsModel VirtSpec VirtVac VirtVert VirtSphi VirtSoft VirtSum.
Local Open Scope R_scope.
Set Bullet Behavior "Strict Subproofs".

(** One lepton, with invariant S' = 2 mx E *)
Section L.
Variables m mx E : R.
Hypothesis Hm : 0 < m.
Hypothesis Hx : 0 < mx.
Hypothesis HE : m < E.
Let p := sqrt (E ^ 2 - m ^ 2).
Let Sp := 2 * mx * E.
Let diff := sqrt1p_1m (- (4 * sq m * mx ^ 2) / sq Sp).
Lemma p_arg : 0 < E ^ 2 - m ^ 2.
Proof. replace (E ^ 2 - m ^ 2) with ((E - m) * (E + m)) by ring. apply Rmult_lt_0_compat; lra. Qed.
Lemma p_pos : 0 < p. Proof. apply sqrt_lt_R0, p_arg. Qed.
Lemma p_sq : p ^ 2 = E ^ 2 - m ^ 2. Proof. unfold p. apply pow2_sqrt, Rlt_le, p_arg. Qed.
Lemma p_lt : p < E.
Proof. pose proof p_pos. pose proof p_sq. assert (0 < m ^ 2) by (apply pow_lt; lra). apply Rsqr_incrst_0; try lra. unfold Rsqr. lra. Qed.
Lemma lam_is : sq Sp - 4 * sq m * mx ^ 2 = (2 * mx * p) ^ 2.
Proof. replace ((2 * mx * p) ^ 2) with (4 * mx ^ 2 * p ^ 2) by ring. rewrite p_sq. unfold Sp, sq. ring. Qed.
Lemma lam_sqrt : sqrt (sq Sp - 4 * sq m * mx ^ 2) = 2 * mx * p.
Proof. rewrite lam_is. apply sqrt_pow2. pose proof p_pos. apply Rmult_le_pos; lra. Qed.
Lemma diff_is : diff = p / E - 1.
Proof.
  pose proof p_pos as P. pose proof p_lt. unfold diff. assert (A : 1 + - (4 * sq m * mx ^ 2) / sq Sp = (p / E) ^ 2).
  { unfold Rdiv at 2. rewrite Rpow_mult_distr, p_sq. unfold Sp, sq. field. lra. }
  rewrite sqrt1p_1m_eq by (pose proof (pow2_ge_0 (p / E)); lra). rewrite A. rewrite sqrt_pow2; [reflexivity|]. left. apply Rdiv_lt_0_compat; lra.
Qed.
Lemma ratio_is : - (2 + diff) / diff = (E + p) / (E - p).
Proof. pose proof p_pos. pose proof p_lt. rewrite diff_is. field. repeat split; lra. Qed.
Lemma sum_is : (2 + diff) * Sp = 2 * mx * (E + p).
Proof. rewrite diff_is. unfold Sp. field. lra. Qed.
End L.

Section C.
Variable D : R -> R.
Hypothesis HD : is_dilog D.
Variable k : kin.
Let Q := kQ_sq k.
Let m := km k.
Let mx := kmx k.
Let Sp := kS k - kQ_sq k - kV_1 k.
Let Xp := kX k + kQ_sq k - kV_2 k.
Let E1 := Sp / (2 * mx).
Let E2 := Xp / (2 * mx).
Hypothesis HQ : 0 < Q.
Hypothesis Hm : 0 < m.
Hypothesis Hx : 0 < mx.
Hypothesis Hmx : kmx_sq k = mx ^ 2.
Hypothesis H1 : m < E1.
Hypothesis H2 : m < E2.
Hypothesis G : not_collinear Q m E1 E2.
Let c := cc Q m.
Let kp := (c + 1 / 2) / (c - 1 / 2).
Let r1 := sqrt (E1 ^ 2 - m ^ 2).
Let r2 := sqrt (E2 ^ 2 - m ^ 2).
Lemma code_is : delta_vert_rad_0 D k = vertex_0 D Q m + leg m E1 + leg m E2 + S_phi D Q m E1 E2.
Proof.
  pose proof (c_half Q m HQ Hm) as CH. fold c in CH. pose proof (mm_is Q m HQ Hm) as MM. fold c in MM. pose proof (root_is Q m HQ Hm) as RT. fold c in RT.
  pose proof (kp_gt Q m HQ Hm) as KG. fold c in KG. fold kp in KG.
  pose proof (Q_is Q m HQ Hm) as QI. fold c in QI. fold kp in QI.
  assert (AH : 0 < kp * E1 - E2).
  { pose proof (ahead kp (m ^ 2) E1 E2 KG (mm_pos m Hm) (Rlt_trans _ _ _ Hm H1) (Rlt_trans _ _ _ Hm H2)) as A. rewrite QI in A. exact (A G). }
  assert (S1 : Sp = 2 * mx * E1) by (unfold E1; field; lra). assert (S2 : Xp = 2 * mx * E2) by (unfold E2; field; lra).
  pose proof (p_pos m E1 Hm H1) as P1. pose proof (p_pos m E2 Hm H2) as P2. pose proof (p_lt m E1 Hm H1) as L1. pose proof (p_lt m E2 Hm H2) as L2.
  pose proof (p_sq m E1 Hm H1) as Q1. pose proof (p_sq m E2 Hm H2) as Q2. fold r1 in P1, L1, Q1. fold r2 in P2, L2, Q2.
  unfold delta_vert_rad_0. cbv zeta. fold Sp Xp. fold Q m mx. rewrite Hmx, S1, S2.
  rewrite (lam_sqrt m mx E1 Hm Hx H1), (lam_sqrt m mx E2 Hm Hx H2), (lam_is m mx E1 Hm H1), (lam_is m mx E2 Hm H2).
  rewrite (ratio_is m mx E1 Hm Hx H1), (ratio_is m mx E2 Hm Hx H2), (sum_is m mx E1 Hm Hx H1), (sum_is m mx E2 Hm Hx H2).
  fold r1 r2. 
  change (1 / sqrt (Q * (Q + 4 * sq m)) * ln ((2 + sqrt1p_1m (4 * sq m / Q)) / sqrt1p_1m (4 * sq m / Q))) with (lepton_L Q m).
  assert (SM : 2 + sqrt1p_1m (4 * sq m / Q) = 2 * c + 1).
  { rewrite sqrt1p_1m_eq. 2:{ pose proof (arg_pos Q m HQ Hm) as A. unfold sq. replace (m * m) with (m ^ 2) by ring. lra. }
    unfold c, cc. unfold sq. replace (m * m) with (m ^ 2) by ring. field. }
  rewrite SM. unfold vertex_0, log_value, leg, S_phi, Fd. cbv zeta. rewrite RT. fold r1 r2. fold c. fold kp.
  (* the four dilogarithms *)
  set (v := m ^ 2 * (kp ^ 2 - 1) / (2 * kp * (kp * E1 - E2))).
  assert (A1 : (E1 + r1) * (E1 - r1) = m ^ 2) by (replace ((E1 + r1) * (E1 - r1)) with (E1 ^ 2 - r1 ^ 2) by ring; rewrite Q1; ring).
  assert (A2 : (E2 + r2) * (E2 - r2) = m ^ 2) by (replace ((E2 + r2) * (E2 - r2)) with (E2 ^ 2 - r2 ^ 2) by ring; rewrite Q2; ring).
  set (rho := 1 / (2 * Q * c) * ((Q + 2 * sq m + 2 * Q * c) * (2 * mx * E1) - 2 * sq m * (2 * mx * E2))).
  assert (K1 : (c - 1 / 2) * kp = c + 1 / 2) by (unfold kp; field; lra).
  assert (RH : rho = 2 * mx * m ^ 2 / v).
  { assert (B : rho = 2 * mx * (m ^ 2 / (Q * c)) * (kp * E1 - E2)).
    { unfold rho, sq. replace (m * m) with (m ^ 2) by ring. replace (Q + 2 * m ^ 2 + 2 * Q * c) with (2 * m ^ 2 * kp). 2:{ rewrite MM. replace (2 * (Q * ((c - 1 / 2) * (c + 1 / 2))) * kp) with (2 * Q * (c + 1 / 2) * ((c - 1 / 2) * kp)) by ring. rewrite K1. field. } field. lra. }
    rewrite B. unfold v. replace (Q * c) with (m ^ 2 * (kp ^ 2 - 1) / (2 * kp)). 2:{ rewrite MM. unfold kp. field. lra. }
    field. assert (0 < m ^ 2) by (apply pow_lt; lra). assert (0 < kp ^ 2 - 1) by (replace (kp ^ 2 - 1) with ((kp - 1) * (kp + 1)) by ring; apply Rmult_lt_0_compat; lra). repeat split; lra. }
  assert (VP : 0 < v). { unfold v. assert (0 < m ^ 2) by (apply pow_lt; lra). assert (0 < kp ^ 2 - 1) by (replace (kp ^ 2 - 1) with ((kp - 1) * (kp + 1)) by ring; apply Rmult_lt_0_compat; lra). apply Rdiv_lt_0_compat; [apply Rmult_lt_0_compat; lra|]. apply Rmult_lt_0_compat; lra. }
  assert (MP : 0 < m ^ 2) by (apply pow_lt; lra).
  assert (C4 : sq (2 * c + 1) * Q = 4 * m ^ 2 * kp). { rewrite MM. replace (4 * (Q * ((c - 1 / 2) * (c + 1 / 2))) * kp) with (4 * Q * (c + 1 / 2) * ((c - 1 / 2) * kp)) by ring. rewrite K1. unfold sq. field. }
  assert (V1 : 1 / (2 * mx * (E1 + r1)) * rho = (E1 - r1) * / (1 + kp * (1 - 1)) / v).
  { rewrite RH, <- A1. field. repeat split; try lra. }
  assert (V2 : 2 * mx * (E1 + r1) / (4 * sq m * mx ^ 2) * rho = (E1 + r1) * / (1 + kp * (1 - 1)) / v).
  { rewrite RH. unfold sq. field. repeat split; try lra. }
  assert (V3 : 2 * mx * (E2 + r2) / (mx ^ 2 * sq (2 * c + 1) * Q) * rho = (E2 + r2) * / (0 + kp * (1 - 0)) / v).
  { rewrite RH. replace (mx ^ 2 * sq (2 * c + 1) * Q) with (mx ^ 2 * (sq (2 * c + 1) * Q)) by ring. rewrite C4. field. repeat split; try lra. }
  assert (V4 : 4 * sq m / (2 * mx * (E2 + r2) * sq (2 * c + 1) * Q) * rho = (E2 - r2) * / (0 + kp * (1 - 0)) / v).
  { rewrite RH. replace (2 * mx * (E2 + r2) * sq (2 * c + 1) * Q) with (2 * mx * (E2 + r2) * (sq (2 * c + 1) * Q)) by ring. rewrite C4. unfold sq.
    replace (E2 - r2) with (m ^ 2 / (E2 + r2)) by (rewrite <- A2; field; lra). field. repeat split; try lra. }
  rewrite V1, V2, V3, V4.
  unfold Fs. rewrite QI.
  replace (1 * E1 + (1 - 1) * E2) with E1 by ring. replace (0 * E1 + (1 - 0) * E2) with E2 by ring.
  replace (m ^ 2 + 1 * (1 - 1) * Q) with (m ^ 2) by ring. replace (m ^ 2 + 0 * (1 - 0) * Q) with (m ^ 2) by ring. fold r1 r2. fold v.
  set (d1 := D (1 - (E1 - r1) * / (1 + kp * (1 - 1)) / v)). set (d2 := D (1 - (E1 + r1) * / (1 + kp * (1 - 1)) / v)).
  set (d3 := D (1 - (E2 + r2) * / (0 + kp * (1 - 0)) / v)). set (d4 := D (1 - (E2 - r2) * / (0 + kp * (1 - 0)) / v)).
  assert (KK : m ^ 2 * (kp - / kp) = 2 * Q * c). { rewrite MM. unfold kp. field. lra. }
  rewrite KK. unfold Qm. set (l1 := ln ((E1 + r1) / (E1 - r1))). set (l2 := ln ((E2 + r2) / (E2 - r2))). set (dm := D (2 * (2 * Q * c) / (Q + 2 * Q * c))). set (L := lepton_L Q m).
  clear - HQ CH Hx P1 P2. unfold sq. field. repeat split; lra.
Qed.
Variable k0 : R.
Hypothesis Hk0 : 0 < k0.
Let kmax := (mx ^ 2 - kMth k ^ 2) / (2 * mx).
Hypothesis Hmax : 0 < kmax.
Let kc := Rmin k0 kmax.
Lemma kc_pos : 0 < kc. Proof. apply Rmin_glb_lt; assumption. Qed.
Lemma code_ir : delta_vert_rad_ir D k k0 = Fin (vertex_0 D Q m + leg m E1 + leg m E2 + S_phi D Q m E1 E2 + 2 * (Qm Q m * lepton_L Q m - 1) * ln (2 * kc / m)).
Proof.
  unfold delta_vert_rad_ir. cbv zeta. replace (rltb 0 k0) with true by (symmetry; apply rltb_spec; exact Hk0). cbn [negb]. rewrite code_is. fold Q m mx. rewrite Hmx. do 2 f_equal.
  f_equal; [unfold Qm, sq; cbn [pow]; ring|]. f_equal. replace (mx ^ 2 - sq (kMth k)) with (mx ^ 2 - kMth k ^ 2) by (unfold sq; ring). fold kmax. unfold kc. destruct (rltb k0 kmax) eqn:X.
  - apply rltb_spec in X. rewrite Rmin_left by lra. reflexivity.
  - apply rltb_false in X. rewrite Rmin_right by lra. unfold kmax. field. lra.
Qed.
Lemma sum_close mu : 0 < mu <= m ->
  Rabs (vertex Q m mu + soft Q m E1 E2 mu kc - (vertex_0 D Q m + leg m E1 + leg m E2 + S_phi D Q m E1 E2 + 2 * (Qm Q m * lepton_L Q m - 1) * ln (2 * kc / m)))
  <= ((9 * Qm Q m / m ^ 2 + 62) / m + (Qm Q m + 2 * m ^ 2) * soft_K m E1 E2 kc) * mu.
Proof.
  intros Hmu. pose proof (vertex_close D HD Q m HQ Hm mu Hmu) as V. pose proof kc_pos as KP. pose proof (soft_close D HD Q m E1 E2 HQ Hm H1 H2 G mu kc (proj1 Hmu) KP) as S.
  assert (L : ln (2 * kc / m) = ln (2 * kc / mu) - ln (m / mu)) by (rewrite !ln_div by lra; ring). rewrite L.
  apply Rabs_le_between in V. apply Rabs_le_between in S. apply Rabs_le.
  replace ((9 * Qm Q m / m ^ 2 + 62) * (mu / m)) with ((9 * Qm Q m / m ^ 2 + 62) / m * mu) in V by (field; lra). lra.
Qed.
Lemma code_limit : exists v, delta_vert_rad_ir D k k0 = Fin v /\ filterlim (fun mu => vertex Q m mu + soft Q m E1 E2 mu kc) (at_right 0) (locally v).
Proof.
  eexists. split; [exact code_ir|]. set (v := vertex_0 D Q m + _ + _ + _ + _). set (K := (9 * Qm Q m / m ^ 2 + 62) / m + (Qm Q m + 2 * m ^ 2) * soft_K m E1 E2 kc).
  apply filterlim_locally. intros eps. set (K' := Rabs K + 1). assert (KP : 0 < K') by (unfold K'; pose proof (Rabs_pos K); lra).
  assert (DP : 0 < Rmin m (eps / K')) by (apply Rmin_glb_lt; [exact Hm|apply Rdiv_lt_0_compat; [apply cond_pos|exact KP]]).
  exists (mkposreal _ DP). intros mu B M. change (Rabs (mu - 0) < Rmin m (eps / K')) in B. rewrite Rminus_0_r, Rabs_pos_eq in B by lra.
  pose proof (Rmin_l m (eps / K')). pose proof (Rmin_r m (eps / K')).
  change (Rabs (vertex Q m mu + soft Q m E1 E2 mu kc - v) < eps). eapply Rle_lt_trans; [apply sum_close; lra|]. fold K.
  apply Rle_lt_trans with (K' * mu). { apply Rmult_le_compat_r; [lra|]. unfold K'. pose proof (Rle_abs K). lra. }
  apply Rlt_le_trans with (K' * (eps / K')); [apply Rmult_lt_compat_l; lra|]. right. field. lra.
Qed.
End C.
