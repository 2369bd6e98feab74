(** Virtual and soft-photon corrections. *)
From Coq Require Import Reals Lra Psatz Bool.
From Coquelicot Require Import Coquelicot.
From Verif Require Import ExtModel MathModel MathProofs BoundModel BoundProofs VecModel TransModel KinModel SfModel
  CutModel LepModel HadModel XsModel XsProofs.
Local Open Scope R_scope.
Set Bullet Behavior "Strict Subproofs".

Lemma ln_ratio v : 0 < v < 1 -> 2 * v < ln ((1 + v) / (1 - v)).
Proof.
  intros [H0 H1].
  assert (P : forall x, 0 <= x < 1 -> 0 < (1 + x) / (1 - x)) by (intros x Hx; apply Rdiv_lt_0_compat; lra).
  set (g := fun x => ln (1 + x) - ln (1 - x) - 2 * x).
  assert (D : forall x, 0 <= x < 1 -> derivable_pt_lim g x (/ (1 + x) + / (1 - x) - 2)).
  { intros x Hx. apply is_derive_Reals. unfold g. auto_derive; [lra|]. field. lra. }
  destruct (MVT_cor2 g (fun x => / (1 + x) + / (1 - x) - 2) 0 v H0) as (c & E & Hc).
  { intros c Hc. apply D. lra. }
  assert (G0 : g 0 = 0) by (unfold g; rewrite Rplus_0_r, Rminus_0_r, ln_1; ring).
  rewrite G0 in E.
  assert (S : 0 < / (1 + c) + / (1 - c) - 2).
  { replace (/ (1 + c) + / (1 - c) - 2) with (2 * (c * c) * (/ (1 + c) * / (1 - c))) by (field; lra).
    apply Rmult_lt_0_compat; [|apply Rmult_lt_0_compat; apply Rinv_0_lt_compat; lra]. assert (0 < c * c) by (apply Rmult_lt_0_compat; lra). lra. }
  assert (0 < g v). { assert (0 < (/ (1 + c) + / (1 - c) - 2) * (v - 0)) by (apply Rmult_lt_0_compat; lra). lra. }
  unfold Rdiv. rewrite ln_mult, ln_Rinv; [unfold g in *; lra|lra|lra|apply Rinv_0_lt_compat; lra].
Qed.

Section L.
Variables Qs m : R.
Hypothesis HQ : 0 < Qs.
Hypothesis Hm : 0 < m.
Let lam := Qs * (Qs + 4 * (m * m)).
Lemma lam_pos : 0 < lam.
Proof. unfold lam. assert (0 < m * m) by (apply Rmult_lt_0_compat; auto). apply Rmult_lt_0_compat; lra. Qed.
Lemma lam_sq : sqrt lam * sqrt lam = lam.
Proof. apply sqrt_sqrt. left. apply lam_pos. Qed.
Lemma lam_gt : Qs < sqrt lam.
Proof.
  pose proof lam_pos. pose proof lam_sq as E. assert (0 < sqrt lam) by (apply sqrt_lt_R0; auto).
  destruct (Rlt_le_dec Qs (sqrt lam)); auto. exfalso. assert (sqrt lam * sqrt lam <= Qs * Qs) by (apply Rmult_le_compat; lra).
  assert (0 < m * m) by (apply Rmult_lt_0_compat; auto). assert (0 < Qs * (4 * (m * m))) by (apply Rmult_lt_0_compat; lra).
  unfold lam in *. lra.
Qed.
Lemma lepton_L_textbook : lepton_L Qs m = ln ((sqrt lam + Qs) / (sqrt lam - Qs)) / sqrt lam.
Proof.
  assert (M2 : 0 < m * m) by (apply Rmult_lt_0_compat; auto).
  unfold lepton_L, sq. cbv zeta. fold lam. rewrite sqrt1p_1m_eq.
  2:{ assert (0 < 4 * (m * m) / Qs) by (apply Rdiv_lt_0_compat; lra). lra. }
  assert (E : sqrt (1 + 4 * (m * m) / Qs) = sqrt lam / Qs).
  { apply sqrt_lem_1.
    - assert (0 < 4 * (m * m) / Qs) by (apply Rdiv_lt_0_compat; lra). lra.
    - left. apply Rdiv_lt_0_compat; [apply sqrt_lt_R0, lam_pos|auto].
    - transitivity (sqrt lam * sqrt lam / (Qs * Qs)); [field; lra|]. rewrite lam_sq. unfold lam. field. lra. }
  rewrite E. pose proof lam_gt. replace ((2 + (sqrt lam / Qs - 1)) / (sqrt lam / Qs - 1)) with ((sqrt lam + Qs) / (sqrt lam - Qs)) by (field; lra).
  field. lra.
Qed.
Lemma soft_factor_pos : 0 < (Qs + 2 * sq m) * lepton_L Qs m - 1.
Proof.
  rewrite lepton_L_textbook. unfold sq. pose proof lam_gt as G. pose proof lam_sq as S2. pose proof lam_pos.
  assert (M2 : 0 < m * m) by (apply Rmult_lt_0_compat; auto).
  set (s := sqrt lam) in *. assert (0 < s) by lra.
  assert (V : 0 < Qs / s < 1). { split; [apply Rdiv_lt_0_compat; lra|]. apply Rmult_lt_reg_r with s; auto. unfold Rdiv. rewrite Rmult_assoc, Rinv_l by lra. lra. }
  pose proof (ln_ratio _ V) as LR. replace ((1 + Qs / s) / (1 - Qs / s)) with ((s + Qs) / (s - Qs)) in LR by (field; lra).
  assert (A : 1 < (Qs + 2 * (m * m)) * (2 * (Qs / s)) / s).
  { replace ((Qs + 2 * (m * m)) * (2 * (Qs / s)) / s) with (2 * Qs * (Qs + 2 * (m * m)) / (s * s)) by (field; lra). rewrite S2. unfold lam.
    replace (2 * Qs * (Qs + 2 * (m * m)) / (Qs * (Qs + 4 * (m * m)))) with (1 + Qs / (Qs + 4 * (m * m))) by (field; lra).
    assert (0 < Qs / (Qs + 4 * (m * m))) by (apply Rdiv_lt_0_compat; lra). lra. }
  assert (B : (Qs + 2 * (m * m)) * (2 * (Qs / s)) / s < (Qs + 2 * (m * m)) * (ln ((s + Qs) / (s - Qs)) / s)).
  { unfold Rdiv at 1. rewrite Rmult_assoc. apply Rmult_lt_compat_l; [lra|]. apply Rmult_lt_compat_r; [apply Rinv_0_lt_compat; auto|lra]. }
  lra.
Qed.
End L.

Section D.
Context (dilog : R -> R) (k : kin).
Hypothesis Hm : 0 < km k.
Hypothesis Hmx : 0 < kmx k.
Hypothesis Hth : sq (kMth k) < kmx_sq k.
Let w := kmx_sq k - sq (kMth k).
Let slope := 2 * ((kQ_sq k + 2 * sq (km k)) * lepton_L (kQ_sq k) (km k) - 1).
Lemma w_pos : 0 < w. Proof. unfold w. lra. Qed.
Lemma cutoff_sum k0 : 0 < k0 ->
  eadd (delta_vert_rad_ir dilog k k0) (delta_rad_ir_hard k k0) = Fin (delta_vert_rad_0 dilog k + slope * ln (w / (km k * kmx k))).
Proof.
  intros H. unfold delta_vert_rad_ir, delta_rad_ir_hard. cbv zeta. fold w. pose proof w_pos as W.
  replace (rltb 0 k0) with true by (symmetry; apply rltb_spec; auto). cbn [negb].
  destruct (rltb k0 (w / (2 * kmx k))) eqn:E; cbn [negb eadd]; f_equal; fold slope; [|ring].
  replace (w / (km k * kmx k)) with (2 * k0 / km k * (w / (2 * k0 * kmx k))) by (field; lra).
  rewrite ln_mult; [ring| |].
  - apply Rdiv_lt_0_compat; lra.
  - apply Rdiv_lt_0_compat; [auto|]. assert (0 < k0 * kmx k) by (apply Rmult_lt_0_compat; auto). lra.
Qed.
Lemma vert_mono k0 k1 a b : 0 < kQ_sq k -> 0 < k0 <= k1 -> delta_vert_rad_ir dilog k k0 = Fin a -> delta_vert_rad_ir dilog k k1 = Fin b ->
  a <= b /\ (k0 < k1 -> k1 <= w / (2 * kmx k) -> a < b) /\ (w / (2 * kmx k) <= k0 -> a = b).
Proof.
  intros HQ [H0 H1]. unfold delta_vert_rad_ir. cbv zeta. fold w. pose proof w_pos as W. pose proof (soft_factor_pos _ _ HQ Hm) as SP.
  replace (rltb 0 k0) with true by (symmetry; apply rltb_spec; auto). replace (rltb 0 k1) with true by (symmetry; apply rltb_spec; lra). cbn [negb].
  fold slope. assert (SL : 0 < slope) by (unfold slope; lra).
  set (km' := w / (2 * kmx k)). assert (KM : 0 < km') by (unfold km'; apply Rdiv_lt_0_compat; lra).
  intros A B. assert (FI : forall u v, Fin u = Fin v -> u = v) by (intros u v [=]; auto). apply FI in A, B. subst a b. clear FI.
  set (arg := fun c => if rltb c km' then 2 * c / km k else w / (km k * kmx k)).
  fold (arg k0). fold (arg k1).
  assert (ARG : forall c, arg c = 2 * (if rltb c km' then c else km') / km k). { intros c. unfold arg. destruct (rltb c km'); [reflexivity|]. unfold km'. field. lra. }
  rewrite !ARG.
  assert (LN : forall c d, 0 < c -> c < d -> ln (2 * c / km k) < ln (2 * d / km k)).
  { intros c d Hc Hd. apply ln_increasing; [apply Rdiv_lt_0_compat; lra|]. apply Rmult_lt_compat_r; [apply Rinv_0_lt_compat; auto|lra]. }
  assert (LS : forall c d, 0 < c -> c < d -> slope * ln (2 * c / km k) < slope * ln (2 * d / km k)) by (intros c d Hc Hd; apply Rmult_lt_compat_l; auto).
  assert (LE : forall c d, 0 < c -> c <= d -> slope * ln (2 * c / km k) <= slope * ln (2 * d / km k)).
  { intros c d Hc [Hd| ->]; [left; auto|right; auto]. }
  destruct (rltb k0 km') eqn:E0; [apply rltb_spec in E0|apply rltb_false in E0]; (destruct (rltb k1 km') eqn:E1; [apply rltb_spec in E1|apply rltb_false in E1]).
  - split; [|split]; [pose proof (LE k0 k1 H0 H1); lra| |lra]. intros; pose proof (LS k0 k1 H0); lra.
  - split; [|split]; [pose proof (LE k0 km'); lra| |lra]. intros; pose proof (LS k0 km' H0); lra.
  - exfalso; lra.
  - split; [lra|split]; [lra|auto].
Qed.
Lemma hard_nonneg k0 a : 0 < kQ_sq k -> delta_rad_ir_hard k k0 = Fin a -> 0 <= a.
Proof.
  intros HQ. unfold delta_rad_ir_hard. cbv zeta. fold w. pose proof w_pos as W. pose proof (soft_factor_pos _ _ HQ Hm) as SP.
  destruct (rltb 0 k0) eqn:E; cbn [negb]; [|discriminate]. apply rltb_spec in E.
  destruct (rltb k0 (w / (2 * kmx k))) eqn:E1; cbn [negb]; intros A; assert (FI : forall u v, Fin u = Fin v -> u = v) by (intros u v [=]; auto); apply FI in A; subst a; [|lra].
  apply rltb_spec in E1. fold slope. assert (0 < slope) by (unfold slope; lra).
  apply Rmult_le_pos; [lra|]. rewrite <- ln_1. left. apply ln_increasing; [lra|].
  assert (KX : 0 < k0 * kmx k) by (apply Rmult_lt_0_compat; auto).
  apply Rmult_lt_compat_r with (r := 2 * kmx k) in E1; [|lra]. replace (w / (2 * kmx k) * (2 * kmx k)) with w in E1 by (field; lra).
  apply Rmult_lt_reg_r with (2 * k0 * kmx k); [lra|]. replace (w / (2 * k0 * kmx k) * (2 * k0 * kmx k)) with w by (field; lra). lra.
Qed.
End D.

Section N.
Context (dilog : R -> R) (sf : sf_set sf_point).
Lemma nrad_ir_is k ph lambda_e eta k0 dv : delta_vert_rad_ir dilog k k0 = Fin dv ->
  nrad_ir dilog sf k ph lambda_e eta k0 =
  Some ((1 + p_alpha_qed ph / PI * (dv + delta_vac_lep k + p_delta_vac_had ph)) * born sf k ph lambda_e eta + amm sf k ph lambda_e eta).
Proof.
  intros H. rewrite nrad_ir_full. unfold Nrad. rewrite H. cbv zeta. cbn [omap]. f_equal. rewrite born_full, amm_full.
  set (bf := 1 + _). unfold nrad_ir_base_uu, nrad_ir_base_ul, nrad_ir_base_ut1, nrad_ir_base_ut2, nrad_ir_base_lu, nrad_ir_base_ll, nrad_ir_base_lt1, nrad_ir_base_lt2,
    born_base_uu, born_base_ul, born_base_ut1, born_base_ut2, born_base_lu, born_base_ll, born_base_lt1, born_base_lt2,
    amm_base_uu, amm_base_ul, amm_base_ut1, amm_base_ut2, amm_base_lu, amm_base_ll, amm_base_lt1, amm_base_lt2,
    LepNradBaseUU, LepNradBaseUP, LepNradBaseLU, LepNradBaseLP.
  cbn [nrad_coeff_born nrad_coeff_amm ln_uu_born ln_uu_amm ln_up_born ln_up_amm ln_lu_born ln_lu_amm ln_lp_born ln_lp_amm]. ring.
Qed.
Lemma nrad_ir_none k ph lambda_e eta k0 : k0 <= 0 -> nrad_ir dilog sf k ph lambda_e eta k0 = None.
Proof.
  intros H. unfold nrad_ir, Nrad, delta_vert_rad_ir. cbv zeta. replace (rltb 0 k0) with false; [reflexivity|].
  symmetry. apply rltb_false. lra.
Qed.
End N.
