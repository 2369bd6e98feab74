(** Vacuum polarization, and the integrals shared with the vertex. *)
From Coq Require Import Reals Lra Lia.
From Coquelicot Require Import Coquelicot.
From Verif Require Import ExtModel MathModel MathProofs XsModel VirtSpec.
Local Open Scope R_scope.
Set Bullet Behavior "Strict Subproofs".

Ltac fold_minus := repeat match goal with |- context [?a + - ?b] => change (a + - b) with (a - b) end.
Lemma is_int (f g : R -> R) a b : a <= b -> (forall x, a <= x <= b -> is_derive f x (g x)) -> (forall x, a <= x <= b -> continuous g x) -> is_RInt g a b (f b - f a).
Proof.
  intros H D C. apply (is_RInt_derive (V := R_CompleteNormedModule)); intros x; rewrite Rmin_left, Rmax_right by lra; auto.
Qed.
Section Q.
Variables Q m : R.
Hypothesis HQ : 0 < Q.
Hypothesis Hm : 0 < m.
Definition cc := sqrt (1 + 4 * m ^ 2 / Q) / 2.
Lemma arg_pos : 0 < 4 * m ^ 2 / Q.
Proof. apply Rdiv_lt_0_compat; [|exact HQ]. pose proof (pow_lt m 2 Hm). lra. Qed.
Lemma cc_sq : cc ^ 2 = 1 / 4 + m ^ 2 / Q.
Proof.
  unfold cc. pose proof arg_pos. replace ((sqrt (1 + 4 * m ^ 2 / Q) / 2) ^ 2) with (sqrt (1 + 4 * m ^ 2 / Q) * sqrt (1 + 4 * m ^ 2 / Q) / 4) by field.
  rewrite sqrt_sqrt by lra. field. lra.
Qed.
Lemma cc_half : 1 / 2 < cc.
Proof. unfold cc. pose proof arg_pos. assert (1 < sqrt (1 + 4 * m ^ 2 / Q)) by (rewrite <- sqrt_1 at 1; apply sqrt_lt_1; lra). lra. Qed.
Lemma msq : m ^ 2 = Q * ((cc - 1 / 2) * (cc + 1 / 2)).
Proof. replace ((cc - 1 / 2) * (cc + 1 / 2)) with (cc ^ 2 - 1 / 4) by field. rewrite cc_sq. field. lra. Qed.
Lemma L_is : lepton_L Q m = (ln (cc + 1 / 2) - ln (cc - 1 / 2)) / (2 * Q * cc).
Proof.
  pose proof cc_half as C. pose proof arg_pos as A. unfold lepton_L. rewrite sqrt1p_1m_eq by (unfold sq; replace (4 * (m * m) / Q) with (4 * m ^ 2 / Q) by (unfold Rdiv; ring); lra).
  replace (4 * sq m / Q) with (4 * m ^ 2 / Q) by (unfold sq, Rdiv; ring). replace (sqrt (1 + 4 * m ^ 2 / Q)) with (2 * cc) by (unfold cc; field).
  replace (sqrt (Q * (Q + 4 * sq m))) with (2 * Q * cc).
  2:{ symmetry. apply sqrt_lem_1; [|apply Rmult_le_pos; lra|].
      - apply Rmult_le_pos; [lra|]. unfold sq. assert (0 < m * m) by (apply Rmult_lt_0_compat; lra). lra.
      - replace (2 * Q * cc * (2 * Q * cc)) with (4 * Q * Q * cc ^ 2) by ring. rewrite cc_sq. unfold sq. field. lra. }
  cbv zeta. replace ((2 + (2 * cc - 1)) / (2 * cc - 1)) with ((cc + 1 / 2) * / (cc - 1 / 2)) by (field; lra).
  rewrite ln_mult, ln_Rinv; [|lra|lra|apply Rinv_0_lt_compat; lra]. field. lra.
Qed.
Lemma in_range a : 0 <= a <= 1 -> 0 < cc - (a - 1 / 2) /\ 0 < cc + (a - 1 / 2).
Proof. pose proof cc_half. lra. Qed.
Lemma mean_is a : mean_mass_sq Q m a = Q * ((cc - (a - 1 / 2)) * (cc + (a - 1 / 2))).
Proof. unfold mean_mass_sq. rewrite msq. field. Qed.
Lemma mean_pos a : 0 <= a <= 1 -> 0 < mean_mass_sq Q m a.
Proof. intros H. rewrite mean_is. destruct (in_range a H). apply Rmult_lt_0_compat; [lra|apply Rmult_lt_0_compat; lra]. Qed.
Lemma mean_ge a : 0 <= a <= 1 -> m ^ 2 <= mean_mass_sq Q m a.
Proof. intros H. unfold mean_mass_sq. assert (0 <= a * (1 - a)) by (apply Rmult_le_pos; lra). assert (0 <= a * (1 - a) * Q) by (apply Rmult_le_pos; lra). lra. Qed.
Lemma ln_mean a : 0 <= a <= 1 -> ln (mean_mass_sq Q m a / m ^ 2) = ln (cc - (a - 1 / 2)) + ln (cc + (a - 1 / 2)) - ln (cc - 1 / 2) - ln (cc + 1 / 2).
Proof.
  intros H. pose proof cc_half as C. destruct (in_range a H). rewrite mean_is, msq.
  replace (Q * ((cc - (a - 1 / 2)) * (cc + (a - 1 / 2))) / (Q * ((cc - 1 / 2) * (cc + 1 / 2)))) with ((cc - (a - 1 / 2)) * (cc + (a - 1 / 2)) * / ((cc - 1 / 2) * (cc + 1 / 2))) by (field; lra).
  rewrite ln_mult, ln_Rinv, !ln_mult; try lra.
  all: try (apply Rmult_lt_0_compat; lra). apply Rinv_0_lt_compat, Rmult_lt_0_compat; lra.
Qed.
Let l1 := ln (cc + 1 / 2).
Let l2 := ln (cc - 1 / 2).

Lemma inv_integral : is_RInt (fun a => / mean_mass_sq Q m a) 0 1 (2 * lepton_L Q m).
Proof.
  pose proof cc_half as C. evar_last.
  - apply (is_int (fun a => (ln (cc + (a - 1 / 2)) - ln (cc - (a - 1 / 2))) / (2 * Q * cc))); [lra| |].
    + intros a Ha. destruct (in_range a Ha). rewrite mean_is. auto_derive; [repeat split; lra|]. field. repeat split; lra.
    + intros a Ha. pose proof (mean_pos a Ha) as P. apply (ex_derive_continuous (V := R_NormedModule)). unfold mean_mass_sq in *. auto_derive. cbn [pow] in *. lra.
  - rewrite L_is. replace (cc + (1 - 1 / 2)) with (cc + 1 / 2) by lra. replace (cc - (1 - 1 / 2)) with (cc - 1 / 2) by lra. replace (cc + (0 - 1 / 2)) with (cc - 1 / 2) by lra. replace (cc - (0 - 1 / 2)) with (cc + 1 / 2) by lra.
    cbn -[Rmult Rplus]. field. lra.
Qed.
Lemma ln_integral : is_RInt (fun a => ln (mean_mass_sq Q m a / m ^ 2)) 0 1 ((Q + 4 * m ^ 2) * lepton_L Q m - 2).
Proof.
  pose proof cc_half as C. evar_last.
  - apply (is_RInt_ext (fun a => ln (cc - (a - 1 / 2)) + ln (cc + (a - 1 / 2)) - ln (cc - 1 / 2) - ln (cc + 1 / 2))).
    { intros a Ha. rewrite Rmin_left, Rmax_right in Ha by lra. symmetry. apply ln_mean. lra. }
    apply (is_int (fun a => - (cc - (a - 1 / 2)) * ln (cc - (a - 1 / 2)) + (cc + (a - 1 / 2)) * ln (cc + (a - 1 / 2)) - 2 * a - a * (l1 + l2))); [lra| |].
    + intros a Ha. destruct (in_range a Ha). auto_derive; [repeat split; lra|]. fold l1 l2. fold_minus. field. repeat split; lra.
    + intros a Ha. destruct (in_range a Ha). apply (ex_derive_continuous (V := R_NormedModule)). auto_derive. repeat split; lra.
  - rewrite L_is. replace (cc + (1 - 1 / 2)) with (cc + 1 / 2) by lra. replace (cc - (1 - 1 / 2)) with (cc - 1 / 2) by lra. replace (cc + (0 - 1 / 2)) with (cc - 1 / 2) by lra. replace (cc - (0 - 1 / 2)) with (cc + 1 / 2) by lra.
    fold l1 l2. replace (4 * m ^ 2) with (4 * Q * cc ^ 2 - Q) by (rewrite cc_sq; field; lra). cbn -[Rmult Rplus pow]. field. lra.
Qed.
Lemma vac_int : is_RInt (fun x => x * (1 - x) * ln (1 + x * (1 - x) * Q / m ^ 2)) 0 1 (delta_vac_term Q m / 4).
Proof.
  pose proof cc_half as C. pose proof (pow_lt m 2 Hm) as M2. evar_last.
  - apply (is_RInt_ext (fun a => a * (1 - a) * (ln (cc - (a - 1 / 2)) + ln (cc + (a - 1 / 2)) - ln (cc - 1 / 2) - ln (cc + 1 / 2)))).
    { intros a Ha. rewrite Rmin_left, Rmax_right in Ha by lra. rewrite <- ln_mean by lra. f_equal. f_equal. unfold mean_mass_sq. field. lra. }
    apply (is_int (fun a => let u := a - 1 / 2 in (u / 4 - u ^ 3 / 3) * (ln (cc - u) + ln (cc + u) - l2 - l1)
      + 2 * ((cc / 4 - cc ^ 3 / 3) / 2 * (ln (cc + u) - ln (cc - u)) + (cc ^ 2 / 3 - 1 / 4) * u + u ^ 3 / 9))); [lra| |].
    + intros a Ha. destruct (in_range a Ha). cbv zeta. auto_derive; [repeat split; lra|]. fold l1 l2. cbn [pow]. fold_minus. field. repeat split; lra.
    + intros a Ha. destruct (in_range a Ha). apply (ex_derive_continuous (V := R_NormedModule)). auto_derive. repeat split; lra.
  - cbv zeta. replace (1 - 1 / 2) with (1 / 2) by lra. replace (0 - 1 / 2) with (- (1 / 2)) by lra. replace (cc + - (1 / 2)) with (cc - 1 / 2) by ring. replace (cc - - (1 / 2)) with (cc + 1 / 2) by ring. fold l1 l2.
    unfold delta_vac_term. cbv zeta. rewrite L_is. fold l1 l2. unfold sq. replace (m * m) with (Q * (cc ^ 2 - 1 / 4)) by (rewrite cc_sq; field; lra).
    cbn -[Rmult Rplus pow]. field. lra.
Qed.
Lemma vac_term_is : delta_vac_term Q m = vac_pol Q m.
Proof. unfold vac_pol. rewrite (is_RInt_unique _ _ _ _ vac_int). field. Qed.
Lemma vac_bounds : 0 < delta_vac_term Q m <= 2 / 15 * (Q / m ^ 2).
Proof.
  pose proof (pow_lt m 2 Hm) as M2. assert (T : 0 < Q / m ^ 2) by (apply Rdiv_lt_0_compat; lra).
  assert (XX : forall x, 0 <= x <= 1 -> 0 <= x * (1 - x)) by (intros; apply Rmult_le_pos; lra).
  assert (LN : forall x, 0 <= x <= 1 -> 0 <= ln (1 + x * (1 - x) * Q / m ^ 2) <= x * (1 - x) * (Q / m ^ 2)).
  { intros x Hx. replace (x * (1 - x) * Q / m ^ 2) with (x * (1 - x) * (Q / m ^ 2)) by (unfold Rdiv; ring). set (y := x * (1 - x) * (Q / m ^ 2)).
    assert (Y : 0 <= y) by (apply Rmult_le_pos; [apply XX; lra|lra]). split; [rewrite <- ln_1; destruct Y as [Y| <-]; [left; apply ln_increasing; lra|rewrite Rplus_0_r; lra]|].
    rewrite <- (ln_exp y) at 2. pose proof (exp_ineq1_le y) as E. destruct E as [E|E]; [left; apply ln_increasing; lra|rewrite <- E; lra]. }
  assert (UP : is_RInt (fun x => x * (1 - x) * (x * (1 - x) * (Q / m ^ 2))) 0 1 (/ 30 * (Q / m ^ 2))).
  { evar_last; [apply (is_int (fun x => (x ^ 3 / 3 - x ^ 4 / 2 + x ^ 5 / 5) * (Q / m ^ 2))); [lra| |]|].
    - intros x _. set (w := Q / m ^ 2). auto_derive; [auto|]. field.
    - intros x _. set (w := Q / m ^ 2). apply (ex_derive_continuous (V := R_NormedModule)). auto_derive. auto.
    - cbn -[Rmult Rplus pow]. field. lra. }
  split.
  - rewrite vac_term_is. unfold vac_pol. apply Rmult_lt_0_compat; [lra|].
    apply (RInt_gt_0 (fun x => x * (1 - x) * ln (1 + x * (1 - x) * Q / m ^ 2)) 0 1); [lra| |].
    + intros x Hx. apply Rmult_lt_0_compat; [apply Rmult_lt_0_compat; lra|]. rewrite <- ln_1. apply ln_increasing; [lra|].
      assert (0 < x * (1 - x) * (Q / m ^ 2)) by (apply Rmult_lt_0_compat; [apply Rmult_lt_0_compat|]; lra). unfold Rdiv in *. lra.
    + intros x Hx. apply (ex_derive_continuous (V := R_NormedModule)). auto_derive. pose proof (XX x Hx). assert (0 <= x * (1 - x) * (Q / m ^ 2)) by (apply Rmult_le_pos; lra).
      match goal with |- 0 < 1 + ?y => replace y with (x * (1 - x) * (Q / m ^ 2)); [lra|] end. cbn [pow]. field. lra.
  - assert (I : delta_vac_term Q m / 4 <= / 30 * (Q / m ^ 2)).
    { apply (is_RInt_le _ _ 0 1 _ _ ltac:(lra) vac_int UP). intros x Hx. apply Rmult_le_compat_l; [apply XX; lra|apply LN; lra]. }
    lra.
Qed.
End Q.
Lemma vac_mono Q Q' m m' : 0 < Q <= Q' -> 0 < m' <= m -> delta_vac_term Q m <= delta_vac_term Q' m'.
Proof.
  intros HQ Hm. assert (I : delta_vac_term Q m / 4 <= delta_vac_term Q' m' / 4).
  { apply (is_RInt_le _ _ 0 1 _ _ ltac:(lra) (vac_int Q m ltac:(lra) ltac:(lra)) (vac_int Q' m' ltac:(lra) ltac:(lra))).
    intros x Hx. assert (X : 0 < x * (1 - x)) by (apply Rmult_lt_0_compat; lra). apply Rmult_le_compat_l; [lra|].
    assert (T : Q / m ^ 2 <= Q' / m' ^ 2).
    { unfold Rdiv. apply Rmult_le_compat; [lra|apply Rlt_le, Rinv_0_lt_compat, pow_lt; lra|lra|]. apply Rinv_le_contravar; [apply pow_lt; lra|apply pow_incr; lra]. }
    assert (T0 : 0 < Q / m ^ 2) by (apply Rdiv_lt_0_compat; [lra|apply pow_lt; lra]).
    assert (x * (1 - x) * (Q / m ^ 2) <= x * (1 - x) * (Q' / m' ^ 2)) by (apply Rmult_le_compat_l; lra).
    assert (0 < x * (1 - x) * (Q / m ^ 2)) by (apply Rmult_lt_0_compat; lra).
    replace (x * (1 - x) * Q / m ^ 2) with (x * (1 - x) * (Q / m ^ 2)) by (unfold Rdiv; ring). replace (x * (1 - x) * Q' / m' ^ 2) with (x * (1 - x) * (Q' / m' ^ 2)) by (unfold Rdiv; ring).
    apply ln_le; lra. }
  lra.
Qed.
