(** Functional equations of the dilogarithm. *)
From Coq Require Import Reals Lra Lia Psatz Bool.
From Coquelicot Require Import Coquelicot.
From Verif Require Import ExtModel BoundProofs MathModel MathProofs DilogSpec.
Set Bullet Behavior "Strict Subproofs".
Local Open Scope R_scope.
Ltac toR := try match goal with |- @eq _ ?a ?b => change (@eq R a b) end;
  repeat match goal with
  | |- context [@plus ?G ?a ?b] => change (@plus G a b) with (a + b)%R
  | |- context [@opp ?G ?a] => change (@opp G a) with (- a)%R
  | |- context [@scal ?K ?V ?a ?b] => change (@scal K V a b) with (a * b)%R
  | |- context [@mult ?G ?a ?b] => change (@mult G a b) with (a * b)%R
  end.

Ltac fold_minus := repeat match goal with |- context [?a + - ?b] => change (a + - b) with (a - b) end.
Ltac fieldm := fold_minus; field; lra.

Definition ones : nat -> R := fun _ => 1.
Definition b1 := PS_Int ones.
Definition b2 := PS_decr_1 b1.
Definition a2 := PS_Int b2.
Lemma cv_ones : CV_radius ones = Finite 1.
Proof.
  rewrite (CV_radius_finite_DAlembert ones 1); [f_equal; lra|intros; unfold ones; lra|lra|].
  apply is_lim_seq_ext with (fun _ => 1); [intros; unfold ones; rewrite Rdiv_1, Rabs_R1; reflexivity|]. apply is_lim_seq_const.
Qed.
Lemma cv_b1 : CV_radius b1 = Finite 1. Proof. unfold b1. rewrite CV_radius_Int. apply cv_ones. Qed.
Lemma cv_b2 : CV_radius b2 = Finite 1. Proof. unfold b2. rewrite CV_radius_decr_1. apply cv_b1. Qed.
Lemma cv_a2 : CV_radius a2 = Finite 1. Proof. unfold a2. rewrite CV_radius_Int. apply cv_b2. Qed.
Lemma in_cv a x : CV_radius a = Finite 1 -> -1 < x < 1 -> Rbar_lt (Rabs x) (CV_radius a).
Proof. intros -> H. cbn. apply Rabs_def1; lra. Qed.
Lemma der_int a n : PS_derive (PS_Int a) n = a n.
Proof. unfold PS_derive, PS_Int. field. apply not_0_INR. lia. Qed.

Definition Li (x : R) : R := PSeries a2 x.
Lemma Li_series x : -1 < x < 1 -> Li x = Li2_series x.
Proof.
  intros H. unfold Li, Li2_series, PSeries.
  assert (C : forall k, INR (S k) <> 0) by (intros k; apply not_0_INR; lia).
  rewrite Series_incr_1.
  2:{ pose proof (CV_radius_inside a2 x (in_cv _ _ cv_a2 H)) as E. apply ex_pseries_R in E. exact E. }
  change (a2 0%nat) with 0. rewrite Rmult_0_l, Rplus_0_l. apply Series_ext. intros n. unfold a2, b2, b1, PS_Int, PS_decr_1, ones. field. apply C.
Qed.
Lemma ln_series x : -1 < x < 1 -> PSeries b1 x = - ln (1 - x).
Proof.
  intros H.
  assert (D : forall t, -1 < t < 1 -> is_derive (fun t => PSeries b1 t + ln (1 - t)) t 0).
  { intros t Ht. evar_last.
    - apply @is_derive_plus; [apply is_derive_PSeries, in_cv; [apply cv_b1|auto]|]. instantiate (1 := - / (1 - t)). auto_derive; [lra|fieldm].
    - rewrite (PSeries_ext _ ones) by (intros n; apply der_int). unfold PSeries. rewrite (Series_ext _ (fun n => t ^ n)) by (intros n; unfold ones; ring).
      rewrite Series_geom by (apply Rabs_def1; lra). toR. ring. }
  assert (E : forall t, -1 < t < 1 -> PSeries b1 t + ln (1 - t) = 0).
  { intros t Ht. assert (Z : PSeries b1 0 + ln (1 - 0) = 0).
    { rewrite PSeries_0, Rminus_0_r, ln_1. unfold b1, PS_Int. ring. }
    rewrite <- Z. destruct (Rtotal_order t 0) as [L|[->|L]]; [|reflexivity|].
    - destruct (MVT_cor2 (fun t => PSeries b1 t + ln (1 - t)) (fun _ => 0) t 0 L) as (c & Hc & _); [intros c Hc; apply is_derive_Reals, D; lra|lra].
    - destruct (MVT_cor2 (fun t => PSeries b1 t + ln (1 - t)) (fun _ => 0) 0 t L) as (c & Hc & _); [intros c Hc; apply is_derive_Reals, D; lra|lra]. }
  specialize (E x H). lra.
Qed.
Lemma b2_value x : -1 < x < 1 -> x <> 0 -> PSeries b2 x = - ln (1 - x) / x.
Proof.
  intros H N. rewrite <- (ln_series x H). unfold b2.
  rewrite (PSeries_decr_1 b1 x). 2:{ apply CV_radius_inside, in_cv; [apply cv_b1|auto]. }
  change (b1 0%nat) with 0. field. auto.
Qed.
Lemma Li_derive x : -1 < x < 1 -> is_derive Li x (PSeries b2 x).
Proof.
  intros H. evar_last; [apply is_derive_PSeries, in_cv; [apply cv_a2|auto]|]. apply PSeries_ext. intros n. apply der_int.
Qed.
Lemma Li_derive' x : -1 < x < 1 -> x <> 0 -> is_derive Li x (- ln (1 - x) / x).
Proof. intros H N. rewrite <- b2_value by auto. apply Li_derive; auto. Qed.
Lemma Li_0 : Li 0 = 0. Proof. unfold Li. rewrite PSeries_0. reflexivity. Qed.

(** A function with zero derivative on an interval is constant. *)
Lemma constant_on lo hi f : (forall t, lo < t < hi -> is_derive f t 0) -> forall x y, lo < x < hi -> lo < y < hi -> f x = f y.
Proof.
  intros D. assert (A : forall x y, lo < x < hi -> lo < y < hi -> x < y -> f x = f y).
  { intros x y Hx Hy L. destruct (MVT_cor2 f (fun _ => 0) x y L) as (c & E & _); [intros c Hc; apply is_derive_Reals, D; lra|]. lra. }
  intros x y Hx Hy. destruct (Rtotal_order x y) as [L|[->|L]]; [auto|reflexivity|symmetry; auto].
Qed.

(** Landen: *)
Lemma landen x : -1 < x < 1 / 2 -> Li x + Li (x / (x - 1)) = - (1 / 2) * (ln (1 - x) * ln (1 - x)).
Proof.
  intros H.
  assert (R : forall t, -1 < t < 1 / 2 -> -1 < t / (t - 1) < 1).
  { intros t Ht. assert (t / (t - 1) = 1 - / (1 - t)) as -> by (field; lra).
    assert (0 < / (1 - t)) by (apply Rinv_0_lt_compat; lra). assert (/ (1 - t) < 2); [|lra].
    replace 2 with (/ (1 / 2)) by field. apply Rinv_lt_contravar; [apply Rmult_lt_0_compat|]; lra. }
  set (f := fun t => Li t + Li (t / (t - 1)) + (1 / 2) * (ln (1 - t) * ln (1 - t))).
  assert (D : forall t, -1 < t < 1 / 2 -> is_derive f t 0).
  { intros t Ht. pose proof (R t Ht) as Ru.
    assert (D2 : is_derive (fun t => Li (t / (t - 1))) t (- / ((t - 1) * (t - 1)) * PSeries b2 (t / (t - 1)))).
    { apply (is_derive_comp Li (fun t => t / (t - 1))); [apply Li_derive; auto|]. auto_derive; [lra|fieldm]. }
    assert (D3 : is_derive (fun t => (1 / 2) * (ln (1 - t) * ln (1 - t))) t (- ln (1 - t) / (1 - t))) by (auto_derive; [lra|fieldm]).
    unfold f. evar_last; [apply @is_derive_plus; [apply @is_derive_plus; [apply Li_derive; lra|exact D2]|exact D3]|].
    toR. destruct (Req_dec t 0) as [->|N].
    - replace (0 / (0 - 1)) with 0 by field. rewrite Rminus_0_r, ln_1. unfold PSeries. set (v := Series _). lra.
    - assert (N2 : t / (t - 1) <> 0) by (intros Z; apply N; apply Rmult_eq_reg_r with (/ (t - 1)); [unfold Rdiv in Z; rewrite Z; ring|apply Rinv_neq_0_compat; lra]).
      rewrite (b2_value t) by (auto; lra). rewrite (b2_value (t / (t - 1))) by auto.
      replace (1 - t / (t - 1)) with (/ (1 - t)) by (field; lra). rewrite ln_Rinv by lra. field. lra. }
  assert (E : f x = f 0) by (apply (constant_on (-1) (1 / 2) f D); lra).
  unfold f in E. replace (0 / (0 - 1)) with 0 in E by field. rewrite Rminus_0_r, ln_1, Li_0 in E. lra.
Qed.

(** pi^2/6, written with the series *)
Definition c0 : R := 2 * Li (1 / 2) + ln 2 * ln 2.
Lemma reflection x : 0 < x < 1 -> Li x + Li (1 - x) = c0 - ln x * ln (1 - x).
Proof.
  intros H. set (f := fun t => Li t + Li (1 - t) + ln t * ln (1 - t)).
  assert (D : forall t, 0 < t < 1 -> is_derive f t 0).
  { intros t Ht. assert (D2 : is_derive (fun t => Li (1 - t)) t (-1 * (- ln (1 - (1 - t)) / (1 - t)))).
    { apply (is_derive_comp Li (fun t => 1 - t)); [apply Li_derive'; lra|]. auto_derive; [auto|ring]. }
    assert (D3 : is_derive (fun t => ln t * ln (1 - t)) t (ln (1 - t) / t - ln t / (1 - t))) by (auto_derive; [lra|fieldm]).
    unfold f. evar_last; [apply @is_derive_plus; [apply @is_derive_plus; [apply Li_derive'; lra|exact D2]|exact D3]|].
    toR. replace (1 - (1 - t)) with t by ring. field. lra. }
  assert (E : f x = f (1 / 2)) by (apply (constant_on 0 1 f D); lra).
  unfold f in E. replace (1 - 1 / 2) with (1 / 2) in E by field. replace (1 / 2) with (/ 2) in E at 3 4 by field.
  rewrite ln_Rinv in E by lra. unfold c0. lra.
Qed.

(** The function computed with the whole series. *)
Definition dilog_full (x : R) : R := let '(a, b, x') := dilog_reduce c0 x in a * Li x' + b.
Definition f_low (x : R) : R := - c0 + (1 / 2) * (ln (1 - x) * ln (1 - x)) - ln (- x) * ln (1 - x) + Li (1 / (1 - x)).
Definition f_high (x : R) : R := 2 * c0 - (1 / 2) * (ln x * ln x) - Li (1 / x).

Lemma low_Li x : -1 < x < 0 -> f_low x = Li x.
Proof.
  intros H. unfold f_low. assert (U : 0 < 1 / (1 - x) < 1).
  { unfold Rdiv. rewrite Rmult_1_l. split; [apply Rinv_0_lt_compat; lra|]. rewrite <- Rinv_1. apply Rinv_lt_contravar; lra. }
  pose proof (reflection _ U) as E. pose proof (landen x ltac:(lra)) as L.
  replace (1 - 1 / (1 - x)) with (x / (x - 1)) in E by (field; lra).
  replace (ln (1 / (1 - x))) with (- ln (1 - x)) in E by (unfold Rdiv; rewrite Rmult_1_l, ln_Rinv by lra; reflexivity).
  replace (ln (x / (x - 1))) with (ln (- x) - ln (1 - x)) in E.
  2:{ replace (x / (x - 1)) with (- x / (1 - x)) by (field; lra). unfold Rdiv. rewrite ln_mult, ln_Rinv; try lra; apply Rinv_0_lt_compat; lra. }
  lra.
Qed.
Lemma high_mid x : 1 < x -> c0 + (1 / 2) * (ln x * ln x) - ln x * ln (x - 1) + Li ((x - 1) / x) = f_high x.
Proof.
  intros H. unfold f_high. assert (U : 0 < 1 / x < 1).
  { unfold Rdiv. rewrite Rmult_1_l. split; [apply Rinv_0_lt_compat; lra|]. rewrite <- Rinv_1. apply Rinv_lt_contravar; lra. }
  pose proof (reflection _ U) as E. replace (1 - 1 / x) with ((x - 1) / x) in E by (field; lra).
  replace (ln (1 / x)) with (- ln x) in E by (unfold Rdiv; rewrite Rmult_1_l, ln_Rinv by lra; reflexivity).
  replace (ln ((x - 1) / x)) with (ln (x - 1) - ln x) in E. 2:{ unfold Rdiv. rewrite ln_mult, ln_Rinv; try lra; apply Rinv_0_lt_compat; lra. }
  lra.
Qed.
Lemma rl_t a b : a < b -> rltb a b = true. Proof. apply rltb_spec. Qed.
Lemma rl_f a b : b <= a -> rltb a b = false. Proof. intros. apply rltb_false. lra. Qed.
Lemma half : 0.5 = 1 / 2. Proof. lra. Qed.

Lemma full_mid x : -1 < x < 1 -> dilog_full x = Li x.
Proof.
  intros H. unfold dilog_full, dilog_reduce. rewrite (rl_f 2 x), (rl_f 1 x) by lra.
  destruct (rltb 0.5 x) eqn:E1.
  - apply rltb_spec in E1. unfold log_log1m. rewrite (rl_f 1 x), (rl_t 0.5 x) by lra.
    assert (reqb x 1 = false) as -> by (apply reqb_false; lra). unfold log1p. replace (1 + (x - 1)) with x by ring.
    pose proof (reflection x ltac:(lra)). lra.
  - apply rltb_false in E1. destruct (rltb (-0.5) x) eqn:E2; [lra|]. apply rltb_false in E2. rewrite (rl_t (-1) x) by lra.
    pose proof (landen x ltac:(lra)). unfold log1p, sq. replace (1 + - x) with (1 - x) by ring. lra.
Qed.
Lemma full_low x : x < 0 -> dilog_full x = f_low x.
Proof.
  intros H. destruct (Rlt_le_dec (-1) x) as [L|L]; [rewrite full_mid, low_Li; lra|].
  unfold dilog_full, dilog_reduce. rewrite (rl_f 2 x), (rl_f 1 x), (rl_f 0.5 x), (rl_f (-0.5) x), (rl_f (-1) x) by lra.
  unfold log_log1m. rewrite (rl_f 1 x), (rl_f 0.5 x), (rl_f 0 x) by lra. assert (reqb x 1 = false) as -> by (apply reqb_false; lra).
  unfold f_low, log1p, sq. replace (1 + - x) with (1 - x) by ring. lra.
Qed.
Lemma full_high x : 1 < x -> dilog_full x = f_high x.
Proof.
  intros H. unfold dilog_full, dilog_reduce. destruct (rltb 2 x) eqn:E.
  - unfold f_high, sq. lra.
  - rewrite (rl_t 1 x) by lra. rewrite <- high_mid by auto. unfold log_log1m, sq. rewrite (rl_t 1 x) by lra. lra.
Qed.
Lemma full_one : dilog_full 1 = c0.
Proof.
  unfold dilog_full, dilog_reduce. rewrite (rl_f 2 1), (rl_f 1 1), (rl_t 0.5 1) by lra. unfold log_log1m. rewrite (rl_f 1 1) by lra.
  assert (reqb 1 1 = true) as -> by (apply reqb_spec; reflexivity). replace (1 - 1) with 0 by ring. rewrite Li_0. ring.
Qed.

Lemma near_lt (P : R -> Prop) x a : x < a -> (forall t, t < a -> P t) -> locally x P.
Proof. intros H Q. apply (filter_imp (fun t => t < a)); [auto|]. apply open_lt; auto. Qed.
Lemma near_gt (P : R -> Prop) x a : a < x -> (forall t, a < t -> P t) -> locally x P.
Proof. intros H Q. apply (filter_imp (fun t => a < t)); [auto|]. apply open_gt; auto. Qed.
Lemma near_in (P : R -> Prop) x a b : a < x < b -> (forall t, a < t < b -> P t) -> locally x P.
Proof.
  intros H Q. apply (filter_imp (fun t => a < t /\ t < b)); [intros; apply Q; tauto|].
  apply filter_and; [apply open_gt|apply open_lt]; tauto.
Qed.
Lemma full_derive x : x <> 0 -> x <> 1 -> is_derive dilog_full x (- ln (Rabs (1 - x)) / x).
Proof.
  intros N0 N1. destruct (Rlt_le_dec x 0) as [L|L].
  - apply (is_derive_ext_loc f_low); [apply (near_lt _ x 0 L); intros; symmetry; apply full_low; auto|].
    rewrite Rabs_right by lra.
    assert (U : 0 < 1 / (1 - x) < 1).
    { unfold Rdiv. rewrite Rmult_1_l. split; [apply Rinv_0_lt_compat; lra|]. rewrite <- Rinv_1. apply Rinv_lt_contravar; lra. }
    assert (D1 : is_derive (fun t => Li (1 / (1 - t))) x (/ ((1 - x) * (1 - x)) * (- ln (1 - 1 / (1 - x)) / (1 / (1 - x))))).
    { apply (is_derive_comp Li (fun t => 1 / (1 - t))); [apply Li_derive'; lra|]. auto_derive; [lra|fieldm]. }
    assert (D2 : is_derive (fun x => - c0 + (1 / 2) * (ln (1 - x) * ln (1 - x)) - ln (- x) * ln (1 - x)) x
      (- ln (1 - x) / (1 - x) - ln (1 - x) / x + ln (- x) / (1 - x))) by (auto_derive; [lra|fieldm]).
    unfold f_low. evar_last; [apply @is_derive_plus; [exact D2|exact D1]|]. toR.
    replace (ln (1 - 1 / (1 - x))) with (ln (- x) - ln (1 - x)).
    2:{ replace (1 - 1 / (1 - x)) with (- x / (1 - x)) by (field; lra). unfold Rdiv. rewrite ln_mult, ln_Rinv; try lra; apply Rinv_0_lt_compat; lra. }
    field. lra.
  - destruct (Rlt_le_dec x 1) as [L1|L1].
    + apply (is_derive_ext_loc Li); [apply (near_in _ x (-1) 1 ltac:(lra)); intros; symmetry; apply full_mid; auto|].
      rewrite Rabs_right by lra. apply Li_derive'; lra.
    + assert (L2 : 1 < x) by lra. apply (is_derive_ext_loc f_high); [apply (near_gt _ x 1 L2); intros; symmetry; apply full_high; auto|].
      rewrite Rabs_left by lra. replace (- (1 - x)) with (x - 1) by ring.
      assert (U : 0 < 1 / x < 1).
      { unfold Rdiv. rewrite Rmult_1_l. split; [apply Rinv_0_lt_compat; lra|]. rewrite <- Rinv_1. apply Rinv_lt_contravar; lra. }
      assert (D1 : is_derive (fun t => - Li (1 / t)) x (- (- / (x * x) * (- ln (1 - 1 / x) / (1 / x))))).
      { apply (is_derive_opp (fun t => Li (1 / t))). apply (is_derive_comp Li (fun t => 1 / t)); [apply Li_derive'; lra|]. auto_derive; [lra|fieldm]. }
      assert (D2 : is_derive (fun x => 2 * c0 - (1 / 2) * (ln x * ln x)) x (- ln x / x)) by (auto_derive; [lra|fieldm]).
      unfold f_high. apply (is_derive_ext (fun t => (2 * c0 - (1 / 2) * (ln t * ln t)) + - Li (1 / t))); [intros; toR; ring|].
      evar_last; [apply @is_derive_plus; [exact D2|exact D1]|]. toR.
      replace (ln (1 - 1 / x)) with (ln (x - 1) - ln x).
      2:{ replace (1 - 1 / x) with ((x - 1) / x) by (field; lra). unfold Rdiv. rewrite ln_mult, ln_Rinv; try lra; apply Rinv_0_lt_compat; lra. }
      field. lra.
Qed.

(** Continuity at 1. *)
Lemma ln_le_sub t : 0 < t -> ln t <= t - 1.
Proof. intros H. pose proof (exp_ineq1_le (ln t)) as E. rewrite exp_ln in E by auto. lra. Qed.
Lemma t_ln_t t : 0 < t < 1 -> Rabs (t * ln t) <= 2 * sqrt t.
Proof.
  intros H. set (s := sqrt t). assert (S0 : 0 < s) by (apply sqrt_lt_R0; lra). assert (T : t = s * s) by (symmetry; apply sqrt_sqrt; lra).
  assert (L : ln t = 2 * ln s) by (rewrite T, ln_mult by auto; ring).
  assert (L0 : ln t < 0) by (rewrite <- ln_1; apply ln_increasing; lra).
  rewrite Rabs_left by nra. pose proof (ln_le_sub (/ s) ltac:(apply Rinv_0_lt_compat; auto)) as E. rewrite ln_Rinv in E by auto.
  rewrite L. replace (- (t * (2 * ln s))) with (2 * t * - ln s) by ring.
  apply Rle_trans with (2 * t * / s); [apply Rmult_le_compat_l; lra|]. rewrite T. right. field. lra.
Qed.
Lemma ln_abs x : 1 / 2 < x < 3 / 2 -> Rabs (ln x) <= 2 * Rabs (x - 1).
Proof.
  intros H. pose proof (ln_le_sub x ltac:(lra)) as U. pose proof (ln_le_sub (/ x) ltac:(apply Rinv_0_lt_compat; lra)) as V. rewrite ln_Rinv in V by lra.
  destruct (Rle_dec 1 x) as [L|L].
  - assert (0 <= ln x) by (rewrite <- ln_1; destruct (Req_dec x 1) as [->|N]; [lra|left; apply ln_increasing; lra]). rewrite !Rabs_right; lra.
  - assert (ln x < 0) by (rewrite <- ln_1; apply ln_increasing; lra). rewrite !Rabs_left by lra.
    assert (/ x - 1 = (1 - x) * / x) by (field; lra). assert (/ x < 2); [|nra].
    replace 2 with (/ (1 / 2)) by field. apply Rinv_lt_contravar; [apply Rmult_lt_0_compat|]; lra.
Qed.
Lemma ln_ln x : 1 / 2 < x < 3 / 2 -> x <> 1 -> Rabs (ln x * ln (Rabs (x - 1))) <= 4 * sqrt (Rabs (x - 1)).
Proof.
  intros H N. assert (P : 0 < Rabs (x - 1)) by (apply Rabs_pos_lt; lra). assert (Q : Rabs (x - 1) < 1) by (apply Rabs_def1; lra).
  pose proof (t_ln_t _ (conj P Q)) as T. rewrite Rabs_mult in *. rewrite (Rabs_right (Rabs (x - 1))) in T by lra.
  pose proof (ln_abs x H). set (u := Rabs (ln (Rabs (x - 1)))) in *. assert (0 <= u) by apply Rabs_pos.
  apply Rle_trans with (2 * Rabs (x - 1) * u); [apply Rmult_le_compat_r; auto|]. lra.
Qed.
Definition err1 (x : R) : R := Rabs (Li (1 - x)) + Rabs (Li ((x - 1) / x)) + (1 / 2) * (ln x * ln x) + 4 * sqrt (Rabs (x - 1)).
Lemma near_one x : 1 / 2 < x < 3 / 2 -> Rabs (dilog_full x - c0) <= err1 x.
Proof.
  intros H. unfold err1. pose proof (Rabs_pos (Li (1 - x))) as A1. pose proof (Rabs_pos (Li ((x - 1) / x))) as A2.
  assert (A3 : 0 <= ln x * ln x) by apply Rle_0_sqr. pose proof (sqrt_pos (Rabs (x - 1))) as A4.
  destruct (Rtotal_order x 1) as [L|[->|L]].
  - rewrite full_mid by lra. pose proof (reflection x ltac:(lra)) as E. pose proof (ln_ln x H ltac:(lra)) as B.
    rewrite (Rabs_left (x - 1)) in B by lra. rewrite (Rabs_left (x - 1)) by lra. replace (- (x - 1)) with (1 - x) in * by ring.
    replace (Li x - c0) with (- (ln x * ln (1 - x)) + - Li (1 - x)) by lra.
    eapply Rle_trans; [apply Rabs_triang|]. rewrite !Rabs_Ropp. replace (- (x - 1)) with (1 - x) in A4 by ring. rewrite (Rabs_left (x - 1)) in A4 by lra. lra.
  - rewrite full_one. rewrite Rminus_eq_0, Rabs_R0. lra.
  - rewrite full_high, <- high_mid by lra. pose proof (ln_ln x H ltac:(lra)) as B. rewrite (Rabs_right (x - 1)) in * by lra.
    replace (_ - c0) with ((1 / 2) * (ln x * ln x) + (- (ln x * ln (x - 1)) + Li ((x - 1) / x))) by ring.
    eapply Rle_trans; [apply Rabs_triang|]. eapply Rle_trans; [apply Rplus_le_compat_l, Rabs_triang|]. rewrite Rabs_Ropp, (Rabs_right ((1 / 2) * _)) by lra. lra.
Qed.
Lemma Li_cont x : -1 < x < 1 -> continuous Li x.
Proof. intros H. apply (ex_derive_continuous (V := R_NormedModule)). eexists. apply Li_derive; auto. Qed.
Lemma err1_cont : continuous err1 1.
Proof.
  unfold err1. repeat apply @continuous_plus.
  - apply (continuous_comp _ Rabs); [|apply continuous_Rabs]. apply (continuous_comp (fun x => 1 - x) Li).
    + apply (ex_derive_continuous (V := R_NormedModule)). auto_derive. auto.
    + replace (1 - 1) with 0 by ring. apply Li_cont; lra.
  - apply (continuous_comp _ Rabs); [|apply continuous_Rabs]. apply (continuous_comp (fun x => (x - 1) / x) Li).
    + apply (ex_derive_continuous (V := R_NormedModule)). auto_derive. lra.
    + replace ((1 - 1) / 1) with 0 by field. apply Li_cont; lra.
  - apply (ex_derive_continuous (V := R_NormedModule)). auto_derive. lra.
  - apply (continuous_scal_r 4 (fun x => sqrt (Rabs (x - 1)))). apply (continuous_comp (fun x => Rabs (x - 1)) sqrt); [|apply continuous_sqrt].
    apply (continuous_comp (fun x => x - 1) Rabs); [|apply continuous_Rabs]. apply (ex_derive_continuous (V := R_NormedModule)). auto_derive. auto.
Qed.
Lemma err1_1 : err1 1 = 0.
Proof.
  unfold err1. replace ((1 - 1) / 1) with 0 by field. replace (1 - 1) with 0 by ring. rewrite Li_0, ln_1, Rabs_R0, sqrt_0. ring.
Qed.
Lemma full_cont_1 : continuous dilog_full 1.
Proof.
  intros P [eps HP]. pose proof err1_cont as C. unfold continuous in C. rewrite err1_1 in C.
  specialize (C (fun y => Rabs y < eps)). 
  assert (C1 : locally 1 (fun x => Rabs (err1 x) < eps)).
  { apply C. exists eps. intros y B. unfold ball in B; cbn in B; unfold AbsRing_ball, abs, minus, plus, opp in B; cbn in B. rewrite Ropp_0, Rplus_0_r in B. exact B. }
  unfold filtermap. assert (C2 : locally 1 (fun x => 1 / 2 < x < 3 / 2)) by (apply (near_in _ 1 (1 / 2) (3 / 2)); [lra|auto]).
  generalize (filter_and _ _ C1 C2). apply filter_imp. intros x [B I]. apply HP. rewrite full_one.
  unfold ball; cbn; unfold AbsRing_ball, abs, minus, plus, opp; cbn. change (Rabs (dilog_full x - c0) < eps).
  eapply Rle_lt_trans; [apply near_one; auto|]. eapply Rle_lt_trans; [apply Rle_abs|exact B].
Qed.
Lemma full_cont x : continuous dilog_full x.
Proof.
  destruct (Req_dec x 1) as [->|N1]; [apply full_cont_1|]. destruct (Req_dec x 0) as [->|N0].
  - apply (continuous_ext_loc _ Li); [apply (near_in _ 0 (-1) 1 ltac:(lra)); intros; symmetry; apply full_mid; auto|]. apply Li_cont. lra.
  - apply (ex_derive_continuous (V := R_NormedModule)). eexists. apply full_derive; auto.
Qed.
Lemma full_is_dilog : is_dilog dilog_full.
Proof. constructor; [intros; rewrite full_mid, Li_series by auto; reflexivity|apply full_derive|apply full_cont]. Qed.

(** There is only one such function. *)
Lemma same_above f a : (forall x, a <= x -> continuous f x) -> (forall x, a < x -> is_derive f x 0) -> forall x, a <= x -> f x = f a.
Proof.
  intros C D x H. destruct (Req_dec x a) as [->|N]; [reflexivity|].
  destruct (MVT_gen f a x (fun _ => 0)) as (c & _ & E).
  - intros t. rewrite Rmin_left, Rmax_right by lra. intros. apply D. lra.
  - intros t. rewrite Rmin_left, Rmax_right by lra. intros. apply continuity_pt_filterlim. apply C. lra.
  - lra.
Qed.
Lemma same_below f a : (forall x, x <= a -> continuous f x) -> (forall x, x < a -> is_derive f x 0) -> forall x, x <= a -> f x = f a.
Proof.
  intros C D x H. destruct (Req_dec x a) as [->|N]; [reflexivity|].
  destruct (MVT_gen f x a (fun _ => 0)) as (c & _ & E).
  - intros t. rewrite Rmin_left, Rmax_right by lra. intros. apply D. lra.
  - intros t. rewrite Rmin_left, Rmax_right by lra. intros. apply continuity_pt_filterlim. apply C. lra.
  - lra.
Qed.
Lemma dilog_unique D1 D2 : is_dilog D1 -> is_dilog D2 -> forall x, D1 x = D2 x.
Proof.
  intros [S1 E1 C1] [S2 E2 C2]. set (f := fun x => D1 x - D2 x).
  assert (C : forall x, continuous f x) by (intros x; apply (continuous_minus D1 D2); auto).
  assert (D : forall x, x <> 0 -> x <> 1 -> is_derive f x 0).
  { intros x N0 N1. unfold f. evar_last; [apply (is_derive_minus D1 D2); [apply E1|apply E2]; auto|]. unfold minus. toR. ring. }
  assert (Z : forall x, -1 < x < 1 -> f x = 0) by (intros x H; unfold f; rewrite S1, S2 by auto; ring).
  assert (G : forall x, f x = 0); [|intros x; specialize (G x); unfold f in G; lra].
  assert (F1 : f 1 = 0).
  { destruct (MVT_gen f (1 / 2) 1 (fun _ => 0)) as (c & _ & E).
    - intros t. rewrite Rmin_left, Rmax_right by lra. intros. apply D; lra.
    - intros t _. apply continuity_pt_filterlim. apply C.
    - rewrite (Z (1 / 2)) in E by lra. lra. }
  intros x. destruct (Rlt_le_dec x 0) as [L|L].
  - rewrite (same_below f 0); [apply Z; lra|auto|intros; apply D; lra|lra].
  - destruct (Rlt_le_dec x 1) as [L1|L1]; [apply Z; lra|]. rewrite (same_above f 1); [exact F1|auto|intros; apply D; lra|lra].
Qed.
