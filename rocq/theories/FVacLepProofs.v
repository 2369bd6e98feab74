(** Forward errors of the leptonic vacuum polarization. *)
From Coq Require Import Reals ZArith Lia Lra.
From Flocq Require Import Core.
From Verif Require Import ExtModel TextModel ConstModel MathModel MathProofs KinModel XsModel FMathModel FMathSpec FMathSeries FMathSqrt FMathProps BoundProofs ConstSpec ConstNear VacHadProofs FPhenomProofs FVacProofs FVacLepModel VirtVac.
Local Open Scope R_scope.
Local Notation u := (bpow radix2 (-53)).

Lemma RN_err' x : Rabs (RN x - x) <= u * Rabs x + bpow radix2 (-1075).
Proof. pose proof (RN_err x) as E. replace u0 with u in E by (cbn; lra). exact E. Qed.
Lemma rn_rel k K x v : 0 <= k <= 900 /\ k + 2 <= K -> / 10 ^ 20 <= v -> off k x v v -> off K (RN x) v v.
Proof.
  intros [Hk HK] Hv E0. apply off_weak with (k + 2) v; [lra|lra|]. revert E0. unfold off. intros E. pose proof uu as U. pose proof (RN_err' x) as R. assert (T : bpow radix2 (-1075) <= / 400 * u * / 10 ^ 20) by (apply Rle_trans with (bpow radix2 (-150)); [apply bpow_le; lia|cbn; lra]).
  assert (T' : / 400 * u * / 10 ^ 20 <= / 400 * u * v) by (apply Rmult_le_compat_l; lra). assert (P : 0 < v) by lra. assert (ku : k * u <= 900 * u) by (apply Rmult_le_compat_r; lra).
  assert (X : Rabs x <= (1 + / 1000) * v). { replace x with ((x - v) + v) by ring. pose proof (Rabs_triang (x - v) v) as TR. rewrite (Rabs_pos_eq v) in TR by lra. assert (k * u * v <= / 1000 * v) by (apply Rmult_le_compat_r; lra). lra. }
  assert (u * Rabs x <= u * ((1 + / 1000) * v)) by (apply Rmult_le_compat_l; lra). replace (RN x - v) with ((RN x - x) + (x - v)) by ring. pose proof (Rabs_triang (RN x - x) (x - v)).
  assert (0 <= u * v) by (apply Rmult_le_pos; lra). lra.
Qed.
Lemma mul_rel k k' K x y v v' : 0 <= k <= 900 -> 0 <= k' <= 900 /\ k + k' + 1 <= K -> 0 < v -> 0 < v' -> off k x v v -> off k' y v' v' -> off K (x * y) (v * v') (v * v').
Proof.
  intros Hk Hk' Hv Hv' E E'. assert (M : off (k + k' + / 100) (x * y) (v * v') (v * v')) by (apply off_mul; [lra|lra|lra|lra|rewrite Rabs_pos_eq; lra|rewrite Rabs_pos_eq; lra|exact E|exact E']).
  assert (0 < v * v') by (apply Rmult_lt_0_compat; lra). refine (off_weak _ _ _ _ _ _ _ _ M); lra.
Qed.
Lemma div_rel k k' K x y v v' : 0 <= k <= 900 -> 0 <= k' <= 900 /\ k + k' + 1 <= K -> 0 < v -> 0 < v' -> off k x v v -> off k' y v' v' -> off K (x / y) (v / v') (v / v').
Proof.
  intros Hk Hk' Hv Hv' E E'. pose proof (off_div k k' x y v v' ltac:(lra) ltac:(lra) Hv Hv' E E') as M. assert (0 < v / v') by (apply Rdiv_lt_0_compat; lra). refine (off_weak _ _ _ _ _ _ _ _ M); lra.
Qed.
Lemma add_rel k x y v v' : off k x v v -> off k y v' v' -> off k (x + y) (v + v') (v + v').
Proof. unfold off. intros E E'. replace (x + y - (v + v')) with ((x - v) + (y - v')) by ring. pose proof (Rabs_triang (x - v) (y - v')). lra. Qed.
Lemma self_rel v : off 0 v v v.
Proof. unfold off. rewrite Rminus_diag_eq, Rabs_R0 by reflexivity. lra. Qed.
Lemma weak_rel k k' x v : 0 <= k <= k' -> 0 <= v -> off k x v v -> off k' x v v.
Proof. intros Hk Hv. apply off_weak; lra. Qed.
Lemma off_pos k x v : 0 <= k <= 1000 -> 0 < v -> off k x v v -> 99 / 100 * v <= x <= 101 / 100 * v.
Proof. unfold off. intros Hk Hv E. pose proof uu as U. apply Rabs_le_inv in E. assert (k * u <= 1000 * u) by (apply Rmult_le_compat_r; lra). assert (k * u * v <= / 100 * v) by (apply Rmult_le_compat_r; lra). lra. Qed.
Lemma sqrt_rel k x v : 0 <= k <= 900 -> 0 < v -> off k x v v -> off k (sqrt x) (sqrt v) (sqrt v).
Proof.
  intros Hk Hv E. destruct (off_pos k x v ltac:(lra) Hv E) as [X _]. unfold off in *. pose proof (sqrt_lt_R0 v Hv) as SV. pose proof (sqrt_pos x) as SX. pose proof uu as U.
  assert (D : (sqrt x - sqrt v) * (sqrt x + sqrt v) = x - v) by (replace ((sqrt x - sqrt v) * (sqrt x + sqrt v)) with (sqrt x * sqrt x - sqrt v * sqrt v) by ring; rewrite !sqrt_sqrt; lra).
  assert (A : Rabs (sqrt x - sqrt v) * (sqrt x + sqrt v) <= k * u * v) by (rewrite <- (Rabs_pos_eq (sqrt x + sqrt v)), <- Rabs_mult, D by lra; exact E).
  apply Rmult_le_reg_r with (sqrt v); [exact SV|]. replace (k * u * sqrt v * sqrt v) with (k * u * (sqrt v * sqrt v)) by ring. rewrite sqrt_sqrt by lra. apply Rle_trans with (2 := A). apply Rmult_le_compat_l; [apply Rabs_pos|lra].
Qed.
(** [sqrt (1 + r) - 1] is no more sensitive than its argument *)
Lemma diff_rel k x r : 0 <= k <= 900 -> 0 < r -> off k x r r -> off k (sqrt (1 + x) - 1) (sqrt (1 + r) - 1) (sqrt (1 + r) - 1) .
Proof.
  intros Hk Hr E. destruct (off_pos k x r ltac:(lra) Hr E) as [X _]. unfold off in *. pose proof uu as U. set (s := sqrt (1 + r)). set (t := sqrt (1 + x)).
  assert (S2 : s * s = 1 + r) by (apply sqrt_sqrt; lra). assert (T2 : t * t = 1 + x) by (apply sqrt_sqrt; lra). assert (S1 : 1 <= s) by (unfold s; rewrite <- sqrt_1 at 1; apply sqrt_le_1; lra). assert (T1 : 1 <= t) by (unfold t; rewrite <- sqrt_1 at 1; apply sqrt_le_1; lra).
  clearbody s t. replace (t - 1 - (s - 1)) with (t - s) by ring. assert (ST : 0 < s + t) by lra.
  assert (A : Rabs (t - s) * (s + t) <= k * u * r). { rewrite <- (Rabs_pos_eq (s + t)), <- Rabs_mult by lra. replace ((t - s) * (s + t)) with (x - r) by (replace x with (t * t - 1) by lra; replace r with (s * s - 1) by lra; ring). exact E. }
  replace r with ((s - 1) * (s + 1)) in A by (replace r with (s * s - 1) by lra; ring).
  assert (B : k * u * ((s - 1) * (s + 1)) <= k * u * ((s - 1) * (s + t))) by (apply Rmult_le_compat_l; [apply Rmult_le_pos; lra|apply Rmult_le_compat_l; lra]).
  apply Rmult_le_reg_r with (s + t); [exact ST|]. apply Rle_trans with (1 := A). apply Rle_trans with (1 := B). right. ring.
Qed.
Section Lep.
Context (p emin : Z) (H : long_double p emin) (log log1p expm1 : R -> R) (LIB : ulp_libm log log1p expm1).
Local Notation RL := (to_long p emin).
Lemma rn_double x : Rabs x <= 10 ^ 15 -> double (RN x).
Proof.
  intros X. split; [apply generic_format_round; [apply FLT_exp_valid; reflexivity|apply valid_rnd_N]|]. pose proof uu as U. pose proof (RN_err' x) as R.
  assert (T : bpow radix2 (-1075) <= 1) by (apply Rle_trans with (bpow radix2 0); [apply bpow_le; lia|cbn; lra]). assert (u * Rabs x <= u * 10 ^ 15) by (apply Rmult_le_compat_l; lra). replace (RN x) with ((RN x - x) + x) by ring. pose proof (Rabs_triang (RN x - x) x).
  apply Rlt_le_trans with (bpow radix2 60); [cbn; lra|apply bpow_le; lia].
Qed.
Context (Q m m' : R) (HQ : 1 <= Q <= 10 ^ 4) (Hm : 1 / 2000 <= m <= 2) (Em : off 2 m' m m).
Let a := m * m.
Let r := 4 * a / Q.
Let s := sqrt (1 + r).
Let l := ln ((2 + (s - 1)) / (s - 1)).
Let lam := sqrt (Q * (Q + 4 * a)).
Let L := 1 / lam * l.
Lemma a_range : 1 / 4000000 <= a <= 4.
Proof. unfold a. split; [apply Rle_trans with (1 / 2000 * (1 / 2000)); [lra|apply Rmult_le_compat; lra]|apply Rle_trans with (2 * 2); [apply Rmult_le_compat; lra|lra]]. Qed.
Lemma r_range : / 10 ^ 10 <= r <= 16.
Proof.
  pose proof a_range as A. unfold r. split.
  - apply Rmult_le_reg_r with Q; [lra|]. unfold Rdiv. rewrite (Rmult_assoc (4 * a)), Rinv_l, Rmult_1_r by lra. apply Rle_trans with (/ 10 ^ 10 * 10 ^ 4); [apply Rmult_le_compat_l; lra|lra].
  - apply Rmult_le_reg_r with Q; [lra|]. unfold Rdiv. rewrite (Rmult_assoc (4 * a)), Rinv_l, Rmult_1_r by lra. lra.
Qed.
Lemma s_range : s * s = 1 + r /\ 1 + r / 6 <= s <= 42 / 10.
Proof.
  pose proof r_range as R. unfold s. split; [apply sqrt_sqrt; lra|]. set (t := sqrt (1 + r)). assert (T2 : t * t = 1 + r) by (apply sqrt_sqrt; lra). assert (T0 : 0 <= t) by apply sqrt_pos.
  assert (T4 : t <= 42 / 10) by (apply Rsqr_incr_0_var; unfold Rsqr; lra). split; [|exact T4]. assert (1 <= t) by (apply Rsqr_incr_0_var; unfold Rsqr; lra).
  assert (E : (t - 1) * (t + 1) = r) by (replace r with (t * t - 1) by lra; ring). assert ((t - 1) * (t + 1) <= (t - 1) * 6) by (apply Rmult_le_compat_l; lra). lra.
Qed.
Lemma lam_is : lam = Q * s.
Proof.
  pose proof r_range. pose proof s_range as (S2 & S1 & _). unfold lam. replace (Q * (Q + 4 * a)) with ((Q * s) * (Q * s)) by (replace (Q * s * (Q * s)) with (Q * Q * (s * s)) by ring; rewrite S2; unfold r; field; lra).
  apply sqrt_square. apply Rmult_le_pos; lra.
Qed.
Lemma l_range : 38 / 100 <= l <= 27.
Proof.
  pose proof r_range as R. pose proof s_range as (S2 & S1 & S4). set (d := s - 1). assert (D : 0 < d) by (unfold d; lra). assert (P : 0 < (2 + d) / d) by (apply Rdiv_lt_0_compat; lra). unfold l. fold d. split.
  - replace ((2 + d) / d) with (/ (d / (2 + d))) by (field; lra). rewrite ln_Rinv by (apply Rdiv_lt_0_compat; lra).
    assert (X : ln (d / (2 + d)) <= d / (2 + d) - 1). { set (y := d / (2 + d)). assert (Y : 0 < y) by (apply Rdiv_lt_0_compat; lra). pose proof (exp_ineq1_le (ln y)) as E. rewrite exp_ln in E by exact Y. lra. }
    assert (Y : d / (2 + d) <= 62 / 100) by (apply Rmult_le_reg_r with (2 + d); [lra|]; unfold Rdiv; rewrite Rmult_assoc, Rinv_l by lra; unfold d; lra). lra.
  - apply Rle_trans with (ln (2 ^ 38)); [|rewrite ln_pow by lra; pose proof ln2_bounds; simpl INR; lra]. apply ln_mono; [exact P|]. apply Rmult_le_reg_r with d; [exact D|]. unfold Rdiv. rewrite Rmult_assoc, Rinv_l, Rmult_1_r by lra. unfold d. lra.
Qed.
Lemma aL_range : 0 < 2 * a * L <= 2.
Proof.
  pose proof a_range as A. pose proof r_range as R. pose proof s_range as (S2 & S1 & S4). pose proof l_range as LR. unfold L. rewrite lam_is. assert (QS : 0 < Q * s) by (apply Rmult_lt_0_compat; lra). split; [repeat apply Rmult_lt_0_compat; try lra; apply Rinv_0_lt_compat; lra|].
  assert (X : l <= 2 / (s - 1)). { unfold l. set (y := (2 + (s - 1)) / (s - 1)). assert (Y : 0 < y) by (apply Rdiv_lt_0_compat; lra). pose proof (exp_ineq1_le (ln y)) as E. rewrite exp_ln in E by exact Y. assert (y - 1 = 2 / (s - 1)) by (unfold y; field; lra). lra. }
  assert (AE : 4 * a = Q * ((s - 1) * (s + 1))). { replace ((s - 1) * (s + 1)) with (s * s - 1) by ring. rewrite S2. unfold r. field. lra. }
  apply Rle_trans with (2 * a * (1 / (Q * s) * (2 / (s - 1)))). { apply Rmult_le_compat_l; [lra|]. apply Rmult_le_compat_l; [left; apply Rdiv_lt_0_compat; lra|exact X]. }
  replace (2 * a * (1 / (Q * s) * (2 / (s - 1)))) with (4 * a / (Q * s * (s - 1))) by (field; lra). rewrite AE. replace (Q * ((s - 1) * (s + 1)) / (Q * s * (s - 1))) with (1 + / s) by (field; lra).
  assert (/ s <= 1) by (rewrite <- Rinv_1; apply Rinv_le_contravar; lra). lra.
Qed.
Lemma QL_range : 0 < Q * L <= 27.
Proof.
  pose proof s_range as (S2 & S1 & S4). pose proof r_range. pose proof l_range as LR. unfold L. rewrite lam_is. replace (Q * (1 / (Q * s) * l)) with (l * / s) by (field; lra). assert (I : 0 < / s <= 1) by (split; [apply Rinv_0_lt_compat; lra|rewrite <- Rinv_1; apply Rinv_le_contravar; lra]).
  split; [apply Rmult_lt_0_compat; lra|]. apply Rle_trans with (27 * 1); [apply Rmult_le_compat; lra|lra].
Qed.
Lemma mm_rel : off 7 (f_sq m') a a.
Proof. pose proof a_range. apply (rn_rel 5); [lra|unfold a in *; lra|]. apply (mul_rel 2 2); try lra; exact Em. Qed.
Lemma times_rel c : 1 <= c <= 8 -> off 10 (RN (c * f_sq m')) (c * a) (c * a).
Proof. intros Hc. pose proof a_range as A. assert (1 * a <= c * a) by (apply Rmult_le_compat_r; lra). apply (rn_rel 8); [lra|lra|]. apply (mul_rel 0 7); try lra; [apply self_rel|exact mm_rel]. Qed.
Lemma lam_rel : off 17 (RN (sqrt (RN (Q * RN (Q + RN (4 * f_sq m')))))) lam lam.
Proof.
  pose proof a_range as A. pose proof s_range as (S2 & S1 & S4). pose proof r_range. assert (LL : 1 <= lam) by (rewrite lam_is; replace 1 with (1 * 1) by ring; apply Rmult_le_compat; lra). apply (rn_rel 15); [lra|lra|]. assert (QQ : 1 <= Q * (Q + 4 * a)) by (replace 1 with (1 * 1) by ring; apply Rmult_le_compat; lra).
  apply sqrt_rel; [lra|lra|]. apply (rn_rel 13); [lra|lra|]. apply (mul_rel 0 12); try lra; [apply self_rel|]. apply (rn_rel 10); [lra|lra|]. apply add_rel; [apply (weak_rel 0); [lra|lra|apply self_rel]|apply times_rel; lra].
Qed.
Lemma arg_rel : off 13 (RN (RN (4 * f_sq m') / Q)) r r.
Proof. pose proof a_range as A. pose proof r_range. apply (rn_rel 11); [lra|lra|]. apply (div_rel 10 0); try lra; [apply times_rel; lra|apply self_rel]. Qed.
Lemma d_rel : off 30 (f_sqrt1p_1m log1p expm1 (RN (RN (4 * f_sq m') / Q))) (s - 1) (s - 1).
Proof.
  pose proof r_range as R. pose proof s_range as (S2 & S1 & S4). pose proof arg_rel as AR. destruct (off_pos 13 _ r ltac:(lra) ltac:(lra) AR) as [X1 X2]. set (x := RN (RN (4 * f_sq m') / Q)) in *.
  assert (Dx : double x). { split; [apply generic_format_round; [apply FLT_exp_valid; reflexivity|apply valid_rnd_N]|]. apply Rlt_le_trans with (bpow radix2 5); [apply Rabs_lt; cbn; lra|apply bpow_le; lia]. }
  pose proof (C98_sqrt log log1p expm1 x LIB Dx ltac:(lra)) as E. replace (/ 2 ^ 53) with u in E by (cbn; lra). pose proof (diff_rel 13 x r ltac:(lra) ltac:(lra) AR) as D. fold s in D. destruct (off_pos 13 _ (s - 1) ltac:(lra) ltac:(lra) D) as [Y1 Y2].
  set (f := f_sqrt1p_1m log1p expm1 x) in *. set (t := sqrt (1 + x) - 1) in *. rewrite (Rabs_pos_eq t) in E by lra. pose proof uu as U.
  assert (M : Rmax 0 (ln (1 + x) / 2) <= 2). { apply Rmax_lub; [lra|]. assert (ln (1 + x) <= ln (2 ^ 5)) by (apply ln_mono; lra). rewrite ln_pow in H0 by lra. pose proof ln2_bounds. simpl INR in H0. lra. }
  assert (M0 : 0 <= Rmax 0 (ln (1 + x) / 2)) by apply Rmax_l. assert (E2 : (6 + 4 * Rmax 0 (ln (1 + x) / 2)) * u * t <= 14 * u * t) by (apply Rmult_le_compat_r; [lra|apply Rmult_le_compat_r; lra]).
  assert (T : bpow radix2 (-1074) <= u * / 10 ^ 15) by (apply Rle_trans with (bpow radix2 (-150)); [apply bpow_le; lia|cbn; lra]). assert (T' : u * / 10 ^ 15 <= u * (s - 1)) by (apply Rmult_le_compat_l; lra).
  assert (14 * u * t <= 14 * u * (101 / 100 * (s - 1))) by (apply Rmult_le_compat_l; lra). unfold off in *. replace (f - (s - 1)) with ((f - t) + (t - (s - 1))) by ring. pose proof (Rabs_triang (f - t) (t - (s - 1))).
  assert (0 <= u * (s - 1)) by (apply Rmult_le_pos; lra). lra.
Qed.
Lemma log_rel : forall x, off 65 x ((2 + (s - 1)) / (s - 1)) ((2 + (s - 1)) / (s - 1)) -> double x -> off 345 (log x) l l.
Proof.
  intros x E Dx. pose proof l_range as LR. pose proof s_range as (S2 & S1 & S4). pose proof r_range. pose proof uu as U. set (y := (2 + (s - 1)) / (s - 1)) in *. assert (Y : 0 < y) by (apply Rdiv_lt_0_compat; lra).
  destruct (off_pos 65 x y ltac:(lra) Y E) as [X _]. unfold off in E. pose proof (ln_near x y (65 * u) Y ltac:(lra) E) as N. fold l in N.
  destruct (log_ok _ _ _ _ LIB x Dx ltac:(lra)) as [_ C]. unfold close in C. replace (/ 2 ^ 52) with (2 * u) in C by (cbn; lra). apply Rabs_le_inv in N. rewrite (Rabs_pos_eq (ln x)) in C by lra.
  assert (2 * u * ln x <= 2 * u * (101 / 100 * l)) by (apply Rmult_le_compat_l; lra). assert (UL : u * (38 / 100) <= u * l) by (apply Rmult_le_compat_l; lra). apply Rabs_le_inv in C. unfold off. apply Rabs_le. lra.
Qed.
Lemma L_rel : off 370 (f_lepton_L log log1p expm1 Q (f_sq m')) L L.
Proof.
  pose proof l_range as LR. pose proof s_range as (S2 & S1 & S4). pose proof r_range as R. unfold f_lepton_L. cbv zeta. pose proof d_rel as D. set (d := f_sqrt1p_1m log1p expm1 (RN (RN (4 * f_sq m') / Q))) in *.
  assert (SM : off 32 (RN (2 + d)) (2 + (s - 1)) (2 + (s - 1))) by (apply (rn_rel 30); [lra|lra|]; apply add_rel; [apply (weak_rel 0); [lra|lra|apply self_rel]|exact D]).
  pose proof (div_rel 32 30 63 _ _ (2 + (s - 1)) (s - 1) ltac:(lra) ltac:(lra) ltac:(lra) ltac:(lra) SM D) as V. set (y := (2 + (s - 1)) / (s - 1)) in *.
  assert (Y1 : 1 <= y) by (unfold y; apply Rmult_le_reg_r with (s - 1); [lra|]; unfold Rdiv; rewrite Rmult_assoc, Rinv_l by lra; lra).
  assert (Y2 : y <= 10 ^ 12) by (unfold y; apply Rmult_le_reg_r with (s - 1); [lra|]; unfold Rdiv; rewrite Rmult_assoc, Rinv_l by lra; lra). set (x := RN (2 + d) / d) in *.
  destruct (off_pos 63 x y ltac:(lra) ltac:(lra) V) as [X1 X2]. assert (Dx : double (RN x)) by (apply rn_double; rewrite Rabs_pos_eq; lra).
  assert (W : off 65 (RN x) y y) by (apply (rn_rel 63); [lra|lra|exact V]). pose proof (log_rel (RN x) W Dx) as LG.
  pose proof lam_rel as LA. assert (Q1 : 1 <= lam <= 10 ^ 5). { rewrite lam_is. split; [replace 1 with (1 * 1) by ring; apply Rmult_le_compat; lra|apply Rle_trans with (10 ^ 4 * (42 / 10)); [apply Rmult_le_compat; lra|lra]]. }
  assert (IL : / 10 ^ 5 <= 1 / lam) by (unfold Rdiv; rewrite Rmult_1_l; apply Rinv_le_contravar; lra). set (g := RN (sqrt (RN (Q * RN (Q + RN (4 * f_sq m')))))) in *.
  assert (I : off 20 (RN (1 / g)) (1 / lam) (1 / lam)) by (apply (rn_rel 18); [lra|lra|]; apply (div_rel 0 17); try lra; [apply self_rel|exact LA]).
  assert (LP : / 10 ^ 5 * (38 / 100) <= L) by (apply Rmult_le_compat; lra). apply (weak_rel 368); [lra|lra|]. apply (rn_rel 366); [lra|lra|]. apply (mul_rel 20 345); try lra; assumption.
Qed.
Lemma L_low : / 10 ^ 6 <= L.
Proof.
  pose proof l_range as LR. pose proof s_range as (S2 & S1 & S4). pose proof r_range as R. assert (Q1 : 1 <= lam <= 10 ^ 5). { rewrite lam_is. split; [replace 1 with (1 * 1) by ring; apply Rmult_le_compat; lra|apply Rle_trans with (10 ^ 4 * (42 / 10)); [apply Rmult_le_compat; lra|lra]]. }
  assert (IL : / 10 ^ 5 <= 1 / lam) by (unfold Rdiv; rewrite Rmult_1_l; apply Rinv_le_contravar; lra). apply Rle_trans with (/ 10 ^ 5 * (38 / 100)); [lra|]. apply Rmult_le_compat; lra.
Qed.
Lemma exact_term : delta_vac_term Q m = 2 / 3 * (Q + 2 * a) * L - 10 / 9 + (8 * a) / (3 * Q) * (1 - 2 * a * L).
Proof. pose proof r_range as R. unfold delta_vac_term, lepton_L, sq. cbv zeta. fold a. rewrite sqrt1p_1m_eq by (fold r; lra). reflexivity. Qed.
Lemma term_err : off 400 (f_vac_term p emin log log1p expm1 Q m') (delta_vac_term Q m) 42 /\ Rabs (delta_vac_term Q m) <= 42.
Proof.
  rewrite exact_term. pose proof a_range as A. pose proof L_low as LL. pose proof aL_range as AL. pose proof QL_range as QL. pose proof L_rel as LR. pose proof uu as U. unfold f_vac_term. cbv zeta. set (Lf := f_lepton_L log log1p expm1 Q (f_sq m')) in *.
  set (V1 := 2 / 3 * (Q + 2 * a) * L). assert (V1R : 0 < V1 <= 20) by (unfold V1; replace (2 / 3 * (Q + 2 * a) * L) with (2 / 3 * (Q * L + 2 * a * L)) by ring; lra).
  assert (N1 : off (0 + 1 + / 100) (RL (2 / 3)) (2 / 3) (2 / 3)) by (apply (RLe p emin H); [lra|lra|rewrite Rabs_pos_eq; lra|apply self_rel]).
  assert (N2 : off 12 (RN (Q + RN (2 * f_sq m'))) (Q + 2 * a) (Q + 2 * a)) by (apply (rn_rel 10); [lra|lra|]; apply add_rel; [apply (weak_rel 0); [lra|lra|apply self_rel]|apply times_rel; lra]).
  pose proof (mul_rel (0 + 1 + / 100) 12 15 _ _ (2 / 3) (Q + 2 * a) ltac:(lra) ltac:(lra) ltac:(lra) ltac:(lra) N1 N2) as N3. set (n := RL (2 / 3) * RN (Q + RN (2 * f_sq m'))) in *.
  assert (N4 : off (15 + 1 + / 100) (RL n) (2 / 3 * (Q + 2 * a)) (2 / 3 * (Q + 2 * a))) by (apply (RLe p emin H); [lra|lra|rewrite Rabs_pos_eq; lra|exact N3]).
  pose proof (mul_rel (15 + 1 + / 100) 370 388 _ _ (2 / 3 * (Q + 2 * a)) L ltac:(lra) ltac:(lra) ltac:(lra) ltac:(lra) N4 LR) as N5. fold V1 in N5. set (n5 := RL n * Lf) in *.
  assert (N6 : off 388 n5 V1 20) by (refine (off_weak _ _ _ _ _ _ _ _ N5); lra). assert (N7 : off (388 + 1 + / 100) (RL n5) V1 20) by (apply (RLe p emin H); [lra|lra|rewrite Rabs_pos_eq; lra|exact N6]).
  assert (M1 : off (0 + 1 + / 100) (RL (10 / 9)) (10 / 9) (10 / 9)) by (apply (RLe p emin H); [lra|lra|rewrite Rabs_pos_eq; lra|apply self_rel]).
  assert (N8 : off 391 (RL n5 - RL (10 / 9)) (V1 - 10 / 9) 20) by (unfold off in *; apply Rabs_le_inv in N7; apply Rabs_le_inv in M1; apply Rabs_le; lra).
  assert (N9 : off (391 + 1 + / 100) (RL (RL n5 - RL (10 / 9))) (V1 - 10 / 9) 20) by (apply (RLe p emin H); [lra|lra|apply Rabs_le; lra|exact N8]). set (n9 := RL (RL n5 - RL (10 / 9))) in *.
  set (G := 8 * a / (3 * Q)). assert (GR : / 10 ^ 12 <= G <= 11). { unfold G. split; (apply Rmult_le_reg_r with (3 * Q); [lra|]; unfold Rdiv; rewrite (Rmult_assoc (8 * a)), Rinv_l, Rmult_1_r by lra); lra. }
  assert (G1 : off 2 (RN (3 * Q)) (3 * Q) (3 * Q)) by (apply (rn_rel 0); [lra|lra|apply self_rel]).
  assert (G2 : off 15 (RN (RN (8 * f_sq m') / RN (3 * Q))) G G) by (apply (rn_rel 13); [lra|lra|]; apply (div_rel 10 2); try lra; [apply times_rel; lra|exact G1]). set (g := RN (RN (8 * f_sq m') / RN (3 * Q))) in *.
  assert (X0 : / 10 ^ 20 <= 2 * a * L) by (apply Rle_trans with (2 * (1 / 4000000) * / 10 ^ 6); [lra|apply Rmult_le_compat; lra]).
  assert (X1 : off 383 (RN (RN (2 * f_sq m') * Lf)) (2 * a * L) (2 * a * L)) by (apply (rn_rel 381); [lra|lra|]; apply (mul_rel 10 370); try lra; [apply times_rel; lra|exact LR]). set (x := RN (RN (2 * f_sq m') * Lf)) in *.
  assert (X2 : off 383 (1 - x) (1 - 2 * a * L) 2) by (unfold off in *; replace (1 - x - (1 - 2 * a * L)) with (- (x - 2 * a * L)) by ring; rewrite Rabs_Ropp; apply Rle_trans with (1 := X1); apply Rmult_le_compat_l; lra).
  assert (X3 : off (383 + 1 + / 100) (RN (1 - x)) (1 - 2 * a * L) 2) by (apply RNe; [lra|lra|apply Rabs_le; lra|exact X2]). set (V3 := G * (1 - 2 * a * L)).
  assert (X4 : off (15 + (383 + 1 + / 100) + / 100) (g * RN (1 - x)) V3 (G * 2)) by (apply off_mul; [lra|lra|lra|lra|rewrite Rabs_pos_eq; lra|apply Rabs_le; lra|exact G2|exact X3]).
  assert (V3R : Rabs V3 <= 22). { unfold V3. rewrite Rabs_mult, (Rabs_pos_eq G) by lra. assert (Rabs (1 - 2 * a * L) <= 2) by (apply Rabs_le; lra). apply Rle_trans with (11 * 2); [apply Rmult_le_compat; try lra; apply Rabs_pos|lra]. }
  assert (X5 : off 401 (g * RN (1 - x)) V3 22) by (refine (off_weak _ _ _ _ _ _ _ _ X4); lra). assert (X6 : off (401 + 1 + / 100) (RN (g * RN (1 - x))) V3 22) by (apply RNe; [lra|lra|exact V3R|exact X5]).
  set (y := RN (g * RN (1 - x))) in *. apply Rabs_le_inv in V3R. assert (B : Rabs (V1 - 10 / 9 + V3) <= 42) by (apply Rabs_le; lra).
  assert (Z1 : off (3985 / 10) (n9 + y) (V1 - 10 / 9 + V3) 42) by (unfold off in *; apply Rabs_le_inv in N9; apply Rabs_le_inv in X6; apply Rabs_le; lra).
  assert (Z2 : off (3985 / 10 + 1 + / 100) (RL (n9 + y)) (V1 - 10 / 9 + V3) 42) by (apply (RLe p emin H); [lra|lra|exact B|exact Z1]). split; [|exact B]. refine (off_weak _ _ _ _ _ _ _ _ Z2); lra.
Qed.
Lemma light : m <= 52 / 100000 -> 84 / 10 <= delta_vac_term Q m.
Proof.
  intros M. rewrite exact_term. pose proof a_range as A. pose proof r_range as R. pose proof s_range as (S2 & S1 & S4). pose proof aL_range as AL. assert (A2 : a <= 28 / 100000000) by (unfold a; apply Rle_trans with (52 / 100000 * (52 / 100000)); [apply Rmult_le_compat; lra|lra]).
  assert (R2 : r <= 4 * a) by (unfold r; apply Rmult_le_reg_r with Q; [lra|]; unfold Rdiv; rewrite (Rmult_assoc (4 * a)), Rinv_l by lra; apply Rmult_le_compat_l; lra).
  assert (D : s - 1 <= r / 2). { assert (E : (s - 1) * (s + 1) = r) by (replace r with (s * s - 1) by lra; ring). assert ((s - 1) * 2 <= (s - 1) * (s + 1)) by (apply Rmult_le_compat_l; lra). lra. }
  assert (LL : 145 / 10 <= l). { apply Rle_trans with (ln (2 ^ 21)); [rewrite ln_pow by lra; pose proof ln2_bounds; simpl INR; lra|]. unfold l. apply ln_mono; [lra|]. apply Rmult_le_reg_r with (s - 1); [lra|]. unfold Rdiv. rewrite Rmult_assoc, Rinv_l, Rmult_1_r by lra. lra. }
  assert (QL : 144 / 10 <= Q * L). { unfold L. rewrite lam_is. replace (Q * (1 / (Q * s) * l)) with (l / s) by (field; lra). apply Rmult_le_reg_r with s; [lra|]. unfold Rdiv. rewrite (Rmult_assoc l), Rinv_l, Rmult_1_r by lra. lra. }
  set (G := 8 * a / (3 * Q)). assert (GR : 0 <= G <= / 100). { unfold G. split; [left; apply Rdiv_lt_0_compat; lra|apply Rmult_le_reg_r with (3 * Q); [lra|]; unfold Rdiv; rewrite (Rmult_assoc (8 * a)), Rinv_l, Rmult_1_r by lra; lra]. }
  replace (2 / 3 * (Q + 2 * a) * L) with (2 / 3 * (Q * L + 2 * a * L)) by ring. assert (G * (-1) <= G * (1 - 2 * a * L)) by (apply Rmult_le_compat_l; lra). lra.
Qed.
End Lep.
Section Sum.
Context (p emin : Z) (H : long_double p emin) (log log1p expm1 : R -> R) (LIB : ulp_libm log log1p expm1).
Local Notation RL := (to_long p emin).
Lemma add_err w d v t v' : 42 <= w -> off 410 d v w -> Rabs v <= w -> off 400 t v' 42 -> Rabs v' <= 42 -> off 413 (RN (RL (d + t))) (v + v') (w + 42) /\ Rabs (v + v') <= w + 42.
Proof.
  intros Hw D Hv T Hv'. pose proof uu as U. assert (B : Rabs (v + v') <= w + 42) by (pose proof (Rabs_triang v v'); lra). split; [|exact B].
  assert (S : off 410 (d + t) (v + v') (w + 42)). { unfold off in *. replace (d + t - (v + v')) with ((d - v) + (t - v')) by ring. pose proof (Rabs_triang (d - v) (t - v')). lra. }
  assert (S1 : off (410 + 1 + / 100) (RL (d + t)) (v + v') (w + 42)) by (apply (RLe p emin H); [lra|lra|exact B|exact S]). assert (S2 : off (410 + 1 + / 100 + 1 + / 100) (RN (RL (d + t))) (v + v') (w + 42)) by (apply RNe; [lra|lra|exact B|exact S1]). refine (off_weak _ _ _ _ _ _ _ _ S2); lra.
Qed.
Lemma constant_rel c : / 10 ^ 20 <= literal c -> off 2 (constant p emin c) (literal c) (literal c).
Proof.
  intros X. replace (constant p emin c) with (RN (literal c)); [apply (rn_rel 0); [lra|lra|apply self_rel]|]. rewrite (constant_is p emin c H). apply near_lit. rewrite Rminus_diag_eq, Rabs_R0 by reflexivity. apply Rmult_le_pos; [left; apply Rinv_0_lt_compat, IZR_lt; reflexivity|lra].
Qed.
Lemma lep_err k : 1 <= kQ_sq k <= 10 ^ 4 -> Rabs (f_delta_vac_lep p emin log log1p expm1 (kQ_sq k) - delta_vac_lep k) <= bpow radix2 (-37).
Proof.
  intros HQ. pose proof uu as U. unfold f_delta_vac_lep, delta_vac_lep. cbv zeta. set (Q := kQ_sq k) in *.
  assert (LE : literal ConstModel.MASS_E = MASS_E) by (unfold literal, MASS_E; simpl digits; simpl decimals; lra). assert (LM : literal ConstModel.MASS_MU = MASS_MU) by (unfold literal, MASS_MU; cbn; lra). assert (LT : literal ConstModel.MASS_TAU = MASS_TAU) by (unfold literal, MASS_TAU; cbn; lra).
  assert (C1 : off 2 (constant p emin ConstModel.MASS_E) MASS_E MASS_E) by (rewrite <- LE; apply constant_rel; rewrite LE; unfold MASS_E; lra). assert (C2 : off 2 (constant p emin ConstModel.MASS_MU) MASS_MU MASS_MU) by (rewrite <- LM; apply constant_rel; rewrite LM; unfold MASS_MU; lra).
  assert (C3 : off 2 (constant p emin ConstModel.MASS_TAU) MASS_TAU MASS_TAU) by (rewrite <- LT; apply constant_rel; rewrite LT; unfold MASS_TAU; lra).
  destruct (term_err p emin H log log1p expm1 LIB Q MASS_E _ HQ ltac:(unfold MASS_E; lra) C1) as [T1 B1]. destruct (term_err p emin H log log1p expm1 LIB Q MASS_MU _ HQ ltac:(unfold MASS_MU; lra) C2) as [T2 B2]. destruct (term_err p emin H log log1p expm1 LIB Q MASS_TAU _ HQ ltac:(unfold MASS_TAU; lra) C3) as [T3 B3].
  set (t1 := f_vac_term p emin log log1p expm1 Q (constant p emin ConstModel.MASS_E)) in *. set (t2 := f_vac_term p emin log log1p expm1 Q (constant p emin ConstModel.MASS_MU)) in *. set (t3 := f_vac_term p emin log log1p expm1 Q (constant p emin ConstModel.MASS_TAU)) in *.
  set (v1 := delta_vac_term Q MASS_E) in *. set (v2 := delta_vac_term Q MASS_MU) in *. set (v3 := delta_vac_term Q MASS_TAU) in *. clearbody t1 t2 t3 v1 v2 v3.
  assert (Z : off 0 0 0 42) by (apply off_weak with 0 0; [lra|lra|apply self_rel]).
  assert (S0 : off 400 (0 + t1) (0 + v1) 42) by (rewrite !Rplus_0_l; exact T1). assert (B0 : Rabs (0 + v1) <= 42) by (rewrite Rplus_0_l; exact B1).
  assert (S1 : off (400 + 1 + / 100) (RL (0 + t1)) (0 + v1) 42) by (apply (RLe p emin H); [lra|lra|exact B0|exact S0]). assert (S2 : off (400 + 1 + / 100 + 1 + / 100) (RN (RL (0 + t1))) (0 + v1) 42) by (apply RNe; [lra|lra|exact B0|exact S1]).
  assert (S3 : off 410 (RN (RL (0 + t1))) (0 + v1) 42) by (refine (off_weak _ _ _ _ _ _ _ _ S2); lra). destruct (add_err 42 _ _ _ _ ltac:(lra) S3 B0 T2 B2) as [S4 B4].
  assert (S5 : off 410 (RN (RL (RN (RL (0 + t1)) + t2))) (0 + v1 + v2) 85) by (unfold off in *; lra). assert (B5 : Rabs (0 + v1 + v2) <= 85) by lra. destruct (add_err 85 _ _ _ _ ltac:(lra) S5 B5 T3 B3) as [S6 _].
  unfold off in S6. apply Rle_trans with (1 := S6). replace (bpow radix2 (-37)) with (65536 * u) by (cbn; lra). lra.
Qed.
Lemma lep_positive k : 1 <= kQ_sq k <= 10 ^ 4 -> 8 < f_delta_vac_lep p emin log log1p expm1 (kQ_sq k).
Proof.
  intros HQ. pose proof (lep_err k HQ) as E. apply Rabs_le_inv in E. assert (B : bpow radix2 (-37) <= / 10) by (cbn; lra).
  pose proof (light (kQ_sq k) MASS_E HQ ltac:(unfold MASS_E; lra) ltac:(unfold MASS_E; lra)) as L. pose proof (vac_bounds (kQ_sq k) MASS_MU ltac:(lra) ltac:(unfold MASS_MU; lra)) as M. pose proof (vac_bounds (kQ_sq k) MASS_TAU ltac:(lra) ltac:(unfold MASS_TAU; lra)) as T. unfold delta_vac_lep in E. lra.
Qed.
End Sum.
