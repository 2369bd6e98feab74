(** [sqrt1p_1m] in double arithmetic, and functions that meet what is asked of the library. *)
From Coq Require Import Reals ZArith Lia Lra Psatz.
From Flocq Require Import Core Relative.
From Coquelicot Require Import Coquelicot.
From Verif Require Import ExtModel TextModel TextNum MathModel MathProofs DilogProofs DilogError BoundProofs FMathModel FMathSpec FMathSeries FMathSum FMathDilog.
Local Open Scope R_scope.
Set Bullet Behavior "Strict Subproofs".

Lemma fmt_ge x : fmt x -> 0 < x -> bpow radix2 (-1074) <= x.
Proof.
  intros H P. apply FLT_format_generic in H; [|reflexivity]. destruct H as [f Hx Hm He].
  assert (1 <= Fnum f)%Z. { rewrite Hx in P. apply gt_0_F2R in P. lia. }
  rewrite Hx. unfold F2R. apply Rle_trans with (1 * bpow radix2 (Fexp f)); [rewrite Rmult_1_l; apply bpow_le; exact He|].
  apply Rmult_le_compat_r; [apply bpow_ge_0|]. apply IZR_le. auto.
Qed.
Lemma ln_bpow e : ln (bpow radix2 e) = IZR e * ln 2.
Proof. rewrite bpow_exp. rewrite ln_exp. reflexivity. Qed.
(** logarithms of doubles *)
Lemma ln_small x : fmt x -> 0 < x < bpow radix2 1024 -> -1074 <= ln x <= 1024.
Proof.
  intros F H. pose proof ln_2_bounds as L. pose proof (fmt_ge x F (proj1 H)) as G. apply ln_le in G; [|apply bpow_gt_0]. rewrite ln_bpow in G.
  assert (U : ln x <= ln (bpow radix2 1024)) by (left; apply ln_increasing; lra). rewrite ln_bpow in U. lra.
Qed.
Lemma ln1p_small x : double x -> -1 < x -> -1074 <= ln (1 + x) <= 1025.
Proof.
  intros [F B] H. pose proof ln_2_bounds as L. destruct (Rle_lt_dec x (-1 / 2)) as [S|S].
  - assert (F1 : fmt (1 + x)). { replace (1 + x) with (1 - (- x)) by ring. apply stz; [apply fmt_1|apply fmt_opp; auto|lra]. }
    pose proof (ln_small (1 + x) F1) as K. assert (1 + x < bpow radix2 1024) by (apply Rlt_le_trans with 1; [lra|apply (bpow_le radix2 0); lia]). lra.
  - assert (A : ln (1 / 2) <= ln (1 + x)) by (apply ln_le; lra). replace (1 / 2) with (/ 2) in A by field. rewrite ln_Rinv in A by lra.
    assert (U : ln (1 + x) <= ln (bpow radix2 1025)). { apply ln_le; [lra|]. apply Rabs_def2 in B. apply Rle_trans with (bpow radix2 1024 + bpow radix2 1024); [|change 1025%Z with (1 + 1024)%Z; rewrite (bpow_plus radix2 1 1024); change (bpow radix2 1) with 2; lra].
      assert (1 <= bpow radix2 1024) by (apply (bpow_le radix2 0); lia). lra. }
    rewrite ln_bpow in U. lra.
Qed.
Lemma exp_near d : Rabs d <= / 100 -> Rabs (exp d - 1) <= 1.02 * Rabs d.
Proof.
  intros H. apply Rabs_le_inv in H. pose proof (exp_ineq1_le d) as A. pose proof (exp_ineq1_le (- d)) as B. rewrite exp_Ropp in B. pose proof (exp_pos d) as P.
  assert (C : exp d * (1 - d) <= 1). { apply Rmult_le_reg_r with (/ exp d); [apply Rinv_0_lt_compat; auto|]. replace (exp d * (1 - d) * / exp d) with (1 - d) by (field; lra). lra. }
  unfold Rabs. destruct (Rcase_abs d), (Rcase_abs (exp d - 1)); nra.
Qed.
Lemma exp_ratio V : exp V * Rabs V <= (1 + Rmax 0 V) * Rabs (exp V - 1).
Proof.
  pose proof (exp_ineq1_le V) as A. pose proof (exp_pos V) as P. destruct (Rle_lt_dec 0 V) as [H|H].
  - rewrite Rmax_right by auto. rewrite (Rabs_pos_eq V), Rabs_pos_eq by lra. nra.
  - rewrite Rmax_left by lra. pose proof (exp_ineq1_le (- V)) as B. rewrite exp_Ropp in B.
    assert (C : exp V * (1 - V) <= 1). { apply Rmult_le_reg_r with (/ exp V); [apply Rinv_0_lt_compat; auto|]. replace (exp V * (1 - V) * / exp V) with (1 - V) by (field; lra). lra. }
    rewrite (Rabs_left V), (Rabs_left1 (exp V - 1)) by nra. lra.
Qed.
Section Sqrt.
Context (log log1p expm1 : R -> R) (lib : libm (2 * u0) log log1p expm1).
Lemma f_sqrt_err x : double x -> -1 < x ->
  Rabs (f_sqrt1p_1m log1p expm1 x - (sqrt (1 + x) - 1)) <= (6 + 4 * Rmax 0 (ln (1 + x) / 2)) * u0 * Rabs (sqrt (1 + x) - 1) + bpow radix2 (-1074).
Proof.
  intros Dx H. pose proof (ln1p_small x Dx H) as LB. destruct (log1p_ok _ _ _ _ lib x Dx H) as (_ & LC). unfold close in LC. unfold f_sqrt1p_1m.
  pose proof eta_u0 as EU. pose proof eta_pos as EP.
  set (V := ln (1 + x) / 2) in *. assert (EV : exp V = sqrt (1 + x)). { unfold V. rewrite <- (exp_ln (1 + x)) at 2 by lra. rewrite <- (sqrt_square (exp (ln (1 + x) / 2))) by (left; apply exp_pos). f_equal. rewrite <- exp_plus. f_equal. field. }
  pose proof (RN_err (0.5 * log1p x)) as E. set (v := RN (0.5 * log1p x)) in *.
  replace (ln (1 + x)) with (2 * V) in LB, LC by (unfold V; field). pose proof (Rabs_pos V) as PV.
  assert (HV : Rabs V <= 537) by (apply Rabs_le; lra).
  assert (E1 : Rabs (0.5 * log1p x - V) <= 2 * u0 * Rabs V). { replace (0.5 * log1p x - V) with (0.5 * (log1p x - 2 * V)) by lra. rewrite Rabs_mult, (Rabs_pos_eq 0.5) by lra. rewrite (Rabs_mult 2), (Rabs_pos_eq 2) in LC by lra. lra. }
  assert (E2 : Rabs (v - V) <= 3.1 * u0 * Rabs V + eta).
  { assert (M : Rabs (0.5 * log1p x) <= Rabs V + 2 * u0 * Rabs V). { replace (0.5 * log1p x) with ((0.5 * log1p x - V) + V) by ring. eapply Rle_trans; [apply Rabs_triang|]. lra. }
    replace (v - V) with ((v - 0.5 * log1p x) + (0.5 * log1p x - V)) by ring. eapply Rle_trans; [apply Rabs_triang|]. lra. }
  set (d := v - V) in *. assert (Dd : Rabs d <= / 1000) by lra. assert (Vd : v = V + d) by (unfold d; ring).
  assert (Dv : double v) by (apply small_double; [apply fmt_RN|rewrite Vd; eapply Rle_trans; [apply Rabs_triang|]; lra]).
  assert (V6 : v < 600). { apply Rabs_le_inv in Dd. apply Rabs_le_inv in HV. lra. }
  destruct (expm1_ok _ _ _ _ lib v Dv V6) as (_ & XC). unfold close in XC. rewrite <- EV. rewrite Vd in XC |- *. rewrite exp_plus in XC. set (y := expm1 (V + d)) in *.
  pose proof (exp_near d ltac:(lra)) as N. pose proof (exp_ratio V) as RT. pose proof (exp_pos V) as P. set (m := Rmax 0 V) in *. assert (M0 : 0 <= m) by apply Rmax_l.
  assert (M1 : m <= 537) by (unfold m; apply Rmax_lub; [lra|apply Rabs_le_inv in HV; lra]).
  set (e := Rabs (exp V - 1)) in *. assert (E0 : 0 <= e) by apply Rabs_pos. assert (PE : exp V <= 1 + e). { unfold e. pose proof (Rle_abs (exp V - 1)). lra. }
  assert (DE : Rabs (exp V * exp d - exp V) <= 3.2 * u0 * ((1 + m) * e) + 1.02 * eta * (1 + e)).
  { replace (exp V * exp d - exp V) with (exp V * (exp d - 1)) by ring. rewrite Rabs_mult, (Rabs_pos_eq (exp V)) by lra.
    apply Rle_trans with (exp V * (1.02 * (3.1 * u0 * Rabs V + eta))); [apply Rmult_le_compat_l; lra|].
    replace (exp V * (1.02 * (3.1 * u0 * Rabs V + eta))) with (3.162 * u0 * (exp V * Rabs V) + 1.02 * eta * exp V) by lra.
    assert (eta * exp V <= eta * (1 + e)) by (apply Rmult_le_compat_l; lra). assert (0 <= (1 + m) * e) by nra. lra. }
  assert (X1 : Rabs (exp V * exp d - 1) <= e + Rabs (exp V * exp d - exp V)). { replace (exp V * exp d - 1) with ((exp V - 1) + (exp V * exp d - exp V)) by ring. apply Rabs_triang. }
  replace (y - (exp V - 1)) with ((y - (exp V * exp d - 1)) + (exp V * exp d - exp V)) by ring. eapply Rle_trans; [apply Rabs_triang|].
  assert (ET : bpow radix2 (-1074) = 2 * eta) by (change (-1074)%Z with (1 + -1075)%Z; rewrite bpow_plus; reflexivity). rewrite ET.
  assert (0 <= m * e) by nra. assert (eta * e <= u0 * / 1000000 * e) by (apply Rmult_le_compat_r; lra). assert (0 <= eta * e) by nra. nra.
Qed.
End Sqrt.

(** Library functions exist. *)
Lemma RN_close z : z = 0 \/ bpow radix2 (-1000) <= Rabs z -> close (2 * u0) (RN z) z.
Proof.
  unfold close. intros [->|H]; [rewrite RN_0, Rminus_0_r, Rabs_R0; lra|]. pose proof (RN_err z) as E.
  assert (eta <= u0 * Rabs z). { apply Rle_trans with (bpow radix2 (-53) * bpow radix2 (-1000)); [rewrite <- bpow_plus; apply bpow_le; lia|]. replace u0 with (bpow radix2 (-53)) by (cbn; lra). apply Rmult_le_compat_l; [apply bpow_ge_0|auto]. }
  lra.
Qed.
Lemma b1000 : bpow radix2 (-1000) <= bpow radix2 (-101) /\ bpow radix2 (-101) <= bpow radix2 (-54). Proof. split; apply bpow_le; lia. Qed.
Lemma RN_double z : Rabs z <= bpow radix2 1000 -> double (RN z).
Proof.
  intros H. split; [apply fmt_RN|]. apply Rle_lt_trans with (bpow radix2 1000); [|apply bpow_lt; lia]. apply Rabs_le_inv in H. apply Rabs_le.
  assert (F : fmt (bpow radix2 1000)) by (apply fmt_bpow; lia). rewrite <- (RN_fmt _ F), <- RN_opp. split; apply RN_mono; lra.
Qed.
Lemma ln_low t : 0 < t -> 1 - / t <= ln t.
Proof. intros H. pose proof (ln_le_sub (/ t) ltac:(apply Rinv_0_lt_compat; auto)) as L. rewrite ln_Rinv in L by auto. lra. Qed.
Lemma ln_away x : fmt x -> 0 < x -> x <> 1 -> bpow radix2 (-54) <= Rabs (ln x).
Proof.
  intros F P N. replace (bpow radix2 (-54)) with (u0 / 2) by (cbn; lra). destruct (Rlt_le_dec 1 x) as [H|H].
  - assert (G : 1 + 2 * u0 <= x). { pose proof (succ_le_lt radix2 (FLT_exp (-1074) 53) 1 x fmt_1 F H) as S. rewrite succ_eq_pos in S by lra. change 1 with (bpow radix2 0) in S at 2. rewrite ulp_bpow in S. cbn in S. cbn. lra. }
    pose proof (ln_low x P) as L. assert (I : / x <= / (1 + 2 * u0)) by (apply Rinv_le_contravar; lra). assert (/ (1 + 2 * u0) <= 1 - u0) by (apply Rmult_le_reg_r with (1 + 2 * u0); [lra|]; rewrite Rinv_l by lra; lra).
    rewrite Rabs_pos_eq; lra.
  - assert (G : x <= 1 - u0). { pose proof (pred_ge_gt radix2 (FLT_exp (-1074) 53) x 1 F fmt_1 ltac:(lra)) as S. change 1 with (bpow radix2 0) in S. rewrite pred_bpow in S. cbn in S. cbn. lra. }
    pose proof (ln_le_sub x P) as L. rewrite Rabs_left1; lra.
Qed.
Definition lib_log1p (x : R) : R := if rltb (Rabs x) (bpow radix2 (-100)) then x else RN (ln (1 + x)).
Definition lib_expm1 (x : R) : R := if rltb (Rabs x) (bpow radix2 (-100)) then x else RN (exp x - 1).
Lemma near_close x z : Rabs (x - z) <= 2 * (x * x) -> Rabs x < bpow radix2 (-100) -> close (2 * u0) x z.
Proof.
  unfold close. intros H B. pose proof (Rabs_pos x) as P. assert (S1 : Rabs x <= u0 / 8) by (left; eapply Rlt_le_trans; [exact B|]; replace (u0 / 8) with (bpow radix2 (-56)) by (cbn; lra); apply bpow_le; lia).
  replace (x * x) with (Rabs x * Rabs x) in H by (rewrite <- Rabs_mult; apply Rabs_pos_eq; nra).
  assert (Rabs x <= Rabs z + Rabs (x - z)). { replace x with (z + (x - z)) at 1 by ring. apply Rabs_triang. } nra.
Qed.
Lemma lib_exists : libm (2 * u0) (fun x => RN (ln x)) lib_log1p lib_expm1.
Proof.
  assert (B100 : bpow radix2 (-100) <= / 1000) by (apply Rle_trans with (bpow radix2 (-10)); [apply bpow_le; lia|cbn; lra]). destruct b1000 as (Q1 & Q2).
  assert (BB : bpow radix2 (-100) = 2 * bpow radix2 (-101)) by (change (-100)%Z with (1 + -101)%Z; rewrite bpow_plus; reflexivity). pose proof (bpow_gt_0 radix2 (-101)) as B0.
  assert (BIG : 100000 <= bpow radix2 1000) by (apply Rle_trans with (bpow radix2 20); [cbn; lra|apply bpow_le; lia]).
  assert (AW : forall t, bpow radix2 (-100) <= t -> bpow radix2 (-101) <= 1 - / (1 + t)).
  { intros t T. assert (/ (1 + t) <= / (1 + bpow radix2 (-100))) by (apply Rinv_le_contravar; lra). assert (/ (1 + bpow radix2 (-100)) <= 1 - bpow radix2 (-101)) by (apply Rmult_le_reg_r with (1 + bpow radix2 (-100)); [lra|]; rewrite Rinv_l by lra; nra). lra. }
  constructor.
  - intros x [F B] P. split.
    + pose proof (ln_small x F ltac:(apply Rabs_def2 in B; lra)). apply RN_double. apply Rabs_le. lra.
    + apply RN_close. destruct (Req_dec x 1) as [->|N]; [left; apply ln_1|right]. pose proof (ln_away x F P N). lra.
  - intros x Dx P. unfold lib_log1p. destruct (rltb (Rabs x) (bpow radix2 (-100))) eqn:E.
    + apply rltb_spec in E. split; [exact Dx|]. apply near_close; [|exact E]. pose proof (ln_low (1 + x) ltac:(lra)) as L. pose proof (ln_le_sub (1 + x) ltac:(lra)) as U.
      assert (E' := E). apply Rabs_def2 in E'. assert (I : 1 - / (1 + x) = x - x * x * / (1 + x)) by (field; lra). assert (J : / (1 + x) <= 2) by (apply Rmult_le_reg_r with (1 + x); [lra|]; rewrite Rinv_l by lra; lra).
      assert (0 <= x * x) by nra. rewrite Rabs_pos_eq by lra. nra.
    + apply rltb_false in E. pose proof (ln1p_small x Dx P) as LB. split; [apply RN_double, Rabs_le; lra|]. apply RN_close. right. apply Rle_trans with (bpow radix2 (-101)); [lra|].
      destruct (Rle_lt_dec 0 x) as [X|X].
      * rewrite Rabs_pos_eq in E by auto. pose proof (ln_low (1 + x) ltac:(lra)) as L. pose proof (AW x ltac:(lra)). rewrite Rabs_pos_eq; lra.
      * rewrite Rabs_left in E by auto. pose proof (ln_le_sub (1 + x) ltac:(lra)) as U. rewrite Rabs_left1; lra.
  - intros x Dx P. unfold lib_expm1. pose proof (exp_ineq1_le x) as L. pose proof (exp_ineq1_le (- x)) as U. rewrite exp_Ropp in U. pose proof (exp_pos x) as PX.
    assert (C : exp x * (1 - x) <= 1). { apply Rmult_le_reg_r with (/ exp x); [apply Rinv_0_lt_compat; auto|]. replace (exp x * (1 - x) * / exp x) with (1 - x) by (field; lra). lra. }
    destruct (rltb (Rabs x) (bpow radix2 (-100))) eqn:E.
    + apply rltb_spec in E. split; [exact Dx|]. apply near_close; [|exact E]. assert (E' := E). apply Rabs_def2 in E'. rewrite Rabs_left1 by lra. nra.
    + apply rltb_false in E. split.
      * apply RN_double, Rabs_le. split; [lra|]. assert (exp x <= bpow radix2 1000); [|lra]. left. apply Rlt_le_trans with (exp 600); [apply exp_increasing; auto|].
        replace 600 with (INR 600) by (rewrite INR_IZR_INZ; reflexivity). rewrite <- (Rmult_1_r (INR 600)), exp_pow_n. change 600%nat with (6 * 100)%nat. rewrite pow_mult.
        replace (bpow radix2 1000) with (1024 ^ 100).
        -- apply pow_incr. pose proof exp_le_3. pose proof (exp_pos 1). split; [apply pow_le; lra|]. apply Rle_trans with (3 ^ 6); [apply pow_incr; lra|cbn; lra].
        -- replace 1024 with (bpow radix2 10) by (cbn; lra). replace 1000%Z with (Z.of_nat 100 * 10)%Z by reflexivity. generalize 100%nat. induction n as [|n IH]; [reflexivity|]. rewrite <- tech_pow_Rmult, IH, <- bpow_plus. f_equal. lia.
      * apply RN_close. right. apply Rle_trans with (bpow radix2 (-101)); [lra|]. destruct (Rle_lt_dec 0 x) as [X|X].
        -- rewrite Rabs_pos_eq in E by auto. rewrite Rabs_pos_eq; lra.
        -- rewrite Rabs_left in E by auto. pose proof (AW (- x) ltac:(lra)) as W. assert (exp x <= / (1 + - x)). { apply Rmult_le_reg_r with (1 + - x); [lra|]. rewrite Rinv_l by lra. lra. } rewrite Rabs_left1; lra.
Qed.
