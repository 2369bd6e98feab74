(** C98: the dilogarithm and sqrt1p_1m in double arithmetic. *)
From Coq Require Import Reals ZArith Lia Lra.
From Flocq Require Import Core.
From Verif Require Import ExtModel TextModel DilogSpec DilogProofs FMathModel FMathSpec FMathSeries FMathSum FMathDilog FMathSqrt FMathOne.
Local Open Scope R_scope.

(** The C library's functions are taken to be within 2^-52 of the exact values, relative to these. *)
Definition ulp_libm := libm (/ 2 ^ 52).
Lemma e52 : / 2 ^ 52 = 2 * / 9007199254740992. Proof. cbn. lra. Qed.
Lemma e53 : / 2 ^ 53 = / 9007199254740992. Proof. cbn. lra. Qed.
Lemma lib_of log log1p expm1 : ulp_libm log log1p expm1 -> libm (2 * u0) log log1p expm1.
Proof. unfold ulp_libm. rewrite e52. auto. Qed.
(** For every finite double the dilogarithm is returned with an error of at most 100 roundings of 1 plus the squared logarithm of the argument. *)
Theorem C98_dilog log log1p expm1 D x : ulp_libm log log1p expm1 -> is_dilog D -> double x ->
  Rabs (f_dilog log log1p x - D x) <= 100 * / 2 ^ 53 * (1 + ln (1 + Rabs x) ^ 2).
Proof. intros L HD Dx. rewrite e53. replace (ln (1 + Rabs x) ^ 2) with (ln (1 + Rabs x) * ln (1 + Rabs x)) by ring. exact (f_dilog_error _ _ _ (lib_of _ _ _ L) D x HD Dx). Qed.
(** Around zero the error is relative to the argument, down to the smallest doubles. *)
Theorem C98_dilog_small log log1p expm1 D x : ulp_libm log log1p expm1 -> is_dilog D -> double x -> - (1 / 2) < x <= 1 / 2 ->
  Rabs (f_dilog log log1p x - D x) <= 80 * / 2 ^ 53 * Rabs x.
Proof. intros L HD Dx H. rewrite e53. apply (f_dilog_small _ _ _ (lib_of _ _ _ L) D x HD Dx). lra. Qed.
(** At 0 and 1 the result is the double nearest to the exact value, whatever the library returns. *)
Theorem C98_dilog_points log log1p : f_dilog log log1p 0 = 0 /\ f_dilog log log1p 1 = RN (PI ^ 2 / 6).
Proof. exact (conj (f_dilog_0 log log1p) (f_dilog_1 log log1p)). Qed.
(** The number of terms summed: at least 16 and at most 49 for any argument of the series. *)
Theorem C98_terms log log1p expm1 x : ulp_libm log log1p expm1 -> Rabs x <= 1 / 2 -> (16 <= f_n_max log x - 1 <= 49)%nat.
Proof. intros L H. exact (terms_range log x H (log_53 _ _ _ (lib_of _ _ _ L))). Qed.
(** sqrt(1+x) - 1 is relatively accurate for all x above -1 (with the least double for arguments near it); the error grows with the logarithm of large x. *)
Theorem C98_sqrt log log1p expm1 x : ulp_libm log log1p expm1 -> double x -> -1 < x ->
  Rabs (f_sqrt1p_1m log1p expm1 x - (sqrt (1 + x) - 1)) <= (6 + 4 * Rmax 0 (ln (1 + x) / 2)) * / 2 ^ 53 * Rabs (sqrt (1 + x) - 1) + bpow radix2 (-1074).
Proof. intros L Dx H. rewrite e53. exact (f_sqrt_err _ _ _ (lib_of _ _ _ L) x Dx H). Qed.
(** Such libraries exist. *)
Theorem C98_library : exists log log1p expm1, ulp_libm log log1p expm1.
Proof. exists (fun x => RN (ln x)), lib_log1p, lib_expm1. unfold ulp_libm. rewrite e52. exact lib_exists. Qed.

Example C98_example : exists log log1p expm1 D, ulp_libm log log1p expm1 /\ is_dilog D /\
  Rabs (f_dilog log log1p (-1) - D (-1)) <= 200 * / 2 ^ 53 /\ Rabs (f_dilog log log1p (3 / 2) - D (3 / 2)) <= 200 * / 2 ^ 53 /\
  Rabs (f_sqrt1p_1m log1p expm1 3 - 1) <= 15 * / 2 ^ 53.
Proof.
  destruct C98_library as (lg & lp & em & L). exists lg, lp, em, dilog_full. split; [exact L|]. split; [exact full_is_dilog|].
  assert (F : forall n, (-4 <= n <= 4)%Z -> double (IZR n / 2)).
  { intros n H. apply small_double; [|apply Rabs_le; assert (-4 <= IZR n <= 4) by (split; apply IZR_le; lia); lra]. apply generic_format_FLT. exists (Float radix2 n (-1)); [unfold F2R; cbn; lra|cbn; lia|cbn; lia]. }
  assert (B : forall t, 0 <= t <= 3 / 2 -> ln (1 + t) ^ 2 <= 1).
  { intros t T. assert (0 <= ln (1 + t)) by (destruct (Req_dec t 0) as [->|]; [rewrite Rplus_0_r, ln_1; lra|rewrite <- ln_1; left; apply ln_increasing; lra]).
    assert (ln (1 + t) <= 1). { apply Rle_trans with (ln (exp 1)); [|rewrite ln_exp; lra]. assert (Q : 1 + t < exp 1); [|left; apply ln_increasing; lra].
      pose proof (exp_ineq1 (1 / 8) ltac:(lra)) as A. assert (E3 : exp (1 / 4) = exp (1 / 8) * exp (1 / 8)) by (rewrite <- exp_plus; f_equal; lra). assert (E2 : exp (1 / 2) = exp (1 / 4) * exp (1 / 4)) by (rewrite <- exp_plus; f_equal; lra).
      assert (E1 : exp 1 = exp (1 / 2) * exp (1 / 2)) by (rewrite <- exp_plus; f_equal; lra). assert (1.26 <= exp (1 / 4)) by nra. assert (1.5875 <= exp (1 / 2)) by nra. nra. }
    nra. }
  split; [|split].
  - eapply Rle_trans; [apply (C98_dilog lg lp em _ _ L full_is_dilog); replace (-1) with (-2 / 2) by lra; apply F; lia|]. rewrite (Rabs_left (-1)) by lra. replace (- -1) with 1 by ring. pose proof (B 1 ltac:(lra)). rewrite e53. lra.
  - eapply Rle_trans; [apply (C98_dilog lg lp em _ _ L full_is_dilog); apply F; lia|]. rewrite (Rabs_pos_eq (3 / 2)) by lra. pose proof (B (3 / 2) ltac:(lra)). rewrite e53. lra.
  - assert (D3 : double 3). { apply small_double; [|rewrite Rabs_pos_eq; lra]. apply generic_format_FLT. exists (Float radix2 3 0); [unfold F2R; cbn; lra|cbn; lia|cbn; lia]. }
    pose proof (C98_sqrt lg lp em 3 L D3 ltac:(lra)) as H. assert (S4 : sqrt (1 + 3) = 2) by (replace (1 + 3) with (2 * 2) by ring; apply sqrt_square; lra). rewrite S4 in H. replace (2 - 1) with 1 in H by ring. rewrite Rabs_R1 in H.
    assert (ln (1 + 3) <= 3) by (pose proof (ln_le_sub (1 + 3) ltac:(lra)); lra). assert (Rmax 0 (ln (1 + 3) / 2) <= 1.5) by (apply Rmax_lub; lra).
    assert (bpow radix2 (-1074) <= / 2 ^ 53) by (rewrite e53; apply Rle_trans with (bpow radix2 (-53)); [apply bpow_le; lia|cbn; lra]). rewrite e53 in *. lra.
Qed.
Print Assumptions C98_dilog. Print Assumptions C98_dilog_small. Print Assumptions C98_dilog_points. Print Assumptions C98_terms. Print Assumptions C98_sqrt. Print Assumptions C98_library. Print Assumptions C98_example.
