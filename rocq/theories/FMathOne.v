(** Particular values, and the number of terms. *)
From Coq Require Import Reals ZArith Lia Lra Psatz.
From Flocq Require Import Core Relative.
From Coquelicot Require Import Coquelicot.
From Verif Require Import ExtModel TextModel TextNum MathModel MathProofs DilogSpec DilogProofs DilogError Basel BoundProofs FMathModel FMathSpec FMathSeries FMathSum FMathDilog.
Local Open Scope R_scope.
Set Bullet Behavior "Strict Subproofs".
Lemma RN_near z n : 1 <= z < 2 -> Rabs (z * 4503599627370496 - IZR n) < / 2 -> RN z = IZR n * / 4503599627370496.
Proof.
  intros H N. unfold RN, round, scaled_mantissa, cexp. rewrite (mag_unique_pos radix2 z 1) by (cbn; lra).
  change (FLT_exp (-1074) 53 1) with (-52)%Z. change (bpow radix2 (- (-52))) with 4503599627370496. unfold F2R. cbn [Fnum Fexp].
  rewrite (Znearest_imp _ _ n N). f_equal.
Qed.
Lemma c_scaled : IZR 7408124450506707 <= dilog_c * 4503599627370496 <= IZR 7408124450506707 + 1 / 5.
Proof.
  unfold dilog_c, Rdiv. assert (P : 0 < IZR (10 ^ 127)) by (apply IZR_lt; reflexivity).
  split; apply Rmult_le_reg_r with (5 * IZR (10 ^ 127)); try lra.
Qed.
Lemma RN_c0 : RN c0 = f_c.
Proof.
  pose proof c_scaled as S. pose proof c_close as C. assert (P : / 2 ^ 140 <= / 90071992547409920) by (apply Rinv_le_contravar; [lra|]; apply Rle_trans with (2 ^ 60); [cbn; lra|apply Rle_pow; [lra|lia]]).
  apply Rabs_le_inv in C. unfold f_c. rewrite (RN_near c0 7408124450506707), (RN_near dilog_c 7408124450506707); auto; try (apply Rabs_def1; lra); lra.
Qed.
Lemma f_series_0 n : f_series 0 n = 0.
Proof. unfold f_series. apply f_loop_zero, RN_0. Qed.
Lemma f_dilog_1 log log1p : f_dilog log log1p 1 = RN (PI ^ 2 / 6).
Proof.
  rewrite <- c0_is, RN_c0. unfold f_dilog, f_reduce. rewrite (rl_f 2 1), (rl_f 1 1), (rl_t 0.5 1) by lra. unfold f_log_log1m. rewrite (rl_f 1 1), (proj2 (reqb_spec 1 1) eq_refl) by lra.
  replace (1 - 1) with 0 by ring. rewrite RN_0, f_series_0, Rmult_0_r, Rplus_0_l, Rminus_0_r. rewrite (RN_fmt f_c) by apply fmt_RN. apply RN_fmt, fmt_RN.
Qed.
Lemma f_dilog_0 log log1p : f_dilog log log1p 0 = 0.
Proof.
  unfold f_dilog, f_reduce. rewrite (rl_f 2 0), (rl_f 1 0), (rl_f 0.5 0), (rl_t (-0.5) 0) by lra. rewrite f_series_0, Rmult_0_r, Rplus_0_r. apply RN_0.
Qed.
Lemma terms_range log x : Rabs x <= 1 / 2 -> Rabs (log 53 - ln 53) <= / 1000000 -> (16 <= f_n_max log x - 1 <= 49)%nat.
Proof.
  intros H L. destruct (n_max_bounds log x H L) as (N & v & -> & E & V & B). replace (N + 1 - 1)%nat with N by lia. split; [|lia].
  pose proof (Rabs_pos x). pose proof (ceil_ge v). assert (15 < Z.of_nat N)%Z by (rewrite E; apply lt_IZR; lra). lia.
Qed.
