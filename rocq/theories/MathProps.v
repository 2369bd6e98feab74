(** C66: scalar helpers. *)
From Coq Require Import Reals Lra.
From Verif Require Import ExtModel BoundModel BoundSpec BoundProofs MathModel MathProofs DilogSpec DilogProofs DilogError.
Local Open Scope R_scope.

Theorem C66_sqrt1p_1m x : -1 <= x -> sqrt1p_1m x = sqrt (1 + x) - 1.
Proof. exact (sqrt1p_1m_eq x). Qed.

Theorem C66_log_log1m x : x <> 0 -> x <> 1 -> log_log1m x = ln (Rabs x) * ln (Rabs (1 - x)).
Proof. exact (log_log1m_eq x). Qed.

(** Whatever the argument, the series is only ever summed in [-1/2, 1/2]. *)
Theorem C66_dilog_range c x :
  let '(_, _, x') := dilog_reduce c x in -0.5 <= x' <= 0.5.
Proof. exact (dilog_reduce_range c x). Qed.

(** The loop is the truncated series sum_{k=1}^{n_max-1} x^k/k^2. *)
Theorem C66_dilog_series x n : (2 <= n)%nat ->
  dilog_series x n = sum_f_R0 (fun k => x ^ (S k) / INR (S k) ^ 2) (n - 2).
Proof. exact (dilog_series_sum x n). Qed.

(** The function returned is the dilogarithm (up to rounding, which is not modelled) for every finite argument and each of the
    three floating-point types: argument reduction, constant and number of terms together cost less than half a unit in the
    last place of 1. *)
Theorem C66_dilog d D x : mantissa d -> is_dilog D -> Rabs (dilog d x - D x) <= / 2 * / IZR (2 ^ d) + / 2 ^ 138.
Proof. exact (dilog_error d D x). Qed.
(** Near 0 the error is relative to the argument. *)
Theorem C66_dilog_small d D x : mantissa d -> is_dilog D -> -0.5 < x <= 0.5 -> Rabs (dilog d x - D x) <= Rabs x / IZR (2 ^ d).
Proof. exact (dilog_error_small d D x). Qed.
(** [is_dilog] describes exactly one function. *)
Theorem C66_dilog_exists : exists D, is_dilog D /\ forall D', is_dilog D' -> forall x, D' x = D x.
Proof. exists dilog_full. split; [exact full_is_dilog|intros D' H; exact (dilog_unique D' dilog_full H full_is_dilog)]. Qed.

(** [clamp] returns the point of [mn, mx] nearest to x, for all non-NaN x. *)
Theorem C66_clamp mn x mx : ext_le mn mx -> x <> NaN ->
  ext_le mn (clamp mn x mx) /\ ext_le (clamp mn x mx) mx /\
  (ext_le mn x -> ext_le x mx -> clamp mn x mx = x) /\
  (~ ext_le mn x -> clamp mn x mx = mn) /\
  (~ ext_le x mx -> clamp mn x mx = mx).
Proof. exact (clamp_spec mn x mx). Qed.

(** NaN is clamped to the lower end. *)
Theorem C66_clamp_nan mn mx : clamp mn NaN mx = mn.
Proof. exact (clamp_nan mn mx). Qed.

Example C66_example_sqrt : sqrt1p_1m 3 = 1.
Proof.
  rewrite C66_sqrt1p_1m by lra. replace (1 + 3) with (2 * 2) by lra. rewrite sqrt_square by lra. lra.
Qed.
Example C66_example_log : log_log1m 2 = 0.
Proof.
  rewrite C66_log_log1m by lra. replace (1 - 2) with (-1) by lra. rewrite (Rabs_left (-1)) by lra. replace (- -1) with 1 by lra. rewrite ln_1. lra.
Qed.
Example C66_example_dilog : exists D, is_dilog D /\ D 0 = 0 /\ Rabs (dilog 53 3 - D 3) <= / 2 * / IZR (2 ^ 53) + / 2 ^ 138.
Proof.
  exists dilog_full. split; [exact full_is_dilog|]. split; [rewrite full_mid by lra; exact Li_0|].
  apply C66_dilog; [right; left; reflexivity|exact full_is_dilog].
Qed.
Example C66_example_clamp : clamp (Fin 0) (Fin (-3)) (Fin 1) = Fin 0.
Proof.
  apply (C66_clamp (Fin 0) (Fin (-3)) (Fin 1)); [constructor; lra|discriminate|].
  intros H; inversion H; lra.
Qed.

Print Assumptions C66_sqrt1p_1m.
Print Assumptions C66_log_log1m.
Print Assumptions C66_dilog_range.
Print Assumptions C66_dilog.
Print Assumptions C66_dilog_small.
Print Assumptions C66_dilog_exists.
Print Assumptions C66_dilog_series.
Print Assumptions C66_clamp.
Print Assumptions C66_clamp_nan.
