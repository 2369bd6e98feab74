(** The functions of src/math.cpp computed in double: every operation is rounded to nearest, ties to even ([RN] of TextModel).
    The C library's log, log1p and expm1 are parameters. MathModel has the same functions without rounding.
    Simplifications: finite arguments only; no excess precision and no contraction into fused multiply-add; [RN] has no largest
    value, and no result below exceeds the argument or 2^20 in size, so that no operation overflows. *)
From Coq Require Import Reals ZArith.
From Verif Require Import ExtModel TextModel MathModel.
Local Open Scope R_scope.

Section FMath.
Context (log log1p expm1 : R -> R).
(** math.hpp 49-51 *)
Definition f_sq (x : R) : R := RN (x * x).
(** math.cpp 11-14, for x above -1 *)
Definition f_sqrt1p_1m (x : R) : R := expm1 (RN (0.5 * log1p x)).
(** math.cpp 17-36; negation is exact *)
Definition f_log_log1m (x : R) : R :=
  if rltb 1 x then RN (log x * log (RN (x - 1)))
  else if reqb x 1 then 0
  else if rltb 0.5 x then RN (log1p (RN (x - 1)) * log (RN (1 - x)))
  else if rltb 0 x then RN (log x * log1p (- x))
  else RN (log (- x) * log1p (- x)).
(** math.cpp 42-43: the literal rounded to double; it has more digits than the literal of a long double can hold, and is
    rounded twice there: once to 64 bits (x87), once to 53, with the same result as rounding once. *)
Definition f_c : R := RN dilog_c.
(** math.cpp 45-78 *)
Definition f_reduce (x : R) : R * R * R :=
  if rltb 2 x then (-1, RN (RN (2 * f_c) - RN (0.5 * f_sq (log x))), RN (1 / x))
  else if rltb 1 x then (1, RN (RN (f_c + RN (0.5 * f_sq (log x))) - f_log_log1m x), RN (RN (x - 1) / x))
  else if rltb 0.5 x then (-1, RN (f_c - f_log_log1m x), RN (1 - x))
  else if rltb (-0.5) x then (1, 0, x)
  else if rltb (-1) x then (-1, RN (- 0.5 * f_sq (log1p (- x))), RN (x / RN (x - 1)))
  else (1, RN (RN (- f_c + RN (0.5 * f_sq (log1p (- x)))) - f_log_log1m x), RN (1 / RN (1 - x))).
(** math.cpp 81-88 with d = 53; the literals are rounded to double, log2 of the radix 2 is exact *)
Definition f_n_max (x : R) : nat :=
  Z.to_nat (ceil (RN (RN (RN (RN (RN 1.4 * 53) + RN (6 * RN (1 - log 53))) * Rabs x) + RN (RN 0.3 * 53))) + 1).
(** math.cpp 90-95; [n * n] is an unsigned below 2^32 and exact as a double *)
Fixpoint f_loop (x : R) (fuel n : nat) (result numerator : R) : R :=
  match fuel with
  | O => result
  | S fuel' => f_loop x fuel' (S n) (RN (result + RN (numerator / (INR n * INR n)))) (RN (numerator * x))
  end.
Definition f_series (x : R) (n_max : nat) : R := f_loop x (n_max - 1) 1 0 x.
(** math.cpp 97; the product with a = 1 or -1 is exact *)
Definition f_dilog (x : R) : R := let '(a, b, x') := f_reduce x in RN (a * f_series x' (f_n_max x') + b).
End FMath.
