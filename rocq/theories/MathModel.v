(** Model of the scalar helpers in include/sidis/extra/math.hpp and src/math.cpp. *)
From Coq Require Import Reals Bool ZArith.
From Verif Require Import ExtModel.
Local Open Scope R_scope.

(** math.hpp 13-42 (the three overloads are textually identical), on doubles with NaN and infinities *)
Definition clamp (mn x mx : ext) : ext :=
  if negb (egtb x mn) then mn else if negb (eltb x mx) then mx else x.

(** math.hpp 45-55 *)
Definition sq (x : R) : R := x * x.

(** The C library's [expm1], [log1p]; exact. [log1p] is only meaningful above -1. *)
Definition expm1 (x : R) : R := exp x - 1.
Definition log1p (x : R) : R := ln (1 + x).

(** math.cpp 11-14. At -1 the logarithm is -infinity and [expm1] of it is -1. *)
Definition sqrt1p_1m (x : R) : R := if reqb x (-1) then -1 else expm1 (0.5 * log1p x).

(** math.cpp 17-36, finite [x] only *)
Definition log_log1m (x : R) : R :=
  if rltb 1 x then ln x * ln (x - 1)
  else if reqb x 1 then 0
  else if rltb 0.5 x then log1p (x - 1) * ln (1 - x)
  else if rltb 0 x then ln x * log1p (- x)
  else ln (- x) * log1p (- x).

(** math.cpp 38-78: argument reduction of [dilog_impl], finite [x]; [c] is the constant of lines 42-43.
    Returns (a, b, x'): the result is [a * series x' + b]. *)
Definition dilog_reduce (c x : R) : R * R * R :=
  if rltb 2 x then (-1, 2 * c - 0.5 * sq (ln x), 1 / x)
  else if rltb 1 x then (1, c + 0.5 * sq (ln x) - log_log1m x, (x - 1) / x)
  else if rltb 0.5 x then (-1, c - log_log1m x, 1 - x)
  else if rltb (-0.5) x then (1, 0, x)
  else if rltb (-1) x then (-1, - 0.5 * sq (log1p (- x)), x / (x - 1))
  else (1, - c + 0.5 * sq (log1p (- x)) - log_log1m x, 1 / (1 - x)).

(** math.cpp 90-95: the loop [for n = 1; n < n_max], with state (result, numerator). *)
Fixpoint dilog_loop (x : R) (fuel : nat) (n : nat) (result numerator : R) : R :=
  match fuel with
  | O => result
  | S fuel' => dilog_loop x fuel' (S n) (result + numerator / (INR n * INR n)) (numerator * x)
  end.
(** The partial sum of [n_max - 1] terms. Simplification: [n * n] is not reduced modulo 2^32. *)
Definition dilog_series (x : R) (n_max : nat) : R := dilog_loop x (n_max - 1) 1 0 x.

(** math.cpp 97, for a given number of terms *)
Definition dilog_impl (c x : R) (n_max : R -> nat) : R :=
  let '(a, b, x') := dilog_reduce c x in a * dilog_series x' (n_max x') + b.

(** math.cpp 42-43: the literal, before it is rounded to [T] *)
Definition dilog_c : R := IZR 16449340668482264364724151666460251892189499012067984377355582293700074704032008738336289006197587053040043189623371906796287247 / IZR (10 ^ 127).

(** math.cpp 81-88: the loop bound for a mantissa of [d] bits (24, 53 and 64 for the three overloads on lines 142-150; the
    radix is 2). Simplification: exact arithmetic. *)
Definition ceil (r : R) : Z := (- Int_part (- r))%Z.
Definition dilog_n_max (d : Z) (x : R) : nat :=
  Z.to_nat (ceil ((1.4 * IZR d + 6 * (1 - ln (IZR d))) * Rabs x + 0.3 * IZR d) + 1).

(** math.cpp 142-150, finite argument: float, double and long double are [d] = 24, 53, 64. Simplification: exact arithmetic. *)
Definition dilog (d : Z) (x : R) : R := dilog_impl dilog_c x (dilog_n_max d).
