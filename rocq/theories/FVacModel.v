(** Model of src/phenom.cpp 70-81 with its roundings: the literals carry the suffix L, so that the bracket is computed in long double
    (precision [p], least exponent [emin]) and the product is rounded to long double and then to double. Overflow is left out: the largest number
    formed is 1 + 0.99992 Q^2 (for large Q^2, where it is below Q^2 itself), and the result stays below 2000. *)
From Coq Require Import Reals ZArith.
From Flocq Require Import Core.
From Verif Require Import ExtModel TextModel ConstModel.
Local Open Scope R_scope.

Section Vac.
Context (p emin : Z) (logl : R -> R).
Local Notation RL := (to_long p emin).
(** phenom.cpp 76, 78, 80: [a - b * std::log(1. + c * kin.Q_sq)], [a] negative; a [long double] argument selects the [long double] logarithm. *)
Definition f_fit (a b c Q_sq : R) : R := RL (- RL a - RL (RL b * logl (RL (1 + RL (RL c * Q_sq))))).
(** phenom.cpp 73, and [-(2.*PI)/alpha] in doubles *)
Definition f_alpha : R := RN (RL (72973525664 / 10 ^ 13)).
Definition f_factor : R := RN (- RN (2 * constant p emin PI_) / f_alpha).
(** phenom.cpp 70-81 *)
Definition f_delta_vac_had (Q_sq : R) : R :=
  if rltb Q_sq 1 then RN (RL (f_factor * f_fit (1345 / 10 ^ 12) (2302 / 10 ^ 6) (4091 / 1000) Q_sq))
  else if rltb Q_sq 64 then RN (RL (f_factor * f_fit (1512 / 10 ^ 6) (2822 / 10 ^ 6) (1218 / 1000) Q_sq))
  else RN (RL (f_factor * f_fit (11344 / 10 ^ 7) (30680 / 10 ^ 7) (99992 / 10 ^ 5) Q_sq)).
End Vac.
