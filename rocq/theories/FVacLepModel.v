(** Model of src/cross_section.cpp 515-531 with its roundings: [sq], [sqrt1p_1m] (math.hpp 49-51, math.cpp 11-14; FMathModel) and everything made of doubles
    is rounded to double, [2./3.L] and [10./9.L] make the sum of a term a long double (precision [p], least exponent [emin]), and adding it to [delta]
    rounds to long double and then to double. The C library's log, log1p and expm1 are parameters; its sqrt is correctly rounded. Overflow is left out (no number formed
    exceeds 8 Q^4 + 2^40 for the arguments of the theorems); no excess precision and no fused multiply-add. *)
From Coq Require Import Reals ZArith.
From Verif Require Import TextModel ConstModel FMathModel.
Local Open Scope R_scope.

Section VacLep.
Context (p emin : Z) (log log1p expm1 : R -> R).
Local Notation RL := (to_long p emin).
(** cross_section.cpp 521-524; [m_sq] is [sq(m)] *)
Definition f_lepton_L (Q_sq m_sq : R) : R :=
  let lambda_sqrt := RN (sqrt (RN (Q_sq * RN (Q_sq + RN (4 * m_sq))))) in
  let diff_m := f_sqrt1p_1m log1p expm1 (RN (RN (4 * m_sq) / Q_sq)) in
  let sum_m := RN (2 + diff_m) in
  RN (RN (1 / lambda_sqrt) * log (RN (sum_m / diff_m))).
(** 525-528 *)
Definition f_vac_term (Q_sq m : R) : R :=
  let m_sq := f_sq m in
  let L_m := f_lepton_L Q_sq m_sq in
  RL (RL (RL (RL (RL (2 / 3) * RN (Q_sq + RN (2 * m_sq))) * L_m) - RL (10 / 9))
    + RN (RN (RN (8 * m_sq) / RN (3 * Q_sq)) * RN (1 - RN (RN (2 * m_sq) * L_m)))).
(** 515-531 *)
Definition f_delta_vac_lep (Q_sq : R) : R :=
  let add delta m := RN (RL (delta + f_vac_term Q_sq (constant p emin m))) in
  add (add (add 0 MASS_E) MASS_MU) MASS_TAU.
End VacLep.
