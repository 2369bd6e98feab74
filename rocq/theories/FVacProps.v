(** C109: the hadronic vacuum polarization with its roundings. *)
From Coq Require Import Reals ZArith Lia Lra.
From Flocq Require Import Core.
From Verif Require Import PhenomModel VacHadProofs ConstSpec FPhenomProofs FVacModel FVacSpec FVacProofs.
Local Open Scope R_scope.
Local Notation u := (bpow radix2 (-53)).

(** For every Q^2 the answer is within 23 units of 2^-53 of the exact one plus 3, whatever the long double. *)
Theorem C109_value p emin logl Q_sq : long_double p emin -> accurate_log logl -> 0 <= Q_sq ->
  Rabs (f_delta_vac_had p emin logl Q_sq - delta_vac_had Q_sq) <= 23 * u * (delta_vac_had Q_sq + 3).
Proof. intros H HL. exact (vac_err p emin H logl HL Q_sq). Qed.
Print Assumptions C109_value.
(** It is positive, also at Q^2 = 0 where it is smallest. *)
Theorem C109_positive p emin logl Q_sq : long_double p emin -> accurate_log logl -> 0 <= Q_sq -> 0 < f_delta_vac_had p emin logl Q_sq.
Proof. intros H HL. exact (vac_positive p emin H logl HL Q_sq). Qed.
Print Assumptions C109_positive.
(** With a logarithm that never decreases, neither does the answer: no rounding and no change of fit makes it smaller at a larger Q^2. *)
Theorem C109_monotone p emin logl Q_sq Q_sq' : long_double p emin -> accurate_log logl -> (forall x y, 0 < x <= y -> logl x <= logl y) -> 0 <= Q_sq <= Q_sq' ->
  f_delta_vac_had p emin logl Q_sq <= f_delta_vac_had p emin logl Q_sq'.
Proof. intros H HL MO. exact (vac_mono p emin H logl HL MO Q_sq Q_sq'). Qed.
Print Assumptions C109_monotone.
(** Rounding does not close the gaps between the fits: everything below a joint is more than 0.29% (0.59%) below the value there. *)
Theorem C109_continuous_refuted p emin logl : long_double p emin -> accurate_log logl ->
  (forall Q_sq, 0 <= Q_sq < 1 -> f_delta_vac_had p emin logl Q_sq < (1 - 29 / 10000) * f_delta_vac_had p emin logl 1) /\
  (forall Q_sq, 0 <= Q_sq < 64 -> f_delta_vac_had p emin logl Q_sq < (1 - 59 / 10000) * f_delta_vac_had p emin logl 64).
Proof. exact (gaps p emin logl). Qed.
Print Assumptions C109_continuous_refuted.
(** The extended format of x86 with a logarithm that is exact. *)
Example C109_example : long_double 64 (-16445) /\ long_double 113 (-16494) /\ long_double 53 (-1074) /\ accurate_log ln /\ (forall x y, 0 < x <= y -> ln x <= ln y).
Proof. exact example. Qed.
Print Assumptions C109_example.
