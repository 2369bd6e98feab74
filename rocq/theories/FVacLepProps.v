(** C110: the leptonic vacuum polarization with its roundings. *)
From Coq Require Import Reals ZArith Lia Lra.
From Flocq Require Import Core.
From Verif Require Import KinModel XsModel KinProps VirtProps ConstSpec FMathProps FVacLepModel FVacLepProofs.
Local Open Scope R_scope.

(** For Q^2 from 1 to 10000 the sum over the three leptons is within 2^-37 of the exact one (C93: the one-loop integrals), whatever the long double and for every C library
    with functions within 2^-52: the cancellation between the terms that grow as m^2/Q^2 costs no more. *)
Theorem C110_value p emin log log1p expm1 k : long_double p emin -> ulp_libm log log1p expm1 -> 1 <= kQ_sq k <= 10 ^ 4 ->
  Rabs (f_delta_vac_lep p emin log log1p expm1 (kQ_sq k) - delta_vac_lep k) <= / 2 ^ 37.
Proof. intros H L HQ. replace (/ 2 ^ 37) with (bpow radix2 (-37)) by (cbn; lra). exact (lep_err p emin H log log1p expm1 L k HQ). Qed.
Print Assumptions C110_value.
(** There it exceeds 8, so that the computed correction never has the wrong sign. *)
Theorem C110_screening p emin log log1p expm1 k : long_double p emin -> ulp_libm log log1p expm1 -> 1 <= kQ_sq k <= 10 ^ 4 -> 8 < f_delta_vac_lep p emin log log1p expm1 (kQ_sq k).
Proof. intros H L. exact (lep_positive p emin H log log1p expm1 L k). Qed.
Print Assumptions C110_screening.
(** The event of C93, with Q^2 = 5, the extended format of x86 and a library. *)
Example C110_example : 1 <= kQ_sq (make_kin ex_ps 20 ex_sp) <= 10 ^ 4 /\ long_double 64 (-16445) /\ exists log log1p expm1, ulp_libm log log1p expm1.
Proof. rewrite (proj1 C93_example). split; [lra|]. split; [left; lia|exact C98_library]. Qed.
Print Assumptions C110_example.
