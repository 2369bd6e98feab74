(** C108: the running coupling in double arithmetic. *)
From Coq Require Import Reals ZArith Bool List Lia Lra.
From Flocq Require Import Core.Core IEEE754.Binary IEEE754.Bits.
From Verif Require Import ExtModel GridModel XsModel PhenomModel PhenomProofs PhenomFinal FPhenomModel FPhenomSpec FPhenomProofs FPhenomFinal.
Import ListNotations.
Local Open Scope R_scope.
Local Notation B := (Binary.B2R 53 1024).
Local Notation u := (bpow radix2 (-53)).

(** One Runge-Kutta step: little more than one rounding of the largest coupling. *)
Theorem C108_step pi a : f_isfinite pi = true /\ Rabs (B pi - PI) <= 4 * u -> f_isfinite a = true -> 1 / 1000 <= B a <= 1 / 127 ->
  f_isfinite (f_rk4 pi a) = true /\ Rabs (B (f_rk4 pi a) - rk4 (B a)) <= 102 / 100 * u * / 127.
Proof. intros [F E]. exact (rk4_err pi F E a). Qed.
Print Assumptions C108_step.
(** The loop that fills the table ends when eight entries are past ln 100, and every entry is as accurate as the number of steps before it allows. *)
Theorem C108_table pi mass_e alpha_0 log : f_isfinite pi = true /\ Rabs (B pi - PI) <= 4 * u -> within 2 mass_e MASS_E -> within 3 alpha_0 ALPHA_QED_0 -> good_log log ->
  exists rounds data lower upper, (forall fuel, (rounds <= fuel)%nat -> f_alpha_grid pi mass_e alpha_0 log fuel = Some (data, [Dim (length data) lower upper])) /\
    (308 <= length data <= 2118)%nat /\
    (forall k z, nth_error data k = Some z -> f_isfinite z = true /\ Rabs (B z - coupling k) <= (3 + 11 / 10 * INR k) * u * / 127) /\
    f_isfinite lower = true /\ Rabs (B lower - 2 * ln MASS_E) <= 100 * u /\
    f_isfinite upper = true /\ Rabs (B upper - (2 * ln MASS_E + INR (length data - 1) / 100)) <= (100 + 25 * INR (length data - 1)) * u /\
    ln 100 + 7 / 100 - 1 / 10 ^ 9 <= B upper <= ln 100 + 8 / 100 + 1 / 10 ^ 9.
Proof. exact (table pi mass_e alpha_0 log). Qed.
Print Assumptions C108_table.
(** From just above the electron mass up to Q^2 = 100 the answer is within 2^-35 of the one computed with exact numbers, which C67 relates to the two-loop equation
    (from one table spacing above the electron mass on; its failure in the first cell is inherited). *)
Theorem C108_value pi mass_e alpha_0 log : f_isfinite pi = true /\ Rabs (B pi - PI) <= 4 * u -> within 2 mass_e MASS_E -> within 3 alpha_0 ALPHA_QED_0 -> good_log log ->
  exists rounds grid exact, (forall fuel, (rounds <= fuel)%nat -> f_alpha_grid pi mass_e alpha_0 log fuel = Some grid /\ alpha_qed_grid fuel = Some exact) /\
    forall q, f_isfinite q = true -> MASS_E ^ 2 * (1 + bpow radix2 (-40)) <= B q < 100 ->
      exists z v, f_alpha_qed pi log grid q = Val z /\ f_isfinite z = true /\ alpha_qed exact (Fin (B q)) = Some (Fin v) /\ Rabs (B z - v) <= bpow radix2 (-35).
Proof. exact (value_bound pi mass_e alpha_0 log). Qed.
Print Assumptions C108_value.
(** For every finite double from 100 on, where the one-loop expression is used, within 2^-31. *)
Theorem C108_beyond pi mass_e alpha_0 log : f_isfinite pi = true /\ Rabs (B pi - PI) <= 4 * u -> within 2 mass_e MASS_E -> within 3 alpha_0 ALPHA_QED_0 -> good_log log ->
  exists rounds grid exact, (forall fuel, (rounds <= fuel)%nat -> f_alpha_grid pi mass_e alpha_0 log fuel = Some grid /\ alpha_qed_grid fuel = Some exact) /\
    forall q, f_isfinite q = true -> 100 <= B q ->
      exists z v, f_alpha_qed pi log grid q = Val z /\ f_isfinite z = true /\ alpha_qed exact (Fin (B q)) = Some (Fin v) /\ Rabs (B z - v) <= bpow radix2 (-31).
Proof. exact (beyond_bound pi mass_e alpha_0 log). Qed.
Print Assumptions C108_beyond.
(** Below the electron mass, and for the default argument zero with a logarithm giving minus infinity there, not a number. *)
Theorem C108_below pi mass_e alpha_0 log : f_isfinite pi = true /\ Rabs (B pi - PI) <= 4 * u -> within 2 mass_e MASS_E -> within 3 alpha_0 ALPHA_QED_0 -> good_log log ->
  exists rounds grid, (forall fuel, (rounds <= fuel)%nat -> f_alpha_grid pi mass_e alpha_0 log fuel = Some grid) /\
    (forall q, f_isfinite q = true -> 0 < B q <= MASS_E ^ 2 * (1 - bpow radix2 (-40)) -> f_alpha_qed pi log grid q = Val f_nan) /\
    (log (f_of_Z 0) = Binary.B754_infinity 53 1024 true -> f_alpha_qed pi log grid (f_of_Z 0) = Val f_nan).
Proof. exact (below_nan pi mass_e alpha_0 log). Qed.
Print Assumptions C108_below.
(** What C67 shows of the first cell of the table happens in doubles too: half a table spacing above the electron mass at most, a double for which the answer is more than four percent above
    the coupling at zero. *)
Theorem C108_first_cell pi mass_e alpha_0 log : f_isfinite pi = true /\ Rabs (B pi - PI) <= 4 * u -> within 2 mass_e MASS_E -> within 3 alpha_0 ALPHA_QED_0 -> good_log log ->
  exists rounds grid, (forall fuel, (rounds <= fuel)%nat -> f_alpha_grid pi mass_e alpha_0 log fuel = Some grid) /\
    exists q z, f_isfinite q = true /\ MASS_E ^ 2 < B q < MASS_E ^ 2 * exp (1 / 200) /\ f_alpha_qed pi log grid q = Val z /\ f_isfinite z = true /\ 104 / 100 * ALPHA_QED_0 < B z.
Proof. exact (first_cell_double pi mass_e alpha_0 log). Qed.
Print Assumptions C108_first_cell.
(** The doubles in the headers are as assumed, and so is a logarithm that gives the nearest double; Q^2 = 4, 10000 and 2^-30 are in the ranges. *)
Example C108_example : (f_isfinite pi_double = true /\ Rabs (B pi_double - PI) <= 4 * u) /\ within 2 mass_e_double MASS_E /\ within 3 alpha_0_double ALPHA_QED_0 /\ good_log nearest_log /\
  f_isfinite (f_of_Z 4) = true /\ MASS_E ^ 2 * (1 + bpow radix2 (-40)) <= B (f_of_Z 4) < 100 /\ 1 / 1000 <= B alpha_0_double <= 1 / 127 /\ 100 <= B (f_of_Z 10000) /\
  0 < B (b64_of_bits 0x3E10000000000000) <= MASS_E ^ 2 * (1 - bpow radix2 (-40)) /\ nearest_log (f_of_Z 0) = Binary.B754_infinity 53 1024 true.
Proof. exact example. Qed.
Print Assumptions C108_example.
