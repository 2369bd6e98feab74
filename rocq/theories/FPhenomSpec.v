(** Specification for the running coupling in double arithmetic: what is assumed of the constants and of the logarithm. *)
From Coq Require Import Reals ZArith.
From Flocq Require Import Core.Core IEEE754.Binary IEEE754.Bits.
From Verif Require Import GridModel XsModel PhenomModel.
Local Open Scope R_scope.

(** the double is finite and within [k] units of 2^-53, relatively *)
Definition within (k : R) (z : binary64) (v : R) : Prop := f_isfinite z = true /\ Rabs (Binary.B2R 53 1024 z - v) <= k * bpow radix2 (-53) * Rabs v.
Definition good_log (log : binary64 -> binary64) : Prop := forall x, f_isfinite x = true -> 0 < Binary.B2R 53 1024 x ->
  f_isfinite (log x) = true /\ Rabs (Binary.B2R 53 1024 (log x) - ln (Binary.B2R 53 1024 x)) <= 4 * bpow radix2 (-53) * (1 + Rabs (ln (Binary.B2R 53 1024 x))).
(** the [n]-th value of the table without rounding *)
Definition coupling (n : nat) : R := Nat.iter n rk4 ALPHA_QED_0.
