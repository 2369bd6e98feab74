(** Specification for the hadronic vacuum polarization with roundings: what is asked of the logarithm. *)
From Coq Require Import Reals ZArith.
From Flocq Require Import Core.
Local Open Scope R_scope.
Definition accurate_log (log : R -> R) : Prop := forall x, 0 < x -> Rabs (log x - ln x) <= 4 * bpow radix2 (-53) * (1 + Rabs (ln x)).
