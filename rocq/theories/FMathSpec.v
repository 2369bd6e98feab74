(** Doubles, and what is asked of the C library. *)
From Coq Require Import Reals ZArith.
From Flocq Require Import Core.
Local Open Scope R_scope.
(** a finite double *)
Definition double (x : R) : Prop := generic_format radix2 (FLT_exp (-1074) 53) x /\ Rabs x < bpow radix2 1024.
Definition close (u v e : R) : Prop := Rabs (v - e) <= u * Rabs e.
(** The functions of the library return doubles with relative error at most [u]. *)
Record libm (u : R) (log log1p expm1 : R -> R) : Prop := Libm {
  log_ok : forall x, double x -> 0 < x -> double (log x) /\ close u (log x) (ln x);
  log1p_ok : forall x, double x -> -1 < x -> double (log1p x) /\ close u (log1p x) (ln (1 + x));
  expm1_ok : forall x, double x -> x < 600 -> double (expm1 x) /\ close u (expm1 x) (exp x - 1) }.
