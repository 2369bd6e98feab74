(** Specification for C102: the photon variable drawn for a unit coordinate [p], without rounding. *)
From Coq Require Import Reals.
From Verif Require Import FMathSpec.
Local Open Scope R_scope.
(** Density falling like the inverse of the distance from [-r], between [a] and [b]; and its derivative with respect to [p]. *)
Definition drawn_log (r p a b : R) : R := Rpower (a + r) (1 - p) * Rpower (b + r) p - r.
Definition slope_log (r p a b : R) : R := (drawn_log r p a b + r) * ln ((b + r) / (a + r)).
(** log and exp return doubles with relative error at most [u]. *)
Record log_exp (u : R) (log exp : R -> R) : Prop := Log_exp {
  le_log : forall x, double x -> 0 < x -> double (log x) /\ close u (log x) (ln x);
  le_exp : forall x, double x -> Rabs x <= 600 -> double (exp x) /\ close u (exp x) (Rtrigo_def.exp x) }.
