(** What it means for a transform to be a proper change of variable on an interval. *)
From Coq Require Import Reals.
From Coquelicot Require Import Coquelicot.
From Verif Require Import MapModel.
Local Open Scope R_scope.

(** On the interval [a,b]: the inverse undoes [u], [u] is strictly increasing, and the reported Jacobian is the
    derivative of the inverse and is positive there. *)
Definition change_of_variable_on (t : transform) (a b : R) : Prop :=
  (forall x, a <= x <= b -> t_x t (t_u t x) = x) /\
  (forall x y, a <= x -> x < y -> y <= b -> t_u t x < t_u t y) /\
  (forall v, t_u t a <= v <= t_u t b -> is_derive (t_x t) v (t_jac t v)) /\
  (forall v, t_u t a <= v <= t_u t b -> 0 < t_jac t v).
