(** Specification for C101: the values drawn for a unit coordinate [p], without rounding. *)
From Coq Require Import Reals.
From Verif Require Import ExtModel.
Local Open Scope R_scope.
(** Density falling like exp(-4 t) between [a] and [b]. *)
Definition drawn_decay (p a b : R) : R := - (ln ((1 - p) * exp (- (4 * a)) + p * exp (- (4 * b))) / 4).
(** Density falling like the inverse square of the distance from [-o]. *)
Definition drawn_inverse (o p a b : R) : R := / ((1 - p) / (a + o) + p / (b + o)) - o.
(** The derivatives of these with respect to [p]. *)
Definition slope_decay (p a b : R) : R := (exp (- (4 * a)) - exp (- (4 * b))) / (4 * ((1 - p) * exp (- (4 * a)) + p * exp (- (4 * b)))).
Definition slope_inverse (o p a b : R) : R := (/ (a + o) - / (b + o)) * (drawn_inverse o p a b + o) ^ 2.
(** The interval really asked for contains the value. *)
Definition within (v : ext) (a b : R) : Prop := exists x, v = Fin x /\ a <= x <= b.
