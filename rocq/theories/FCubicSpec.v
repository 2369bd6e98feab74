(** Specification of cubic interpolation: the cubic with given values at two neighbouring nodes whose slopes there are central differences, the curve made of
    these cubics along one axis (nodes beyond the ends count as zero), and its product over several axes. *)
From Coq Require Import Reals ZArith Bool List.
From Flocq Require Import Core.Core IEEE754.Binary IEEE754.Bits.
From Verif Require Import GridModel FGridSpec.
Import ListNotations.
Local Open Scope R_scope.

Definition hermite (f0 f1 f2 f3 r : R) : R :=
  f1 + (f2 - f0) / 2 * r + (f0 - 5 / 2 * f1 + 2 * f2 - f3 / 2) * r ^ 2 + ((f3 - f0) / 2 + 3 / 2 * (f1 - f2)) * r ^ 3.
(** values at [n + 1] nodes, zero elsewhere *)
Definition at_node (n : nat) (g : nat -> R) (k : Z) : R := if (0 <=? k)%Z && (k <=? Z.of_nat n)%Z then g (Z.to_nat k) else 0.
Definition spline (n : nat) (g : nat -> R) (t : R) : R :=
  let k := Zfloor t in
  hermite (at_node n g (k - 1)) (at_node n g k) (at_node n g (k + 1)) (at_node n g (k + 2)) (t - IZR k).
Fixpoint spline_nd (ns : list nat) (ts : list R) (f : list nat -> R) : R :=
  match ns, ts with
  | n :: ns, t :: ts => spline n (fun k => spline_nd ns ts (fun js => f (k :: js))) t
  | _, _ => f []
  end.
(** roundings allowed for: 50 for each axis and 16 for each of its cells *)
Fixpoint budget (ns : list nat) : R := match ns with [] => 0 | n :: ns => 50 + 16 * INR n + budget ns end.

(** cells of an axis, position of a point on it, and points certain to be found *)
Definition cells (d : dim binary64) : nat := d_count d - 1.
Definition place (d : dim binary64) (x : binary64) : R :=
  position (cells d) (Binary.B2R 53 1024 (d_lower d)) (Binary.B2R 53 1024 (d_upper d)) (Binary.B2R 53 1024 x).
Definition clearly_inside (d : dim binary64) (x : binary64) : Prop :=
  let l := Binary.B2R 53 1024 (d_lower d) in let h := Binary.B2R 53 1024 (d_upper d) in
  moderate x /\ l < h /\ l <= Binary.B2R 53 1024 x <= h - 3 * bpow radix2 (-53) * (h - l).
