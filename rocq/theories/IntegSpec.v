(** What is asked of the integration wrapper: C103. *)
From Coq Require Import Reals ZArith List.
From Verif Require Import IntegModel.
Local Open Scope R_scope.

Definition known (m : method) : Prop := match m with Other _ => False | _ => True end.
Definition monte_carlo (m : method) : Prop := m = MC_PLAIN \/ m = MISER \/ m = VEGAS.
(** An integral, as a functional of the integrand on points with D coordinates. *)
Definition integral := nat -> integrand -> list R -> list R -> R.
Definition on_points (D : nat) (f g : integrand) : Prop := forall x, length x = D -> f x = g x.
Definition proper (I : integral) : Prop := forall D f g lower upper, on_points D f g -> I D f lower upper = I D g lower upper.
Section Routines.
Context {G W : Type} (cubature : integrand -> list R -> list R -> Z -> R -> R -> outcome)
  (run : method -> integrand -> list R -> list R -> nat -> Z -> G -> W -> ran G W).
(** The routines can be trusted when given at least [n] evaluations, whatever state they start from: the error they report
    covers the distance from the integral. *)
Definition reliable (I : integral) (n : Z) (D : nat) : Prop :=
  (forall f lower upper c v e, length lower = D -> length upper = D -> (n <= c)%Z -> cubature f lower upper c 0 0 = Value v e -> Rabs (v - I D f lower upper) <= e) /\
  (forall m f lower upper c g s g' s' v e, monte_carlo m -> length lower = D -> length upper = D -> (n <= c)%Z ->
    run m f lower upper D c g s = Ran g' s' v e -> Rabs (v - I D f lower upper) <= e).
End Routines.
(** No block is left over or released twice. *)
Definition tidy (w w' : world) : Prop := live w' = live w /\ bad w' = bad w.
(** The blocks in use were allocated before. *)
Definition regular (w : world) : Prop := Forall (fun b => (b < count w)%nat) (live w).
