(** Specification of grids: row-major layout, nodes, functions that interpolation must reproduce. *)
From Coq Require Import Reals ZArith List.
From Verif Require Import ExtModel GridModel.
Import ListNotations.

(** Row-major position of a multi-index; multi-indices of a grid. *)
Fixpoint flat (counts is : list nat) : nat :=
  match counts, is with
  | _ :: cs, i :: js => (i * fold_right Nat.mul 1%nat cs + flat cs js)%nat
  | _, _ => 0%nat
  end.
Definition in_grid (counts is : list nat) : Prop := Forall2 (fun c i => (i < c)%nat) counts is.
Definition size_of (counts : list nat) : nat := fold_right Nat.mul 1%nat counts.
Definition counts_of {T} (dims : list (dim T)) : list nat := map d_count dims.

Local Open Scope R_scope.
(** A proper dimension: two planes or more, finite, not empty. *)
Record axis := Axis { ax_count : nat; ax_lower : R; ax_upper : R }.
Definition proper (a : axis) : Prop := (2 <= ax_count a)%nat /\ ax_lower a < ax_upper a.
Definition dim_of (a : axis) : dim ext := Dim (ax_count a) (Fin (ax_lower a)) (Fin (ax_upper a)).
Definition spacing (a : axis) : R := (ax_upper a - ax_lower a) / INR (ax_count a - 1).
Definition node (a : axis) (k : nat) : R := ax_lower a + INR k * spacing a.
Definition inside (a : axis) (x : R) : Prop := ax_lower a <= x < ax_upper a.
(** Node [k] is less than one spacing away from [x]. *)
Definition near (a : axis) (x : R) (k : nat) : Prop := Rabs (x - node a k) < spacing a.
(** Data of a grid holding [f] at each multi-index. *)
Definition holds (data : list ext) (counts : list nat) (f : list nat -> R) : Prop :=
  length data = size_of counts /\ forall is, in_grid counts is -> nth_error data (flat counts is) = Some (Fin (f is)).
(** Functions of [n] variables, affine (quadratic) in each of them. *)
Fixpoint multiaffine (n : nat) (f : list R -> R) : Prop :=
  match n with
  | O => True
  | S n => exists g h, multiaffine n g /\ multiaffine n h /\ forall x xs, f (x :: xs) = g xs + x * h xs
  end.
Fixpoint multiquadratic (n : nat) (f : list R -> R) : Prop :=
  match n with
  | O => True
  | S n => exists g h i, multiquadratic n g /\ multiquadratic n h /\ multiquadratic n i /\
           forall x xs, f (x :: xs) = g xs + x * h xs + x * x * i xs
  end.
Definition nodes (axes : list axis) (is : list nat) : list R := map (fun p => node (fst p) (snd p)) (combine axes is).
(** At least one cell away from both ends. *)
Definition interior (a : axis) (x : R) : Prop := node a 1 <= x < node a (ax_count a - 2).
