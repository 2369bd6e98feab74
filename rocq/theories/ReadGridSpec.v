(** Specification of tables that hold grids. *)
From Coq Require Import Reals List.
From Verif Require Import ExtModel GridModel GridSpec ReadGridModel.
Import ListNotations.

(** Entries of a list in the order [ord] (of columns). *)
Definition permute (ord l : list nat) : list nat := map (fun c => nth c l 0%nat) ord.
(** The rows run [m] times through the nodes of the grid, with the columns in the order [ord], slowest first. *)
Definition enumerates (rows : list row) (axes : list axis) (ord : list nat) (m : nat) : Prop :=
  let counts := map ax_count axes in
  length rows = (m * size_of counts)%nat /\
  forall k is, (k < m)%nat -> in_grid counts is ->
    exists p, nth_error rows (k * size_of counts + flat (permute ord counts) (permute ord is)) = Some p /\
              firstn (length axes) p = map Fin (nodes axes is).
Definition table (N K : nat) (rows : list row) : Prop := Forall (fun p => length p = (N + K)%nat) rows.
(** The point is at the multi-index [is] of the grid [dims], up to a fraction [tol] of the spacing in each direction. *)
Definition at_node (tol : R) (d : dim ext) (i : nat) (x : ext) : Prop :=
  exists lo hi v, d_lower d = Fin lo /\ d_upper d = Fin hi /\ x = Fin v /\
    let a := Axis (d_count d) lo hi in (Rabs (v - node a i) <= Rabs (tol * spacing a))%R.
