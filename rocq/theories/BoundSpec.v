(** Specification vocabulary for intervals: an interval denotes a set of points. *)
From Coq Require Import Reals.
From Verif Require Import ExtModel BoundModel.
Local Open Scope R_scope.

(** Order on extended reals, as a mathematical relation (not the IEEE program). *)
Inductive ext_le : ext -> ext -> Prop :=
| le_fin x y : x <= y -> ext_le (Fin x) (Fin y)
| le_ninf_fin x : ext_le NInf (Fin x)
| le_fin_pinf x : ext_le (Fin x) PInf
| le_ninf_pinf : ext_le NInf PInf
| le_ninf : ext_le NInf NInf
| le_pinf : ext_le PInf PInf.

(** The set of points denoted by a pair of ends (empty if an end is NaN or the ends are crossed). *)
Definition points (b : bound) (x : ext) : Prop := ext_le (bmin b) x /\ ext_le x (bmax b).

(** "Invalid": both ends read back as NaN. *)
Definition is_invalid (b : bound) : Prop := bmin b = NaN /\ bmax b = NaN.

Inductive finite : ext -> Prop := finite_Fin r : finite (Fin r).
