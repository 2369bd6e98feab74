(** Specification vocabulary for tensors. *)
From Coq Require Import Reals.
From Verif Require Import VecModel TransModel.
Local Open Scope R_scope.

Definition isometry3 (a : tr3) : Prop := forall v w, dot3 (tapp3 a v) (tapp3 a w) = dot3 v w.
Definition isometry4 (a : tr4) : Prop := forall v w, dot4 (tapp4 a v) (tapp4 a w) = dot4 v w.
(** A tensor as a bilinear form on vectors. *)
Definition form3 (t : tr3) (v w : vec3) : R := dot3 v (tapp3 t w).
Definition form4 (t : tr4) (v w : vec4) : R := dot4 v (tapp4 t w).
Definition antisymmetric4 (t : tr4) : Prop := forall v w, form4 t v w = - form4 t w v.
