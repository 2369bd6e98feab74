(** Model of the interval type, include/sidis/bound.hpp and src/bound.cpp. *)
From Coq Require Import Reals Bool.
From Verif Require Import ExtModel.
Local Open Scope R_scope.

(** bound.hpp 16-19 *)
Record bound := Bnd { bmin : ext; bmax : ext }.

(** bound.cpp 9-12, bound.hpp 86 *)
Definition BOUND_INVALID : bound := Bnd NaN NaN.
(** bound.cpp 14-18 *)
Definition mk_bound (mn mx : ext) : bound :=
  if negb (eleb mn mx) then BOUND_INVALID else Bnd mn mx.

(** bound.hpp 39-41 *)
Definition contains (b : bound) (x : ext) : bool := eleb (bmin b) x && eleb x (bmax b).
(** bound.hpp 43-45 *)
Definition contains_bound (b other : bound) : bool :=
  contains b (bmin other) && contains b (bmax other).
(** bound.hpp 48-50 *)
Definition lerp (b : bound) (x : ext) : ext :=
  eadd (emul (esub (Fin 1) x) (bmin b)) (emul x (bmax b)).
(** bound.hpp 52-54 *)
Definition valid (b : bound) : bool := eleb (bmin b) (bmax b).
(** bound.hpp 56-58 *)
Definition bsize (b : bound) : ext := esub (bmax b) (bmin b).
(** bound.hpp 61-63 *)
Definition beq (a b : bound) : bool := eeqb (bmin a) (bmin b) && eeqb (bmax a) (bmax b).

(** bound.cpp 20-32 *)
Definition binter (a b : bound) : bound :=
  if eisnan (bmin a) || eisnan (bmin b) || eisnan (bmax a) || eisnan (bmax b) then BOUND_INVALID
  else
    let mn := efmax (bmin a) (bmin b) in
    let mx := efmin (bmax a) (bmax b) in
    if negb (eleb mn mx) then BOUND_INVALID else Bnd mn mx.
(** bound.cpp 33-42 *)
Definition bunion (a b : bound) : bound :=
  if eisnan (bmin a) || eisnan (bmin b) || eisnan (bmax a) || eisnan (bmax b) then BOUND_INVALID
  else Bnd (efmin (bmin a) (bmin b)) (efmax (bmax a) (bmax b)).
(** bound.cpp 44-48 *)
Definition badd (a : bound) (s : ext) : bound := Bnd (eadd (bmin a) s) (eadd (bmax a) s).
(** bound.cpp 49-53 *)
Definition bsub (a : bound) (s : ext) : bound := Bnd (esub (bmin a) s) (esub (bmax a) s).
(** bound.cpp 54-62 *)
Definition bmul (a : bound) (s : ext) : bound :=
  if eltb s (Fin 0) then BOUND_INVALID else Bnd (emul (bmin a) s) (emul (bmax a) s).
(** bound.cpp 63-71 *)
Definition bdiv (a : bound) (s : ext) : bound :=
  if eleb s (Fin 0) then BOUND_INVALID else Bnd (ediv (bmin a) s) (ediv (bmax a) s).

(** bound.hpp 88-96 *)
Definition BOUND_ZERO : bound := mk_bound (Fin 0) (Fin 0).
Definition BOUND_UNIT : bound := mk_bound (Fin 0) (Fin 1).
Definition BOUND_FULL : bound := mk_bound NInf PInf.
Definition BOUND_POSITIVE : bound := mk_bound (Fin 0) PInf.
Definition BOUND_NEGATIVE : bound := mk_bound NInf (Fin 0).
