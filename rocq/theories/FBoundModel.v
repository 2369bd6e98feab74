(** The interval type computed in IEEE double arithmetic: include/sidis/bound.hpp and src/bound.cpp with [Real] = double,
    every operation rounded to nearest even (Flocq's binary64, operations of GridModel).
    BoundModel has the same functions over the extended reals, without rounding.
    Simplifications: no excess precision and no contraction into fused multiply-add. *)
From Coq Require Import ZArith Bool.
From Flocq Require Import IEEE754.Binary IEEE754.Bits.
From Verif Require Import GridModel.

(** the comparison [a <= b] of doubles: false if either is NaN *)
Definition f_le (a b : binary64) : bool := match b64_compare a b with Some Lt | Some Eq => true | _ => false end.

(** bound.hpp 16-19 *)
Record fbound := FBnd { f_min : binary64; f_max : binary64 }.
(** bound.cpp 9-12 *)
Definition f_invalid : fbound := FBnd f_nan f_nan.
(** bound.cpp 14-18 *)
Definition f_bound (mn mx : binary64) : fbound := if negb (f_le mn mx) then f_invalid else FBnd mn mx.
(** bound.hpp 39-41 *)
Definition f_contains (b : fbound) (x : binary64) : bool := f_le (f_min b) x && f_le x (f_max b).
(** bound.hpp 48-50 *)
Definition f_lerp (b : fbound) (x : binary64) : binary64 := f_add (f_mul (f_sub (f_of_Z 1) x) (f_min b)) (f_mul x (f_max b)).
(** bound.cpp 44-48 *)
Definition f_badd (b : fbound) (s : binary64) : fbound := FBnd (f_add (f_min b) s) (f_add (f_max b) s).
(** bound.cpp 49-53 *)
Definition f_bsub (b : fbound) (s : binary64) : fbound := FBnd (f_sub (f_min b) s) (f_sub (f_max b) s).
(** bound.cpp 54-62 *)
Definition f_bmul (b : fbound) (s : binary64) : fbound :=
  if f_lt s (f_of_Z 0) then f_invalid else FBnd (f_mul (f_min b) s) (f_mul (f_max b) s).
(** bound.cpp 63-71 *)
Definition f_bdiv (b : fbound) (s : binary64) : fbound :=
  if f_le s (f_of_Z 0) then f_invalid else FBnd (f_div (f_min b) s) (f_div (f_max b) s).
