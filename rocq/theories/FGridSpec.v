(** Specification of interpolation between equally spaced nodes: the position of a point counted in spacings from the first node, and the broken
    line through the values at the nodes. *)
From Coq Require Import Reals ZArith.
From Flocq Require Import Core.Core IEEE754.Binary IEEE754.Bits.
From Verif Require Import GridModel.
Local Open Scope R_scope.

(** [n] spacings between [lower] and [upper] *)
Definition position (n : nat) (lower upper x : R) : R := INR n * ((x - lower) / (upper - lower)).
(** the broken line through [(0, f 0), (1, f 1), …] at [t >= 0] *)
Definition polyline (f : nat -> R) (t : R) : R :=
  let k := Z.to_nat (Zfloor t) in f k + (t - INR k) * (f (S k) - f k).

(** finite, and small enough for a difference not to overflow *)
Definition moderate (x : binary64) : Prop := f_isfinite x = true /\ Rabs (Binary.B2R 53 1024 x) <= bpow radix2 1022.
Definition good_dim (d : dim binary64) : Prop := moderate (d_lower d) /\ moderate (d_upper d) /\ (2 <= d_count d)%nat /\ (Z.of_nat (d_count d) <= 2 ^ 53 + 1)%Z.
