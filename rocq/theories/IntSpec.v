(** Specification vocabulary for integer properties (independent of the model). *)
From Coq Require Import ZArith.
Local Open Scope Z_scope.

(** [q] and [r] are quotient and remainder of the division of [a] by [b], truncated toward zero:
    the remainder is smaller than the divisor in magnitude and never has the opposite sign to [a]. *)
Definition truncated_division (a b q r : Z) : Prop :=
  b <> 0 /\ a = b * q + r /\ Z.abs r < Z.abs b /\ 0 <= r * a.
