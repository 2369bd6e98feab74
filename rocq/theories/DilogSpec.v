(** The dilogarithm. *)
From Coq Require Import Reals ZArith.
From Coquelicot Require Import Coquelicot.
Local Open Scope R_scope.
(** sum of x^n / n^2 over n >= 1 *)
Definition Li2_series (x : R) : R := Series (fun n => x ^ S n / INR (S n) ^ 2).
(** Real part of the dilogarithm on the real line: the continuous function with derivative -ln|1-x|/x that agrees with
    the series where it converges. *)
Record is_dilog (D : R -> R) : Prop := IsDilog {
  dl_series : forall x, -1 < x < 1 -> D x = Li2_series x;
  dl_derive : forall x, x <> 0 -> x <> 1 -> is_derive D x (- ln (Rabs (1 - x)) / x);
  dl_cont : forall x, continuous D x }.
(** bits of float, double and long double *)
Definition mantissa (d : Z) : Prop := d = 24%Z \/ d = 53%Z \/ d = 64%Z.
