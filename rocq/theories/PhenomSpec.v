(** Running of the electromagnetic coupling with one charged lepton. *)
From Coq Require Import Reals.
From Coquelicot Require Import Coquelicot.
From Verif Require Import ExtModel.
Local Open Scope R_scope.

(** d alpha / d ln Q^2 to one and to two loops. *)
Definition beta_one_loop (alpha : R) : R := alpha ^ 2 / (3 * PI).
Definition beta_two_loop (alpha : R) : R := alpha ^ 2 / (3 * PI) * (1 + 3 * alpha / (4 * PI)).
(** [Phi] measures the change of ln Q^2 that takes one value of the coupling to another: along any solution of
    d alpha / d ln Q^2 = beta, Phi(alpha) - ln Q^2 is constant. *)
Definition evolution_time (beta : R -> R) (Phi : R -> R) : Prop := forall alpha, 0 < alpha -> is_derive Phi alpha (/ beta alpha).
(** The returned coupling as a number; only used where a number is returned. *)
Definition number (r : option ext) : R := match r with Some (Fin v) => v | _ => 0 end.
