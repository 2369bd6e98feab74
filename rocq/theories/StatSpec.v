(** Statistics of event samples, stated without the arithmetic of the integrators. *)
From Coq Require Import Reals List Permutation.
From Verif Require Import ExtModel StatModel.
Import ListNotations.
Local Open Scope R_scope.

(** A state that stands for the weights [ws], the sample of a generator whose normalisation per draw is [p]: the weights
    add up to [norm * cross-section] on average, with [norm = p * number of draws]. *)
Definition sample_of (a : integrator) (p : R) (ws : list R) : Prop :=
  i_prime_inv a = Fin p /\ 0 < p /\ i_weights a = ws /\ ws <> [] /\ i_count a = length ws /\
  i_count_acc a = length (filter (fun w => if Req_EM_T w 0 then false else true) ws).
(** Either without draws, or a sample. *)
Definition proper (a : integrator) : Prop := i_count a = 0%nat \/ exists p ws, sample_of a p ws.
(** States that cannot be told apart: the order of the weights does not matter. *)
Definition same_state (a b : integrator) : Prop :=
  i_prime_inv a = i_prime_inv b /\ i_count a = i_count b /\ i_count_acc a = i_count_acc b /\
  Permutation (i_weights a) (i_weights b).
(** The sum of a list given by a function. *)
Definition sum_of {A : Type} (f : A -> R) (l : list A) : R := fold_right (fun a s => f a + s) 0 l.
