(** C49: tag conditions. *)
From Coq Require Import String List Bool.
From Verif Require Import FilterModel FilterSpec FilterProofs FilterSets.
Import ListNotations.
Local Open Scope string_scope.

Theorem C49_condition_meaning (c : cond) tags : fcheck (build c) tags = true <-> holds c tags.
Proof. exact (build_holds c tags). Qed.
(** The operators on arbitrary stored conditions. *)
Theorem C49_or_and (a b : filter) tags :
  fcheck (f_or a b) tags = fcheck a tags || fcheck b tags /\
  fcheck (f_and a b) tags = fcheck a tags && fcheck b tags.
Proof. exact (conj (fcheck_or a b tags) (fcheck_and a b tags)). Qed.
Theorem C49_identities (a : filter) tags :
  fcheck FReject tags = false /\ fcheck FAccept tags = true /\
  fcheck (f_or a FReject) tags = fcheck a tags /\ fcheck (f_or FReject a) tags = fcheck a tags /\
  fcheck (f_and a FAccept) tags = fcheck a tags /\ fcheck (f_and FAccept a) tags = fcheck a tags.
Proof. exact (filter_identities a tags). Qed.
(** No conjunction is stored twice, no tag twice in one; and the order in which a condition is written does not show in what is stored. *)
Theorem C49_stored_once (c : cond) : NoDup (build c) /\ Forall (@NoDup string) (build c).
Proof. exact (build_once c). Qed.
Theorem C49_order_free (a b : cond) : build (COr a b) = build (COr b a) /\ build (CAnd a b) = build (CAnd b a).
Proof. exact (build_comm a b). Qed.
Example C49_example_stored : build (CAnd (CTag "xs") (COr (CTag "init") (CTag "xs"))) = [["init"; "xs"]; ["xs"]].
Proof. reflexivity. Qed.
Example C49_example : 
  fcheck (f_and (FTag "init") (f_or (FTag "xs") (FTag "cut"))) ["cut"; "gen"; "init"] = true /\
  fcheck (f_and (FTag "init") (f_or (FTag "xs") (FTag "cut"))) ["init"; "gen"] = false.
Proof. split; reflexivity. Qed.
Print Assumptions C49_condition_meaning.
Print Assumptions C49_or_and.
Print Assumptions C49_identities.
Print Assumptions C49_stored_once.
Print Assumptions C49_order_free.
