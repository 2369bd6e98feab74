(** What a tag condition means. *)
From Coq Require Import String List.
From Verif Require Import FilterModel.

(** Everything that can be built from tags, | and &. *)
Inductive cond := CTag (t : string) | CReject | CAccept | COr (a b : cond) | CAnd (a b : cond).
(** The filter obtained by writing the expression with the library's operators. *)
Fixpoint build (c : cond) : filter :=
  match c with
  | CTag t => FTag t | CReject => FReject | CAccept => FAccept
  | COr a b => f_or (build a) (build b) | CAnd a b => f_and (build a) (build b)
  end.
(** Its meaning for the tags of a parameter. *)
Fixpoint holds (c : cond) (tags : list string) : Prop :=
  match c with
  | CTag t => In t tags | CReject => False | CAccept => True
  | COr a b => holds a tags \/ holds b tags | CAnd a b => holds a tags /\ holds b tags
  end.
