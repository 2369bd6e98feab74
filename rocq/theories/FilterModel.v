(** Model of std::set as used by the parameter system, and of the tag conditions in app/sidisgen/params.hpp
    and params.cpp. *)
From Coq Require Import String Ascii List Bool.
Import ListNotations.
Local Open Scope string_scope.

(** std::set<A>::insert: a strictly sorted list; an element equivalent to an existing one is not inserted. *)
Fixpoint set_insert {A} (lt : A -> A -> bool) (x : A) (l : list A) : list A :=
  match l with
  | [] => [x]
  | y :: l' => if lt x y then x :: y :: l' else if lt y x then y :: set_insert lt x l' else y :: l'
  end.
Definition set_of {A} (lt : A -> A -> bool) (l : list A) : list A := fold_left (fun s x => set_insert lt x s) l [].

(** params.hpp 138-146: struct Factor, ordered by its tag (bytewise, as std::string::operator<). *)
Definition factor := string.
Definition factor_lt (a b : factor) : bool := String.ltb a b.
(** params.hpp 147: Term = std::set<Factor>. *)
Definition term := list factor.
(** std::set::operator< : lexicographic *)
Fixpoint term_lt (a b : term) : bool :=
  match a, b with
  | _, [] => false
  | [], _ :: _ => true
  | x :: a', y :: b' => if factor_lt x y then true else if factor_lt y x then false else term_lt a' b'
  end.
(** params.hpp 148-152: Condition = std::set<Term>. *)
Definition filter := list term.

(** params.hpp 154-156, 162 and params.cpp 42-43 *)
Definition FReject : filter := [].
Definition FAccept : filter := [ [] ].
Definition FTag (tag : string) : filter := [ [tag] ].

(** params.hpp 164-181: check; the two nested loops with break. *)
Definition fcheck_term (t : term) (tags : list string) : bool :=
  forallb (fun factor => existsb (String.eqb factor) tags) t.
Fixpoint fcheck (f : filter) (tags : list string) : bool :=
  match f with
  | [] => false
  | t :: f' => if fcheck_term t tags then true else fcheck f' tags
  end.

(** params.cpp 45-48: operator|= *)
Definition f_or (a b : filter) : filter := fold_left (fun s t => set_insert term_lt t s) b a.
(** params.cpp 50-64: operator&= ; std::set_union into a std::set *)
Definition term_union (t1 t2 : term) : term := fold_left (fun s x => set_insert factor_lt x s) t2 t1.
Definition f_and (a b : filter) : filter :=
  fold_left (fun s t1 => fold_left (fun s t2 => set_insert term_lt (term_union t1 t2) s) b s) a [].
