(** Specification vocabulary for texts shown to the user. *)
From Coq Require Import String Ascii Reals ZArith List.
From Verif Require Import TextModel ParamTextSpec.
Import ListNotations.
Local Open Scope R_scope.

(** The text is a decimal number that differs from [x] by at most [d]. *)
Definition tells (t : text) (x d : R) : Prop := exists v, decimal_text t v /\ Rabs (v - x) <= d.
(** The text has exactly [p] digits after the point, and no exponent. *)
Definition places (t : text) (p : nat) : Prop :=
  exists sg k ip fp, t = sg ++ ip ++ fraction fp /\ signed sg k /\ numeral ip /\ all_digits fp /\ length fp = p.
(** One digit before the point, [p] behind it, and an exponent. *)
Definition scientific (t : text) (p : nat) : Prop :=
  exists sg k d fp sge ke es, t = sg ++ [d] ++ fraction fp ++ "e"%char :: sge ++ es /\ signed sg k /\ numeral [d] /\ all_digits fp
    /\ length fp = p /\ signed sge ke /\ numeral es.
