(** Specification of the texts that hold tables of numbers. *)
From Coq Require Import String Ascii Reals ZArith List Bool.
From Verif Require Import ExtModel TextModel ParamTextSpec.
Import ListNotations.
Local Open Scope list_scope.

Definition digit_char (c : ascii) : Prop := In c (str "0123456789").
(** the text does not begin with a character of that kind *)
Definition not_next (P : ascii -> Prop) (t : text) : Prop := forall c t', t = c :: t' -> ~ P c.
(** Digits with or without a point, as an integer, how many of its digits are decimals, and whether there is a point. *)
Inductive mantissa : text -> Z -> nat -> bool -> Prop :=
| mantissa_int ip : numeral ip -> mantissa ip (denotes ip) 0 false
| mantissa_point ip fp : all_digits ip -> all_digits fp -> ip ++ fp <> [] -> mantissa (ip ++ "."%char :: fp) (denotes (ip ++ fp)) (length fp) true.
(** The text begins with a number, read as far as possible; the number, and what follows. *)
Inductive number_then : text -> R -> text -> Prop :=
| number_plain sg k m n d point r : signed sg k -> mantissa m n d point ->
    not_next digit_char r -> not_next (fun c => c = "e"%char \/ c = "E"%char) r -> (point = false -> not_next (eq "."%char) r) ->
    number_then (sg ++ m ++ r) (IZR (k * n) * powerRZ 10 (- Z.of_nat d)) r
| number_exp sg k m n d point e sge ke es r : signed sg k -> mantissa m n d point -> e = "e"%char \/ e = "E"%char -> signed sge ke -> numeral es ->
    not_next digit_char r ->
    number_then (sg ++ m ++ e :: sge ++ es ++ r) (IZR (k * n) * powerRZ 10 (ke * denotes es - Z.of_nat d)) r.
(** The text begins with [n] numbers of the range of double; the doubles, and what follows. *)
Inductive row_then : nat -> text -> list ext -> text -> Prop :=
| row_end t : row_then 0 t [] t
| row_more n a t x u vs r : all_blank a -> number_then t x u -> finite_double x -> row_then n u vs r -> row_then (S n) (a ++ t) (Fin (nearest_double x) :: vs) r.
(** what follows the last number is free *)
Definition row_of (n : nat) (l : text) (vs : list ext) : Prop := exists r, row_then n l vs r.
(** All numbers but the last can be read, and there is something else in place of the last. *)
Definition unreadable (n : nat) (l : text) : Prop := exists m vs r, n = S m /\ row_then m l vs r /\ ~ all_blank r /\ forall v, ~ row_of n l v.
(** Lines of a text; the last one may lack its newline if it is not empty. *)
Definition ended (ls : list text) : text := concat (map (fun l => l ++ [newline]) ls).
Definition lines_of (t : text) (ls : list text) : Prop :=
  Forall line ls /\ (t = ended ls \/ exists ls' l, ls = ls' ++ [l] /\ l <> [] /\ t = ended ls' ++ l).
(** The places where files are looked for, first to last. *)
Definition places (datadir name : string) : list string :=
  [(datadir ++ "/sf_set/prokudin/" ++ name)%string; ("../share/sf_set/prokudin/" ++ name)%string; ("sf_set/prokudin/" ++ name)%string;
   ("prokudin/" ++ name)%string; name].
