(** Words, lines and bars, stated without the model of terminal.cpp. *)
From Coq Require Import Ascii List ZArith Bool.
Import ListNotations.

Definition no_space (w : list ascii) : Prop := ~ In " "%char w.
(** [is_words s ws]: the words of [s] are [ws], in order; words are separated by one or more spaces. *)
Inductive is_words : list ascii -> list (list ascii) -> Prop :=
| words_nil : is_words [] []
| words_gap s ws : is_words s ws -> is_words (" "%char :: s) ws
| words_last w : w <> [] -> no_space w -> is_words w [w]
| words_cons w s ws : w <> [] -> no_space w -> is_words s ws -> is_words (w ++ " "%char :: s) (w :: ws).

(** Words on one line, one space between them. *)
Fixpoint joined (ws : list (list ascii)) : list ascii :=
  match ws with
  | [] => []
  | [w] => w
  | w :: r => w ++ " "%char :: joined r
  end.
(** A line is only ended when the next word does not fit. *)
Fixpoint greedy (width : nat) (groups : list (list (list ascii))) : Prop :=
  match groups with
  | a :: (b :: _) as r =>
    (exists w ws, b = w :: ws /\ width < length (joined a) + 1 + length w) /\ greedy width r
  | _ => True
  end.
(** Everything but the spaces. *)
Definition ink (s : list ascii) : list ascii := filter (fun c => negb (Ascii.eqb c " "%char)) s.
(** Columns taken by a printed line whose cells are a text followed by a number of spaces. *)
Fixpoint columns (line : list (list ascii * Z)) : Z :=
  match line with
  | [] => 0
  | (s, pad) :: r => Z.of_nat (length s) + pad + columns r
  end.
(** How often a character occurs. *)
Definition occurrences (c : ascii) (s : list ascii) : Z := Z.of_nat (count_occ ascii_dec s c).
(** A number written right-aligned in three columns, without leading zeros. *)
Definition column_value (c : ascii) : Z := if Ascii.eqb c " "%char then 0 else Z.of_nat (nat_of_ascii c) - 48.
Definition is_column (c : ascii) : bool := Ascii.eqb c " "%char || (Nat.leb 48 (nat_of_ascii c) && Nat.leb (nat_of_ascii c) 57).
Definition three_columns (s : list ascii) (p : Z) : Prop :=
  exists a b c, s = [a; b; c] /\ is_column a = true /\ is_column b = true /\ is_column c = true /\
    p = (100 * column_value a + 10 * column_value b + column_value c)%Z /\
    (a = " "%char <-> (p < 100)%Z) /\ (b = " "%char <-> (p < 10)%Z) /\ c <> " "%char.
