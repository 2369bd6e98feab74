(** C61, C62: wrapping of text, tables and the progress bar. *)
From Coq Require Import String Ascii List ZArith Lia.
From Verif Require Import TermModel TermSpec TermProofs FormatModel.
Import ListNotations.
Local Open Scope string_scope.

(** When every word fits, the lines hold the words of the text, in order, one space apart; every line fits; and a
    line is ended only because the next word does not fit. A text without words gives one empty line. *)
Theorem C61_wrap_fitting_text input width ws : is_words input ws -> (forall w, In w ws -> length w <= width) ->
  exists groups, split_lines input width = Some (map joined groups) /\ List.concat groups = ws /\ greedy width groups /\
    forall l, In l groups -> length (joined l) <= width.
Proof. exact (split_fit input width ws). Qed.
Example C61_example :
  split_lines (list_ascii_of_string "  the quick  brown fox ") 9 =
  Some [list_ascii_of_string "the quick"; list_ascii_of_string "brown fox"] /\
  is_words (list_ascii_of_string " the fox ") [list_ascii_of_string "the"; list_ascii_of_string "fox"] /\
  split_lines (list_ascii_of_string "   ") 5 = Some [[]].
Proof.
  split; [reflexivity|]. split; [|reflexivity].
  exact (words_exist (list_ascii_of_string " the fox ")).
Qed.
(** Every text has exactly one sequence of words. *)
Theorem C61_words_well_defined s : exists ws, is_words s ws /\ forall ws', is_words s ws' -> ws' = ws.
Proof. exists (wf [] s). split; [apply words_exist|]. intros ws' H. exact (words_unique s _ _ H (words_exist s)). Qed.

(** For every text and every width, zero included, the loop ends, no visible character is lost or moved, and no line
    is longer than the larger of the width and the longest word. *)
Theorem C61_wrap_any_text input width m : (forall ws w, is_words input ws -> In w ws -> length w <= m) ->
  exists lines, split_lines input width = Some lines /\ ink (List.concat lines) = ink input /\
    forall l, In l lines -> length l <= Nat.max width m.
Proof. exact (split_any input width m). Qed.

(** Not every line fits: a long word that follows another one, or the second part of a truncated word, is printed
    whole. *)
Theorem C61_overlong_line_refuted :
  exists input lines l, split_lines input 3 = Some lines /\ In l lines /\ length l = 6.
Proof.
  exists (list_ascii_of_string "ab cdefgh"), [list_ascii_of_string "ab"; list_ascii_of_string "cdefgh"], (list_ascii_of_string "cdefgh").
  split; [reflexivity|]. split; [right; now left | reflexivity].
Qed.
Theorem C61_overlong_truncated_refuted :
  exists input lines l, split_lines input 3 = Some lines /\ In l lines /\ length l = 7.
Proof.
  exists (list_ascii_of_string "abcdefghij"), [list_ascii_of_string "abc"; list_ascii_of_string "defghij"], (list_ascii_of_string "defghij").
  split; [reflexivity|]. split; [right; now left | reflexivity].
Qed.

(** Tables: the column count must be positive and divide the number of entries. When every word fits its column, every
    printed line has the same width. *)
Theorem C61_table_accepted entries widths spacing :
  write_table entries widths spacing = Some None <-> widths = [] \/ Nat.modulo (length entries) (length widths) <> 0.
Proof. exact (table_shape entries widths spacing). Qed.
Theorem C61_table_aligned widths spacing rows : (0 <= spacing)%Z -> Forall (fun w => (Z.of_nat w + spacing < 2 ^ 32)%Z) widths ->
  widths <> [] ->
  Forall (Forall2 (fun width e => forall ws w, is_words e ws -> In w ws -> length w <= width) widths) rows ->
  exists lines, write_table (List.concat rows) widths spacing = Some (Some lines) /\
    Forall (fun l => columns l = (fold_right (fun w s => Z.of_nat w + s) 0 widths + spacing * (Z.of_nat (length widths) - 1))%Z) lines.
Proof. exact (table_columns widths spacing rows). Qed.
Example C61_table_example :
  write_table (map list_ascii_of_string ["file.event"; "a string to name it"; "strict"; "on/off"]) [10; 8]%nat 2 =
  Some (Some [[(list_ascii_of_string "file.event", 2%Z); (list_ascii_of_string "a string", 0%Z)];
              [([], 12%Z); (list_ascii_of_string "to name", 1%Z)];
              [([], 12%Z); (list_ascii_of_string "it", 6%Z)];
              [(list_ascii_of_string "strict", 6%Z); (list_ascii_of_string "on/off", 2%Z)]]).
Proof. reflexivity. Qed.
(** A cell with an overlong line is padded with more than 2^31 spaces. *)
Theorem C61_table_padding_refuted w spacing last next : (0 <= spacing)%Z ->
  (Z.of_nat w + spacing < Z.of_nat (length next) < 2 ^ 31)%Z ->
  (2 ^ 31 < cell_pad (Z.of_nat w) spacing last next)%Z.
Proof. exact (overfull_pad w spacing last next). Qed.
Example C61_padding_example :
  write_table (map list_ascii_of_string ["ab cdefgh"; "x"]) [3; 3]%nat 2 =
  Some (Some [[(list_ascii_of_string "ab", 3%Z); (list_ascii_of_string "x", 2%Z)];
              [(list_ascii_of_string "cdefgh", 4294967295%Z); ([], 3%Z)]]).
Proof. reflexivity. Qed.
(** The names of all parameters fit the first column, 24 wide, of the parameter summary (main.cpp 401-407). *)
Theorem C61_summary_names_fit : forall e, In e std_entries ->
  let name := list_ascii_of_string (fst (fst (fst e))) in split_lines name 24 = Some [name].
Proof.
  apply Forall_forall. vm_compute. repeat (apply Forall_cons; [reflexivity|]). apply Forall_nil.
Qed.

(** The progress bar: nothing is printed when the terminal is too narrow; otherwise exactly [width] columns. *)
Theorem C62_bar_width percent width : (width < 2 ^ 32)%Z ->
  match progress_bar percent width with
  | None => (width <= 7)%Z
  | Some s => (7 < width)%Z /\ Z.of_nat (length s) = width
  end.
Proof.
  intros H. pose proof (bar_none percent width) as N. pose proof (fun s => bar_width percent width s H) as W.
  destruct (progress_bar percent width) as [s|].
  - split; [|exact (W s eq_refl)]. destruct (Z_lt_ge_dec 7 width); [assumption|]. exfalso.
    assert (Some s = None) by (apply N; lia). discriminate.
  - apply N. reflexivity.
Qed.
(** The filled part is the stated fraction of the bar, rounded down, and full exactly from 100 percent on. *)
Theorem C62_bar_filled percent width s : (0 <= percent)%Z -> (7 < width)%Z -> ((width - 7) * 100 < 2 ^ 32)%Z ->
  progress_bar percent width = Some s ->
  occurrences "=" s = ((width - 7) * Z.min percent 100 / 100)%Z /\
  (occurrences "=" s = (width - 7)%Z <-> (100 <= percent)%Z).
Proof.
  intros Hp Hw Hb E. split; [apply bar_count | apply (bar_full percent width)]; try assumption; lia.
Qed.
Theorem C62_bar_monotone p p' width s s' : (0 <= p <= p')%Z -> (7 < width)%Z -> ((width - 7) * 100 < 2 ^ 32)%Z ->
  progress_bar p width = Some s -> progress_bar p' width = Some s' -> (occurrences "=" s <= occurrences "=" s')%Z.
Proof. intros Hp Hw Hb. apply bar_mono; try assumption; lia. Qed.
(** The whole text: the filled columns come first, then the empty ones, then the percentage in three columns. *)
Theorem C62_bar_text percent width s : (0 <= percent)%Z -> (7 < width)%Z -> ((width - 7) * 100 < 2 ^ 32)%Z ->
  progress_bar percent width = Some s ->
  exists f e d, Z.of_nat (f + e) = (width - 7)%Z /\ Z.of_nat f = ((width - 7) * Z.min percent 100 / 100)%Z /\
    three_columns d (Z.min percent 100) /\
    s = ("["%char :: repeat "="%char f ++ repeat " "%char e ++ ["]"%char; " "%char] ++ d ++ ["%"%char])%list.
Proof. exact (bar_text percent width s). Qed.
Example C62_example :
  progress_bar 37 17 = Some (list_ascii_of_string "[===       ]  37%") /\
  progress_bar 250 10 = Some (list_ascii_of_string "[===] 100%") /\ progress_bar 50 7 = None.
Proof. repeat split. Qed.
Print Assumptions C61_wrap_fitting_text.
Print Assumptions C61_words_well_defined.
Print Assumptions C61_wrap_any_text.
Print Assumptions C61_overlong_line_refuted.
Print Assumptions C61_overlong_truncated_refuted.
Print Assumptions C61_table_accepted.
Print Assumptions C61_table_aligned.
Print Assumptions C61_table_padding_refuted.
Print Assumptions C61_summary_names_fit.
Print Assumptions C62_bar_width.
Print Assumptions C62_bar_filled.
Print Assumptions C62_bar_monotone.
Print Assumptions C62_bar_text.
