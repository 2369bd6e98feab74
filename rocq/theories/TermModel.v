(** Model of app/sidisgen/terminal.cpp. *)
From Coq Require Import Ascii List Bool ZArith Arith.
Import ListNotations.

(** Strings are lists of characters. *)
Definition text := list ascii.
Definition blank : ascii := " "%char.
Definition is_blank (c : ascii) : bool := Ascii.eqb c blank.

(** terminal.cpp 14-16 and 42-44: advance past spaces. *)
Fixpoint skip_blanks (s : text) : text :=
  match s with
  | [] => []
  | c :: r => if is_blank c then skip_blanks r else s
  end.
(** terminal.cpp 18: the characters before the position found by std::find(word_begin, end, ' '). *)
Fixpoint to_blank (s : text) : text :=
  match s with
  | [] => []
  | c :: r => if is_blank c then [] else c :: to_blank r
  end.

(** terminal.cpp 17-45, one pass of the loop. [done] are the finished lines, last first; [cur] is
    result.back(); [lw] is line_width. The unsigned widths are natural numbers: the strings are assumed
    shorter than 2^31, so that no sum of widths wraps. A truncated word still counts with its full width
    (line 21), as in the source. *)
Definition split_step (width : nat) (rest : text) (done : list text) (cur : text) (lw : nat)
  : text * list text * text * nat :=
  let word := to_blank rest in
  let first := Nat.eqb lw 0 in
  let ww := (length word + (if first then 0 else 1))%nat in
  let '(word, done, cur, lw, first, ww) :=
    if Nat.ltb width (lw + ww)
    then if first then (firstn width rest, done, cur, lw, first, ww)
         else (word, cur :: done, [], O, true, (ww - 1)%nat)
    else (word, done, cur, lw, first, ww) in
  (skip_blanks (skipn (length word) rest), done, cur ++ (if first then word else blank :: word), (lw + ww)%nat).

(** The loop, cut off after [fuel] passes (None). *)
Fixpoint split_loop (fuel width : nat) (rest : text) (done : list text) (cur : text) (lw : nat) : option (list text) :=
  match rest with
  | [] => Some (rev (cur :: done))
  | _ =>
    match fuel with
    | O => None
    | S f => let '(rest, done, cur, lw) := split_step width rest done cur lw in split_loop f width rest done cur lw
    end
  end.
(** terminal.cpp 8-47; None stands for a loop that needs more than [fuel] passes. *)
Definition split_lines_within (fuel : nat) (input : text) (width : nat) : option (list text) :=
  split_loop fuel width (skip_blanks input) [] [] 0.
Definition split_lines (input : text) (width : nat) : option (list text) :=
  split_lines_within (length input + 2) input width.

(** terminal.cpp 81-114: a table. Each printed line is a list of cells, each the text of the cell and the number
    of spaces after it, std::string(excess, ' '), where [excess] is computed in unsigned 32-bit arithmetic. *)
Local Open Scope Z_scope.
Definition u32 (x : Z) : Z := x mod 2 ^ 32.
Definition len (s : text) : Z := Z.of_nat (length s).
(** lines 104-109 *)
Definition cell_pad (width spacing : Z) (last : bool) (next : text) : Z :=
  u32 (width - len next + (if last then 0 else spacing)).
(** lines 103-111: one printed line. *)
Fixpoint table_line (widths : list nat) (spacing : Z) (cells : list (list text)) (sub : nat) : list (text * Z) :=
  match widths, cells with
  | w :: ws, c :: cs =>
    let next := nth sub c [] in
    (next, cell_pad (Z.of_nat w) spacing (match ws with [] => true | _ => false end) next) :: table_line ws spacing cs sub
  | _, _ => []
  end.
(** lines 94-98: wrap the cells of one row. *)
Fixpoint wrap_row (widths : list nat) (entries : list text) : option (list (list text)) :=
  match widths, entries with
  | [], [] => Some []
  | w :: ws, e :: es =>
    match split_lines e w, wrap_row ws es with
    | Some c, Some cs => Some (c :: cs)
    | _, _ => None
    end
  | _, _ => None
  end.
(** lines 93-112: one row *)
Definition row_lines (widths : list nat) (spacing : Z) (entries : list text) : option (list (list (text * Z))) :=
  match wrap_row widths entries with
  | None => None
  | Some cells =>
    Some (map (table_line widths spacing cells) (seq 0 (fold_right Nat.max 0%nat (map (@length text) cells))))
  end.
Fixpoint table_rows (rows : nat) (widths : list nat) (spacing : Z) (entries : list text) : option (list (list (text * Z))) :=
  match rows with
  | O => Some []
  | S n =>
    match row_lines widths spacing (firstn (length widths) entries),
          table_rows n widths spacing (skipn (length widths) entries) with
    | Some a, Some b => Some (a ++ b)
    | _, _ => None
    end
  end.
(** The result false without output is [Some None]; the stream is assumed to stay good. *)
Definition write_table (entries : list text) (widths : list nat) (spacing : Z) : option (option (list (list (text * Z)))) :=
  let n := length widths in
  if Nat.eqb n 0 || negb (Nat.eqb (length entries mod n) 0) then Some None
  else option_map Some (table_rows (length entries / n) widths spacing entries).

(** terminal.cpp 49-79: the progress bar. Decimal digits of a number below 1000, padded to three columns
    (std::setw(3)). *)
Definition digit (d : Z) : ascii := ascii_of_nat (48 + Z.to_nat d).
Definition setw3 (p : Z) : text :=
  [if 100 <=? p then digit (p / 100) else blank; if 10 <=? p then digit (p / 10 mod 10) else blank; digit (p mod 10)].
(** Lines 63-70; all of the arithmetic is unsigned 32-bit. *)
Definition bar_filled (bar_width percent : Z) : Z := u32 (bar_width * percent) / 100.
(** The text printed; None is the result false with nothing printed. *)
Definition progress_bar (percent width : Z) : option text :=
  let percent := if 100 <? percent then 100 else percent in
  let percent_str := setw3 percent ++ ["%"%char] in
  let fixed := len percent_str + 2 + 1 in
  if width <=? fixed then None
  else
    let bar_width := u32 (width - fixed) in
    let filled := bar_filled bar_width percent in
    Some (["["%char]
      ++ map (fun i => if Z.of_nat i <? filled then "="%char else blank) (seq 0 (Z.to_nat bar_width))
      ++ ["]"%char] ++ [blank] ++ percent_str).
