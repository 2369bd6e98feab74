(** Finding and loading grid files: src/sf_set/prokudin.cpp 121-167.
    Texts and streams are those of TextModel, [Real] is double. The file system is a function from paths to the contents of the
    files that can be opened; a file does not change or fail while it is read. The constructors [T(file_name)] of the exceptions are
    outcomes. Variables that an extraction does not write are [None]. *)
From Coq Require Import String Ascii Reals ZArith List Bool.
From Verif Require Import ExtModel TextModel GridModel ReadGridModel.
Import ListNotations.
Local Open Scope list_scope.

Definition files := string -> option text.
(** [find_file], prokudin.cpp 121-145. [datadir] is the macro DATADIR; a successful [open] clears the failbit of an earlier one.
    [None]: DataFileNotFound. *)
Definition try_open (fs : files) (path : string) (next : option text) : option text :=
  match fs path with Some t => Some t | None => next end.
Definition find_file (fs : files) (datadir name : string) : option text :=
  try_open fs (datadir ++ "/sf_set/prokudin/" ++ name)%string
  (try_open fs ("../share/sf_set/prokudin/" ++ name)%string
  (try_open fs ("sf_set/prokudin/" ++ name)%string
  (try_open fs ("prokudin/" ++ name)%string
  (try_open fs name None)))).

(** [line_in >> next[idx]], line 158: not written if there is nothing left to read *)
Definition get_num (s : stream) : option ext * stream :=
  match sentry true s with
  | (true, _) => let (v, s) := get_double s in (Some v, s)
  | (false, s) => (None, s)
  end.
(** Lines 157-159 *)
Fixpoint get_row (n : nat) (s : stream) : list (option ext) * stream :=
  match n with
  | O => ([], s)
  | S n => let (v, s) := get_num s in let (vs, s) := get_row n s in (v :: vs, s)
  end.
Fixpoint written (vs : list (option ext)) : option row :=
  match vs with
  | [] => Some []
  | Some v :: vs => match written vs with Some r => Some (v :: r) | None => None end
  | None :: _ => None
  end.
(** What the loop of lines 154-164 does with the text of the file. [Indeterminate]: [data.push_back(next)] (line 160) copies a number
    that was never written, which is undefined; the test of the stream comes after it. *)
Inductive loaded := Rows (rows : list row) | ParseError | Indeterminate.
Fixpoint load_lines (fuel n : nat) (data : list row) (s : stream) : loaded :=
  match fuel with
  | O => Rows data
  | S fuel =>
    let (l, s) := get_line s in
    if fail s then Rows data
    else
      let (vs, line_in) := get_row n (open l) in
      match written vs with
      | None => Indeterminate
      | Some next => if fail line_in then ParseError else load_lines fuel n (data ++ [next]) s
      end
  end.
(** Every line takes at least one character of the text, so this many passes are enough. *)
Definition load_rows (n : nat) (t : text) : loaded := load_lines (S (length t)) n [] (open t).
(** [load_grids<Real, N, K>], lines 149-167; the tolerance is the double 0.000001 *)
Inductive grid_file := NotFound | BadLine | Undefined | FromRows (r : rd (list grid)).
Definition load_grids (fs : files) (datadir name : string) (N K : nat) : grid_file :=
  match find_file fs datadir name with
  | None => NotFound
  | Some t =>
    match load_rows (N + K) t with
    | ParseError => BadLine
    | Indeterminate => Undefined
    | Rows data => FromRows (read_grids N K (Fin (RN (/ 10 ^ 6))) data)
    end
  end.
