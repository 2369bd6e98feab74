(** Reading grids from a table of rows: include/sidis/extra/interpolate.ipp 136-287.
    Simplifications: exact arithmetic on extended reals; [size_t] products are unbounded ([count_total] never exceeds the
    number of rows); the template dimensions [N] and [K] are arguments and each row is a list of [N + K] entries.
    An access outside [grid_points] (undefined behaviour) is the outcome [BadRow]. *)
From Coq Require Import Reals ZArith Bool List.
From Verif Require Import ExtModel GridModel.
Import ListNotations.

(** interpolate.hpp 295-323 *)
Inductive read_error :=
| NotEnoughPoints (points expected : nat)
| Singular (dim : nat)
| BadBounds
| BadSpacing
| UnexpectedGridPoint (line : nat).
Inductive rd (A : Type) := Ok (a : A) | Throw (e : read_error) | BadRow.
Arguments Ok {A}. Arguments Throw {A}. Arguments BadRow {A}.
Definition rbind {A B} (x : rd A) (f : A -> rd B) : rd B := match x with Ok a => f a | Throw e => Throw e | BadRow => BadRow end.
Definition row := list ext.
Definition of_opt {A} (x : option A) : rd A := match x with Some a => Ok a | None => BadRow end.
(** [grid_points[row_idx][dim_idx]] and [data[row_idx][col_idx]], lines 140-149 *)
Definition entry (rows : list row) (r c : nat) : rd ext := rbind (of_opt (nth_error rows r)) (fun p => of_opt (nth_error p c)).
Definition eneqb (a b : ext) : bool := negb (eeqb a b).

Definition eabs (a : ext) : ext := match a with Fin x => Fin (Rabs x) | PInf | NInf => PInf | NaN => NaN end.

(** Lines 187-193: the first [n] rows from [r] on agree with [v] in column [c]. *)
Fixpoint same_from (rows : list row) (c : nat) (v : ext) (r n : nat) : rd bool :=
  match n with
  | O => Ok true
  | S n => rbind (entry rows r c) (fun w => if eneqb w v then Ok false else same_from rows c v (S r) n)
  end.
(** Lines 170-201: the first column, not used yet, that steps by [ct]. [rem] columns are left from [step] on. *)
Fixpoint find_col (rows : list row) (ct : nat) (filled : list nat) (step rem : nat) : rd nat :=
  match rem with
  | O => Throw (NotEnoughPoints (length rows) (2 * length rows))
  | S rem =>
    if existsb (Nat.eqb step) filled then find_col rows ct filled (S step) rem
    else rbind (entry rows 0 step) (fun initial_point =>
      rbind (entry rows ct step) (fun final_point =>
      if eeqb initial_point final_point then find_col rows ct filled (S step) rem
      else rbind (same_from rows step initial_point 0 ct) (fun same =>
        if same then Ok step else find_col rows ct filled (S step) rem)))
  end.
(** Lines 203-212: planes of column [c] after the first one. *)
Fixpoint planes_from (rows : list row) (ct c : nat) (first : ext) (group rem : nat) : rd (list ext) :=
  match rem with
  | O => Ok []
  | S rem => rbind (entry rows (group * ct) c) (fun next =>
      if eneqb next first then rbind (planes_from rows ct c first (S group) rem) (fun ps => Ok (next :: ps)) else Ok [])
  end.
Definition planes (rows : list row) (ct c sub_count : nat) : rd (list ext) :=
  match sub_count with
  | O => Ok []
  | S n => rbind (entry rows 0 c) (fun first => rbind (planes_from rows ct c first 1 n) (fun ps => Ok (first :: ps)))
  end.
(** Lines 219-226 *)
Fixpoint check_rows (rows : list row) (ct c : nat) (ps : list ext) (r n : nat) : rd unit :=
  match n with
  | O => Ok tt
  | S n => rbind (entry rows r c) (fun next => rbind (of_opt (nth_error ps ((r / ct) mod length ps))) (fun plane =>
      if eneqb next plane then Throw (UnexpectedGridPoint r) else check_rows rows ct c ps (S r) n))
  end.
(** Lines 240-249 *)
Fixpoint check_spacing (tol lower spacing : ext) (ps : list ext) (pl : nat) : rd unit :=
  match ps with
  | [] => Ok tt
  | plane :: ps =>
    let uniform_plane := eadd lower (emul (Fin (INR pl)) spacing) in
    if egtb (eabs (esub plane uniform_plane)) (eabs (emul tol spacing)) then Throw BadSpacing
    else check_spacing tol lower spacing ps (S pl)
  end.

Record found := Found { fd_col : nat; fd_planes : list ext }.
Definition fd_count (f : found) : nat := length (fd_planes f).
Definition fd_lower (f : found) : ext := hd NaN (fd_planes f).
Definition fd_upper (f : found) : ext := last (fd_planes f) NaN.
(** Body of the loop over dimensions, lines 163-249 *)
Definition read_dim (rows : list row) (N : nat) (tol : ext) (ct : nat) (filled : list nat) : rd found :=
  let sub_count := (length rows / ct)%nat in
  if negb (sub_count * ct =? length rows)%nat then Throw (NotEnoughPoints (length rows) ((sub_count + 1) * ct))
  else rbind (find_col rows ct filled 0 N) (fun c =>
  rbind (planes rows ct c sub_count) (fun ps =>
  if (length ps <=? 1)%nat then Throw (Singular c)
  else rbind (check_rows rows ct c ps 0 (length rows)) (fun _ =>
  let f := Found c ps in
  if negb (eisfinite (fd_lower f)) || negb (eisfinite (fd_upper f)) then Throw BadBounds
  else if egeb (fd_lower f) (fd_upper f) then Throw BadBounds
  else rbind (check_spacing tol (fd_lower f) (ediv (esub (fd_upper f) (fd_lower f)) (Fin (INR (length ps - 1)))) ps 0)
    (fun _ => Ok f)))).
(** Lines 162-253: dimensions found so far, in the order of finding them. *)
Fixpoint read_dims (rows : list row) (N : nat) (tol : ext) (rem ct : nat) (fs : list found) : rd (nat * list found) :=
  match rem with
  | O => Ok (ct, fs)
  | S rem => rbind (read_dim rows N tol ct (map fd_col fs)) (fun f => read_dims rows N tol rem (ct * fd_count f) (fs ++ [f]))
  end.

(** Entry of the arrays [counts], [lower], [upper] for a column *)
Definition of_col (fs : list found) (c : nat) : rd found := of_opt (find (fun f => fd_col f =? c)%nat fs).
Fixpoint rmap {A B} (f : A -> rd B) (l : list A) : rd (list B) :=
  match l with [] => Ok [] | a :: l => rbind (f a) (fun b => rbind (rmap f l) (fun bs => Ok (b :: bs))) end.
(** [count_totals], lines 257-260 *)
Fixpoint strides (ct : nat) (counts : list nat) : list nat :=
  match counts with [] => [] | n :: ns => (ct / n)%nat :: strides (ct / n)%nat ns end.
(** Lines 265-273 *)
Fixpoint new_row (st : list nat) (fs : list found) (r new_count : nat) : rd nat :=
  match fs with
  | [] => Ok 0%nat
  | f :: fs =>
    let rel_idx := ((r / new_count) mod fd_count f)%nat in
    rbind (of_opt (nth_error st (fd_col f))) (fun old_count =>
    rbind (new_row st fs r (new_count * fd_count f)) (fun i => Ok (rel_idx * old_count + i)%nat))
  end.
Fixpoint store {A} (l : list A) (i : nat) (v : A) : rd (list A) :=
  match l, i with
  | [], _ => BadRow
  | _ :: l, O => Ok (v :: l)
  | a :: l, S i => rbind (store l i v) (fun l => Ok (a :: l))
  end.
(** Lines 264-277, for the data column [c] *)
Fixpoint reorder (rows : list row) (c : nat) (st : list nat) (fs : list found) (r n : nat) (acc : list ext) : rd (list ext) :=
  match n with
  | O => Ok acc
  | S n => rbind (new_row st fs r 1) (fun i => rbind (entry rows r c) (fun v =>
      rbind (store acc i v) (fun acc => reorder rows c st fs (S r) n acc)))
  end.
(** The grids: dimensions and data. Lines 279-284 and the [Grid] constructor: the checks of the constructor have been made
    on every dimension; it keeps the first [count_total] numbers. *)
Definition grid := (list (dim ext) * list ext)%type.
Definition dim_found (f : found) : dim ext := Dim (fd_count f) (fd_lower f) (fd_upper f).
Definition read_grids (N K : nat) (tol : ext) (rows : list row) : rd (list grid) :=
  if (length rows <? 2 ^ N)%nat then Throw (NotEnoughPoints (length rows) (2 ^ N))
  else rbind (read_dims rows N tol N 1 []) (fun '(ct, fs) =>
  rbind (rmap (of_col fs) (seq 0 N)) (fun dims =>
  let st := strides ct (map fd_count dims) in
  rmap (fun k => rbind (reorder rows (N + k) st fs 0 (length rows) (repeat (Fin 0) (length rows)))
    (fun data => Ok (map dim_found dims, firstn ct data))) (seq 0 K))).
