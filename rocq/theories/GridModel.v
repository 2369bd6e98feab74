(** Grids, linear and cubic interpolation: include/sidis/extra/interpolate.hpp and interpolate.ipp.
    The element type [T] of the templates is a parameter: it is instantiated with extended reals (exact arithmetic) and
    with binary64 (rounded arithmetic).
    Simplifications: a grid view is the data array, an offset and the list of its dimensions; the template dimension [N]
    is the length of that list; [size_t] arithmetic on offsets is unbounded (an offset inside an existing array cannot
    wrap). Reading outside the array is a separate outcome. *)
From Coq Require Import Reals ZArith Bool List.
From Flocq Require Import IEEE754.Binary IEEE754.Bits IEEE754.BinarySingleNaN.
From Verif Require Import ExtModel.
Import ListNotations.

Record dim (T : Type) := Dim { d_count : nat; d_lower : T; d_upper : T }.
Arguments Dim {T}. Arguments d_count {T}. Arguments d_lower {T}. Arguments d_upper {T}.
Inductive outcome (A : Type) := Val (a : A) | Oob.
Arguments Val {A}. Arguments Oob {A}.
Definition bind {A B} (x : outcome A) (f : A -> outcome B) : outcome B := match x with Val a => f a | Oob => Oob end.
Definition read {T} (data : list T) (i : nat) : outcome T := match nth_error data i with Some v => Val v | None => Oob end.

(** [_count_total], interpolate.ipp 25-27 *)
Definition total {T} (dims : list (dim T)) : nat := fold_left (fun n d => n * d_count d)%nat dims 1%nat.

(** Checks of the constructors, interpolate.ipp 26-38 and 75-87: the first failure in dimension order. *)
Inductive grid_error := InvalidBounds | SingularDimension (idx : nat).
Fixpoint check_dims {T} (finite : T -> bool) (gtb : T -> T -> bool) (idx : nat) (dims : list (dim T)) : option grid_error :=
  match dims with
  | [] => None
  | d :: ds =>
    if (negb (finite (d_lower d)) || negb (finite (d_upper d)))%bool then Some InvalidBounds
    else if gtb (d_lower d) (d_upper d) then Some InvalidBounds
    else if (d_count d <=? 1)%nat then Some (SingularDimension idx)
    else check_dims finite gtb (S idx) ds
  end.

(** [operator[](size_t)], interpolate.ipp 41-57: offset of a slice. The slice's own constructor repeats checks that
    its parent has passed. *)
Definition slice_off {T} (dims : list (dim T)) (off idx : nat) : nat :=
  match dims with [] => off | d :: _ => (off + idx * (total dims / d_count d))%nat end.
(** [operator[](CellIndex)], interpolate.ipp 59-66 and interpolate.hpp 130-133 *)
Fixpoint get {T} (data : list T) (dims : list (dim T)) (off : nat) (cell_idx : list nat) : outcome T :=
  match dims, cell_idx with
  | [], _ => read data off
  | d :: ds, i :: is => get data ds (slice_off dims off i) is
  | _ :: _, [] => Oob
  end.

(** Result of locating a coordinate: a value to return at once (NaN), a cell and the position in it, or an undefined
    conversion to [size_t]. *)
Inductive located (T : Type) := Outside (v : T) | Cell (idx : nat) (rel : T) | BadCast.
Arguments Outside {T}. Arguments Cell {T}. Arguments BadCast {T}.

Section Views.
Context {T : Type} (locate : T -> dim T -> located T) (linear : T -> T -> T -> T) (cubic : T -> T -> T -> T -> T -> T) (zero : T).
(** [LinearView::operator()], interpolate.ipp 88-108 *)
Fixpoint linear_view (data : list T) (dims : list (dim T)) (off : nat) (x : list T) : outcome T :=
  match dims, x with
  | [], _ => read data off
  | d :: ds, x0 :: x_next =>
    match locate x0 d with
    | Outside v => Val v
    | BadCast => Oob
    | Cell idx x_rel =>
      bind (linear_view data ds (slice_off dims off idx) x_next) (fun linear_1 =>
      bind (linear_view data ds (slice_off dims off (idx + 1)) x_next) (fun linear_2 =>
      Val (linear linear_1 linear_2 x_rel)))
    end
  | _ :: _, [] => Oob
  end.
(** [CubicView::operator()], interpolate.ipp 110-133 *)
Fixpoint cubic_view (data : list T) (dims : list (dim T)) (off : nat) (x : list T) : outcome T :=
  match dims, x with
  | [], _ => read data off
  | d :: ds, x0 :: x_next =>
    match locate x0 d with
    | Outside v => Val v
    | BadCast => Oob
    | Cell idx x_rel =>
      bind (if (idx =? 0)%nat then Val zero else cubic_view data ds (slice_off dims off (idx - 1)) x_next) (fun cubic_0 =>
      bind (cubic_view data ds (slice_off dims off idx) x_next) (fun cubic_1 =>
      bind (cubic_view data ds (slice_off dims off (idx + 1)) x_next) (fun cubic_2 =>
      bind (if (d_count d - 2 <=? idx)%nat then Val zero else cubic_view data ds (slice_off dims off (idx + 2)) x_next) (fun cubic_3 =>
      Val (cubic cubic_0 cubic_1 cubic_2 cubic_3 x_rel)))))
    end
  | _ :: _, [] => Oob
  end.
End Views.

(** ** Exact arithmetic *)
Section Exact.
Local Open Scope R_scope.
(** interpolate.ipp 90-99, 112-121: [modf] splits a nonnegative number into integer and fractional part. *)
Definition e_locate (x : ext) (d : dim ext) : located ext :=
  let x_diff := esub x (d_lower d) in
  let width := esub (d_upper d) (d_lower d) in
  if eisnan x_diff then Outside x_diff
  else if eltb x_diff (Fin 0) || egeb x_diff width then Outside NaN
  else
    match emul (Fin (INR (d_count d - 1))) (ediv x_diff width) with
    | Fin v => if rltb v 0 then BadCast else Cell (Z.to_nat (Int_part v)) (Fin (frac_part v))
    | _ => BadCast
    end.
(** interpolate.hpp 22-25 *)
Definition e_linear (f1 f2 x : ext) : ext := eadd (emul (esub (Fin 1) x) f1) (emul x f2).
(** interpolate.hpp 27-36 *)
Definition e_cubic (f1 f2 f3 f4 x : ext) : ext :=
  let one_x := esub (Fin 1) x in
  esub
    (eadd
      (eadd (emul (emul (emul (emul (Fin 2) one_x) one_x) (eadd (Fin (1 / 2)) x)) f2)
        (emul (emul (emul (emul (Fin (1 / 2)) one_x) one_x) x) (esub f3 f1)))
      (emul (emul (emul (emul (Fin 2) x) x) (esub (Fin (3 / 2)) x)) f3))
    (emul (emul (emul (emul (Fin (1 / 2)) x) x) one_x) (esub f4 f2)).
Definition e_linear_view := linear_view e_locate e_linear.
Definition e_cubic_view := cubic_view e_locate e_cubic (Fin 0).
Definition e_check_dims (dims : list (dim ext)) : option grid_error := check_dims eisfinite egtb 0 dims.
End Exact.

(** ** binary64 arithmetic *)
Section Rounded.
Definition f_of_Z (n : Z) : binary64 := Binary.binary_normalize 53 1024 (eq_refl _) (eq_refl _) mode_NE n 0 false.
Definition f_sub := b64_minus mode_NE. Definition f_add := b64_plus mode_NE.
Definition f_mul := b64_mult mode_NE. Definition f_div := b64_div mode_NE.
Definition f_lt (a b : binary64) : bool := match b64_compare a b with Some Lt => true | _ => false end.
Definition f_ge (a b : binary64) : bool := match b64_compare a b with Some Gt | Some Eq => true | _ => false end.
Definition f_isnan (a : binary64) : bool := Binary.is_nan 53 1024 a.
Definition f_isfinite (a : binary64) : bool := Binary.is_finite 53 1024 a.
Definition f_nan : binary64 := proj1_sig default_nan_pl64.
(** [(std::size_t) idx_float] is undefined unless the truncated value is representable. *)
Definition f_locate (x : binary64) (d : dim binary64) : located binary64 :=
  let x_diff := f_sub x (d_lower d) in
  let width := f_sub (d_upper d) (d_lower d) in
  if f_isnan x_diff then Outside x_diff
  else if f_lt x_diff (f_of_Z 0) || f_ge x_diff width then Outside f_nan
  else
    let v := f_mul (f_of_Z (Z.of_nat (d_count d - 1))) (f_div x_diff width) in
    let idx := Binary.Btrunc 53 1024 v in
    if f_isfinite v && (0 <=? idx)%Z && (idx <? 2 ^ 64)%Z then Cell (Z.to_nat idx) (f_sub v (f_of_Z idx)) else BadCast.
Definition f_linear (f1 f2 x : binary64) : binary64 := f_add (f_mul (f_sub (f_of_Z 1) x) f1) (f_mul x f2).
Definition f_half (n : Z) : binary64 := Binary.binary_normalize 53 1024 (eq_refl _) (eq_refl _) mode_NE n (-1) false.
Definition f_cubic (f1 f2 f3 f4 x : binary64) : binary64 :=
  let one_x := f_sub (f_of_Z 1) x in
  f_sub
    (f_add
      (f_add (f_mul (f_mul (f_mul (f_mul (f_of_Z 2) one_x) one_x) (f_add (f_half 1) x)) f2)
        (f_mul (f_mul (f_mul (f_mul (f_half 1) one_x) one_x) x) (f_sub f3 f1)))
      (f_mul (f_mul (f_mul (f_mul (f_of_Z 2) x) x) (f_sub (f_half 3) x)) f3))
    (f_mul (f_mul (f_mul (f_mul (f_half 1) x) x) one_x) (f_sub f4 f2)).
Definition f_linear_view := linear_view f_locate f_linear.
Definition f_cubic_view := cubic_view f_locate f_cubic (f_of_Z 0).
Definition f_gt (a b : binary64) : bool := match b64_compare a b with Some Gt => true | _ => false end.
Definition f_check_dims (dims : list (dim binary64)) : option grid_error := check_dims f_isfinite f_gt 0 dims.
End Rounded.
