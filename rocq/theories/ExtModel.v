(** Extended reals: the values of [Real] (a double) with infinities and NaN, IEEE-754 comparison and
    arithmetic rules, but exact (unrounded, never overflowing) finite arithmetic.
    Simplification: there is one zero, treated as +0 when it is a divisor. *)
From Coq Require Import Reals Bool.
Local Open Scope R_scope.

Inductive ext := Fin (r : R) | PInf | NInf | NaN.

Definition rleb (x y : R) : bool := if Rle_dec x y then true else false.
Definition rltb (x y : R) : bool := if Rlt_dec x y then true else false.
Definition reqb (x y : R) : bool := if Req_EM_T x y then true else false.

(** IEEE [<=]: false as soon as one side is NaN. *)
Definition eleb (a b : ext) : bool :=
  match a, b with
  | NaN, _ => false
  | _, NaN => false
  | NInf, _ => true
  | _, PInf => true
  | Fin x, Fin y => rleb x y
  | _, _ => false
  end.
(** IEEE [<]. *)
Definition eltb (a b : ext) : bool :=
  match a, b with
  | NaN, _ => false
  | _, NaN => false
  | NInf, NInf => false
  | NInf, _ => true
  | PInf, _ => false
  | Fin x, Fin y => rltb x y
  | Fin _, PInf => true
  | Fin _, NInf => false
  end.
Definition egeb (a b : ext) : bool := eleb b a.
Definition egtb (a b : ext) : bool := eltb b a.
(** IEEE [==]. *)
Definition eeqb (a b : ext) : bool :=
  match a, b with
  | Fin x, Fin y => reqb x y
  | PInf, PInf => true
  | NInf, NInf => true
  | _, _ => false
  end.
(** [std::isnan] and [std::isfinite]. *)
Definition eisnan (a : ext) : bool := match a with NaN => true | _ => false end.
Definition eisfinite (a : ext) : bool := match a with Fin _ => true | _ => false end.

Definition eneg (a : ext) : ext :=
  match a with Fin x => Fin (- x) | PInf => NInf | NInf => PInf | NaN => NaN end.
Definition eadd (a b : ext) : ext :=
  match a, b with
  | NaN, _ | _, NaN => NaN
  | PInf, NInf | NInf, PInf => NaN
  | PInf, _ | _, PInf => PInf
  | NInf, _ | _, NInf => NInf
  | Fin x, Fin y => Fin (x + y)
  end.
Definition esub (a b : ext) : ext := eadd a (eneg b).
(** Infinity with the sign of [x] ([NaN] for 0). *)
Definition sinf (x : R) : ext :=
  if rltb 0 x then PInf else if rltb x 0 then NInf else NaN.
Definition emul (a b : ext) : ext :=
  match a, b with
  | NaN, _ | _, NaN => NaN
  | Fin x, Fin y => Fin (x * y)
  | Fin x, PInf | PInf, Fin x => sinf x
  | Fin x, NInf | NInf, Fin x => sinf (- x)
  | PInf, PInf | NInf, NInf => PInf
  | PInf, NInf | NInf, PInf => NInf
  end.
Definition ediv (a b : ext) : ext :=
  match a, b with
  | NaN, _ | _, NaN => NaN
  | Fin x, Fin y => if reqb y 0 then sinf x else Fin (x / y)
  | Fin _, _ => Fin 0
  | PInf, Fin y => if reqb y 0 then PInf else sinf y
  | NInf, Fin y => if reqb y 0 then NInf else sinf (- y)
  | _, _ => NaN
  end.
(** [std::sqrt]. *)
Definition esqrt (a : ext) : ext :=
  match a with
  | Fin x => if rltb x 0 then NaN else Fin (sqrt x)
  | PInf => PInf
  | _ => NaN
  end.
(** [std::fmax], [std::fmin]: a NaN operand is ignored. *)
Definition efmax (a b : ext) : ext :=
  match a, b with
  | NaN, _ => b
  | _, NaN => a
  | _, _ => if eltb a b then b else a
  end.
Definition efmin (a b : ext) : ext :=
  match a, b with
  | NaN, _ => b
  | _, NaN => a
  | _, _ => if eltb b a then b else a
  end.
