(** Sampling the photon variable R in double arithmetic: map Log of include/sidis/extra/map.hpp with [Real] = double.
    The C library's log and exp are parameters; conventions and simplifications as in FMapModel. *)
From Coq Require Import Reals.
From Verif Require Import ExtModel BoundModel TextModel FMapModel.
Local Open Scope R_scope.

Section Log.
Context (log exp : R -> R).
(** C library: log of zero is minus infinity, of a negative number NaN; exp of minus infinity is zero *)
Definition e_log (a : ext) : ext :=
  match a with
  | Fin r => if rltb 0 r then Fin (log r) else if reqb r 0 then NInf else NaN
  | PInf => PInf
  | _ => NaN
  end.
Definition e_exp (a : ext) : ext := match a with Fin r => Fin (exp r) | PInf => PInf | NInf => Fin 0 | NaN => NaN end.
(** map.hpp 36-47: Log *)
Definition f_log_u (offset : R) (x : ext) : ext := e_log (rnd (eadd x (Fin offset))).
Definition f_log_x (offset : R) (u : ext) : ext * ext :=
  let e := e_exp u in (rnd (esub e (Fin offset)), e).
(** cut.cpp 521-523 and 570-572: R, for the offset [R_trans] and the limits of R *)
Definition f_R (R_trans p : R) (b : bound) : ext * ext := f_apply_map (f_log_u R_trans) (f_log_x R_trans) (Fin p) b.
End Log.
