(** Sampling a variable in double arithmetic: include/sidis/extra/map.hpp with [Real] = double, every operation rounded to
    nearest even ([RN] of TextModel), infinities and NaN as in ExtModel. The C library's log1p and expm1 are parameters.
    MapModel has the same functions without rounding.
    Simplifications: no excess precision, no fused multiply-add, no overflow of finite operations ([RN] has no largest value);
    there is one zero. *)
From Coq Require Import Reals.
From Verif Require Import ExtModel BoundModel TextModel.
Local Open Scope R_scope.

(** an operation's result rounded to double *)
Definition rnd (a : ext) : ext := match a with Fin r => Fin (RN r) | a => a end.
(** bound.hpp 48-50 *)
Definition f_lerp (b : bound) (t : ext) : ext :=
  rnd (eadd (rnd (emul (rnd (esub (Fin 1) t)) (bmin b))) (rnd (emul t (bmax b)))).
(** bound.hpp 56-58 *)
Definition f_size (b : bound) : ext := rnd (esub (bmax b) (bmin b)).
(** map.hpp 123-129: a map is given by its [u] and by its [x], the latter with the Jacobian *)
Definition f_apply_map (u : ext -> ext) (x : ext -> ext * ext) (p : ext) (b : bound) : ext * ext :=
  let u_bound := mk_bound (u (bmin b)) (u (bmax b)) in
  let v := x (f_lerp u_bound p) in
  (fst v, rnd (emul (snd v) (f_size u_bound))).

(** map.hpp 13-21: Linear *)
Definition f_linear_u (x : ext) : ext := x.
Definition f_linear_x (u : ext) : ext * ext := (u, Fin 1).
(** map.hpp 24-34: Inverse *)
Definition f_inverse_u (offset : R) (x : ext) : ext := rnd (ediv (Fin (-1)) (rnd (eadd x (Fin offset)))).
Definition f_inverse_x (offset : R) (u : ext) : ext * ext :=
  let q := rnd (ediv (Fin 1) u) in
  (rnd (esub (rnd (ediv (Fin (-1)) u)) (Fin offset)), rnd (emul q q)).

Section Decay.
Context (log1p expm1 : R -> R).
(** C library: log1p and expm1 of infinities, of -1 and below *)
Definition e_log1p (a : ext) : ext :=
  match a with
  | Fin r => if rltb (-1) r then Fin (log1p r) else if reqb r (-1) then NInf else NaN
  | PInf => PInf
  | _ => NaN
  end.
Definition e_expm1 (a : ext) : ext := match a with Fin r => Fin (expm1 r) | PInf => PInf | NInf => Fin (-1) | NaN => NaN end.
(** map.hpp 49-60: Decay *)
Definition f_decay_u (len : R) (x : ext) : ext := eneg (e_expm1 (rnd (ediv (eneg x) (Fin len)))).
Definition f_decay_x (len : R) (u : ext) : ext * ext :=
  (rnd (emul (Fin (- len)) (e_log1p (eneg u))), rnd (ediv (Fin len) (rnd (esub (Fin 1) u)))).
(** cut.cpp 29, 400 and 436: the transverse momentum squared; 0.25 is a double *)
Definition f_ph_t_sq (p : R) (b : bound) : ext * ext := f_apply_map (f_decay_u (1 / 4)) (f_decay_x (1 / 4)) (Fin p) b.
End Decay.
(** cut.cpp 33, 397 and 433: x, with the offset rounded to double; cut.cpp 398 and 434: y; 399 and 435: z *)
Definition f_X_CUTOFF : R := RN (1 / 1000).
Definition f_x (p : R) (b : bound) : ext * ext := f_apply_map (f_inverse_u f_X_CUTOFF) (f_inverse_x f_X_CUTOFF) (Fin p) b.
Definition f_y (p : R) (b : bound) : ext * ext := f_apply_map (f_inverse_u 0) (f_inverse_x 0) (Fin p) b.
Definition f_z (p : R) (b : bound) : ext * ext := f_apply_map f_linear_u f_linear_x (Fin p) b.
