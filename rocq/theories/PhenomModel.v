(** Model of src/phenom.cpp over the real numbers: the table of the running electromagnetic coupling, its
    interpolation and continuation, and the hadronic vacuum polarization. *)
From Coq Require Import Reals List Bool.
From Verif Require Import ExtModel GridModel XsModel.
Import ListNotations.
Local Open Scope R_scope.

(** phenom.hpp 22 *)
Definition ALPHA_QED_0 : R := 1 / (13703599 / 100000).
(** phenom.cpp 15-17 *)
Definition Q_SQ_MAX : R := 100.
Definition NF : R := 1.
Definition BETA_0 : R := 4 / 3 * NF.
(** phenom.cpp 19-22 *)
Definition beta_qed (alpha : R) : R :=
  let alpha_r := alpha / (4 * PI) in
  4 * PI * BETA_0 * (1 + 3 * alpha_r) * alpha_r * alpha_r.
(** phenom.cpp 33-41: one RK4 step. *)
Definition step : R := 1 / 100.
Definition rk4 (alpha_0 : R) : R :=
  let alpha_p1 := beta_qed alpha_0 in
  let alpha_p2 := beta_qed (alpha_0 + 1 / 2 * step * alpha_p1) in
  let alpha_p3 := beta_qed (alpha_0 + 1 / 2 * step * alpha_p2) in
  let alpha_p4 := beta_qed (alpha_0 + step * alpha_p3) in
  alpha_0 + step * (alpha_p1 + 2 * alpha_p2 + 2 * alpha_p3 + alpha_p4) / 6.
(** phenom.cpp 24-48. The two vectors are kept newest element first; [extra] is 8, and element [size - extra] of a
    vector is element 7 of the reversed list. The loop has no bound of its own: [fuel] bounds the number of rounds and
    running out of it gives no result. *)
Definition extra : nat := 8.
Fixpoint grow (fuel : nat) (Q_sq_max : R) (ln_Q_sq_vals alpha_vals : list R) : option (list R * list R) :=
  let again := match ln_Q_sq_vals with
    | l0 :: _ => if (length ln_Q_sq_vals <? extra)%nat then true
                 else match nth_error ln_Q_sq_vals (extra - 1) with Some l => rleb l (ln Q_sq_max) | None => false end
    | [] => false end in
  if again then
    match fuel, ln_Q_sq_vals, alpha_vals with
    | S n, l0 :: _, a0 :: _ => grow n Q_sq_max ((l0 + step) :: ln_Q_sq_vals) (rk4 a0 :: alpha_vals)
    | _, _, _ => None
    end
  else Some (ln_Q_sq_vals, alpha_vals).
Definition alpha_qed_grid (fuel : nat) : option (list ext * list (dim ext)) :=
  match grow fuel Q_SQ_MAX [2 * ln MASS_E] [ALPHA_QED_0] with
  | Some (ls, als) =>
    match hd_error (rev ls), hd_error ls with
    | Some front, Some back => Some (map Fin (rev als), [Dim (length ls) (Fin front) (Fin back)])
    | _, _ => None
    end
  | None => None
  end.
(** [std::log] *)
Definition elog (x : ext) : ext := match x with
  | Fin v => if rltb v 0 then NaN else if reqb v 0 then NInf else Fin (ln v)
  | PInf => PInf | _ => NaN end.
(** phenom.cpp 55-68; [None]: reading outside the table. *)
Definition alpha_qed (grid : list ext * list (dim ext)) (Q_sq : ext) : option ext :=
  let '(data, dims) := grid in
  if eltb Q_sq (Fin Q_SQ_MAX) then
    match e_cubic_view data dims 0 [elog Q_sq] with Val v => Some v | Oob => None end
  else
    match e_cubic_view data dims 0 [elog (Fin Q_SQ_MAX)] with
    | Val v =>
      let alpha_r_max := ediv v (Fin (4 * PI)) in
      Some (ediv (emul (Fin (4 * PI)) alpha_r_max)
        (esub (Fin 1) (emul (emul alpha_r_max (Fin BETA_0)) (elog (ediv Q_sq (Fin Q_SQ_MAX))))))
    | Oob => None
    end.
(** phenom.hpp 24: the default argument *)
Definition alpha_qed_default (grid : list ext * list (dim ext)) : option ext := alpha_qed grid (Fin 0).
(** phenom.cpp 70-81 *)
Definition delta_vac_had (Q_sq : R) : R :=
  let alpha := 72973525664 / 10 ^ 13 in
  if rltb Q_sq 1 then - (2 * PI) / alpha * (- (1345 / 10 ^ 12) - 2302 / 10 ^ 6 * ln (1 + 4091 / 1000 * Q_sq))
  else if rltb Q_sq 64 then - (2 * PI) / alpha * (- (1512 / 10 ^ 6) - 2822 / 10 ^ 6 * ln (1 + 1218 / 1000 * Q_sq))
  else - (2 * PI) / alpha * (- (11344 / 10 ^ 7) - 30680 / 10 ^ 7 * ln (1 + 99992 / 10 ^ 5 * Q_sq)).
