(** Model of src/phenom.cpp in double arithmetic: the table of the running electromagnetic coupling and its use below Q^2 = 100.
    The constants PI, MASS_E and ALPHA_QED_0 (constant.hpp 14, 25; phenom.hpp 22) are converted from [long double]; they and [std::log] are parameters. *)
From Coq Require Import ZArith List Bool.
From Flocq Require Import Core.Core IEEE754.Binary IEEE754.Bits.
From Verif Require Import GridModel.
Import ListNotations.

(** [0.01] *)
Definition f_step : binary64 := b64_of_bits 0x3F847AE147AE147B.
(** phenom.cpp 17 *)
Definition f_BETA_0 : binary64 := f_mul (f_div (f_of_Z 4) (f_of_Z 3)) (f_of_Z 1).
Definition f_le (a b : binary64) : bool := match b64_compare a b with Some Lt | Some Eq => true | _ => false end.

Section Coupling.
Context (pi mass_e alpha_0 : binary64) (log : binary64 -> binary64).
(** phenom.cpp 19-22 *)
Definition f_beta_qed (alpha : binary64) : binary64 :=
  let alpha_r := f_div alpha (f_mul (f_of_Z 4) pi) in
  f_mul (f_mul (f_mul (f_mul (f_mul (f_of_Z 4) pi) f_BETA_0) (f_add (f_of_Z 1) (f_mul (f_of_Z 3) alpha_r))) alpha_r) alpha_r.
(** phenom.cpp 33-41 *)
Definition f_rk4 (a0 : binary64) : binary64 :=
  let p1 := f_beta_qed a0 in
  let p2 := f_beta_qed (f_add a0 (f_mul (f_mul (f_half 1) f_step) p1)) in
  let p3 := f_beta_qed (f_add a0 (f_mul (f_mul (f_half 1) f_step) p2)) in
  let p4 := f_beta_qed (f_add a0 (f_mul f_step p3)) in
  f_add a0 (f_div (f_mul f_step (f_add (f_add (f_add p1 (f_mul (f_of_Z 2) p2)) (f_mul (f_of_Z 2) p3)) p4)) (f_of_Z 6)).
(** phenom.cpp 24-48; vectors newest element first, [fuel] bounds the number of rounds as in PhenomModel.grow. *)
Fixpoint f_grow (fuel : nat) (q_max : binary64) (ls als : list binary64) : option (list binary64 * list binary64) :=
  let again := match ls with
    | l0 :: _ => if (length ls <? 8)%nat then true else match nth_error ls 7 with Some l => f_le l (log q_max) | None => false end
    | [] => false end in
  if again then
    match fuel, ls, als with
    | S n, l0 :: _, a0 :: _ => f_grow n q_max (f_add l0 f_step :: ls) (f_rk4 a0 :: als)
    | _, _, _ => None
    end
  else Some (ls, als).
Definition f_alpha_grid (fuel : nat) : option (list binary64 * list (dim binary64)) :=
  match f_grow fuel (f_of_Z 100) [f_mul (f_of_Z 2) (log mass_e)] [alpha_0] with
  | Some (ls, als) =>
    match hd_error (rev ls), hd_error ls with
    | Some front, Some back => Some (rev als, [Dim (length ls) front back])
    | _, _ => None
    end
  | None => None
  end.
(** phenom.cpp 55-60: below Q^2 = 100 *)
Definition f_alpha_low (grid : list binary64 * list (dim binary64)) (q : binary64) : outcome binary64 :=
  f_cubic_view (fst grid) (snd grid) 0 [log q].
(** phenom.cpp 53-68 *)
Definition f_alpha_qed (grid : list binary64 * list (dim binary64)) (q : binary64) : outcome binary64 :=
  if f_lt q (f_of_Z 100) then f_alpha_low grid q
  else match f_alpha_low grid (f_of_Z 100) with
    | Val v =>
      let alpha_r_max := f_div v (f_mul (f_of_Z 4) pi) in
      Val (f_div (f_mul (f_mul (f_of_Z 4) pi) alpha_r_max)
        (f_sub (f_of_Z 1) (f_mul (f_mul alpha_r_max f_BETA_0) (log (f_div q (f_of_Z 100))))))
    | Oob => Oob
    end.
End Coupling.
