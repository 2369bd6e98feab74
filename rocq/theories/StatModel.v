(** Model of the weights and statistics of sidisgen: utility.hpp (Integrator, IntegratorAccum), and in main.cpp
    IntegratorArray, stream_write_integ and the event loop of command_generate; the efficiency target of
    generator.cpp. *)
From Coq Require Import Reals List Bool Arith.
From Verif Require Import ExtModel.
Import ListNotations.
Local Open Scope R_scope.

(** bubble::Stats (external library, not part of the repository) is represented by the weights it summarises:
    its sum operator pools the weights, count() is their number, est_mean() their mean, est_sqrt_m2() the root of
    their mean square. Statistics without weights have no mean (NaN). Rounding is not modelled. *)
Definition stats := list R.
Fixpoint sum (l : list R) : R := match l with [] => 0 | w :: r => w + sum r end.
Definition st_mean (s : stats) : ext := match s with [] => NaN | _ => Fin (sum s / INR (length s)) end.
Definition st_sqrt_m2 (s : stats) : ext :=
  match s with [] => NaN | _ => Fin (sqrt (sum (map (fun w => w * w) s) / INR (length s))) end.

(** utility.hpp 101-115 *)
Record integrator := Integ { i_prime_inv : ext; i_count : nat; i_count_acc : nat; i_weights : stats }.
(** utility.hpp 117-121 *)
Definition integ_of (prime_inv : ext) (count_acc : nat) (weights : stats) : integrator :=
  Integ prime_inv (length weights) count_acc weights.
(** utility.hpp 122-125 *)
Definition integ_empty : integrator := Integ NaN 0 0 [].
(** utility.hpp 130-147 *)
Definition iadd (a b : integrator) : integrator :=
  if Nat.eqb (i_count a) 0 then b
  else if Nat.eqb (i_count b) 0 then a
  else
    let lambda := Fin (INR (i_count b) / INR (i_count a + i_count b)) in
    Integ (eadd (i_prime_inv a) (emul lambda (esub (i_prime_inv b) (i_prime_inv a))))
      (i_count a + i_count b) (i_count_acc a + i_count_acc b) (i_weights a ++ i_weights b).
(** utility.hpp 149-152, 162-165 *)
Definition i_prime (a : integrator) : ext := ediv (Fin 1) (i_prime_inv a).
Definition i_norm (a : integrator) : ext := emul (Fin (INR (i_count a))) (i_prime_inv a).
(** utility.hpp 170-175: rescaled to the accepted events, that is without the zero weights. *)
Definition i_weights_acc (a : integrator) : stats := filter (fun w => negb (reqb w 0)) (i_weights a).
(** utility.hpp 176-184 *)
Definition i_integ (a : integrator) : ext := ediv (st_mean (i_weights a)) (i_prime_inv a).

(** utility.hpp 199-227; the accumulator holds the same members. *)
Definition accum_new (prime_inv : ext) : integrator := Integ prime_inv 0 0 [].
Definition accum_add (a : integrator) (w : R) : integrator :=
  Integ (i_prime_inv a) (S (i_count a)) (if negb (reqb w 0) then S (i_count_acc a) else i_count_acc a) (i_weights a ++ [w]).
(** utility.hpp 229-236 *)
Definition accum_total (a : integrator) : integrator := integ_of (i_prime_inv a) (i_count_acc a) (i_weights a).

(** main.cpp 59-88: one integrator per event type. *)
Definition total (map : list integrator) : integrator :=
  let prime := fold_left (fun s a => eadd s (i_prime a)) map (Fin 0) in
  let count_acc := fold_left (fun s a => (s + i_count_acc a)%nat) map 0%nat in
  let weights := fold_left (fun s a => s ++ i_weights a) map [] in
  integ_of (ediv (Fin 1) prime) count_acc weights.
Fixpoint array_add (a b : list integrator) : list integrator :=
  match a, b with
  | x :: a, y :: b => iadd x y :: array_add a b
  | _, _ => []
  end.
(** main.cpp 1092-1111: the statistics of the files of a merge, in order. *)
Definition merge_stats (files : list (list integrator)) (none : list integrator) : list integrator :=
  match files with
  | [] => none
  | f :: r => fold_left array_add r f
  end.

(** main.cpp 940-955: the rejection step, for the random number [rej] in [0, 1). *)
Definition reject (rej_scale rej w : R) : R :=
  if negb (reqb rej_scale 0) then
    if rltb w (rej * rej_scale) then 0
    else if rltb w rej_scale then rej_scale
    else w
  else w.
(** main.cpp 932-960: draw until a weight is not zero. The pairs are the weights of the successive draws and the
    random numbers of the rejection step; [None] when they are used up. Returns the weight written to the file, the
    statistics and the draws left. *)
Fixpoint draw_event (rej_scale : R) (draws : list (R * R)) (acc : integrator) : option (R * integrator * list (R * R)) :=
  match draws with
  | [] => None
  | (w, rej) :: r =>
    let w' := reject rej_scale rej w in
    let acc := accum_add acc w' in
    if reqb w' 0 then draw_event rej_scale r acc else Some (w', acc, r)
  end.
(** The events of one type, [n] of them: the weights written. *)
Fixpoint draw_events (n : nat) (rej_scale : R) (draws : list (R * R)) (acc : integrator) : option (list R * integrator * list (R * R)) :=
  match n with
  | O => Some ([], acc, draws)
  | S n =>
    match draw_event rej_scale draws acc with
    | None => None
    | Some (w, acc, draws) =>
      match draw_events n rej_scale draws acc with
      | None => None
      | Some (ws, acc, draws) => Some (w :: ws, acc, draws)
      end
    end
  end.

(** main.cpp 917-922: how much a type of event is wanted. *)
Definition wanted (a : integrator) : ext :=
  let ratio := ediv (st_sqrt_m2 (i_weights_acc a)) (i_norm a) in
  if negb (eisfinite ratio) then PInf else ratio.
(** main.cpp 915-927; [None]: the index was never assigned. *)
Fixpoint choose_loop (idx : nat) (ratio_max : ext) (chosen : option nat) (gens : list integrator) : option nat :=
  match gens with
  | [] => chosen
  | a :: r =>
    if eltb ratio_max (wanted a) then choose_loop (S idx) (wanted a) (Some idx) r
    else choose_loop (S idx) ratio_max chosen r
  end.
(** main.cpp 905-928 *)
Definition choose (event_idx : nat) (gens : list integrator) : option nat :=
  if Nat.eqb event_idx 0 then Some 0%nat else choose_loop 0 (Fin 0) None gens.

(** std::log1p and std::expm1 on reals, where they are finite. *)
Definition log1p (x : R) : R := ln (1 + x).
Definition expm1 (x : R) : R := exp x - 1.
(** generator.cpp 216 *)
Definition target_rel_var (target_eff : R) : R := expm1 (- 2 * ln target_eff).
(** main.cpp 190 *)
Definition shown_eff (rel_var : R) : R := exp (- (1 / 2) * log1p rel_var).
(** generator.cpp 211-213, 220: number of cells. *)
Definition clamp_cells (max_cells : BinNums.Z) : BinNums.Z := if BinInt.Z.leb max_cells BinNums.Z0 then BinNums.Zpos BinNums.xH else max_cells.
