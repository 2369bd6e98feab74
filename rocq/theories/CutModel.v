(** Model of include/sidis/cut.hpp and src/cut.cpp: kinematic limits, user cuts, validity and the sampling of
    phase space.
    Simplifications: exact arithmetic on finite values; a value that is NaN or infinite in the code is carried as
    such ([ext]) wherever a comparison or a [Bound] depends on it. The masses of [Particles] and [S] are finite.
    Output pointers are never null. *)
From Coq Require Import Reals Bool List.
From Verif Require Import ExtModel BoundModel MathModel MapModel ParticleModel FrameBase KinModel.
Local Open Scope R_scope.

(** [std::acos]: NaN outside [-1, 1]. *)
Definition eacos (a : ext) : ext :=
  match a with
  | Fin x => if rleb (-1) x && rleb x 1 then Fin (acos x) else NaN
  | _ => NaN
  end.

(** cut.cpp 27-32 *)
Definition PH_T_SQ_DECAY_WIDTH : R := 0.25.
Definition X_CUTOFF : R := 1 / 1000.

(** cut.cpp 39-41 *)
Definition S_min (ps : parts) : R :=
  sq (a_Mth ps + a_mh ps) + 2 * a_m ps * (a_Mth ps + a_mh ps) - sq (a_M ps).
(** cut.cpp 42-59 *)
Definition x_bound (ps : parts) (S : R) : bound :=
  let M := a_M ps in let m := a_m ps in let mh := a_mh ps in let Mth := a_Mth ps in
  let lambda_S := sq S - 4 * sq M * sq m in
  let L := S - (sq (Mth + mh) - sq M) in
  let denom := 2 * (lambda_S + sq M * (sq (Mth + mh) - sq M)) in
  let a := lambda_S - S * (sq (Mth + mh) - sq M) in
  let b := esqrt (Fin (lambda_S * (L - 2 * m * (Mth + mh)) * (L + 2 * m * (Mth + mh)))) in
  let x_1 := ediv (esub (Fin a) b) (Fin denom) in
  let x_2 := ediv (eadd (Fin a) b) (Fin denom) in
  binter BOUND_UNIT (mk_bound x_1 x_2).
(** cut.cpp 60-74 *)
Definition y_bound (ps : parts) (S x : R) : bound :=
  let M := a_M ps in let m := a_m ps in let mh := a_mh ps in let Mth := a_Mth ps in
  let lambda_S := sq S - 4 * sq M * sq m in
  let px_threshold := ediv (Fin (sq (Mth + mh) - sq M)) (Fin ((1 - x) * S)) in
  let q_threshold := ediv (Fin (x * lambda_S)) (Fin (S * (sq (M * x) + S * x + sq m))) in
  binter BOUND_UNIT (mk_bound px_threshold q_threshold).
(** cut.cpp 75-97 *)
Definition z_bound (ps : parts) (S x y : R) : bound :=
  let M := a_M ps in let mh := a_mh ps in let Mth := a_Mth ps in
  let S_x := S * y in
  let Q_sq := S * x * y in
  let lambda_Y := sq S_x + 4 * sq M * Q_sq in
  let L := (1 - x) * S_x + sq M in
  let denom := 2 * S_x * L in
  let a := (S_x + 2 * sq M) * (L - sq Mth + sq mh) in
  let b := esqrt (Fin (lambda_Y * (L - sq (Mth - mh)) * (L - sq (Mth + mh)))) in
  let z_crossover := ediv (Fin (2 * sq M * (L - sq Mth + sq mh))) (Fin (S_x * (S_x + 2 * sq M))) in
  let z_0 := ediv (Fin (2 * M * mh)) (Fin S_x) in
  let z_1 := ediv (esub (Fin a) b) (Fin denom) in
  let z_2 := ediv (eadd (Fin a) b) (Fin denom) in
  let px_threshold_min := if egtb z_crossover z_0 then z_0 else z_1 in
  let px_threshold_max := z_2 in
  binter BOUND_UNIT (mk_bound px_threshold_min px_threshold_max).
(** cut.cpp 98-117. The divisions by [2 M] are exact (the target is massive). *)
Definition ph_t_sq_bound (ps : parts) (S x y z : R) : bound :=
  let M := a_M ps in let mh := a_mh ps in let Mth := a_Mth ps in
  let S_x := S * y in
  let Q_sq := S * x * y in
  let lambda_Y := sq S_x + 4 * sq M * Q_sq in
  let L := (1 - x) * S_x + sq M in
  let ph_0 := (z * S_x) / (2 * M) in
  let det0 := (S_x + 2 * sq M) * S_x / (2 * sq M) * z - L + sq Mth - sq mh in
  let det := if rltb det0 0 then 0 else det0 in
  let px_threshold := esub (Fin (sq ph_0 - sq mh)) (emul (ediv (Fin (sq M)) (Fin lambda_Y)) (Fin (sq det))) in
  binter BOUND_POSITIVE (mk_bound (Fin 0) px_threshold).
(** cut.cpp 118-125 *)
Definition tau_bound (k : kin) : bound :=
  let mn := ediv (Fin (kS_x k - klambda_Y_sqrt k)) (Fin (2 * sq (kM k))) in
  let mx := ediv (Fin (kS_x k + klambda_Y_sqrt k)) (Fin (2 * sq (kM k))) in
  binter BOUND_FULL (mk_bound mn mx).
(** cut.cpp 127-134, again in 224-231. *)
Definition R_mu (k : kin) (tau phi_k : R) : ext :=
  let tau_b := tau_bound k in
  eadd (ediv (Fin (kph_0 k)) (Fin (kM k)))
    (emul (ediv (Fin 1) (Fin (klambda_Y_sqrt k)))
      (esub (ediv (Fin ((2 * tau * sq (kM k) - kS_x k) * kph_l k)) (Fin (kM k)))
        (emul (Fin (2 * kM k * kph_t k * cos (kphi_h k - phi_k)))
          (esqrt (emul (esub (Fin tau) (bmin tau_b)) (esub (bmax tau_b) (Fin tau))))))).
(** cut.cpp 126-151 *)
Definition R_bound (k : kin) (tau phi_k : R) : bound :=
  let mu := R_mu k tau phi_k in
  mk_bound (Fin 0)
    (emul (ediv (Fin 1) (esub (Fin (1 + tau)) mu)) (Fin (kmx_sq k - sq (kMth k)))).

(** cut.hpp 33-68; an invalid interval is an unset cut. *)
Record cuts := Cuts {
  c_x : bound; c_y : bound; c_z : bound; c_ph_t_sq : bound; c_phi_h : bound; c_phi : bound;
  c_Q_sq : bound; c_t : bound; c_W_sq : bound; c_r : bound; c_mx_sq : bound; c_qt_to_Q : bound;
  c_lab_mom_q : bound; c_lab_mom_k2 : bound; c_lab_mom_h : bound;
  c_lab_theta_q : bound; c_lab_theta_k2 : bound; c_lab_theta_h : bound }.
(** cut.hpp 73-87 *)
Record cuts_rad := CutsRad {
  d_tau : bound; d_phi_k : bound; d_R : bound; d_k_0_bar : bound; d_lab_mom_k : bound; d_lab_theta_k : bound }.

(** cut.cpp 154-181 *)
Definition x_bound_cut (cut : cuts) (ps : parts) (S : R) : bound :=
  let M := a_M ps in let m := a_m ps in
  let result := x_bound ps S in
  let result := if valid (c_x cut) then binter result (c_x cut) else result in
  let result :=
    if valid (c_Q_sq cut) then
      binter result
        (mk_bound (ediv (bmin (c_Q_sq cut)) (Fin S))
          (ediv (bmax (c_Q_sq cut))
            (esub (eadd (bmax (c_Q_sq cut)) (Fin (sq (a_Mth ps + a_mh ps)))) (Fin (sq M)))))
    else result in
  if valid (c_W_sq cut) then
    let W_sq_min := bmin (c_W_sq cut) in
    let lambda_S := sq S - 4 * sq M * sq m in
    let W' := esub W_sq_min (Fin (sq M)) in
    let L := esub (Fin S) W' in
    let denom := emul (Fin 2) (eadd (Fin lambda_S) (emul (Fin (sq M)) W')) in
    let a := esub (Fin lambda_S) (emul (Fin S) W') in
    let b := esqrt (emul (Fin lambda_S) (esub (emul L L) (emul (Fin (4 * sq m)) W_sq_min))) in
    binter result (mk_bound (ediv (esub a b) denom) (ediv (eadd a b) denom))
  else result.
(** cut.cpp 182-196 *)
Definition y_bound_cut (cut : cuts) (ps : parts) (S x : R) : bound :=
  let result := y_bound ps S x in
  let result := if valid (c_y cut) then binter result (c_y cut) else result in
  let result := if valid (c_Q_sq cut) then binter result (bdiv (c_Q_sq cut) (Fin (S * x))) else result in
  if valid (c_W_sq cut) then
    binter result (bdiv (bsub (c_W_sq cut) (Fin (sq (a_M ps)))) (Fin ((1 - x) * S)))
  else result.
(** cut.cpp 197-203 *)
Definition z_bound_cut (cut : cuts) (ps : parts) (S x y : R) : bound :=
  let result := z_bound ps S x y in
  if valid (c_z cut) then binter result (c_z cut) else result.
(** cut.cpp 204-210 *)
Definition ph_t_sq_bound_cut (cut : cuts) (ps : parts) (S x y z : R) : bound :=
  let result := ph_t_sq_bound ps S x y z in
  if valid (c_ph_t_sq cut) then binter result (c_ph_t_sq cut) else result.
(** cut.cpp 211-217 *)
Definition tau_bound_cut (cut : cuts_rad) (k : kin) : bound :=
  let result := tau_bound k in
  if valid (d_tau cut) then binter result (d_tau cut) else result.
(** cut.cpp 218-235 *)
Definition R_bound_cut (cut : cuts_rad) (k : kin) (tau phi_k : R) : bound :=
  let result := R_bound k tau phi_k in
  let result := if valid (d_R cut) then binter result (d_R cut) else result in
  if valid (d_k_0_bar cut) then
    binter result
      (bdiv (bmul (d_k_0_bar cut) (Fin (2 * kmx k))) (esub (Fin (1 + tau)) (R_mu k tau phi_k)))
  else result.

(** The fields of [Kinematics] that the checks below rely on being NaN when a radicand is negative or a divisor
    is zero, recomputed with that behaviour (kinematics.cpp 64-72, 92-99).
    [ph_l] is NaN unless [ph_0 <> 0] and the longitudinal momentum is real; then also [V_m], [t] and [mx_sq]. *)
Definition e_ph_l (k : kin) : ext :=
  let ratio := eadd (ediv (Fin (kph_t_sq k)) (Fin (sq (kph_0 k)))) (emul (ediv (Fin (kmh k)) (Fin (kph_0 k))) (ediv (Fin (kmh k)) (Fin (kph_0 k)))) in
  emul (Fin (kph_0 k)) (esqrt (esub (Fin 1) ratio)).
Definition e_mx_sq (k : kin) : ext := if eisfinite (e_ph_l k) then Fin (kmx_sq k) else NaN.
Definition e_mx (k : kin) : ext := esqrt (e_mx_sq k).
Definition e_q_t (k : kin) : ext := ediv (esqrt (Fin (klambda_1 k))) (esqrt (Fin (klambda_S k))).
Definition e_q_l (k : kin) : ext :=
  ediv (Fin (2 * sq (kM k) * kQ_sq k + kS k * kS_x k)) (emul (Fin (2 * kM k)) (esqrt (Fin (klambda_S k)))).
Definition e_ph_t (k : kin) : ext := esqrt (Fin (kph_t_sq k)).

(** cut.cpp 238-272. [phi_h] and [phi] are finite in the model. *)
Definition valid_kin (k : kin) : bool :=
  if negb (rltb 0 (kS k)) then false
  else if negb (rleb 0 (kx k) && rleb (kx k) 1) then false
  else if negb (rleb 0 (ky k) && rleb (ky k) 1) then false
  else if negb (rleb 0 (kz k) && rleb (kz k) 1) then false
  else if negb (rleb 0 (kph_t_sq k)) then false
  else if negb (egeb (e_mx k) (Fin (kMth k))) then false
  else if negb (eleb (e_mx_sq k) (Fin (kS k + sq (kM k) - sq (kmh k)))) then false
  else if negb (egeb (e_q_t k) (Fin 0)) then false
  else if negb (eisfinite (e_q_l k)) then false
  else if negb (egeb (e_ph_t k) (Fin 0)) then false
  else if negb (eisfinite (e_ph_l k)) then false
  else if negb (rleb (kmh k) (kph_0 k)) then false
  else true.
(** cut.cpp 273-295 *)
Definition valid_rad (r : kinrad) : bool :=
  if negb (valid_kin (project r)) then false
  else if negb (rleb (rtau_min r) (rtau r) && rleb (rtau r) (rtau_max r)) then false
  else if negb (rleb 0 (rR r) && eleb (Fin (rR r)) (bmax (R_bound (project r) (rtau r) (rphi_k r)))) then false
  else true.

(** One optional cut: fails if set and not containing the value. *)
Definition fails (cut : bound) (v : ext) : bool := valid cut && negb (contains cut v).

(** cut.cpp 297-353 *)
Definition valid_cut (cut : cuts) (k : kin) : bool :=
  let qt_to_Q := ediv (esqrt (ediv (Fin (kph_t_sq k)) (Fin (kQ_sq k)))) (Fin (kz k)) in
  let lambda_h_sqrt := esqrt (Fin (sq (kz k * kS_x k) - 4 * sq (kM k * kmh k))) in
  let lambda_S_sqrt := esqrt (Fin (klambda_S k)) in
  let lambda_X_sqrt := esqrt (Fin (klambda_X k)) in
  let lambda_Y_sqrt := esqrt (Fin (klambda_Y k)) in
  let lab_mom_q := ediv lambda_Y_sqrt (Fin (2 * kM k)) in
  let lab_mom_k2 := ediv lambda_X_sqrt (Fin (2 * kM k)) in
  let lab_mom_h := ediv lambda_h_sqrt (Fin (2 * kM k)) in
  let lab_theta_q := eacos (ediv (Fin (kS k * kS_x k + 2 * sq (kM k) * kQ_sq k)) (emul lambda_S_sqrt lambda_Y_sqrt)) in
  let lab_theta_k2 :=
    eacos (ediv (Fin (kS k * kX k - 2 * sq (kM k) * kQ_sq k - 4 * sq (kM k * km k))) (emul lambda_S_sqrt lambda_X_sqrt)) in
  let lab_theta_h :=
    eacos (ediv (Fin (kz k * kS k * kS_x k - 2 * sq (kM k) * kV_1 k)) (emul lambda_S_sqrt lambda_h_sqrt)) in
  if negb (valid_kin k) then false
  else if fails (c_x cut) (Fin (kx k)) then false
  else if fails (c_y cut) (Fin (ky k)) then false
  else if fails (c_z cut) (Fin (kz k)) then false
  else if fails (c_ph_t_sq cut) (Fin (kph_t_sq k)) then false
  else if fails (c_phi_h cut) (Fin (kphi_h k)) then false
  else if fails (c_phi cut) (Fin (kphi k)) then false
  else if fails (c_Q_sq cut) (Fin (kQ_sq k)) then false
  else if fails (c_t cut) (Fin (kt k)) then false
  else if fails (c_W_sq cut) (Fin (kW_sq k)) then false
  else if fails (c_r cut) (ediv (Fin (kV_2 k)) (Fin (kV_1 k))) then false
  else if fails (c_mx_sq cut) (Fin (kmx_sq k)) then false
  else if fails (c_qt_to_Q cut) qt_to_Q then false
  else if fails (c_lab_mom_q cut) lab_mom_q then false
  else if fails (c_lab_mom_k2 cut) lab_mom_k2 then false
  else if fails (c_lab_mom_h cut) lab_mom_h then false
  else if fails (c_lab_theta_q cut) lab_theta_q then false
  else if fails (c_lab_theta_k2 cut) lab_theta_k2 then false
  else if fails (c_lab_theta_h cut) lab_theta_h then false
  else true.
(** cut.cpp 355-375. [k_0_bar] divides by [mx], which is at least the threshold mass once [valid_rad] passed. *)
Definition valid_cut_rad (cut : cuts_rad) (r : kinrad) : bool :=
  let lab_mom_k := rk_0 r in
  let lab_theta_k := eacos (ediv (Fin (rS r - 2 * sq (rM r) * rz_1 r)) (esqrt (Fin (rlambda_S r)))) in
  if negb (valid_rad r) then false
  else if fails (d_tau cut) (Fin (rtau r)) then false
  else if fails (d_phi_k cut) (Fin (rphi_k r)) then false
  else if fails (d_R cut) (Fin (rR r)) then false
  else if fails (d_k_0_bar cut) (ediv (Fin ((1 + rtau r - rmu r) * rR r)) (Fin (2 * rmx r))) then false
  else if fails (d_lab_mom_k cut) (Fin lab_mom_k) then false
  else if fails (d_lab_theta_k cut) lab_theta_k then false
  else true.
(** cut.cpp 377-385 *)
Definition valid_cut_both (cut : cuts) (cut_rad : cuts_rad) (r : kinrad) : bool :=
  if negb (valid_cut cut (project r)) then false
  else if negb (valid_cut_rad cut_rad r) then false
  else true.

(** map.hpp 122-129 on a [Bound]; [dom] tells where the map's [u] is finite. [None]: an end of the interval is NaN
    or infinite, or is mapped to a non-finite [u]; the coordinate or its Jacobian is then NaN or infinite. *)
Definition apply_map_b (t : transform) (dom : R -> bool) (p : R) (b : bound) : option (R * R) :=
  match bmin b, bmax b with
  | Fin lo, Fin hi => if dom lo && dom hi then apply_map t p lo hi else None
  | _, _ => None
  end.
Definition anywhere (x : R) : bool := true.
(** map.hpp 27: division by [x + offset]. *)
Definition inverse_dom (offset x : R) : bool := negb (reqb (x + offset) 0).
(** map.hpp 40: logarithm of [x + offset]. *)
Definition log_dom (offset x : R) : bool := rltb 0 (x + offset).
(** map.hpp 67, 87: division by the width(s). *)
Definition width_dom (w x : R) : bool := negb (reqb w 0).

(** cut.cpp 387-410, for limits given by functions (the two overloads differ only in these).
    [None]: some coordinate or the Jacobian is not finite. *)
Definition sample6 (xb : bound) (yb : R -> bound) (zb : R -> R -> bound) (ptb : R -> R -> R -> bound)
  (phib phib' : bound) (point : nat -> R) : option (phase_space * R) :=
  match apply_map_b (Inverse X_CUTOFF) (inverse_dom X_CUTOFF) (point 0%nat) xb with
  | None => None
  | Some (x, jac_x) =>
  match apply_map_b (Inverse 0) (inverse_dom 0) (point 1%nat) (yb x) with
  | None => None
  | Some (y, jac_y) =>
  match apply_map_b Linear anywhere (point 2%nat) (zb x y) with
  | None => None
  | Some (z, jac_z) =>
  match apply_map_b (Decay PH_T_SQ_DECAY_WIDTH) anywhere (point 3%nat) (ptb x y z) with
  | None => None
  | Some (ph_t_sq, jac_ph_t_sq) =>
  match apply_map_b Linear anywhere (point 4%nat) phib with
  | None => None
  | Some (phi_h, jac_phi_h) =>
  match apply_map_b Linear anywhere (point 5%nat) phib' with
  | None => None
  | Some (phi, jac_phi) =>
    Some (PhaseSpace x y z ph_t_sq phi_h phi, jac_x * jac_y * jac_z * jac_ph_t_sq * jac_phi_h * jac_phi)
  end end end end end end.
Definition FULL_ANGLE : bound := mk_bound (Fin (- PI)) (Fin PI).
Definition take_space (ps : parts) (S : R) (point : nat -> R) : option (phase_space * R) :=
  sample6 (x_bound ps S) (y_bound ps S) (z_bound ps S) (ph_t_sq_bound ps S) FULL_ANGLE FULL_ANGLE point.
(** cut.cpp 412-423 *)
Definition take_kin (ps : parts) (S : R) (point : nat -> R) : option (kin * R) :=
  match take_space ps S point with
  | Some (sp, jac) => Some (make_kin ps S sp, jac)
  | None => None
  end.
(** cut.cpp 425-446. [None] also stands for the return value [false]; a NaN coordinate gives [false] because every
    comparison of [valid] with NaN fails. *)
Definition take_cut (cut : cuts) (ps : parts) (S : R) (point : nat -> R) : option (kin * R) :=
  match sample6 (x_bound_cut cut ps S) (y_bound_cut cut ps S) (z_bound_cut cut ps S) (ph_t_sq_bound_cut cut ps S)
          (if valid (c_phi_h cut) then c_phi_h cut else FULL_ANGLE)
          (if valid (c_phi cut) then c_phi cut else FULL_ANGLE) point with
  | Some (sp, jac) => let k := make_kin ps S sp in if valid_cut cut k then Some (k, jac) else None
  | None => None
  end.

Record phase_space_rad := PhaseSpaceRad { w_base : phase_space; w_tau : R; w_phi_k : R; w_R : R }.
(** cut.cpp 500-537 and 552-583, for limits given by functions. *)
Definition sample3 (k : kin) (taub : bound) (phib : bound) (Rb : R -> R -> bound) (point : nat -> R)
  : option (R * R * R * R) :=
  let tau_p1 := kQ_sq k / kX k in
  let tau_pr := - (1 - ky k) in
  let tau_lim1 := sqrt 2 * klambda_1_sqrt k * km k / sq (kX k) in
  let tau_limr := sq (1 - ky k) in
  let phi_k_lim := klambda_Y_sqrt k / klambda_1_sqrt k / sqrt 2 * km k in
  let R_trans := (kmx_sq k - sq (kMth k)) / (1 + kS_x k / sq (kM k) - kph_l k / kM k) / 128 in
  if reqb (kX k) 0 || reqb (klambda_1_sqrt k) 0 || reqb (1 + kS_x k / sq (kM k) - kph_l k / kM k) 0 then None else
  match apply_map_b (Sigmoid2 tau_p1 tau_lim1 tau_pr tau_limr) (width_dom (tau_lim1 * tau_limr)) (point 0%nat) taub with
  | None => None
  | Some (tau, jac_tau) =>
  match apply_map_b (Sigmoid 0 phi_k_lim) (width_dom phi_k_lim) (point 1%nat) phib with
  | None => None
  | Some (phi_k, jac_phi_k) =>
  match apply_map_b (Log R_trans) (log_dom R_trans) (point 2%nat) (Rb tau phi_k) with
  | None => None
  | Some (R, jac_R) => Some (tau, phi_k, R, jac_tau * jac_phi_k * jac_R)
  end end end.
(** cut.cpp 500-537 *)
Definition take3_space (k : kin) (point : nat -> R) : option (phase_space_rad * R) :=
  match sample3 k (tau_bound k) FULL_ANGLE (R_bound k) point with
  | Some (tau, phi_k, R, jac) =>
    Some (PhaseSpaceRad (PhaseSpace (kx k) (ky k) (kz k) (kph_t_sq k) (kphi_h k) (kphi k)) tau phi_k R, jac)
  | None => None
  end.
(** cut.cpp 539-550 *)
Definition take3_kin (k : kin) (point : nat -> R) : option (kinrad * R) :=
  match take3_space k point with
  | Some (w, jac) => Some (make_rad k (w_tau w) (w_phi_k w) (w_R w), jac)
  | None => None
  end.
(** cut.cpp 552-583 *)
Definition take3_cut (cut : cuts_rad) (k : kin) (point : nat -> R) : option (kinrad * R) :=
  match sample3 k (tau_bound_cut cut k) (if valid (d_phi_k cut) then d_phi_k cut else FULL_ANGLE) (R_bound_cut cut k) point with
  | Some (tau, phi_k, R, jac) =>
    let r := make_rad k tau phi_k R in if valid_cut_rad cut r then Some (r, jac) else None
  | None => None
  end.
(** [point + 6] *)
Definition tail6 (point : nat -> R) : nat -> R := fun i => point (6 + i)%nat.
(** cut.cpp 448-463 *)
Definition take9_space (ps : parts) (S : R) (point : nat -> R) : option (phase_space_rad * R) :=
  match take_kin ps S point with
  | Some (k, jac) =>
    match take3_space k (tail6 point) with Some (w, jac_rad) => Some (w, jac_rad * jac) | None => None end
  | None => None
  end.
(** cut.cpp 465-480 *)
Definition take9_kin (ps : parts) (S : R) (point : nat -> R) : option (kinrad * R) :=
  match take_kin ps S point with
  | Some (k, jac) =>
    match take3_kin k (tail6 point) with Some (r, jac_rad) => Some (r, jac_rad * jac) | None => None end
  | None => None
  end.
(** cut.cpp 482-498 *)
Definition take9_cut (cut : cuts) (cut_rad : cuts_rad) (ps : parts) (S : R) (point : nat -> R) : option (kinrad * R) :=
  match take_cut cut ps S point with
  | Some (k, jac) =>
    match take3_cut cut_rad k (tail6 point) with Some (r, jac_rad) => Some (r, jac_rad * jac) | None => None end
  | None => None
  end.
