(** Model of src/frame.cpp and of the Initial, Final and FinalRad structures of kinematics.hpp over the real numbers.
    [None]: a NaN or infinite result (boost to a direction that is not time-like, momentum below threshold). *)
From Coq Require Import Reals.
From Verif Require Import ExtModel MathModel ParticleModel VecModel TransModel FrameBase KinModel.
Local Open Scope R_scope.

(** kinematics.hpp 576-612 *)
Record initial := Initial { in_target : nucleus; in_beam : lepton; in_p : vec4; in_k1 : vec4 }.
(** kinematics.hpp 588-594 *)
Definition initial_momenta (ps : parts) (p k1 : vec3) : option initial :=
  match from_length_and_r (a_M ps) p, from_length_and_r (a_m ps) k1 with
  | Some p, Some k1 => Some (Initial (a_target ps) (a_beam ps) p k1)
  | _, _ => None
  end.
(** kinematics.hpp 596-603 *)
Definition initial_energy (ps : parts) (beam_energy : R) : option initial :=
  match from_length_and_t (a_m ps) beam_energy VEC3_Z with
  | Some k1 => Some (Initial (a_target ps) (a_beam ps) (V4 (a_M ps) 0 0 0) k1)
  | None => None
  end.
(** kinematics.hpp 605-611 *)
Definition initial_kin (k : kin) : option initial :=
  match from_length_and_t (km k) (kS k / (2 * kM k)) VEC3_Z with
  | Some k1 => Some (Initial (ktarget k) (kbeam k) (V4 (kM k) 0 0 0) k1)
  | None => None
  end.

(** frame.cpp 14-33 *)
Definition frame_y_axis (pol dir : vec3) : vec3 :=
  let y := perp3 pol dir in
  let y := if reqb (norm_sq3 y) 0 then cross3 VEC3_X dir else y in
  let y := if reqb (norm_sq3 y) 0 then cross3 VEC3_Y dir else y in
  if reqb (norm_sq3 y) 0 then cross3 VEC3_Z dir else y.
Definition target_from_lab (init : initial) (pol : vec3) : option tr4 :=
  match transform_to4 (in_p init) VEC4_T with
  | None => None
  | Some boost =>
    let k1 := r4 (tapp4 boost (in_k1 init)) in
    Some (tmul4 (lift4 (rotate_basis3 k1 (frame_y_axis pol (unit3 k1)))) boost)
  end.
(** frame.cpp 34-36 *)
Definition lab_from_target (init : initial) (pol : vec3) : option tr4 :=
  match target_from_lab init pol with Some t => Some (transpose4 t) | None => None end.
(** frame.cpp 41-54 *)
Definition lepton_from_target (k : kin) : tr3 :=
  let q_norm := klambda_Y_sqrt k / (2 * kM k) in
  let ez := scale3 (1 / q_norm) (V3 (- kq_t k * ksin_phi_q k) (kq_t k * kcos_phi_q k) (kq_l k)) in
  let ey := V3 (kcos_phi_q k) (ksin_phi_q k) 0 in
  let ex := scale3 (1 / q_norm) (V3 (kq_l k * ksin_phi_q k) (- kq_l k * kcos_phi_q k) (kq_t k)) in
  T3 ex ey ez.
(** frame.cpp 38-40 *)
Definition target_from_lepton (k : kin) : tr3 := transpose3 (lepton_from_target k).
(** frame.cpp 56-63 *)
Definition target_from_hadron (k : kin) : tr3 :=
  tmul3 (target_from_lepton k) (mk_tr3 (kcos_phi_h k) (- ksin_phi_h k) 0 (ksin_phi_h k) (kcos_phi_h k) 0 0 0 1).
(** frame.cpp 64-66 *)
Definition hadron_from_target (k : kin) : tr3 := transpose3 (target_from_hadron k).
(** frame.cpp 68-78 *)
Definition target_from_virt_photon (k : kin) : tr4 :=
  let q_0_rel := kq_0 k / kQ k in
  let q_r_rel := klambda_Y_sqrt k / (2 * kM k * kQ k) in
  tmul4 (lift4 (target_from_hadron k)) (mk_tr4 q_r_rel 0 0 q_0_rel 0 1 0 0 0 0 1 0 q_0_rel 0 0 q_r_rel).
(** frame.cpp 79-81 *)
Definition virt_photon_from_target (k : kin) : tr4 := transpose4 (target_from_virt_photon k).
(** frame.cpp 83-90 *)
Definition target_from_real_photon (r : kinrad) : tr3 :=
  tmul3 (target_from_lepton (project r)) (mk_tr3 (rcos_phi_k r) (- rsin_phi_k r) 0 (rsin_phi_k r) (rcos_phi_k r) 0 0 0 1).
(** frame.cpp 91-93 *)
Definition real_photon_from_target (r : kinrad) : tr3 := transpose3 (target_from_real_photon r).
(** frame.cpp 103-137 *)
Definition shift_from_hadron (r : kinrad) : tr3 :=
  let M := rM r in let R := rR r in
  let lY := rlambda_Y r in let lYs := rlambda_Y_sqrt r in let slY := rshift_lambda_Y r in let slYs := rshift_lambda_Y_sqrt r in
  let lRY := rlambda_RY r in let lRV := rlambda_RV r in let lV := rlambda_V r in let lH := rlambda_H r in
  let ph_t := rph_t r in let sph_t := rshift_ph_t r in let vol := rvol_phi_hk r in
  let ex := V3
    (1 / (slY * sph_t) * (lY * ph_t - 1 / (4 * sq M * lY * ph_t) * ((sq R - 2 * lRY) * (sq lV - lH * lY) + (lV - lRV) * (lRY * lV - lRV * lY))))
    (- 1 / (lYs * slY * ph_t * sph_t) * (2 * (lV - lRV) * vol))
    (1 / (2 * M * lYs * slY * sph_t) * ((sq R - lRY) * lV + (lY - lRY) * lRV)) in
  let ey := V3
    (1 / (lY * slYs * ph_t * sph_t) * (2 * vol * lV))
    (1 / (slYs * sph_t) * (lYs * ph_t + 1 / (4 * sq M * lYs * ph_t) * (lV * lRV - lH * lRY)))
    (- 1 / (lYs * slYs * sph_t) * (4 * M * vol)) in
  let ez := V3
    (1 / (2 * M * lY * slYs * ph_t) * (lRY * lV - lRV * lY))
    (1 / (lYs * slYs * ph_t) * (4 * M * vol))
    (1 / slYs * (lYs - lRY / lYs)) in
  T3 ex ey ez.
(** frame.cpp 138-140 *)
Definition hadron_from_shift (r : kinrad) : tr3 := transpose3 (shift_from_hadron r).
(** frame.cpp 95-101 *)
Definition target_from_shift (r : kinrad) : tr3 := tmul3 (target_from_hadron (project r)) (hadron_from_shift r).
Definition shift_from_target (r : kinrad) : tr3 := transpose3 (target_from_shift r).

(** kinematics.hpp 619-635, kinematics.cpp 458-473 *)
Record final := Final { fin_beam : lepton; fin_hadron : hadron; fin_q : vec4; fin_k2 : vec4; fin_ph : vec4 }.
Definition make_final (init : initial) (pol : vec3) (k : kin) : option final :=
  match lab_from_target init pol with
  | None => None
  | Some lt =>
    let ll := tmul4 lt (lift4 (target_from_lepton k)) in
    let lh := tmul4 lt (lift4 (target_from_hadron k)) in
    Some {| fin_beam := kbeam k; fin_hadron := khadron k;
            fin_q := tapp4 ll (V4 (kq_0 k) 0 0 (klambda_Y_sqrt k / (2 * kM k)));
            fin_k2 := tapp4 lt (V4 (kk2_0 k) (kk2_t k * ksin_phi k) (kk2_t k * kcos_phi k) (kk2_l k));
            fin_ph := tapp4 lh (V4 (kph_0 k) (kph_t k) 0 (kph_l k)) |}
  end.
(** kinematics.hpp 642-660, kinematics.cpp 475-499 *)
Record final_rad := FinalRad { finr_beam : lepton; finr_hadron : hadron; finr_q : vec4; finr_k2 : vec4; finr_ph : vec4; finr_k : vec4 }.
Definition make_final_rad (init : initial) (pol : vec3) (r : kinrad) : option final_rad :=
  match lab_from_target init pol with
  | None => None
  | Some lt =>
    let ll := tmul4 lt (lift4 (target_from_lepton (project r))) in
    Some {| finr_beam := rbeam r; finr_hadron := rhadron r;
            finr_q := tapp4 ll (V4 (rq_0 r) 0 0 (rlambda_Y_sqrt r / (2 * rM r)));
            finr_k2 := tapp4 lt (V4 (rk2_0 r) (rk2_t r * rsin_phi r) (rk2_t r * rcos_phi r) (rk2_l r));
            finr_ph := tapp4 ll (V4 (rph_0 r) (rph_t r * rcos_phi_h r) (rph_t r * rsin_phi_h r) (rph_l r));
            finr_k := tapp4 ll (V4 (rk_0 r) (rk_t r * rcos_phi_k r) (rk_t r * rsin_phi_k r) (rk_l r)) |}
  end.
