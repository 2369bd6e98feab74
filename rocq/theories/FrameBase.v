(** Small pieces used by the kinematics model: inputs, [std::fmod], [std::atan2] over the reals. *)
From Coq Require Import Reals ZArith.
From Verif Require Import ExtModel MathModel ParticleModel VecModel.
Local Open Scope R_scope.

(** particle.hpp 45-67 (part::Particles) with real masses *)
Record parts := Parts { a_target : nucleus; a_beam : lepton; a_hadron : hadron;
  a_M : R; a_m : R; a_mh : R; a_Mth : R }.
(** kinematics.hpp 21-36 *)
Record phase_space := PhaseSpace { s_x : R; s_y : R; s_z : R; s_ph_t_sq : R; s_phi_h : R; s_phi : R }.
(** kinematics.hpp 42-68 *)
Record phase_space_rad := PhaseSpaceRad { sr_x : R; sr_y : R; sr_z : R; sr_ph_t_sq : R; sr_phi_h : R; sr_phi : R;
  sr_tau : R; sr_phi_k : R; sr_R : R }.

(** Truncation toward zero and [std::fmod] *)
Definition rtrunc (x : R) : Z := if rleb 0 x then Int_part x else (- Int_part (- x))%Z.
Definition fmod (x y : R) : R := x - y * IZR (rtrunc (x / y)).
(** kinematics.cpp 23-28 *)
Definition wrap_angle (a : R) : R :=
  let r := fmod a (2 * PI) in
  if rltb PI r then r - 2 * PI else if rltb r (- PI) then r + 2 * PI else r.
(** [std::atan2], without the distinction between the two zeros *)
Definition atan2 (y x : R) : R :=
  if rltb 0 x then atan (y / x)
  else if rltb x 0 then (if rleb 0 y then atan (y / x) + PI else atan (y / x) - PI)
  else if rltb 0 y then PI / 2 else if rltb y 0 then - PI / 2 else 0.
