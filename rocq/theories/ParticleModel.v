(** Model of include/sidis/particle.hpp and src/particle.cpp; masses from include/sidis/constant.hpp. *)
From Coq Require Import Reals Bool.
From Verif Require Import ExtModel.
Local Open Scope R_scope.

(** particle.hpp 17-22 *)
Inductive lepton := E_ | MU | TAU | MASSLESS_E.
(** particle.hpp 25-29 *)
Inductive nucleus := P_ | N_ | D_.
(** particle.hpp 32-41 *)
Inductive hadron := PI_0 | PI_P | PI_M | K_0 | K_P | K_M | PHI | J_PSI.

(** particle.hpp 77-89; constant.hpp 25-27 (exact decimals, no rounding to double) *)
Definition mass_l (l : lepton) : R :=
  match l with
  | E_ => 0.0005109989461
  | MU => 0.1056583745
  | TAU => 1.77686
  | MASSLESS_E => 0
  end.
(** particle.hpp 90-100; constant.hpp 29-31 *)
Definition mass_n (n : nucleus) : R :=
  match n with P_ => 0.9382720813 | N_ => 0.939565413 | D_ => 1.875612928 end.
(** particle.hpp 101-120; constant.hpp 33-38 *)
Definition mass_h (h : hadron) : R :=
  match h with
  | PI_0 => 0.1349770
  | PI_P | PI_M => 0.13957061
  | K_0 => 0.497611
  | K_P | K_M => 0.493677
  | PHI => 1.019461
  | J_PSI => 3.096900
  end.
(** particle.hpp 122-155 *)
Definition charge_l (l : lepton) : R := -1.
Definition charge_n (n : nucleus) : R := match n with P_ | D_ => 1 | N_ => 0 end.
Definition charge_h (h : hadron) : R :=
  match h with PI_0 | K_0 | PHI | J_PSI => 0 | PI_P | K_P => 1 | PI_M | K_M => -1 end.

(** particle.hpp 45-67 *)
Record particles := Particles {
  target : nucleus; beam : lepton; phadron : hadron;
  p_M : ext; p_m : ext; p_mh : ext; p_Mth : ext }.

(** Result of a constructor that may throw [MassThresholdOutOfRange(Mth, min, max)]. *)
Inductive ctor_result := Constructed (p : particles) | ThresholdOutOfRange (mth mn mx : ext).

(** particle.cpp 8-23 *)
Definition make_particles (t : nucleus) (b : lepton) (h : hadron) (mth : ext) : ctor_result :=
  let M := Fin (mass_n t) in
  let m := Fin (mass_l b) in
  let mh := Fin (mass_h h) in
  if negb (egeb mth M) || negb (eleb mth (eadd M mh))
  then ThresholdOutOfRange mth M (eadd M mh)
  else Constructed (Particles t b h M m mh mth).
