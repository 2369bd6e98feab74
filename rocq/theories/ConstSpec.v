(** Specification for C100. *)
From Coq Require Import Reals ZArith.
From Verif Require Import ParticleModel ConstModel.
Local Open Scope R_scope.

(** Long doubles that occur: wider than double by at least eleven bits, or the same as double. *)
Definition long_double (p emin : Z) : Prop := (64 <= p /\ emin + p <= -20 \/ p = 53 /\ emin = -1074)%Z.
(** What the mathematical constants stand for. *)
Definition meaning (c : const) : option R := match c with PI_ => Some PI | E_NUM => Some (exp 1) | SQRT_2 => Some (sqrt 2) | _ => None end.
(** Masses in MeV and their uncertainties (Particle Data Group 2018). *)
Definition measured_lepton (l : lepton) : R * R :=
  match l with ParticleModel.E_ => (0.5109989461, 0.0000000031) | MU => (105.6583745, 0.0000024) | TAU => (1776.86, 0.12) | MASSLESS_E => (0, 0) end.
Definition measured_nucleus (n : nucleus) : R * R :=
  match n with P_ => (938.2720813, 0.0000058) | N_ => (939.5654133, 0.0000058) | D_ => (1875.612928, 0.000012) end.
Definition measured_hadron (h : hadron) : R * R :=
  match h with
  | PI_0 => (134.9770, 0.0005) | PI_P | PI_M => (139.57061, 0.00024) | K_0 => (497.611, 0.013) | K_P | K_M => (493.677, 0.016)
  | PHI => (1019.461, 0.016) | J_PSI => (3096.900, 0.006)
  end.
Definition agrees (mass : R) (m : R * R) : Prop := Rabs (1000 * mass - fst m) <= snd m.
(** Antiparticle among the hadrons (the neutral kaon's is not in the list). *)
Definition anti (h : hadron) : option hadron := match h with PI_P => Some PI_M | PI_M => Some PI_P | K_P => Some K_M | K_M => Some K_P | K_0 => None | h => Some h end.
