(** Model of include/sidis/constant.hpp and of the tables of include/sidis/particle.hpp as double values. [Real] is double,
    the default (CMakeLists.txt 68-73, numeric.hpp.in). The literals carry the suffix L: they are rounded to long double first and then to double. The long double
    of a platform has precision [p] and least exponent [emin]. *)
From Coq Require Import Reals ZArith String.
From Flocq Require Import Core.
From Verif Require Import TextModel ParticleModel.
Local Open Scope R_scope.

(** constant.hpp 14, 16, 18, 25-38 *)
Inductive const := PI_ | E_NUM | SQRT_2 | MASS_E | MASS_MU | MASS_TAU | MASS_P | MASS_N | MASS_D | MASS_PI_0 | MASS_PI | MASS_K_0 | MASS_K | MASS_PHI | MASS_J_PSI.
(** The digits of the literals, and how many of them follow the point. *)
Definition digits (c : const) : Z :=
  match c with
  | PI_ => 31415926535897932384626433832795028841971693993751058209749445923078164062862089986280348253421170679821480865132823066470938446
  | E_NUM => 27182818284590452353602874713526624977572470936999595749669676277240766303535475945713821785251664274274663919320030599218174136
  | SQRT_2 => 14142135623730950488016887242096980785696718753769480731766797379907324784621070388503875343276415727350138462309122970249248361
  | MASS_E => 5109989461
  | MASS_MU => 1056583745
  | MASS_TAU => 177686
  | MASS_P => 9382720813
  | MASS_N => 939565413
  | MASS_D => 1875612928
  | MASS_PI_0 => 1349770
  | MASS_PI => 13957061
  | MASS_K_0 => 497611
  | MASS_K => 493677
  | MASS_PHI => 1019461
  | MASS_J_PSI => 3096900
  end.
Definition decimals (c : const) : Z :=
  match c with
  | PI_ => 127
  | E_NUM => 127
  | SQRT_2 => 127
  | MASS_E => 13
  | MASS_MU => 10
  | MASS_TAU => 5
  | MASS_P => 10
  | MASS_N => 9
  | MASS_D => 9
  | MASS_PI_0 => 7
  | MASS_PI => 8
  | MASS_K_0 => 6
  | MASS_K => 6
  | MASS_PHI => 6
  | MASS_J_PSI => 6
  end.
Definition literal (c : const) : R := IZR (digits c) / IZR (10 ^ decimals c).
(** nearest long double, ties to even *)
Definition to_long (p emin : Z) (x : R) : R := round radix2 (FLT_exp emin p) ZnearestE x.
(** [Real const PI = 3.14...L] *)
Definition constant (p emin : Z) (c : const) : R := RN (to_long p emin (literal c)).
(** particle.hpp 77-120 *)
Definition lepton_mass (p emin : Z) (l : lepton) : R :=
  match l with ParticleModel.E_ => constant p emin MASS_E | MU => constant p emin MASS_MU | TAU => constant p emin MASS_TAU | MASSLESS_E => 0 end.
Definition nucleus_mass (p emin : Z) (n : nucleus) : R :=
  match n with P_ => constant p emin MASS_P | N_ => constant p emin MASS_N | D_ => constant p emin MASS_D end.
Definition hadron_mass (p emin : Z) (h : hadron) : R :=
  match h with
  | PI_0 => constant p emin MASS_PI_0
  | PI_P | PI_M => constant p emin MASS_PI
  | K_0 => constant p emin MASS_K_0
  | K_P | K_M => constant p emin MASS_K
  | PHI => constant p emin MASS_PHI
  | J_PSI => constant p emin MASS_J_PSI
  end.
(** particle.hpp 164-211 *)
Definition lepton_name (l : lepton) : string := match l with ParticleModel.E_ => "e" | MU => "μ" | TAU => "τ" | MASSLESS_E => "e" end.
Definition nucleus_name (n : nucleus) : string := match n with P_ => "p" | N_ => "n" | D_ => "d" end.
Definition hadron_name (h : hadron) : string :=
  match h with PI_0 => "π⁰" | PI_P => "π⁺" | PI_M => "π⁻" | K_0 => "K⁰" | K_P => "K⁺" | K_M => "K⁻" | PHI => "φ" | J_PSI => "J/ψ" end.
