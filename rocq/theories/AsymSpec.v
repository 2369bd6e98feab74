(** Azimuthal moments of a cross-section that depends on the target polarization, written as integrals. *)
From Coq Require Import Reals ZArith Bool.
From Coquelicot Require Import Coquelicot.
From Verif Require Import VecModel SfModel XsSpec.
Local Open Scope R_scope.

(** Target fully polarised transversely, spin azimuth phi_S, hadron azimuth phi_h: components along the axes that
    turn with the hadron. *)
Definition transverse (phi_S phi_h : R) : vec3 := V3 (cos (phi_S - phi_h)) (sin (phi_S - phi_h)) 0.
(** The sine with integer coefficients and an offset in quarter-circles. *)
Definition weight (a b offset : Z) (phi_S phi_h : R) : R := sin (IZR a * phi_S + IZR b * phi_h + IZR offset * (PI / 2)).
(** Weighted integral over the spin azimuth of the polarised minus the unpolarised cross-section. *)
Definition spin_moment (a b offset : Z) (phi_h : R) (sigma : vec3 -> R) : R :=
  RInt (fun phi_S => weight a b offset phi_S phi_h * (sigma (transverse phi_S phi_h) - sigma (V3 0 0 0))) (- PI) PI.

(** Amplitude of the harmonic sin(a phi_S + b phi_h) in the textbook cross-section of [XsSpec.modulations]. *)
Definition amplitude (f : fluxes) (F : sf_name -> R) (a b : Z) : R :=
  if ((a =? -1) && (b =? 1))%Z then f_T f * F F_UTT_sin_phih_m_phis + f_L f * F F_UTL_sin_phih_m_phis
  else if ((a =? 1) && (b =? 1))%Z then f_TT f * F F_UT_sin_phih_p_phis
  else if ((a =? -1) && (b =? 3))%Z then f_TT f * F F_UT_sin_3phih_m_phis
  else if ((a =? 1) && (b =? 0))%Z then f_LT f * F F_UT_sin_phis
  else if ((a =? -1) && (b =? 2))%Z then f_LT f * F F_UT_sin_2phih_m_phis
  else 0.
(** Amplitude of the part without azimuthal dependence. *)
Definition flat (f : fluxes) (F : sf_name -> R) : R := f_T f * F F_UUT + f_L f * F F_UUL.
(** A number, 0 in place of not-a-number. *)
Definition or_zero (o : option R) : R := match o with Some v => v | None => 0 end.
(** Photon fluxes of an event with lepton mass m, target mass M, S = 2 p.k1: those of [XsSpec.massive_sidis]. *)
Definition event_fluxes (M m S x y : R) : fluxes :=
  let Q_sq := S * x * y in let g2 := gamma_sq x Q_sq M in let S' := Q_sq / (x * y) in
  massive_fluxes y g2 (4 * m ^ 2 / Q_sq) S' (S' ^ 2 - 4 * M ^ 2 * m ^ 2) (S' * y * sqrt (1 + g2)).
