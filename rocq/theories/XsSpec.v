(** The semi-inclusive cross-section written as a sum over azimuthal modulations: one structure function times one
    harmonic of the hadron azimuth phi_h and of the target-spin azimuth phi_S, each with the flux of the exchanged
    photon that feeds it. Textbook formula: Bacchetta et al., JHEP 02 (2007) 093, eqs. (2.7)-(2.9). *)
From Coq Require Import Reals.
From Verif Require Import VecModel SfModel.
Local Open Scope R_scope.

(** Photon fluxes: transverse, longitudinal, transverse-transverse and longitudinal-transverse interference for an
    unpolarised lepton; longitudinal-transverse interference and transverse for a polarised one. *)
Record fluxes := Fluxes { f_T : R; f_L : R; f_TT : R; f_LT : R; f_LT' : R; f_T' : R }.

(** S_L, S_T, phi_S: longitudinal and transverse target polarization and azimuth of the latter. *)
Definition modulations (f : fluxes) (F : sf_name -> R) (lambda_e S_L S_T phi_h phi_S : R) : R :=
  f_T f * F F_UUT + f_L f * F F_UUL + f_LT f * cos phi_h * F F_UU_cos_phih + f_TT f * cos (2 * phi_h) * F F_UU_cos_2phih
  + lambda_e * (f_LT' f * sin phi_h * F F_LU_sin_phih)
  + S_L * (f_LT f * sin phi_h * F F_UL_sin_phih + f_TT f * sin (2 * phi_h) * F F_UL_sin_2phih)
  + S_L * lambda_e * (f_T' f * F F_LL + f_LT' f * cos phi_h * F F_LL_cos_phih)
  + S_T * (sin (phi_h - phi_S) * (f_T f * F F_UTT_sin_phih_m_phis + f_L f * F F_UTL_sin_phih_m_phis)
           + f_TT f * sin (phi_h + phi_S) * F F_UT_sin_phih_p_phis
           + f_TT f * sin (3 * phi_h - phi_S) * F F_UT_sin_3phih_m_phis
           + f_LT f * sin phi_S * F F_UT_sin_phis
           + f_LT f * sin (2 * phi_h - phi_S) * F F_UT_sin_2phih_m_phis)
  + S_T * lambda_e * (f_T' f * cos (phi_h - phi_S) * F F_LT_cos_phih_m_phis
           + f_LT' f * cos phi_S * F F_LT_cos_phis
           + f_LT' f * cos (2 * phi_h - phi_S) * F F_LT_cos_2phih_m_phis).

Definition gamma_sq (x Q_sq M : R) : R := (2 * x * M) ^ 2 / Q_sq.
(** Massless lepton: ratio of longitudinal and transverse photon flux. *)
Definition epsilon (y g2 : R) : R := (1 - y - g2 * y ^ 2 / 4) / (1 - y + y ^ 2 / 2 + g2 * y ^ 2 / 4).
Definition textbook_fluxes (eps : R) : fluxes :=
  Fluxes 1 eps eps (sqrt (2 * eps * (1 + eps))) (sqrt (2 * eps * (1 - eps))) (sqrt (1 - eps ^ 2)).
Definition textbook_sidis (alpha x y Q_sq M : R) (F : sf_name -> R) (lambda_e S_L S_T phi_h phi_S : R) : R :=
  let g2 := gamma_sq x Q_sq M in let eps := epsilon y g2 in
  alpha ^ 2 / (x * y * Q_sq) * (y ^ 2 / (2 * (1 - eps))) * (1 + g2 / (2 * x))
  * modulations (textbook_fluxes eps) F lambda_e S_L S_T phi_h phi_S.

(** Lepton of mass m, beam energy fixed by S = 2 p.k1 (lambda_S = S^2 - 4 M^2 m^2). *)
Definition massive_fluxes (y g2 d S lambda_S lambda_Y_sqrt : R) : fluxes :=
  let kappa := (2 - y) ^ 2 / (y ^ 2 * (1 + g2)) in
  let b := S / sqrt lambda_S in
  Fluxes ((kappa + 1 - d) / 2) ((kappa - 1) / 2) ((kappa - 1 - d) / 2) (sqrt (kappa * (kappa - 1 - d)))
    (b * sqrt (kappa - 1 - d)) (b * (sqrt kappa - d * lambda_Y_sqrt / (2 * S))).
Definition massive_sidis (alpha x y Q_sq M m : R) (F : sf_name -> R) (lambda_e S_L S_T phi_h phi_S : R) : R :=
  let g2 := gamma_sq x Q_sq M in let S := Q_sq / (x * y) in
  let lambda_S := S ^ 2 - 4 * M ^ 2 * m ^ 2 in
  alpha ^ 2 / (x * y * Q_sq) * (y ^ 2 / 2) * (1 + g2 / (2 * x)) * (S ^ 2 / lambda_S)
  * modulations (massive_fluxes y g2 (4 * m ^ 2 / Q_sq) S lambda_S (S * y * sqrt (1 + g2))) F lambda_e S_L S_T phi_h phi_S.

(** A cross-section as a function of the beam polarization and of the target polarization vector is made of four
    parts: unpolarised, target, beam, and double polarization. *)
Definition four_parts (uu : R) (up : vec3) (lu : R) (lp : vec3) (lambda_e : R) (eta : vec3) : R :=
  uu + (x3 up * x3 eta + y3 up * y3 eta + z3 up * z3 eta)
  + lambda_e * (lu + (x3 lp * x3 eta + y3 lp * y3 eta + z3 lp * z3 eta)).
(** The vector of the soft-photon factor: k1/(k.k1) - k2/(k.k2) for a photon k. *)
Definition eikonal (k1 k2 k : vec4) : vec4 := sub4 (scale4 (/ dot4 k k1) k1) (scale4 (/ dot4 k k2) k2).
