(** Model of src/asymmetry.cpp over the real numbers. The numerical integrators (extra/integrate.hpp, cubature and GSL) are parameters: a functional for one dimension and one for the four-dimensional unit cube, each returning
    a value and an error estimate. *)
From Coq Require Import Reals ZArith Bool.
From Verif Require Import ExtModel MathModel BoundModel VecModel TransModel FrameBase KinModel SfModel CutModel LepModel HadModel XsModel.
Local Open Scope R_scope.

(** integ_params.hpp 16-19 *)
Record EstErr := mkEstErr { est_val : R; est_err : R }.
(** [std::hypot] *)
Definition hypot (a b : R) : R := sqrt (a * a + b * b).

Section Asym.
Context (dilog : R -> R) (sf_set : SfModel.sf_set sf_point).
(** phenom.cpp 83-85: [Phenom(kin)] depends on the event through Q^2 only; the functions of Q^2 are a parameter. *)
Context (phen : R -> phenom).
Definition Phenom_of (k : kin) : phenom := phen (kQ_sq k).
Context (integrate1 : (R -> R) -> R -> R -> EstErr) (integrate4 : ((nat -> R) -> R) -> EstErr).
Context (ps : parts) (S x y z ph_t_sq : R).

(** The event with hadron azimuth phi_h, lepton azimuth 0: asymmetry.cpp 35, 40, 62, 77, 122, 129, 147, 161. *)
Definition kin_at_phi (phi_h : R) : kin := make_kin ps S (PhaseSpace x y z ph_t_sq phi_h 0).

(** The infinite photon cutoff of asymmetry.cpp 63 and 148: any cutoff that is positive and not below the largest
    photon energy [k0_max] of cross_section.cpp 475-495 takes the branch that infinity takes. *)
Definition cutoff_inf (k : kin) : R := Rmax 1 ((kmx_sq k - sq (kMth k)) / (2 * kmx k)).

(** asymmetry.cpp 44-47, 66-69, 93-96; [int * Real] and [0.5 * int * PI] promote the integer. *)
Definition eta_h (eta_1 : R) (phi_h_coeff_1 offset_1 : Z) (eta_2 : R) (phi_h_coeff_2 offset_2 : Z) (phi_h : R) : vec3 :=
  V3 (eta_1 * sin (IZR phi_h_coeff_1 * phi_h + 1 / 2 * IZR offset_1 * PI))
     (eta_2 * sin (IZR phi_h_coeff_2 * phi_h + 1 / 2 * IZR offset_2 * PI))
     0.

(** asymmetry.cpp 35-36, hadronic_coeff.cpp 77-82, 368-371 *)
Definition had_0_up : had_up :=
  mk_had_up (make_had_base_ul (kin_at_phi 0) (sf_base_ul sf_set (point_of (kin_at_phi 0))))
    (make_had_base_ut (kin_at_phi 0) (sf_base_ut sf_set (point_of (kin_at_phi 0)))).
(** asymmetry.cpp 39-50 *)
Definition ut_born_integrand (eta : R -> vec3) (phi_h : R) : R :=
  let k := kin_at_phi phi_h in
  let b := Born k (Phenom_of k) in
  let e := eta phi_h in
  x3 e * born_base_ut1 b (LepBornBaseUP k) (hup_ut had_0_up) + y3 e * born_base_ut2 b (LepBornBaseUU k) (hup_ut had_0_up).
(** asymmetry.cpp 61-71; no value (never the case here) counts as 0 *)
Definition ut_nrad_integrand (eta : R -> vec3) (phi_h : R) : R :=
  let k := kin_at_phi phi_h in
  match Nrad dilog k (Phenom_of k) (cutoff_inf k) with
  | Some b =>
    let e := eta phi_h in
    x3 e * nrad_ir_base_ut1 b (LepNradBaseUP k) (hup_ut had_0_up) + y3 e * nrad_ir_base_ut2 b (LepNradBaseUU k) (hup_ut had_0_up)
  | None => 0
  end.
(** asymmetry.cpp 75, 82: the last three coordinates *)
Definition tail1 (p : nat -> R) : nat -> R := fun i => p (1 + i)%nat.
(** [Bound phi_h_b(-PI, PI)] and its [lerp] and [size]: bound.hpp 48-50, 56-58 *)
Definition lerp_phi (t : R) : R := (1 - t) * - PI + t * PI.
Definition size_phi : R := PI - - PI.
(** hadronic_coeff.cpp 444-447, 495-509 *)
Definition HadRadBaseUP (k : kinrad) : had_rad_up := make_had_rad_base_up k (sf_base_up sf_set (shift_point_of k)).
Definition HadRadFBaseUP (k : kinrad) (had_0 : had_up) : option had_rad_f_up :=
  let kin_0 := project k in
  match choose k with
  | Use_deriv delta_R =>
    Some (make_had_rad_f_base_up_deriv (rR k) delta_R (HadRadBaseUP k) had_0
      (HadRadBaseUP (make_rad kin_0 (rtau k) (rphi_k k) delta_R)) (HadRadBaseUP (make_rad kin_0 (rtau k) (rphi_k k) (2 * delta_R))))
  | Use_diff => Some (make_had_rad_f_base_up_diff (rR k) (HadRadBaseUP k) had_0)
  | No_value => None
  end.
(** asymmetry.cpp 74-102 *)
Definition ut_rad_integrand (eta : R -> vec3) (p : nat -> R) : R :=
  let phi_h := lerp_phi (p 0%nat) in
  let k := kin_at_phi phi_h in
  match take3_kin k (tail1 p) with
  | None => 0
  | Some (kin_rad, jac_0) =>
    let jac := jac_0 * size_phi in
    match HadRadFBaseUP kin_rad had_0_up with
    | Some had => jac * dot3 (eta phi_h) (rad_f_base_up (Rad kin_rad (Phenom_of k)) (LepRadBaseUU kin_rad) (LepRadBaseUP kin_rad) had)
    | None => 0
    end
  end.
(** asymmetry.cpp 27-110 *)
Definition ut_integ_h (eta_1 : R) (phi_h_coeff_1 offset_1 : Z) (eta_2 : R) (phi_h_coeff_2 offset_2 : Z) (include_rc : bool) : EstErr :=
  let eta := eta_h eta_1 phi_h_coeff_1 offset_1 eta_2 phi_h_coeff_2 offset_2 in
  if negb include_rc then integrate1 (ut_born_integrand eta) (- PI) PI
  else
    let nrad_ir_integ := integrate1 (ut_nrad_integrand eta) (- PI) PI in
    let rad_f_integ := integrate4 (ut_rad_integrand eta) in
    mkEstErr (est_val nrad_ir_integ + est_val rad_f_integ) (hypot (est_err nrad_ir_integ) (est_err rad_f_integ)).

(** asymmetry.cpp 122-125 *)
Definition had_0_uu : had_uu := make_had_base_uu (kin_at_phi 0) (sf_base_uu sf_set (point_of (kin_at_phi 0))).
(** asymmetry.cpp 129-134 *)
Definition uu_born_integrand (phi_h : R) : R :=
  let k := kin_at_phi phi_h in born_base_uu (Born k (Phenom_of k)) (LepBornBaseUU k) had_0_uu.
(** asymmetry.cpp 146-151 *)
Definition uu_nrad_integrand (phi_h : R) : R :=
  let k := kin_at_phi phi_h in
  match Nrad dilog k (Phenom_of k) (cutoff_inf k) with
  | Some b => nrad_ir_base_uu b (LepNradBaseUU k) had_0_uu
  | None => 0
  end.
(** asymmetry.cpp 155-176, hadronic_coeff.cpp 481-494 (the same body as 539-552) *)
Definition uu_rad_integrand (p : nat -> R) : R :=
  let phi_h := lerp_phi (p 0%nat) in
  let k := kin_at_phi phi_h in
  match take3_kin k (tail1 p) with
  | None => 0
  | Some (kin_rad, jac_0) =>
    let jac := jac_0 * size_phi in
    match HadRadFUU sf_set kin_rad (mk_HadUU had_0_uu) with
    | Some had => jac * rad_f_base_uu (Rad kin_rad (Phenom_of k)) (LepRadBaseUU kin_rad) (HFuu_uu had)
    | None => 0
    end
  end.
(** asymmetry.cpp 113-180 *)
Definition uu_integ (include_rc : bool) : EstErr :=
  if negb include_rc then
    let born_integ := integrate1 uu_born_integrand (- PI) PI in
    mkEstErr (2 * PI * est_val born_integ) (2 * PI * est_err born_integ)
  else
    let nrad_ir_integ := integrate1 uu_nrad_integrand (- PI) PI in
    let rad_f_integ := integrate4 uu_rad_integrand in
    mkEstErr (2 * PI * (est_val nrad_ir_integ + est_val rad_f_integ))
      (2 * PI * hypot (est_err nrad_ir_integ) (est_err rad_f_integ)).

(** asymmetry.cpp 182-207; the sums of [int]s are taken without overflow *)
Definition ut_integ (phi_s_coeff phi_h_coeff offset : Z) (include_rc : bool) : EstErr :=
  if ((phi_s_coeff =? 0) || (phi_s_coeff >? 1) || (phi_s_coeff <? -1))%Z then mkEstErr 0 0
  else
    let integ_h := ut_integ_h (1 / 2) (phi_s_coeff + phi_h_coeff) offset
      (1 / 2 * IZR phi_s_coeff) (phi_s_coeff + phi_h_coeff) (offset + 1) include_rc in
    mkEstErr (2 * PI * est_val integ_h) (2 * PI * est_err integ_h).

(** [std::hypot] and [std::abs] on values that may be infinite or not-a-number *)
Definition ehypot (a b : ext) : ext := match a, b with
  | Fin u, Fin v => Fin (hypot u v)
  | PInf, _ | NInf, _ | _, PInf | _, NInf => PInf
  | _, _ => NaN end.
Definition eabs (a : ext) : ext := match a with Fin u => Fin (Rabs u) | PInf | NInf => PInf | NaN => NaN end.
(** asymmetry.cpp 209-232: value and error *)
Definition ut_asym (phi_s_coeff phi_h_coeff offset : Z) (include_rc : bool) : ext * ext :=
  let uu := uu_integ include_rc in
  let ut := ut_integ phi_s_coeff phi_h_coeff offset include_rc in
  let val := ediv (Fin (2 * est_val ut)) (Fin (est_val uu)) in
  let err := emul (ehypot (ediv (Fin (est_err ut)) (Fin (est_val ut))) (ediv (Fin (est_err uu)) (Fin (est_val uu)))) (eabs val) in
  (val, err).
(** asymmetry.cpp 234-240 and 241-247 *)
Definition sivers (include_rc : bool) : ext * ext := ut_asym (-1) 1 0 include_rc.
Definition collins (include_rc : bool) : ext * ext := ut_asym 1 1 0 include_rc.
End Asym.
