(** C48, C81: asymmetries and their errors *)
From Coq Require Import Reals ZArith Bool Lra.
From Coquelicot Require Import Coquelicot.
From Verif Require Import ExtModel MathModel BoundModel BoundProofs VecModel TransModel FrameBase KinModel KinSpec SfModel CutModel LepModel HadModel
  XsModel XsSpec AsymModel AsymSpec AsymProofs AsymFinal KinProps XsProps.
Set Bullet Behavior "Strict Subproofs".
Local Open Scope R_scope.

(** The moment at every hadron azimuth: the code integrates the weighted spin-dependent part of the cross-section,
    whatever the integrator. *)
Theorem C48_ut_integ_born dilog sf phen integ1 integ4 ps S x y z ph_t_sq (a b offset : Z) : (a = 1 \/ a = -1)%Z ->
  let k phi_h := make_kin ps S (PhaseSpace x y z ph_t_sq phi_h 0) in
  let i := integ1 (fun phi_h => / (2 * PI) * spin_moment a b offset phi_h (born sf (k phi_h) (phen (S * x * y)) 0)) (- PI) PI in
  ut_integ dilog sf phen integ1 integ4 ps S x y z ph_t_sq a b offset false = mkEstErr (2 * PI * est_val i) (2 * PI * est_err i).
Proof. exact (ut_integ_born dilog sf phen integ1 integ4 ps S x y z ph_t_sq a b offset). Qed.
Print Assumptions C48_ut_integ_born.
(** With radiative corrections: the non-radiative part with a cutoff above every photon energy, and the subtracted
    emission over all photons. *)
Theorem C48_ut_integ_rc dilog sf phen integ1 integ4 ps S x y z ph_t_sq (a b offset : Z) (k0 : R -> R) : (a = 1 \/ a = -1)%Z ->
  let k phi_h := make_kin ps S (PhaseSpace x y z ph_t_sq phi_h 0) in
  (forall phi_h, 0 < k0 phi_h /\ (kmx_sq (k phi_h) - sq (kMth (k phi_h))) / (2 * kmx (k phi_h)) <= k0 phi_h) ->
  let n := integ1 (fun phi_h => / (2 * PI) * spin_moment a b offset phi_h
      (fun eta => or_zero (nrad_ir dilog sf (k phi_h) (phen (S * x * y)) 0 eta (k0 phi_h)))) (- PI) PI in
  let r := integ4 (fun p => let phi_h := (2 * p 0%nat - 1) * PI in
      match take3_kin (k phi_h) (fun i => p (Datatypes.S i)) with
      | Some (r, jac) => jac * spin_moment a b offset phi_h (fun eta => or_zero (rad_f sf r (phen (S * x * y)) 0 eta))
      | None => 0 end) in
  ut_integ dilog sf phen integ1 integ4 ps S x y z ph_t_sq a b offset true =
  mkEstErr (2 * PI * (est_val n + est_val r)) (2 * PI * sqrt (est_err n * est_err n + est_err r * est_err r)).
Proof. exact (ut_integ_rc dilog sf phen integ1 integ4 ps S x y z ph_t_sq a b offset k0). Qed.
Print Assumptions C48_ut_integ_rc.
(** A spin dependence of first order has no other harmonics in the spin azimuth: those moments are zero, as returned. *)
Theorem C48_other_harmonics dilog sf phen integ1 integ4 ps S x y z ph_t_sq (a b offset : Z) rc : (a <> 1)%Z -> (a <> -1)%Z ->
  ut_integ dilog sf phen integ1 integ4 ps S x y z ph_t_sq a b offset rc = mkEstErr 0 0 /\
  forall phi_h k ph, spin_moment a b offset phi_h (born sf k ph 0) = 0.
Proof.
  exact (fun H1 H2 => conj (ut_integ_other dilog sf phen integ1 integ4 ps S x y z ph_t_sq a b offset rc H1 H2)
    (fun phi_h k ph => born_other sf a b offset phi_h k ph H1 H2)).
Qed.
Print Assumptions C48_other_harmonics.
Theorem C48_uu_integ_born dilog sf phen integ1 integ4 ps S x y z ph_t_sq :
  let k phi_h := make_kin ps S (PhaseSpace x y z ph_t_sq phi_h 0) in
  let i := integ1 (fun phi_h => born sf (k phi_h) (phen (S * x * y)) 0 (V3 0 0 0)) (- PI) PI in
  uu_integ dilog sf phen integ1 integ4 ps S x y z ph_t_sq false = mkEstErr (2 * PI * est_val i) (2 * PI * est_err i).
Proof. exact (uu_integ_born dilog sf phen integ1 integ4 ps S x y z ph_t_sq). Qed.
Print Assumptions C48_uu_integ_born.
Theorem C48_uu_integ_rc dilog sf phen integ1 integ4 ps S x y z ph_t_sq (k0 : R -> R) :
  let k phi_h := make_kin ps S (PhaseSpace x y z ph_t_sq phi_h 0) in
  (forall phi_h, 0 < k0 phi_h /\ (kmx_sq (k phi_h) - sq (kMth (k phi_h))) / (2 * kmx (k phi_h)) <= k0 phi_h) ->
  let n := integ1 (fun phi_h => or_zero (nrad_ir dilog sf (k phi_h) (phen (S * x * y)) 0 (V3 0 0 0) (k0 phi_h))) (- PI) PI in
  let r := integ4 (fun p => let phi_h := (2 * p 0%nat - 1) * PI in
      match take3_kin (k phi_h) (fun i => p (Datatypes.S i)) with
      | Some (r, jac) => 2 * PI * jac * or_zero (rad_f sf r (phen (S * x * y)) 0 (V3 0 0 0))
      | None => 0 end) in
  uu_integ dilog sf phen integ1 integ4 ps S x y z ph_t_sq true =
  mkEstErr (2 * PI * (est_val n + est_val r)) (2 * PI * sqrt (est_err n * est_err n + est_err r * est_err r)).
Proof. exact (uu_integ_rc dilog sf phen integ1 integ4 ps S x y z ph_t_sq k0). Qed.
Print Assumptions C48_uu_integ_rc.

(** Every harmonic in closed form without radiative corrections, for an integrator without error: exactly the
    requested amplitude of the textbook cross-section, over the flat part. *)
Theorem C48_asymmetry dilog sf phen integ1 integ4 ps S x y z ph_t_sq (a b offset : Z) :
  admissible ps S (PhaseSpace x y z ph_t_sq 0 0) -> 0 < ph_t_sq -> ph_t_sq + sq (a_mh ps) < sq (z * (S * y) / (2 * a_M ps)) ->
  (forall f, est_val (integ1 f (- PI) PI) = RInt f (- PI) PI) ->
  p_alpha_qed (phen (S * x * y)) <> 0 ->
  let f := event_fluxes (a_M ps) (a_m ps) S x y in let F n := sf n (a_hadron ps, x, z, S * x * y, ph_t_sq) in
  flat f F <> 0 -> (a = 1 \/ a = -1)%Z ->
  fst (ut_asym dilog sf phen integ1 integ4 ps S x y z ph_t_sq a b offset false) =
  Fin (cos (IZR offset * (PI / 2)) * (amplitude f F a b - amplitude f F (- a) (- b)) / flat f F).
Proof. exact (fun A Ht Hs E Ha Hf => ut_asym_is dilog sf phen integ1 integ4 ps S x y z ph_t_sq A Ht Hs E Ha Hf a b offset). Qed.
Print Assumptions C48_asymmetry.
Theorem C48_sivers_collins dilog sf phen integ1 integ4 ps S x y z ph_t_sq :
  admissible ps S (PhaseSpace x y z ph_t_sq 0 0) -> 0 < ph_t_sq -> ph_t_sq + sq (a_mh ps) < sq (z * (S * y) / (2 * a_M ps)) ->
  (forall f, est_val (integ1 f (- PI) PI) = RInt f (- PI) PI) ->
  p_alpha_qed (phen (S * x * y)) <> 0 ->
  let f := event_fluxes (a_M ps) (a_m ps) S x y in let F n := sf n (a_hadron ps, x, z, S * x * y, ph_t_sq) in
  let u := f_T f * F F_UUT + f_L f * F F_UUL in u <> 0 ->
  fst (sivers dilog sf phen integ1 integ4 ps S x y z ph_t_sq false) =
    Fin ((f_T f * F F_UTT_sin_phih_m_phis + f_L f * F F_UTL_sin_phih_m_phis) / u) /\
  fst (collins dilog sf phen integ1 integ4 ps S x y z ph_t_sq false) = Fin (f_TT f * F F_UT_sin_phih_p_phis / u).
Proof. exact (sivers_collins dilog sf phen integ1 integ4 ps S x y z ph_t_sq). Qed.
Print Assumptions C48_sivers_collins.
(** The error of the ratio: relative errors in quadrature, if neither integral is zero ... *)
Theorem C81_error dilog sf phen integ1 integ4 ps S x y z ph_t_sq (a b offset : Z) rc :
  let uu := uu_integ dilog sf phen integ1 integ4 ps S x y z ph_t_sq rc in
  let ut := ut_integ dilog sf phen integ1 integ4 ps S x y z ph_t_sq a b offset rc in
  est_val uu <> 0 -> est_val ut <> 0 ->
  exists val err, ut_asym dilog sf phen integ1 integ4 ps S x y z ph_t_sq a b offset rc = (Fin val, Fin err) /\
    val = 2 * est_val ut / est_val uu /\ 0 <= err /\
    sq (err / val) = sq (est_err ut / est_val ut) + sq (est_err uu / est_val uu).
Proof. exact (asym_error dilog sf phen integ1 integ4 ps S x y z ph_t_sq a b offset rc). Qed.
Print Assumptions C81_error.
(** ... but a vanishing asymmetry, in particular any harmonic that is zero by construction, is reported with an
    error that is not a number. *)
Theorem C81_zero_asymmetry_refuted dilog sf phen integ1 integ4 ps S x y z ph_t_sq (a b offset : Z) rc : (a <> 1)%Z -> (a <> -1)%Z ->
  snd (ut_asym dilog sf phen integ1 integ4 ps S x y z ph_t_sq a b offset rc) = NaN.
Proof. exact (asym_error_nan dilog sf phen integ1 integ4 ps S x y z ph_t_sq a b offset rc). Qed.
Print Assumptions C81_zero_asymmetry_refuted.

Definition ex_asf : sf_set sf_point := fun n p => match n with F_UUT => 2 | F_UTT_sin_phih_m_phis => 3 | F_UT_sin_3phih_m_phis => 7 | F_UU_cos_phih => 5 | _ => 0 end.
Definition exact_integ (f : R -> R) (a b : R) : EstErr := mkEstErr (RInt f a b) 0.
Example C48_example : fst (sivers (fun x => x) ex_asf (fun _ => ex_ph) exact_integ (fun _ => mkEstErr 0 0) ex_ps 20 (1 / 2) (1 / 2) (1 / 2) (1 / 4) false) = Fin (3 / 2) /\
  fst (collins (fun x => x) ex_asf (fun _ => ex_ph) exact_integ (fun _ => mkEstErr 0 0) ex_ps 20 (1 / 2) (1 / 2) (1 / 2) (1 / 4) false) = Fin 0.
Proof.
  assert (N : f_T (event_fluxes (a_M ex_ps) (a_m ex_ps) 20 (1 / 2) (1 / 2)) <> 0).
  { unfold event_fluxes, massive_fluxes, gamma_sq, ex_ps. cbn [f_T a_M a_m]. apply Rgt_not_eq. lra. }
  destruct (C48_sivers_collins (fun x => x) ex_asf (fun _ => ex_ph) exact_integ (fun _ => mkEstErr 0 0) ex_ps 20 (1 / 2) (1 / 2) (1 / 2) (1 / 4)) as [H1 H2].
  - exact ex_admissible.
  - lra.
  - exact ex_strict.
  - reflexivity.
  - cbn. lra.
  - cbn [ex_asf]. lra.
  - cbn [ex_asf] in H1, H2. rewrite H1, H2. split.
    + f_equal. field. exact N.
    + f_equal. field. exact N.
Qed.
Example C81_example : snd (ut_asym (fun x => x) ex_asf (fun _ => ex_ph) exact_integ (fun _ => mkEstErr 0 0) ex_ps 20 (1 / 2) (1 / 2) (1 / 2) (1 / 4) 2 1 0 false) = NaN.
Proof. apply C81_zero_asymmetry_refuted; discriminate. Qed.
(** Two integrals that meet the hypotheses of [C81_error]. *)
Example C81_example_error : let i := fun (_ : R -> R) (_ _ : R) => mkEstErr 3 1 in
  est_val (uu_integ (fun x => x) ex_asf (fun _ => ex_ph) i (fun _ => mkEstErr 0 0) ex_ps 20 (1 / 2) (1 / 2) (1 / 2) (1 / 4) false) <> 0 /\
  est_val (ut_integ (fun x => x) ex_asf (fun _ => ex_ph) i (fun _ => mkEstErr 0 0) ex_ps 20 (1 / 2) (1 / 2) (1 / 2) (1 / 4) (-1) 1 0 false) <> 0.
Proof. pose proof PI_RGT_0. split; cbn; apply Rgt_not_eq; lra. Qed.
