(** C92: one hadronic tensor, a function of the momentum transfer, the target, the hadron and the target spin, stands in
    the cross-sections with and without radiation. The specification of the tensor is in QedHadSpec.v. *)
From Coq Require Import Reals List Lra.
From Coquelicot Require Import Coquelicot.
From Verif Require Import ParamModel MathModel ParticleModel FrameBase VecModel TransModel SfModel KinModel KinSpec KinFin LepModel HadModel XsModel
  QedSpec QedXsSpec QedFrame QedXs QedHadSpec QedHad QedSpin QedHadTensor QedBilin KinProps XsProps QedProps.
Local Open Scope R_scope.

Theorem C92_tensor ps S sp e t sf eta u w : same_event e ps S sp -> lorentz t -> 0 < s_ph_t_sq sp ->
  let p := tapp4 t (v_p e) in let q := tapp4 t (v_q e) in let h := tapp4 t (v_ph e) in
  tensor_at (had_tensor q p h (weights (HadLP sf (make_kin ps S sp)) eta)) u w = tensor_at (hadron_tensor (a_hadron ps) sf q p h (spin_vector q p h eta)) u w.
Proof. intros He Ht Hp p q h. exact (whole_born ps S sp e t He Ht Hp sf eta u w). Qed.
Print Assumptions C92_tensor.
(** After emission of a photon the tensor is taken at the momentum transfer that is left; the spin is that of the target. *)
Theorem C92_radiative_tensor ps S sp e t sf eta tau phi_k R f u w : same_event e ps S sp -> lorentz t -> 0 < s_ph_t_sq sp ->
  same_photon f e tau phi_k R -> R < S * s_y sp -> let r := make_rad (make_kin ps S sp) tau phi_k R in 0 < rshift_ph_t r ->
  let p := tapp4 t (v_p e) in let q := tapp4 t (v_q e) in let h := tapp4 t (v_ph e) in let q' := sub4 q (tapp4 t (v_k e f)) in
  tensor_at (had_tensor q' p h (weights_rad (HadRadLP sf r) eta)) u w = tensor_at (hadron_tensor (a_hadron ps) sf q' p h (spin_vector q p h eta)) u w.
Proof. intros He Ht Hp Hf HR r Hs p q h q'. exact (whole_rad ps S sp e t He Ht Hp tau phi_k R f Hf HR Hs sf eta u w). Qed.
Print Assumptions C92_radiative_tensor.
(** The cross-sections. *)
Theorem C92_born_cross_section ps S sp e t s lam sf ph eta : same_event e ps S sp -> lorentz t -> 0 < a_m ps -> 0 < s_ph_t_sq sp ->
  let p := tapp4 t (v_p e) in let k1 := tapp4 t (v_k1 e) in let q := tapp4 t (v_q e) in let h := tapp4 t (v_ph e) in
  helicity_vector p k1 s -> let k := make_kin ps S sp in
  creal (born sf k ph lam eta) = cmul (creal (flux (p_alpha_qed ph) k))
    (contract (lepton_born (a_m ps) k1 (sub4 k1 q) (scale4 lam s)) (hadron_tensor (a_hadron ps) sf q p h (spin_vector q p h eta))).
Proof. intros He Ht Hm Hp p k1 q h Hs. exact (born_tensor ps S sp e t s lam sf ph eta He Ht Hm Hp Hs). Qed.
Print Assumptions C92_born_cross_section.
Theorem C92_amm_cross_section ps S sp e t s lam sf ph eta : same_event e ps S sp -> lorentz t -> 0 < a_m ps -> 0 < s_ph_t_sq sp ->
  let p := tapp4 t (v_p e) in let k1 := tapp4 t (v_k1 e) in let q := tapp4 t (v_q e) in let h := tapp4 t (v_ph e) in
  helicity_vector p k1 s -> let k := make_kin ps S sp in
  creal (amm sf k ph lam eta) = cmul (creal (flux (p_alpha_qed ph) k * (form_factor_2 (p_alpha_qed ph) (a_m ps) (kQ_sq k) / (2 * a_m ps))))
    (contract (lepton_pauli (a_m ps) k1 (sub4 k1 q) (scale4 lam s)) (hadron_tensor (a_hadron ps) sf q p h (spin_vector q p h eta))).
Proof. intros He Ht Hm Hp p k1 q h Hs. exact (amm_tensor ps S sp e t s lam sf ph eta He Ht Hm Hp Hs). Qed.
Print Assumptions C92_amm_cross_section.
Theorem C92_radiative_cross_section ps S sp e t s lam sf ph eta tau phi_k R f : same_event e ps S sp -> lorentz t -> 0 < a_m ps -> 0 < s_ph_t_sq sp ->
  let p := tapp4 t (v_p e) in let k1 := tapp4 t (v_k1 e) in let q := tapp4 t (v_q e) in let h := tapp4 t (v_ph e) in
  helicity_vector p k1 s -> same_photon f e tau phi_k R -> 0 < R < S * s_y sp ->
  let kk := tapp4 t (v_k e f) in let k := make_kin ps S sp in let r := make_rad k tau phi_k R in 0 < rshift_ph_t r ->
  exists de dc, is_derive (fun x => rk_0 (make_rad k tau phi_k x)) R de /\
  is_derive (fun x => rk_l (make_rad k x phi_k R) / rk_0 (make_rad k x phi_k R)) tau dc /\
  creal (rad sf r ph lam eta) = cmul (creal (flux (p_alpha_qed ph) k * (4 * PI * p_alpha_qed ph) * photon_measure (rk_0 r) de dc))
    (contract (lepton_rad (a_m ps) k1 (sub4 k1 q) kk (scale4 lam s)) (hadron_tensor (a_hadron ps) sf (sub4 q kk) p h (spin_vector q p h eta))).
Proof. intros He Ht Hm Hp p k1 q h Hs Hf HR kk k r Hr. exact (rad_tensor ps S sp e t s lam sf ph eta He Ht Hm Hp Hs tau phi_k R f Hf HR Hr). Qed.
Print Assumptions C92_radiative_cross_section.
Example C92_example : exists e f s, same_event e ex_ps 20 ex_sp /\ same_photon f e 1 1 2 /\ helicity_vector (v_p e) (v_k1 e) s /\
  0 < rshift_ph_t (make_rad (make_kin ex_ps 20 ex_sp) 1 1 2) /\
  creal (born ex_sf (make_kin ex_ps 20 ex_sp) ex_ph 1 (V3 0 0 1)) = cmul (creal (flux 1 (make_kin ex_ps 20 ex_sp)))
    (contract (lepton_born (1 / 10) (v_k1 e) (sub4 (v_k1 e) (v_q e)) (scale4 1 s)) (hadron_tensor PI_P ex_sf (v_q e) (v_p e) (v_ph e) (spin_vector (v_q e) (v_p e) (v_ph e) (V3 0 0 1)))) /\
  exists x, creal (rad ex_sf (make_rad (make_kin ex_ps 20 ex_sp) 1 1 2) ex_ph 1 (V3 0 0 1)) = cmul (creal x)
    (contract (lepton_rad (1 / 10) (v_k1 e) (sub4 (v_k1 e) (v_q e)) (v_k e f) (scale4 1 s))
      (hadron_tensor PI_P ex_sf (sub4 (v_q e) (v_k e f)) (v_p e) (v_ph e) (spin_vector (v_q e) (v_p e) (v_ph e) (V3 0 0 1)))).
Proof.
  destruct (C18_points_are_events _ _ _ ex_admissible) as [e He]. assert (M : 0 < a_m ex_ps) by (unfold ex_ps; cbn [a_m]; lra).
  destruct (C20_photon_exists _ _ _ 1 1 2 e He ex_tau ltac:(lra)) as [f Hf].
  destruct (C89_helicity_exists _ _ _ _ _ He lorentz_id M) as [s Hs]. exists e, f, s. split; [exact He|]. split; [exact Hf|].
  assert (Hp : 0 < s_ph_t_sq ex_sp) by (unfold ex_sp; cbn [s_ph_t_sq]; lra).
  assert (HR : 0 < 2 < 20 * s_y ex_sp) by (unfold ex_sp; cbn [s_y]; lra).
  assert (Hr : 0 < rshift_ph_t (make_rad (make_kin ex_ps 20 ex_sp) 1 1 2)).
  { apply (aligned_pos e f ex_ps 20 ex_sp 1 1 2 He Hf (proj2 HR) Hp). reflexivity. }
  pose proof (C92_born_cross_section _ _ _ _ _ _ 1 ex_sf ex_ph (V3 0 0 1) He lorentz_id M Hp Hs) as B. cbv zeta in B.
  destruct (C92_radiative_cross_section _ _ _ _ _ _ 1 ex_sf ex_ph (V3 0 0 1) _ _ _ _ He lorentz_id M Hp Hs Hf HR Hr) as (de & dc & _ & _ & C).
  rewrite !VecProofs.id4_app in Hs. repeat rewrite VecProofs.id4_app in B. repeat rewrite VecProofs.id4_app in C.
  split; [exact Hs|]. split; [exact Hr|]. split; [exact B|]. eexists. exact C.
Qed.
