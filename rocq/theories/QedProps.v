(** C89-C91: the cross-sections of the code are those of quantum electrodynamics at the stated order, for any structure
    functions. The specification is in QedSpec.v (Dirac matrices, lepton tensors, structures of the hadronic tensor) and
    QedXsSpec.v (flux, photon measure, form factor). *)
From Coq Require Import Reals List Lra.
From Coquelicot Require Import Coquelicot.
From Verif Require Import ParamModel MathModel ParticleModel FrameBase VecModel TransModel SfModel KinModel KinSpec KinFin LepModel HadModel XsModel
  QedSpec QedXsSpec QedFrame QedXs KinProps XsProps.
Local Open Scope R_scope.

(** ** C89: scattering without radiation *)
Theorem C89_lepton_coefficients ps S sp e t s lam : same_event e ps S sp -> lorentz t -> 0 < a_m ps ->
  let p := tapp4 t (v_p e) in let k1 := tapp4 t (v_k1 e) in let q := tapp4 t (v_q e) in let h := tapp4 t (v_ph e) in
  helicity_vector p k1 s -> let k := make_kin ps S sp in
  let W i := contract (lepton_born (a_m ps) k1 (sub4 k1 q) (scale4 lam s)) (had_struct q p h i) in
  let U := LepBornBaseUU k in let P := LepBornBaseUP k in let L := LepBornBaseLU k in let C := LepBornBaseLP k in
  W 1%nat = creal (2 * lb1 U) /\ W 2%nat = creal (2 * lb2 U) /\ W 3%nat = creal (2 * lb3 U) /\ W 4%nat = creal (2 * lb4 U) /\
  W 5%nat = creal (lam * (2 * lb5 L)) /\ W 6%nat = creal (2 * lb6 P) /\ W 7%nat = creal (lam * (2 * lb7 C)) /\ W 8%nat = creal (2 * lb8 P) /\
  W 9%nat = creal (lam * (2 * lb9 C)).
Proof. intros He Ht Hm p k1 q h Hs. exact (event_born ps S sp e t He Ht Hm s lam Hs). Qed.
Print Assumptions C89_lepton_coefficients.
Theorem C89_born_cross_section ps S sp e t s lam sf ph eta : same_event e ps S sp -> lorentz t -> 0 < a_m ps ->
  let p := tapp4 t (v_p e) in let k1 := tapp4 t (v_k1 e) in let q := tapp4 t (v_q e) in let h := tapp4 t (v_ph e) in
  helicity_vector p k1 s -> let k := make_kin ps S sp in
  creal (born sf k ph lam eta) = cmul (creal (flux (p_alpha_qed ph) k))
    (contract (lepton_born (a_m ps) k1 (sub4 k1 q) (scale4 lam s)) (had_tensor q p h (weights (HadLP sf k) eta))).
Proof. intros He Ht Hm p k1 q h Hs. exact (born_qed ps S sp e t sf ph lam eta s He Ht Hm Hs). Qed.
Print Assumptions C89_born_cross_section.
(** The helicity vector assumed above exists at every event. *)
Theorem C89_helicity_exists ps S sp e t : same_event e ps S sp -> lorentz t -> 0 < a_m ps ->
  exists s, helicity_vector (tapp4 t (v_p e)) (tapp4 t (v_k1 e)) s.
Proof. exact (helicity_exists ps S sp e t). Qed.
Print Assumptions C89_helicity_exists.
Example C89_example : exists e s, same_event e ex_ps 20 ex_sp /\ helicity_vector (v_p e) (v_k1 e) s /\
  creal (born ex_sf (make_kin ex_ps 20 ex_sp) ex_ph 1 (V3 0 0 1)) = cmul (creal (flux 1 (make_kin ex_ps 20 ex_sp)))
    (contract (lepton_born (1 / 10) (v_k1 e) (sub4 (v_k1 e) (v_q e)) (scale4 1 s)) (had_tensor (v_q e) (v_p e) (v_ph e) (weights (HadLP ex_sf (make_kin ex_ps 20 ex_sp)) (V3 0 0 1)))).
Proof.
  destruct (C18_points_are_events _ _ _ ex_admissible) as [e He]. assert (M : 0 < a_m ex_ps) by (unfold ex_ps; cbn [a_m]; lra).
  destruct (C89_helicity_exists _ _ _ _ _ He lorentz_id M) as [s Hs]. exists e, s. split; [exact He|].
  pose proof (C89_born_cross_section _ _ _ _ _ _ 1 ex_sf ex_ph (V3 0 0 1) He lorentz_id M Hs) as B. cbv zeta in B.
  rewrite !VecProofs.id4_app in Hs. repeat rewrite VecProofs.id4_app in B. split; [exact Hs|exact B].
Qed.

(** ** C90: emission of one photon by the lepton *)
Theorem C90_lepton_coefficients ps S sp e t s lam tau phi_k R f : same_event e ps S sp -> lorentz t -> 0 < a_m ps ->
  let p := tapp4 t (v_p e) in let k1 := tapp4 t (v_k1 e) in let q := tapp4 t (v_q e) in let h := tapp4 t (v_ph e) in
  helicity_vector p k1 s -> same_photon f e tau phi_k R -> 0 < R ->
  let kk := tapp4 t (v_k e f) in let r := make_rad (make_kin ps S sp) tau phi_k R in
  let W i := contract (lepton_rad (a_m ps) k1 (sub4 k1 q) kk (scale4 lam s)) (had_struct (sub4 q kk) p h i) in
  let sum a b c e := - 2 * (a / (R * R) + b / R + c + e * R) in
  let B := LepRadBaseUU r in let P := LepRadBaseUP r in let A := LepRadBaseLU r in let C := LepRadBaseLP r in
  W 1%nat = creal (sum (lr011 B) (lr012 B) (lr013 B) 0) /\ W 2%nat = creal (sum (lr021 B) (lr022 B) (lr023 B) 0) /\
  W 3%nat = creal (sum (lr031 B) (lr032 B) (lr033 B) 0) /\ W 4%nat = creal (sum (lr041 B) (lr042 B) (lr043 B) 0) /\
  W 5%nat = creal (lam * sum (lr051 A + lr151 A) (lr052 A + lr152 A) (lr053 A + lr153 A) 0) /\
  W 6%nat = creal (sum (lr061 P) (lr062 P) (lr063 P) (lr064 P)) /\
  W 7%nat = creal (lam * sum (lr071 C + lr171 C) (lr072 C + lr172 C) (lr073 C + lr173 C) (lr074 C + lr174 C)) /\
  W 8%nat = creal (sum (lr081 P) (lr082 P) (lr083 P) (lr084 P)) /\
  W 9%nat = creal (lam * sum (lr091 C + lr191 C) (lr092 C + lr192 C) (lr093 C + lr193 C) (lr094 C + lr194 C)).
Proof. intros He Ht Hm p k1 q h Hs Hf HR. exact (event_rad ps S sp e t He Ht Hm s lam Hs tau phi_k R f Hf HR). Qed.
Print Assumptions C90_lepton_coefficients.
(** [de] and [dc] are the rates at which the energy of the photon changes with R and the cosine of its polar angle with tau. *)
Theorem C90_radiative_cross_section ps S sp e t s lam sf ph eta tau phi_k R f : same_event e ps S sp -> lorentz t -> 0 < a_m ps ->
  let p := tapp4 t (v_p e) in let k1 := tapp4 t (v_k1 e) in let q := tapp4 t (v_q e) in let h := tapp4 t (v_ph e) in
  helicity_vector p k1 s -> same_photon f e tau phi_k R -> 0 < R ->
  let kk := tapp4 t (v_k e f) in let k := make_kin ps S sp in let r := make_rad k tau phi_k R in
  exists de dc, is_derive (fun x => rk_0 (make_rad k tau phi_k x)) R de /\
  is_derive (fun x => rk_l (make_rad k x phi_k R) / rk_0 (make_rad k x phi_k R)) tau dc /\
  creal (rad sf r ph lam eta) = cmul (creal (flux (p_alpha_qed ph) k * (4 * PI * p_alpha_qed ph) * photon_measure (rk_0 r) de dc))
    (contract (lepton_rad (a_m ps) k1 (sub4 k1 q) kk (scale4 lam s)) (had_tensor (sub4 q kk) p h (weights_rad (HadRadLP sf r) eta))).
Proof. intros He Ht Hm p k1 q h Hs Hf HR. exact (rad_qed ps S sp e t sf ph lam eta s He Ht Hm Hs tau phi_k R f Hf HR). Qed.
Print Assumptions C90_radiative_cross_section.
Example C90_example : exists e f s, same_event e ex_ps 20 ex_sp /\ same_photon f e 1 3 2 /\ helicity_vector (v_p e) (v_k1 e) s /\
  exists x, creal (rad ex_sf (make_rad (make_kin ex_ps 20 ex_sp) 1 3 2) ex_ph 1 (V3 0 0 1)) = cmul (creal x)
    (contract (lepton_rad (1 / 10) (v_k1 e) (sub4 (v_k1 e) (v_q e)) (v_k e f) (scale4 1 s))
      (had_tensor (sub4 (v_q e) (v_k e f)) (v_p e) (v_ph e) (weights_rad (HadRadLP ex_sf (make_rad (make_kin ex_ps 20 ex_sp) 1 3 2)) (V3 0 0 1)))).
Proof.
  destruct C20_example as (e & f & He & Hf & _). assert (M : 0 < a_m ex_ps) by (unfold ex_ps; cbn [a_m]; lra).
  destruct (C89_helicity_exists _ _ _ _ _ He lorentz_id M) as [s Hs]. exists e, f, s. split; [exact He|]. split; [exact Hf|].
  destruct (C90_radiative_cross_section _ _ _ _ _ _ 1 ex_sf ex_ph (V3 0 0 1) _ _ _ _ He lorentz_id M Hs Hf ltac:(lra)) as (de & dc & _ & _ & B).
  rewrite !VecProofs.id4_app in Hs. repeat rewrite VecProofs.id4_app in B. split; [exact Hs|]. eexists. exact B.
Qed.

(** ** C91: the anomalous magnetic moment of the lepton *)
Theorem C91_lepton_coefficients ps S sp e t s lam : same_event e ps S sp -> lorentz t -> 0 < a_m ps ->
  let p := tapp4 t (v_p e) in let k1 := tapp4 t (v_k1 e) in let q := tapp4 t (v_q e) in let h := tapp4 t (v_ph e) in
  helicity_vector p k1 s -> let k := make_kin ps S sp in
  let W i := contract (lepton_pauli (a_m ps) k1 (sub4 k1 q) (scale4 lam s)) (had_struct q p h i) in
  let U := LepAmmBaseUU k in let P := LepAmmBaseUP k in let L := LepAmmBaseLU k in let C := LepAmmBaseLP k in let a := 2 * a_m ps * kQ_sq k in
  W 1%nat = creal (a * la1 U) /\ W 2%nat = creal (a * la2 U) /\ W 3%nat = creal (a * la3 U) /\ W 4%nat = creal (a * la4 U) /\
  W 5%nat = creal (lam * (a * la5 L)) /\ W 6%nat = creal (a * la6 P) /\ W 7%nat = creal (lam * (a * la7 C)) /\ W 8%nat = creal (a * la8 P) /\
  W 9%nat = creal (lam * (a * la9 C)).
Proof. intros He Ht Hm p k1 q h Hs. exact (event_pauli ps S sp e t He Ht Hm s lam Hs). Qed.
Print Assumptions C91_lepton_coefficients.
Theorem C91_amm_cross_section ps S sp e t s lam sf ph eta : same_event e ps S sp -> lorentz t -> 0 < a_m ps ->
  let p := tapp4 t (v_p e) in let k1 := tapp4 t (v_k1 e) in let q := tapp4 t (v_q e) in let h := tapp4 t (v_ph e) in
  helicity_vector p k1 s -> let k := make_kin ps S sp in
  creal (amm sf k ph lam eta) = cmul (creal (flux (p_alpha_qed ph) k * (form_factor_2 (p_alpha_qed ph) (a_m ps) (kQ_sq k) / (2 * a_m ps))))
    (contract (lepton_pauli (a_m ps) k1 (sub4 k1 q) (scale4 lam s)) (had_tensor q p h (weights (HadLP sf k) eta))).
Proof. intros He Ht Hm p k1 q h Hs. exact (amm_qed ps S sp e t sf ph lam eta s He Ht Hm Hs). Qed.
Print Assumptions C91_amm_cross_section.
Example C91_example : exists e s, same_event e ex_ps 20 ex_sp /\ helicity_vector (v_p e) (v_k1 e) s /\
  creal (amm ex_sf (make_kin ex_ps 20 ex_sp) ex_ph 1 (V3 0 0 1)) = cmul (creal (flux 1 (make_kin ex_ps 20 ex_sp) * (form_factor_2 1 (1 / 10) 5 / (2 * (1 / 10)))))
    (contract (lepton_pauli (1 / 10) (v_k1 e) (sub4 (v_k1 e) (v_q e)) (scale4 1 s)) (had_tensor (v_q e) (v_p e) (v_ph e) (weights (HadLP ex_sf (make_kin ex_ps 20 ex_sp)) (V3 0 0 1)))).
Proof.
  destruct (C18_points_are_events _ _ _ ex_admissible) as [e He]. assert (M : 0 < a_m ex_ps) by (unfold ex_ps; cbn [a_m]; lra).
  destruct (C89_helicity_exists _ _ _ _ _ He lorentz_id M) as [s Hs]. exists e, s. split; [exact He|].
  pose proof (C91_amm_cross_section _ _ _ _ _ _ 1 ex_sf ex_ph (V3 0 0 1) He lorentz_id M Hs) as B. cbv zeta in B.
  rewrite !VecProofs.id4_app in Hs. repeat rewrite VecProofs.id4_app in B. rewrite (proj1 (proj2 C18_example)) in B. split; [exact Hs|exact B].
Qed.
