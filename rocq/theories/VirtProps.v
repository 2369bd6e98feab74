(** C93, C94: one-loop corrections of the lepton line. *)
From Coq Require Import Reals Lra Psatz.
From Coquelicot Require Import Coquelicot.
From Verif Require Import ExtModel MathModel ParticleModel VecModel TransModel FrameBase KinModel KinSpec VecTac KinProps DilogSpec DilogProofs MathProps
  XsModel VirtSpec VirtVac VirtEvent.
Local Open Scope R_scope.

(** ** C93: vacuum polarization *)
(** The masses of the charged leptons in GeV. *)
Definition electron := 5109989461 / 10 ^ 13.
Definition muon := 1056583745 / 10 ^ 10.
Definition tau_lepton := 177686 / 10 ^ 5.
Lemma masses_pos : 0 < electron /\ 0 < muon /\ 0 < tau_lepton.
Proof. unfold electron, muon, tau_lepton. repeat split; apply Rdiv_lt_0_compat; try lra; apply pow_lt; lra. Qed.
Theorem C93_vacuum_polarization k : 0 < kQ_sq k ->
  delta_vac_lep k = vac_pol (kQ_sq k) electron + vac_pol (kQ_sq k) muon + vac_pol (kQ_sq k) tau_lepton.
Proof.
  intros H. destruct masses_pos as (A & B & C). unfold delta_vac_lep. rewrite (vac_term_is _ MASS_E H A), (vac_term_is _ MASS_MU H B), (vac_term_is _ MASS_TAU H C), Rplus_0_l. reflexivity.
Qed.
Print Assumptions C93_vacuum_polarization.
(** The loops screen: the correction is positive, at most linear in Q^2, and grows with Q^2. *)
Theorem C93_screening k k' : 0 < kQ_sq k <= kQ_sq k' ->
  0 < delta_vac_lep k <= 2 / 15 * (kQ_sq k / electron ^ 2 + kQ_sq k / muon ^ 2 + kQ_sq k / tau_lepton ^ 2) /\ delta_vac_lep k <= delta_vac_lep k'.
Proof.
  intros H. destruct masses_pos as (A & B & C). unfold delta_vac_lep.
  pose proof (vac_bounds _ MASS_E (proj1 H) A) as X. pose proof (vac_bounds _ MASS_MU (proj1 H) B) as Y. pose proof (vac_bounds _ MASS_TAU (proj1 H) C) as Z.
  change MASS_E with electron in *. change MASS_MU with muon in *. change MASS_TAU with tau_lepton in *.
  pose proof (vac_mono _ _ electron electron H ltac:(lra)). pose proof (vac_mono _ _ muon muon H ltac:(lra)). pose proof (vac_mono _ _ tau_lepton tau_lepton H ltac:(lra)). lra.
Qed.
Print Assumptions C93_screening.
Example C93_example : kQ_sq (make_kin ex_ps 20 ex_sp) = 5 /\ 0 < delta_vac_lep (make_kin ex_ps 20 ex_sp).
Proof.
  assert (E : kQ_sq (make_kin ex_ps 20 ex_sp) = 5) by (unfold make_kin, ex_ps, ex_sp, sq; cbn [kQ_sq a_M s_x s_y]; lra).
  split; [exact E|]. apply (C93_screening _ (make_kin ex_ps 20 ex_sp)). rewrite E. lra.
Qed.

(** ** C94: vertex correction and soft photons *)
(** The photon mass that regulates both integrals cancels in their sum, which the code computes. *)
Theorem C94_vertex_and_soft D e ps S sp k0 : is_dilog D -> same_event e ps S sp -> 0 < e_m e ->
  let P := recoil (v_p e) (v_q e) (v_ph e) in let Q_sq := - norm_sq4 (v_q e) in let m := e_m e in
  let E1 := rest_energy P (v_k1 e) in let E2 := rest_energy P (v_k2 e) in
  0 < norm_sq4 P -> 0 < t4 P -> 0 < gram3 P (v_k1 e) (v_k2 e) -> 0 < photon_max P (a_Mth ps) -> 0 < k0 ->
  exists v, delta_vert_rad_ir D (make_kin ps S sp) k0 = Fin v /\
    filterlim (fun mu => vertex Q_sq m mu + soft Q_sq m E1 E2 mu (Rmin k0 (photon_max P (a_Mth ps)))) (at_right 0) (locally v).
Proof.
  intros HD H Hm P Q_sq m E1 E2 HP TP G Hmax Hk0. destruct (event_names_id _ _ _ _ H) as [N1 N2]. destruct H as (H & _).
  pose proof (ph_k1 e H) as K. assert (M : m = sqrt (norm_sq4 (v_k1 e))) by (rewrite K; unfold sq; rewrite sqrt_square; [reflexivity|unfold m; lra]).
  rewrite M. apply (event_limit D HD (make_kin ps S sp) (v_p e) (v_k1 e) (v_q e) (v_ph e) k0 N1 N2); try assumption.
  - rewrite K. unfold sq. apply Rmult_lt_0_compat; exact Hm.
  - exact (ph_space e H).
  - exact (ph_E e H).
  - exact (ph_E2 e H).
Qed.
Print Assumptions C94_vertex_and_soft.
(** Photons between the cutoff and the largest energy, in the same approximation. *)
Theorem C94_hard_photons e ps S sp k0 : same_event e ps S sp -> 0 < e_m e ->
  let P := recoil (v_p e) (v_q e) (v_ph e) in let Q_sq := - norm_sq4 (v_q e) in let m := e_m e in
  let E1 := rest_energy P (v_k1 e) in let E2 := rest_energy P (v_k2 e) in
  0 < norm_sq4 P -> 0 < t4 P -> 0 < gram3 P (v_k1 e) (v_k2 e) -> 0 < photon_max P (a_Mth ps) -> 0 < k0 ->
  exists h, delta_rad_ir_hard (make_kin ps S sp) k0 = Fin h /\
    filterlim (fun mu => soft Q_sq m E1 E2 mu (photon_max P (a_Mth ps)) - soft Q_sq m E1 E2 mu (Rmin k0 (photon_max P (a_Mth ps)))) (at_right 0) (locally h).
Proof.
  intros H Hm P Q_sq m E1 E2 HP TP G Hmax Hk0. destruct (event_names_id _ _ _ _ H) as [N1 N2]. destruct H as (H & _).
  pose proof (ph_k1 e H) as K. assert (M : m = sqrt (norm_sq4 (v_k1 e))) by (rewrite K; unfold sq; rewrite sqrt_square; [reflexivity|unfold m; lra]).
  rewrite M. apply (hard_limit dilog_full full_is_dilog (make_kin ps S sp) (v_p e) (v_k1 e) (v_q e) (v_ph e) k0 N1 N2); try assumption.
  - rewrite K. unfold sq. apply Rmult_lt_0_compat; exact Hm.
  - exact (ph_space e H).
  - exact (ph_E e H).
  - exact (ph_E2 e H).
Qed.
Print Assumptions C94_hard_photons.
(** The dilogarithm of the code in place of the exact one. *)
Theorem C94_code_dilog d D k : mantissa d -> is_dilog D ->
  Rabs (delta_vert_rad_0 (dilog d) k - delta_vert_rad_0 D k)
  <= 6 * (/ 2 * / IZR (2 ^ d) + / 2 ^ 138) * Rabs ((kQ_sq k + 2 * km k ^ 2) / sqrt (kQ_sq k * (kQ_sq k + 4 * km k ^ 2))).
Proof.
  intros M HD. apply dilog_close; [|intros x; exact (C66_dilog d D x M HD)].
  pose proof (C66_dilog d D 0 M HD) as C. eapply Rle_trans; [apply Rabs_pos|exact C].
Qed.
Print Assumptions C94_code_dilog.
(** A lepton of mass 2/3 scattering off a target of mass 5, all momenta rational. *)
Definition ex_event := Event 5 (2 / 3) (2 / 3) (7 / 2) (4 / 3) (19 / 6) 2 3 1 (2 / 3) (1 / 3) (PI / 2) 0.
Example C94_example : let e := ex_event in let ps := event_parts e P_ E_ PI_P 5 in
  let P := recoil (v_p e) (v_q e) (v_ph e) in
  same_event e ps (event_S e) (event_space e) /\ norm_sq4 P = (16 / 3) ^ 2 /\ 0 < gram3 P (v_k1 e) (v_k2 e) /\
  exists D v, is_dilog D /\ delta_vert_rad_ir D (make_kin ps (event_S e) (event_space e)) (1 / 10) = Fin v /\
  filterlim (fun mu => vertex 5 (2 / 3) mu + soft 5 (2 / 3) (rest_energy P (v_k1 e)) (rest_energy P (v_k2 e)) mu (1 / 10)) (at_right 0) (locally v).
Proof.
  intros e ps P.
  assert (HS : same_event e ps (event_S e) (event_space e)).
  { unfold same_event. repeat split; unfold e, ex_event, v_k2, v_k1, v_q, v_ph, norm_sq4, dot4, sub4, sq; cbn [e_M e_m e_mh e_E e_kx e_kz e_q0 e_qz e_Eh e_pt e_pl e_phi_h e_phi t4 x4 y4 z4];
    rewrite ?cos_PI2, ?sin_PI2; uvec; lra. }
  assert (PV : P = V4 6 0 (- (2 / 3)) (8 / 3)).
  { unfold P, e, ex_event, recoil, v_p, v_q, v_ph. cbn [e_M e_q0 e_qz e_Eh e_pt e_pl e_phi_h]. rewrite cos_PI2, sin_PI2. uvec. apply V4_eq; lra. }
  assert (NP : norm_sq4 P = (16 / 3) ^ 2) by (rewrite PV; uvec; lra).
  assert (GP : 0 < gram3 P (v_k1 e) (v_k2 e)). { rewrite PV. unfold e, ex_event, v_k2, v_k1, v_q, gram3. cbn [e_E e_kx e_kz e_q0 e_qz]. uvec. lra. }
  assert (PM : photon_max P (a_Mth ps) = 31 / 96). { unfold photon_max. rewrite NP, sqrt_pow2 by lra. unfold ps, event_parts. cbn [a_Mth]. lra. }
  split; [exact HS|]. split; [exact NP|]. split; [exact GP|].
  exists dilog_full. destruct (C94_vertex_and_soft dilog_full e ps (event_S e) (event_space e) (1 / 10) full_is_dilog HS) as (v & V1 & V2); fold P.
  - unfold e, ex_event. cbn [e_m]. lra.
  - rewrite NP. lra.
  - rewrite PV. cbn [t4]. lra.
  - exact GP.
  - rewrite PM. lra.
  - lra.
  - exists v. split; [exact full_is_dilog|]. split; [exact V1|]. fold P in V2. rewrite PM, Rmin_left in V2 by lra.
    replace (- norm_sq4 (v_q e)) with 5 in V2 by (unfold e, ex_event, v_q; cbn [e_q0 e_qz]; uvec; lra). exact V2.
Qed.
