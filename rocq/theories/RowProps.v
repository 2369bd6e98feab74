(** C87, C88: the rows of the event tree. *)
From Coq Require Import Reals Lra ZArith String List Bool.
From Verif Require Import ParamModel ExtModel MathModel ParticleModel VecModel TransModel VecTac FrameBase KinModel KinSpec FrameModel SfModel HadModel BoundModel CutModel GenModel
  KinProps RowModel RowSpec RowProofs.
Import ListNotations.
Local Open Scope R_scope.

(** ** C87: the momenta and variables of a row belong together *)
Theorem C87_initial ps E sp : admissible ps (setup_S ps E) sp ->
  exists kz, 0 < kz /\ sq E = sq kz + sq (a_m ps) /\ initial_energy ps E = Some (Initial (a_target ps) (a_beam ps) (V4 (a_M ps) 0 0 0) (V4 E 0 0 kz)) /\ 0 < a_M ps.
Proof. exact (initial_ok ps E sp). Qed.
Print Assumptions C87_initial.
Theorem C87_nrad_row ps E sp pol init sf had w : admissible ps (setup_S ps E) sp -> initial_energy ps E = Some init ->
  let k := make_kin ps (setup_S ps E) sp in
  exists r, fill init pol sf had (setup_S ps E) (DNrad w k) = Some r /\ o_type r = 1%Z /\ o_weight r = w /\ row_space r = sp /\
  o_tau r = 0 /\ o_phi_k r = 0 /\ o_R r = 0 /\ m_k (o_momenta r) = LVec 0 0 0 0 /\ describes ps E r /\ azimuth pol r /\
  o_sf r = sf_lp sf (had, o_x r, o_z r, - norm_sq4 (four (m_q (o_momenta r))), o_ph_t_sq r) /\
  (0 < s_ph_t_sq sp -> hadron_axes pol r = tapp3 (hadron_from_target k) (V3 0 (sqrt (sq (x3 pol) + sq (y3 pol))) (z3 pol))).
Proof. exact (row_nrad ps E sp pol init sf had w). Qed.
Print Assumptions C87_nrad_row.
Theorem C87_rad_row ps E sp pol init sf had w tau phi_k R : admissible ps (setup_S ps E) sp -> initial_energy ps E = Some init ->
  tau_ok ps (setup_S ps E) sp tau -> 0 <= R -> let k := make_kin ps (setup_S ps E) sp in
  exists r, fill init pol sf had (setup_S ps E) (DRad w (make_rad k tau phi_k R)) = Some r /\ o_type r = 2%Z /\ o_weight r = w /\ row_space r = sp /\
  o_tau r = tau /\ o_phi_k r = phi_k /\ o_R r = R /\ describes ps E r /\ azimuth pol r /\ describes_photon r /\
  o_sf r = sf_lp sf (had, o_x r, o_z r, - norm_sq4 (four (m_q (o_momenta r))), o_ph_t_sq r) /\
  (0 < s_ph_t_sq sp -> hadron_axes pol r = tapp3 (hadron_from_target k) (V3 0 (sqrt (sq (x3 pol) + sq (y3 pol))) (z3 pol))).
Proof. intros H1 H2. exact (row_rad ps E sp pol init sf had w H1 H2 tau phi_k R). Qed.
Print Assumptions C87_rad_row.
Theorem C87_sf_leaves {Pt} (sf : sf_set Pt) p : sf_written sf p (leaves sf_leaflist) (memory (sf_lp sf p)).
Proof. exact (sf_leaves sf p). Qed.
Print Assumptions C87_sf_leaves.
Theorem C87_branches m ra ph s : NoDup (branches m ra ph s) /\
  (forall b, In b ["type"; "weight"; "x"; "y"; "z"; "ph_t_sq"; "phi_h"; "phi"; "tau"; "phi_k"; "R"]%string -> In b (branches m ra ph s)) /\
  (forall b, In b ["p"; "k1"; "q"; "k2"; "ph"]%string -> (In b (branches m ra ph s) <-> m = true)) /\
  (In "k"%string (branches m ra ph s) <-> m = true /\ ra = true /\ ph = true) /\ (In "sf"%string (branches m ra ph s) <-> s = true).
Proof. exact (branches_ok m ra ph s). Qed.
Print Assumptions C87_branches.
Lemma ex_S : setup_S ex_ps 10 = 20.
Proof. unfold setup_S, ex_ps. cbn [a_M]. ring. Qed.
(** Beam of 10 GeV, mass 1/10, on a target of mass 1. *)
Example C87_example : exists init r, initial_energy ex_ps 10 = Some init /\
  fill init (V3 1 0 0) (fun _ _ => 3) PI_P 20 (DRad 2 (make_rad (make_kin ex_ps 20 ex_sp) 1 2 (1 / 3))) = Some r /\
  norm_sq4 (four (m_k2 (o_momenta r))) = 1 / 100 /\ norm_sq4 (four (m_k (o_momenta r))) = 0 /\ lv_e (m_k (o_momenta r)) = 1 / 6 /\
  nth_error (leaves sf_leaflist) 13 = Some (Some ("F_LL", "D"))%string /\ nth_error (memory (o_sf r)) 13 = Some 3.
Proof.
  assert (A : admissible ex_ps (setup_S ex_ps 10) ex_sp) by (rewrite ex_S; exact ex_admissible).
  destruct (C87_initial _ _ _ A) as (kz & _ & _ & I & _). set (init := Initial _ _ _ _) in I.
  destruct (C87_rad_row ex_ps 10 ex_sp (V3 1 0 0) init (fun _ _ => 3) PI_P 2 1 2 (1 / 3) A I) as (r & F & _ & _ & _ & _ & _ & RR & D & _ & P & SF & _);
    [rewrite ex_S; exact ex_tau|lra|]. rewrite ex_S in F. exists init, r. split; [exact I|]. split; [exact F|].
  split; [rewrite (d_lepton _ _ _ D); unfold sq, ex_ps; cbn [a_m]; lra|]. split; [apply P|].
  split; [|split; [reflexivity|rewrite SF; reflexivity]].
  pose proof (d_R _ P) as X. rewrite RR, (d_target _ _ _ D) in X. unfold four, ex_ps in X. cbn [a_M lv_x lv_y lv_z lv_e] in X. revert X. uvec. lra.
Qed.

(** ** C88: the polarization used for sampling is that of the written event *)
(** Full statement: for every polarization, the density takes the components of target_pol along the hadron axes of the written momenta. It holds exactly
    for polarizations in the half-plane x = 0, y >= 0. *)
Theorem C88_polarization_partial ps E sp pol init sf had w r : admissible ps (setup_S ps E) sp -> initial_energy ps E = Some init -> 0 < s_ph_t_sq sp ->
  let k := make_kin ps (setup_S ps E) sp in fill init pol sf had (setup_S ps E) (DNrad w k) = Some r ->
  (tapp3 (hadron_from_target k) pol = hadron_axes pol r <-> x3 pol = 0 /\ 0 <= y3 pol).
Proof.
  intros H1 H2 H3 k H4. rewrite (axes_nrad ps E sp pol init sf had w H1 H2 H3 r H4). exact (pol_iff _ pol (had_rot ps E sp H1)).
Qed.
Print Assumptions C88_polarization_partial.
Theorem C88_sampled_nrad_partial ps E sp pol init sf had w r rc soft xb xi xn cut bp u jac :
  admissible ps (setup_S ps E) sp -> initial_energy ps E = Some init -> 0 < s_ph_t_sq sp -> let k := make_kin ps (setup_S ps E) sp in
  fill init pol sf had (setup_S ps E) (DNrad w k) = Some r -> x3 pol = 0 -> 0 <= y3 pol -> take_cut cut ps (setup_S ps E) u = Some (k, jac) ->
  nrad_eval rc soft xb xi xn cut ps (setup_S ps E) bp pol u =
  weigh jac (match rc with RcNone => xb | RcApprox => xi soft | RcExact => xn soft end k bp (hadron_axes pol r)).
Proof. intros H1 H2 H3. exact (sampled_nrad ps E sp pol init sf had w H1 H2 H3 r rc soft xb xi xn cut bp u jac). Qed.
Print Assumptions C88_sampled_nrad_partial.
Theorem C88_sampled_rad_partial ps E sp pol init sf had w tau phi_k R r xr cut cut_rad bp u jac :
  admissible ps (setup_S ps E) sp -> initial_energy ps E = Some init -> 0 < s_ph_t_sq sp -> let k := make_kin ps (setup_S ps E) sp in
  tau_ok ps (setup_S ps E) sp tau -> 0 <= R -> fill init pol sf had (setup_S ps E) (DRad w (make_rad k tau phi_k R)) = Some r -> x3 pol = 0 -> 0 <= y3 pol ->
  take9_cut cut cut_rad ps (setup_S ps E) u = Some (make_rad k tau phi_k R, jac) ->
  rad_eval xr cut cut_rad ps (setup_S ps E) bp pol u = weigh jac (xr (make_rad k tau phi_k R) bp (hadron_axes pol r)).
Proof. intros H1 H2 H3. exact (sampled_rad ps E sp pol init sf had w H1 H2 H3 tau phi_k R r xr cut cut_rad bp u jac). Qed.
Print Assumptions C88_sampled_rad_partial.
(** Any other polarization: some cross-section is sampled at another polarization than that of the written event. *)
Theorem C88_sampled_refuted ps E sp pol init sf had w r soft xi xn cut bp u jac :
  admissible ps (setup_S ps E) sp -> initial_energy ps E = Some init -> 0 < s_ph_t_sq sp -> let k := make_kin ps (setup_S ps E) sp in
  fill init pol sf had (setup_S ps E) (DNrad w k) = Some r -> ~ (x3 pol = 0 /\ 0 <= y3 pol) -> take_cut cut ps (setup_S ps E) u = Some (k, jac) -> jac <> 0 ->
  exists xb, (forall k' b eta, exists v, xb k' b eta = Fin v /\ 0 <= v) /\
    nrad_eval RcNone soft xb xi xn cut ps (setup_S ps E) bp pol u <> weigh jac (xb k bp (hadron_axes pol r)).
Proof. intros H1 H2 H3. exact (sampled_bad ps E sp pol init sf had w H1 H2 H3 r soft xi xn cut bp u jac). Qed.
Print Assumptions C88_sampled_refuted.
(** A target polarized along the x axis of the lab. *)
Theorem C88_polarization_refuted : exists init r, initial_energy ex_ps 10 = Some init /\
  fill init (V3 1 0 0) (fun _ _ => 0) PI_P 20 (DNrad 1 (make_kin ex_ps 20 ex_sp)) = Some r /\
  tapp3 (hadron_from_target (make_kin ex_ps 20 ex_sp)) (V3 1 0 0) <> hadron_axes (V3 1 0 0) r.
Proof.
  assert (A : admissible ex_ps (setup_S ex_ps 10) ex_sp) by (rewrite ex_S; exact ex_admissible).
  destruct (C87_initial _ _ _ A) as (kz & _ & _ & I & _). set (init := Initial _ _ _ _) in I.
  destruct (C87_nrad_row ex_ps 10 ex_sp (V3 1 0 0) init (fun _ _ => 0) PI_P 1 A I) as (r & F & _).
  exists init, r. split; [exact I|]. split; [rewrite <- ex_S; exact F|].
  intros X. rewrite <- ex_S in X. apply (C88_polarization_partial ex_ps 10 ex_sp (V3 1 0 0) init (fun _ _ => 0) PI_P 1 r A I) in X; [|unfold ex_sp; cbn [s_ph_t_sq]; lra|exact F].
  cbn [x3 y3] in X. lra.
Qed.
Print Assumptions C88_polarization_refuted.
Example C88_example : exists init r, initial_energy ex_ps 10 = Some init /\
  fill init (V3 0 1 (1 / 2)) (fun _ _ => 0) PI_P 20 (DNrad 1 (make_kin ex_ps 20 ex_sp)) = Some r /\
  tapp3 (hadron_from_target (make_kin ex_ps 20 ex_sp)) (V3 0 1 (1 / 2)) = hadron_axes (V3 0 1 (1 / 2)) r.
Proof.
  assert (A : admissible ex_ps (setup_S ex_ps 10) ex_sp) by (rewrite ex_S; exact ex_admissible).
  destruct (C87_initial _ _ _ A) as (kz & _ & _ & I & _). set (init := Initial _ _ _ _) in I.
  destruct (C87_nrad_row ex_ps 10 ex_sp (V3 0 1 (1 / 2)) init (fun _ _ => 0) PI_P 1 A I) as (r & F & _).
  exists init, r. split; [exact I|]. split; [rewrite <- ex_S; exact F|].
  rewrite <- ex_S. apply (C88_polarization_partial ex_ps 10 ex_sp (V3 0 1 (1 / 2)) init (fun _ _ => 0) PI_P 1 r A I); [unfold ex_sp; cbn [s_ph_t_sq]; lra|exact F|cbn [x3 y3]; lra].
Qed.
