(** Which points the samplers reach, with cuts and with a radiated photon. *)
From Coq Require Import Reals Bool Lra Psatz Lia.
From Verif Require Import ExtModel BoundModel BoundSpec BoundProofs MathModel MathProofs MapModel MapSpec MapProofs ParticleModel VecModel TransModel VecTac FrameBase KinModel KinEqs KinSpec CutModel CutSpec CutProofs CutBounds CutPhoton CutTake CutNames.
Local Open Scope R_scope.


Lemma if_inter_in c a b t : points a t -> (is_set c -> points b t) -> points (if valid c then binter a b else a) t.
Proof. unfold is_set. destruct (valid c); intros H1 H2; auto. apply binter_points. auto. Qed.

Section Keep.
Variables (cut : cuts) (ps : parts) (S : R) (sp : phase_space).
Hypotheses (HP : masses_ok ps) (HR : region ps S sp) (HU : usable cut ps S).
Local Notation x := (s_x sp).
Local Notation y := (s_y sp).
Hypotheses (Cx : obeys (c_x cut) x) (Cy : obeys (c_y cut) y) (Cz : obeys (c_z cut) (s_z sp)) (Cpt : obeys (c_ph_t_sq cut) (s_ph_t_sq sp))
  (CQ : obeys (c_Q_sq cut) (S * x * y)) (CW : obeys (c_W_sq cut) (sq (a_M ps) + (1 - x) * (S * y))).
Lemma keep_facts : 0 < S /\ 0 < x < 1 /\ 0 < y <= 1 /\ thr ps <= (1 - x) * (S * y) /\ 0 < thr ps /\ 0 < lamS ps S /\
  y * (S * (sq (a_M ps * x) + S * x + sq (a_m ps))) <= x * lamS ps S.
Proof.
  destruct (region_y ps S sp HP HR) as (Y & HL & Hx & Hy). pose proof (rg_S _ _ _ HR). apply y_points in Y; auto; [|lra].
  unfold lamS. pose proof (thr_pos ps HP). unfold lamS in HL. tauto.
Qed.
Lemma keep_x : contains (x_bound_cut cut ps S) (Fin x) = true.
Proof.
  destruct keep_facts as (HS & Hx & Hy & H1 & H2 & HL & H3). apply contains_points. unfold x_bound_cut. cbv zeta.
  apply if_inter_in; [apply if_inter_in; [apply if_inter_in|]|].
  - apply contains_points, region_x; auto.
  - intros V. apply contains_points. auto.
  - intros V. pose proof (CQ V) as I. destruct (proj1 HU V) as (hi & E). apply contains_points in I. destruct I as [I1 I2]. rewrite E in *. cbn [eadd esub eneg].
    rewrite le_FF in I2. assert (Q0 : 0 < S * x * y) by (apply Rmult_lt_0_compat; [|lra]; nra).
    rewrite mk_bound_points. split.
    + inversion I1; subst; cbn [ediv].
      * rewrite ediv_fin || idtac. replace (reqb S 0) with false by (symmetry; apply reqb_false; lra). apply le_FF. apply div_le; auto. nra.
      * replace (reqb S 0) with false by (symmetry; apply reqb_false; lra). rewrite sinf_neg by lra. constructor.
    + fold (thr ps). replace (hi + sq (a_Mth ps + a_mh ps) + - sq (a_M ps)) with (hi + thr ps) by (unfold thr; ring).
      rewrite ediv_fin by lra. apply le_FF. apply le_div; [lra|]. assert (x * thr ps <= (1 - x) * hi); [|nra].
      apply Rle_trans with (x * ((1 - x) * (S * y))); [nra|]. replace (x * ((1 - x) * (S * y))) with ((1 - x) * (S * x * y)) by ring. apply Rmult_le_compat_l; lra.
  - intros V. pose proof (CW V) as I. destruct (proj1 (proj2 HU) V) as (w & E & HA). fold (lamS ps S) in HA. apply contains_points in I. destruct I as [I1 _]. rewrite E in *. rewrite le_FF in I1.
    set (N := w - sq (a_M ps)) in *. cbn [eadd esub eneg emul]. change (w + - sq (a_M ps)) with N. fold (lamS ps S).
    assert (XQ : xquad ps S N x <= 0). { apply xquad_necessary with y; auto; try lra. unfold N. lra. }
    unfold xquad in XQ. set (A := lamS ps S + sq (a_M ps) * N) in *. set (B := lamS ps S - S * N) in *. set (C := N * sq (a_m ps)) in *.
    pose proof (quad_disc A B C x HA XQ) as HD.
    assert (ED : lamS ps S * ((S + - N) * (S + - N) + - (4 * sq (a_m ps) * w)) = B * B - 4 * A * C) by (unfold A, B, C, N, lamS, sq; ring).
    rewrite ED, esqrt_fin by auto. cbn [eadd esub eneg]. change (lamS ps S + - (S * N)) with B. rewrite !ediv_fin by lra.
    rewrite mk_bound_points, !le_FF. apply (quad_iff A B C (sqrt (B * B - 4 * A * C)) x HA (sqrt_pos _) (sqrt_sqrt _ HD)). exact XQ.
Qed.
Lemma keep_y : contains (y_bound_cut cut ps S x) (Fin y) = true.
Proof.
  destruct keep_facts as (HS & Hx & Hy & H1 & H2 & HL & H3). apply contains_points. unfold y_bound_cut. cbv zeta.
  apply if_inter_in; [apply if_inter_in; [apply if_inter_in|]|].
  - apply contains_points, region_y; auto.
  - intros V. apply contains_points. auto.
  - intros V. apply contains_points. replace y with (S * x * y / (S * x)) by (field; split; lra). rewrite bdiv_contains; [auto|]. apply Rmult_lt_0_compat; lra.
  - intros V. apply contains_points. pose proof (CW V) as I.
    replace y with ((sq (a_M ps) + (1 - x) * (S * y) - sq (a_M ps)) / ((1 - x) * S)) by (field; split; lra). rewrite bdiv_contains by (apply Rmult_lt_0_compat; lra).
    rewrite bsub_contains. exact I.
Qed.
Lemma keep_z : contains (z_bound_cut cut ps S x y) (Fin (s_z sp)) = true.
Proof.
  apply contains_points. unfold z_bound_cut. apply if_inter_in; [|intros V; apply contains_points; auto]. apply contains_points, region_z; auto.
Qed.
Lemma keep_pt : contains (ph_t_sq_bound_cut cut ps S x y (s_z sp)) (Fin (s_ph_t_sq sp)) = true.
Proof.
  apply contains_points. unfold ph_t_sq_bound_cut. apply if_inter_in; [|intros V; apply contains_points; auto]. apply contains_points.
  apply (region_nested ps S sp HP). auto.
Qed.
End Keep.

Lemma pt_finite ps S sp : masses_ok ps -> region ps S sp ->
  exists h, forall t, points (ph_t_sq_bound ps S (s_x sp) (s_y sp) (s_z sp)) t -> ext_le (Fin 0) t /\ ext_le t (Fin h).
Proof.
  intros HP HR. pose proof (region_q0 _ _ _ HP HR) as [Hq HQ]. destruct HP as (HM & _).
  assert (NZ : sq (S * s_y sp) + 4 * sq (a_M ps) * (S * s_x sp * s_y sp) <> 0).
  { assert (0 < S * s_y sp). { unfold q0_of in Hq. assert (0 < S * s_y sp / (2 * a_M ps) * (2 * a_M ps)) by (apply Rmult_lt_0_compat; lra).
      replace (S * s_y sp / (2 * a_M ps) * (2 * a_M ps)) with (S * s_y sp) in * by (field; lra). auto. }
    unfold sq. assert (0 <= 4 * (a_M ps * a_M ps) * (S * s_x sp * s_y sp)) by (apply Rmult_le_pos; [nra|auto]). nra. }
  unfold ph_t_sq_bound. cbv zeta. rewrite ediv_fin by exact NZ. cbn [emul esub eadd eneg].
  match goal with |- context [mk_bound (Fin 0) (Fin ?h)] => exists h end. intros t H. apply binter_points in H. destruct H as [_ H]. rewrite mk_bound_points in H. auto.
Qed.
Lemma angle_cut_onto c a : (is_set c -> exists lo hi, ends c lo hi) -> (is_set c -> contains c (Fin a) = true) -> (~ is_set c -> - PI <= a <= PI) ->
  exists p j, 0 <= p <= 1 /\ apply_map_b Linear anywhere p (if valid c then c else FULL_ANGLE) = Some (a, j) /\ 0 <= j.
Proof.
  unfold is_set. intros H1 H2 H3. destruct (valid c) eqn:V; [|apply angle_onto, H3; discriminate].
  apply one_onto; [right; auto| |auto]. destruct H1 as (lo & hi & E); auto. exists lo, hi. split; [exact E|]. split; [reflexivity|]. split; [reflexivity|]. apply linear_cov.
Qed.
(** Points that pass the cuts are produced. *)
Lemma valid_cut_obeys cut ps S sp : valid_cut cut (make_kin ps S sp) = true ->
  valid_kin (make_kin ps S sp) = true /\ obeys (c_x cut) (s_x sp) /\ obeys (c_y cut) (s_y sp) /\ obeys (c_z cut) (s_z sp) /\
  obeys (c_ph_t_sq cut) (s_ph_t_sq sp) /\ obeys (c_phi_h cut) (s_phi_h sp) /\ obeys (c_phi cut) (s_phi sp) /\
  obeys (c_Q_sq cut) (S * s_x sp * s_y sp) /\ obeys (c_t cut) (kt (make_kin ps S sp)) /\
  obeys (c_W_sq cut) (sq (a_M ps) + (1 - s_x sp) * (S * s_y sp)) /\ obeys (c_mx_sq cut) (kmx_sq (make_kin ps S sp)).
Proof.
  unfold valid_cut. cbv zeta. set (k := make_kin ps S sp). rewrite chain, !fails_chain. intros H.
  assert (EW : kW_sq k = sq (a_M ps) + (1 - s_x sp) * (S * s_y sp)).
  { unfold k. rewrite (ke_W_sq _ (make_kin_eqs ps S sp)). change (kS_x (make_kin ps S sp)) with (S * s_y sp) || change (kS_x (make_kin ps S sp)) with (S - S * (1 - s_y sp)).
    change (kQ_sq (make_kin ps S sp)) with (S * s_x sp * s_y sp). change (kM (make_kin ps S sp)) with (a_M ps). ring. }
  unfold obeys. rewrite <- EW. change (S * s_x sp * s_y sp) with (kQ_sq k). tauto.
Qed.
Lemma take_cut_onto cut ps S sp : masses_ok ps -> usable cut ps S -> valid_cut cut (make_kin ps S sp) = true ->
  (~ is_set (c_phi_h cut) -> - PI <= s_phi_h sp <= PI) -> (~ is_set (c_phi cut) -> - PI <= s_phi sp <= PI) ->
  exists u jac, unit_cube 6 u /\ take_cut cut ps S u = Some (make_kin ps S sp, jac).
Proof.
  intros HP HU V Ha Hb. destruct (valid_cut_obeys _ _ _ _ V) as (V0 & Ox & Oy & Oz & Opt & Oph & Oph' & OQ & _ & OW & _).
  apply valid_region in V0; auto. pose proof V0 as HR. pose proof (rg_S _ _ _ HR) as HS. pose proof (rg_x _ _ _ HR) as Hx.
  pose proof (keep_x cut ps S sp HP HR HU Ox OQ OW) as X. pose proof (keep_y cut ps S sp HP HR Oy OQ OW) as Y.
  pose proof (keep_z cut ps S sp HP HR Oz) as Z. pose proof (keep_pt cut ps S sp HP HR Opt) as T.
  destruct (one_onto (Inverse X_CUTOFF) (inverse_dom X_CUTOFF) (x_bound_cut cut ps S) (s_x sp)) as (p0 & j0 & P0 & A0 & _); [apply x_cut_wf| |auto|].
  { destruct (fin_ends _ 0 1 _ (x_cut_wf _ _ _) X) as (lo & hi & E & L1 & L2 & _). { intros t H. apply x_cut_sub in H. apply (x_range ps S); auto. }
    exists lo, hi. pose proof X_CUTOFF_pos. pose proof (wf_ends _ _ _ (x_cut_wf _ _ _) E) as L.
    split; [exact E|]. split; [apply inv_dom; lra|]. split; [apply inv_dom; lra|]. apply inverse_cov; auto. lra. }
  destruct (one_onto (Inverse 0) (inverse_dom 0) (y_bound_cut cut ps S (s_x sp)) (s_y sp)) as (p1 & j1 & P1 & A1 & _); [apply y_cut_wf| |auto|].
  { destruct (fin_ends _ 0 1 _ (y_cut_wf _ _ _ _) Y) as (lo & hi & E & L1 & L2 & C1 & C2). { intros t H. apply y_cut_sub in H. apply (y_range ps S (s_x sp)); auto. }
    exists lo, hi. pose proof (wf_ends _ _ _ (y_cut_wf _ _ _ _) E) as L. apply contains_points, y_cut_sub, contains_points in C1. apply y_points in C1; auto. destruct C1 as (c1 & c2 & c3 & c4).
    split; [exact E|]. split; [apply inv_dom; lra|]. split; [apply inv_dom; lra|]. apply inverse_cov; auto. lra. }
  destruct (one_onto Linear anywhere (z_bound_cut cut ps S (s_x sp) (s_y sp)) (s_z sp)) as (p2 & j2 & P2 & A2 & _); [apply z_cut_wf| |auto|].
  { destruct (fin_ends _ 0 1 _ (z_cut_wf _ _ _ _ _) Z) as (lo & hi & E & L1 & L2 & C1 & C2). { intros t H. apply z_cut_sub in H. apply (z_range ps S (s_x sp) (s_y sp)); auto. }
    exists lo, hi. split; [exact E|]. split; [reflexivity|]. split; [reflexivity|]. apply linear_cov. }
  destruct (one_onto (Decay PH_T_SQ_DECAY_WIDTH) anywhere (ph_t_sq_bound_cut cut ps S (s_x sp) (s_y sp) (s_z sp)) (s_ph_t_sq sp)) as (p3 & j3 & P3 & A3 & _); [apply pt_cut_wf| |auto|].
  { destruct (pt_finite ps S sp HP HR) as (h & B). destruct (fin_ends _ 0 h _ (pt_cut_wf _ _ _ _ _ _) T) as (lo & hi & E & L1 & L2 & C1 & C2).
    { intros t H. apply pt_cut_sub in H. apply B; auto. }
    exists lo, hi. split; [exact E|]. split; [reflexivity|]. split; [reflexivity|]. apply decay_cov. apply WIDTH_pos. }
  destruct HU as (_ & _ & U3 & U4).
  destruct (angle_cut_onto (c_phi_h cut) (s_phi_h sp) U3 Oph Ha) as (p4 & j4 & P4 & A4 & _).
  destruct (angle_cut_onto (c_phi cut) (s_phi sp) U4 Oph' Hb) as (p5 & j5 & P5 & A5 & _).
  exists (cube6 p0 p1 p2 p3 p4 p5), (j0 * j1 * j2 * j3 * j4 * j5). split.
  - intros i Hi. destruct i as [|[|[|[|[|[|i]]]]]]; [exact P0|exact P1|exact P2|exact P3|exact P4|exact P5|lia].
  - unfold take_cut, sample6. cbn [cube6]. rewrite A0, A1, A2, A3, A4, A5. destruct sp as [x y z pt ph ph']. cbn [s_x s_y s_z s_ph_t_sq s_phi_h s_phi] in *. cbv zeta. rewrite V. reflexivity.
Qed.
Lemma take_cut_make cut ps S u k jac : take_cut cut ps S u = Some (k, jac) -> k = make_kin ps S (sp_of k) /\ valid_cut cut k = true.
Proof.
  unfold take_cut. destruct (sample6 _ _ _ _ _ _ u) as [[[x y z pt ph ph'] j]|]; [|discriminate]. cbv zeta.
  set (k0 := make_kin ps S _). destruct (valid_cut cut k0) eqn:V; [|discriminate].
  intros H. assert (H1 : k0 = k) by congruence. subst k. auto.
Qed.
Lemma strict_admissible ps S sp : masses_ok ps -> region ps S sp ->
  sq (a_m ps) * (sq (S * s_y sp) + 4 * sq (a_M ps) * (S * s_x sp * s_y sp)) < S * s_x sp * s_y sp * (S * (S * (1 - s_y sp)) - sq (a_M ps) * (S * s_x sp * s_y sp)) ->
  admissible ps S sp.
Proof.
  intros HP HR H. destruct (region_y ps S sp HP HR) as (_ & HL & Hx & Hy). pose proof HP as (HM & Hm & Hmh & _). destruct HR as [HS Hb Hx' Hy' Hz Hpt Hlep [Hh1 Hh2] Hmis].
  unfold admissible. cbv zeta. repeat (split; [lra|]). split.
  - unfold Eh_of in Hh1. destruct (Rle_lt_dec (s_z sp) 0); auto. assert (s_z sp = 0) as E by lra. rewrite E in Hh1. lra.
  - split; [auto|]. split; [auto|]. replace (s_z sp * (S * s_y sp) / (2 * a_M ps)) with (Eh_of ps S sp) by (unfold Eh_of, q0_of; field; lra). auto.
Qed.
Lemma take_cut_sound cut ps S u k jac : masses_ok ps -> take_cut cut ps S u = Some (k, jac) ->
  k = make_kin ps S (sp_of k) /\ region ps S (sp_of k) /\
  forall e T, same_event e ps S (sp_of k) -> lorentz T ->
    obeys_cuts cut (kphi_h k) (kphi k) (tapp4 T (v_p e)) (tapp4 T (v_k1 e)) (tapp4 T (v_q e)) (tapp4 T (v_ph e)).
Proof.
  intros HP H. destruct (take_cut_make _ _ _ _ _ _ H) as [E V]. split; [auto|]. rewrite E in V. split; [apply valid_region; auto; apply (valid_cut_obeys cut); auto|].
  intros e T HE [T1 T2]. apply T_obeys; auto. apply (valid_cut_spec cut e ps S (sp_of k)) in V; auto; [|apply HP]. apply V.
Qed.
(** A Q^2 cut without an upper end. *)
Lemma Q_inf_invalid cut ps S t : is_set (c_Q_sq cut) -> bmax (c_Q_sq cut) = PInf -> ~ points (x_bound_cut cut ps S) t.
Proof.
  intros V E H. unfold x_bound_cut in H. cbv zeta in H. apply if_inter in H. unfold is_set in V. rewrite V in H. apply binter_points in H. destruct H as [_ H].
  rewrite mk_bound_points, E in H. destruct H as [_ H]. cbn in H. inversion H.
Qed.
Lemma sample6_empty xb yb zb ptb pb pb' u : wf xb -> (forall t, ~ points xb t) -> sample6 xb yb zb ptb pb pb' u = None.
Proof.
  intros W H. unfold sample6, apply_map_b. destruct (bmin xb) as [lo| | |] eqn:E1; auto. destruct (bmax xb) as [hi| | |] eqn:E2; auto.
  exfalso. assert (L : lo <= hi) by (apply (wf_ends xb); [auto|split; auto]). apply (H (Fin lo)). unfold points. rewrite E1, E2, !le_FF. lra.
Qed.
Lemma Q_inf_drops cut ps S u : is_set (c_Q_sq cut) -> bmax (c_Q_sq cut) = PInf -> take_cut cut ps S u = None.
Proof. intros V E. unfold take_cut. rewrite sample6_empty; [auto|apply x_cut_wf|]. intros t. apply Q_inf_invalid; auto. Qed.
(** A W^2 cut with a low lower end. *)
Lemma W_low_invalid cut ps S w t : is_set (c_W_sq cut) -> bmin (c_W_sq cut) = Fin w -> 0 < S -> 0 < lamS ps S -> w < sq (a_M ps) ->
  lamS ps S + sq (a_M ps) * (w - sq (a_M ps)) < 0 -> 0 <= a_M ps -> ~ points (x_bound_cut cut ps S) t.
Proof.
  intros V E HS HL Hw HA HM H. pose proof (x_range ps S t (x_cut_sub _ _ _ _ H)) as [R0 R1]. unfold x_bound_cut in H. cbv zeta in H. unfold is_set in V. rewrite V in H. apply binter_points in H. destruct H as [_ H].
  rewrite mk_bound_points, E in H. cbn [eadd esub eneg emul] in H. fold (lamS ps S) in H. destruct H as [_ H].
  set (N := w + - sq (a_M ps)) in *. assert (NN : N < 0) by (unfold N; lra). unfold esqrt in H. destruct (rltb _ 0) eqn:C.
  { cbn in H. inversion H; subst; inversion R0. }
  cbn [eadd] in H. assert (HA' : 2 * (lamS ps S + sq (a_M ps) * N) < 0) by (unfold N; lra). rewrite ediv_fin in H by lra.
  set (D := sqrt _) in *. assert (0 <= D) by apply sqrt_pos.
  destruct t as [t| | |]; [|inversion H|inversion R0|inversion H]. rewrite le_FF in H, R0.
  assert (P : 0 < lamS ps S + - (S * N) + D) by nra.
  assert ((lamS ps S + - (S * N) + D) / (2 * (lamS ps S + sq (a_M ps) * N)) < 0); [|lra].
  unfold Rdiv. assert (/ (2 * (lamS ps S + sq (a_M ps) * N)) < 0) by (apply Rinv_lt_0_compat; auto). nra.
Qed.
Lemma W_low_drops cut ps S w u : is_set (c_W_sq cut) -> bmin (c_W_sq cut) = Fin w -> 0 < S -> 0 < lamS ps S -> w < sq (a_M ps) ->
  lamS ps S + sq (a_M ps) * (w - sq (a_M ps)) < 0 -> 0 <= a_M ps -> take_cut cut ps S u = None.
Proof. intros. unfold take_cut. rewrite sample6_empty; [auto|apply x_cut_wf|]. intros t. apply (W_low_invalid cut ps S w); auto. Qed.

(** * With a photon *)
Lemma take9_make ps S u r jac : take9_kin ps S u = Some (r, jac) ->
  exists k jk, take_kin ps S u = Some (k, jk) /\ r = make_rad k (rtau r) (rphi_k r) (rR r).
Proof.
  unfold take9_kin. destruct (take_kin ps S u) as [[k jk]|]; [|discriminate]. unfold take3_kin. destruct (take3_space k (tail6 u)) as [[w jr]|]; [|discriminate].
  intros H. injection H as <- <-. exists k, jk. auto.
Qed.
Lemma full_angle a : contains FULL_ANGLE (Fin a) = true -> - PI <= a <= PI.
Proof. intros H. apply contains_points in H. unfold FULL_ANGLE in H. rewrite mk_bound_points, !le_FF in H. auto. Qed.
Lemma take9_physical ps S u r jac : masses_ok ps -> 0 < a_Mth ps -> 0 < S -> unit_cube 9 u -> take9_kin ps S u = Some (r, jac) ->
  let sp := sp_of (project r) in
  r = make_rad (make_kin ps S sp) (rtau r) (rphi_k r) (rR r) /\ region ps S sp /\
  (exists n, null_future n /\ rtau r = dot4 n (q_rest ps S sp) / dot4 n (p_rest ps)) /\ - PI <= rphi_k r <= PI /\
  0 <= rR r /\ sq (a_Mth ps) <= missing_rad_sq ps S sp (rtau r) (rphi_k r) (rR r) /\ 0 <= jac.
Proof.
  intros HP Hth HS U H sp. assert (Hm : 0 <= a_m ps) by (destruct HP; lra). pose proof (take9_kin_jacobian ps S Hm) as J.
  destruct (take9_make _ _ _ _ _ H) as (k & jk & E & Er). assert (Ep : project r = k) by (rewrite Er; apply make_rad_copies).
  pose proof (take_kin_make _ _ _ _ _ E) as Ek.
  destruct (take_kin_physical ps S u k jk HP HS) as (HR & _); [intros i Hi; apply U; lia|auto|].
  pose proof (coords_in _ _ _ _ _ _ _ 6%nat J U H ltac:(lia)) as I6. pose proof (coords_in _ _ _ _ _ _ _ 7%nat J U H ltac:(lia)) as I7. pose proof (coords_in _ _ _ _ _ _ _ 8%nat J U H ltac:(lia)) as I8.
  unfold limits9_plain in *. cbn [limits9 rad_coord] in *. unfold sp. rewrite Ep in *. rewrite Ek in I6, I8.
  destruct (region_q0 _ _ _ HP HR) as [Hq HQ].
  split; [rewrite <- Ek; auto|]. split; [auto|]. split; [apply (tau_null ps S (sp_of k) (rtau r) 0); auto; apply HP|]. split; [apply full_angle; auto|].
  destruct (R_ends ps S (sp_of k) (rtau r) (rphi_k r) HP Hth HR I6) as (Rm & E1 & _ & _ & E2). rewrite E1 in I8. apply contains_points in I8. destruct I8 as [I8 I9]. cbn [bmin bmax] in *.
  rewrite le_FF in I8, I9. split; [auto|]. split; [apply E2; auto|]. apply (jac_nonneg _ _ _ _ _ _ _ J U H).
Qed.
Definition cube9 (u v : nat -> R) (i : nat) : R := if Nat.ltb i 6 then u i else v (i - 6)%nat.
Definition cube3 (a b c : R) (i : nat) : R := match i with 0 => a | 1 => b | _ => c end%nat.
Lemma take9_onto ps S sp tau phi_k R : masses_ok ps -> 0 < a_Mth ps -> region ps S sp -> - PI <= s_phi_h sp <= PI -> - PI <= s_phi sp <= PI ->
  (* not on the edge where the lepton plane or the phase space of the photon degenerates *)
  sq (a_m ps) * (sq (S * s_y sp) + 4 * sq (a_M ps) * (S * s_x sp * s_y sp)) < S * s_x sp * s_y sp * (S * (S * (1 - s_y sp)) - sq (a_M ps) * (S * s_x sp * s_y sp)) ->
  sq (a_Mth ps) < missing_sq ps S sp ->
  contains (tau_bound (make_kin ps S sp)) (Fin tau) = true -> - PI <= phi_k <= PI -> 0 <= R -> sq (a_Mth ps) <= missing_rad_sq ps S sp tau phi_k R ->
  exists u jac, unit_cube 9 u /\ take9_kin ps S u = Some (make_rad (make_kin ps S sp) tau phi_k R, jac).
Proof.
  intros HP Hth HR Ha Hb Hl Hmm Ht Hp HR0 HRR. destruct (take_kin_onto ps S sp HP HR Ha Hb) as (u & j & U & E).
  destruct (region_q0 _ _ _ HP HR) as [Hq HQ]. pose proof HP as (HM & Hm & Hmh & _ & _). set (k := make_kin ps S sp) in *.
  pose proof HR as [HS Hbm Hx Hy Hz Hpt Hlep [Hh1 Hh2] Hmis].
  assert (L1 : 0 < klambda_1 k).
  { change (klambda_1 k) with (kQ_sq k * (kS k * kX k - sq (kM k) * kQ_sq k) - sq (km k) * klambda_Y k).
    assert (EY : klambda_Y k = sq (S * s_y sp) + 4 * sq (a_M ps) * (S * s_x sp * s_y sp)).
    { change (klambda_Y k) with (sq (kS_x k) + 4 * sq (a_M ps) * (S * s_x sp * s_y sp)). unfold k. rewrite (f_Sx ps S sp HM).
      unfold q0_of, sq. field. lra. }
    rewrite EY. change (kQ_sq k) with (S * s_x sp * s_y sp). change (kS k) with S. change (kX k) with ((1 - s_y sp) * S). change (kM k) with (a_M ps). change (km k) with (a_m ps). lra. }
  assert (PL1 : 0 < klambda_1_sqrt k) by (change (klambda_1_sqrt k) with (sqrt (klambda_1 k)); apply sqrt_lt_R0; auto).
  assert (Q0 : 0 < S * s_x sp * s_y sp).
  { destruct (Rle_lt_or_eq_dec _ _ HQ) as [h|h]; auto. rewrite <- h in Hl. unfold sq in Hl. nra. }
  assert (Y1 : s_y sp < 1).
  { destruct (Rle_lt_dec 1 (s_y sp)) as [h|h]; auto. assert (s_y sp = 1) as E1 by lra. exfalso.
    assert (0 <= sq (a_m ps) * (sq (S * s_y sp) + 4 * sq (a_M ps) * (S * s_x sp * s_y sp))) by (unfold sq; apply Rmult_le_pos; [nra|]; apply Rplus_le_le_0_compat; [apply Rle_0_sqr|apply Rmult_le_pos; [nra|auto]]).
    replace (S * (S * (1 - s_y sp))) with 0 in Hl by (rewrite E1; ring).
    assert (0 <= S * s_x sp * s_y sp * (sq (a_M ps) * (S * s_x sp * s_y sp))) by (apply Rmult_le_pos; [auto|apply Rmult_le_pos; [apply Rle_0_sqr|auto]]). lra. }
  assert (X0 : 0 < kX k) by (change (kX k) with ((1 - s_y sp) * S); nra).
  assert (DN : 0 < 1 + kS_x k / sq (kM k) - kph_l k / kM k).
  { unfold k at 1 3. rewrite (f_Sx ps S sp HM), (f_ph_l ps S sp HM Hh1 Hh2). change (kM k) with (a_M ps).
    assert (PLE : pl_of ps S sp <= q0_of ps S sp).
    { unfold pl_of. apply Rle_trans with (Eh_of ps S sp). - apply Rle_trans with (sqrt (Eh_of ps S sp * Eh_of ps S sp)); [apply sqrt_le_1_alt; unfold sq; nra|rewrite sqrt_square; lra]. - unfold Eh_of. nra. }
    replace (1 + 2 * a_M ps * q0_of ps S sp / sq (a_M ps) - pl_of ps S sp / a_M ps) with ((a_M ps + 2 * q0_of ps S sp - pl_of ps S sp) / a_M ps) by (unfold sq; field; lra).
    apply Rmult_lt_0_compat; [lra|apply Rinv_0_lt_compat; auto]. }
  assert (RT : 0 < (kmx_sq k - sq (kMth k)) / (1 + kS_x k / sq (kM k) - kph_l k / kM k) / 128).
  { destruct (f_mx_sq ps S sp HM Hq) as [F _]; auto. fold k in F. rewrite F. change (kMth k) with (a_Mth ps).
    apply Rmult_lt_0_compat; [apply Rmult_lt_0_compat; [lra|apply Rinv_0_lt_compat; auto]|lra]. }
  assert (S2 : 0 < sqrt 2) by (apply sqrt_lt_R0; lra).
  destruct (one_onto (Sigmoid2 (kQ_sq k / kX k) (sqrt 2 * klambda_1_sqrt k * km k / sq (kX k)) (- (1 - ky k)) (sq (1 - ky k)))
     (width_dom (sqrt 2 * klambda_1_sqrt k * km k / sq (kX k) * sq (1 - ky k))) (tau_bound k) tau) as (p0 & j0 & P0 & A0 & _); [apply wf_binter| |auto|].
  { assert (W1 : 0 < sqrt 2 * klambda_1_sqrt k * km k / sq (kX k)).
    { apply Rmult_lt_0_compat; [apply Rmult_lt_0_compat; [nra|exact Hm]|apply Rinv_0_lt_compat; unfold sq; nra]. }
    assert (W2 : 0 < sq (1 - ky k)) by (change (ky k) with (s_y sp); unfold sq; nra).
    pose proof (tau_ends ps S sp HM Hq HQ) as TE. fold k in TE. exists ((q0_of ps S sp - qn_of ps S sp) / a_M ps), ((q0_of ps S sp + qn_of ps S sp) / a_M ps).
    assert (EE : ends (tau_bound k) ((q0_of ps S sp - qn_of ps S sp) / a_M ps) ((q0_of ps S sp + qn_of ps S sp) / a_M ps)) by (rewrite TE; split; reflexivity).
    split; [exact EE|]. split; [apply width_spec; nra|]. split; [apply width_spec; nra|]. apply sigmoid2_cov; auto. apply (wf_ends _ _ _ (wf_binter _ _) EE). }
  destruct (one_onto (Sigmoid 0 (klambda_Y_sqrt k / klambda_1_sqrt k / sqrt 2 * km k)) (width_dom (klambda_Y_sqrt k / klambda_1_sqrt k / sqrt 2 * km k)) FULL_ANGLE phi_k) as (p1 & j1 & P1 & A1 & _); [apply wf_mk| | |].
  { assert (W : 0 < klambda_Y_sqrt k / klambda_1_sqrt k / sqrt 2 * km k).
    { unfold k at 1. rewrite (f_lambda_Y_sqrt ps S sp HM HQ). pose proof (qn_pos ps S sp Hq HQ).
      apply Rmult_lt_0_compat; [|exact Hm]. apply Rmult_lt_0_compat; [apply Rmult_lt_0_compat; [nra|]|]; apply Rinv_0_lt_compat; auto. }
    exists (- PI), PI. pose proof PI_RGT_0. split.
    - unfold FULL_ANGLE, mk_bound. cbn [eleb]. replace (rleb (- PI) PI) with true by (symmetry; apply rleb_spec; lra). split; reflexivity.
    - split; [apply width_spec; lra|]. split; [apply width_spec; lra|]. apply sigmoid_cov; auto. }
  { apply contains_points. unfold FULL_ANGLE. rewrite mk_bound_points, !le_FF. lra. }
  destruct (R_ends ps S sp tau phi_k HP Hth HR Ht) as (Rm & E1 & L0 & _ & E2). fold k in E1.
  set (rt := (kmx_sq k - sq (kMth k)) / (1 + kS_x k / sq (kM k) - kph_l k / kM k) / 128) in *.
  destruct (one_onto (Log rt) (log_dom rt) (R_bound k tau phi_k) R) as (p2 & j2 & P2 & A2 & _); [apply wf_mk| | |].
  { exists 0, Rm. rewrite E1. split; [split; reflexivity|]. unfold log_dom. rewrite !rltb_spec. split; [lra|]. split; [lra|]. apply log_cov. lra. }
  { apply contains_points. rewrite E1. unfold points. cbn [bmin bmax]. rewrite !le_FF. split; [auto|apply E2; auto]. }
  exists (cube9 u (cube3 p0 p1 p2)), (j0 * j1 * j2 * j). split.
  - intros i Hi. unfold cube9. destruct (Nat.ltb i 6) eqn:Ei; [apply U; apply Nat.ltb_lt; auto|].
    apply Nat.ltb_ge in Ei. assert (Hc : i = 6%nat \/ i = 7%nat \/ i = 8%nat) by lia. destruct Hc as [ -> | [ -> | -> ] ]; auto.
  - unfold take9_kin. assert (EK : take_kin ps S (cube9 u (cube3 p0 p1 p2)) = take_kin ps S u).
    { unfold take_kin, take_space. rewrite (sample6_local _ _ _ _ _ _ u); [reflexivity|]. intros l Hl'. unfold cube9. apply Nat.ltb_lt in Hl'. rewrite Hl'. reflexivity. }
    rewrite EK, E. unfold take3_kin, take3_space, sample3. cbv zeta. fold rt. unfold tail6, cube9. cbn [Nat.ltb Nat.leb Nat.add Nat.sub cube3]. fold k.
    replace (reqb (kX k) 0) with false by (symmetry; apply reqb_false; lra). replace (reqb (klambda_1_sqrt k) 0) with false by (symmetry; apply reqb_false; lra).
    replace (reqb (1 + kS_x k / sq (kM k) - kph_l k / kM k) 0) with false by (symmetry; apply reqb_false; lra). cbn [orb].
    rewrite A0, A1, A2. reflexivity.
Qed.
Lemma take9_cut_sound cut cut_rad ps S u r jac : masses_ok ps -> 0 < a_Mth ps -> take9_cut cut cut_rad ps S u = Some (r, jac) ->
  let sp := sp_of (project r) in
  r = make_rad (make_kin ps S sp) (rtau r) (rphi_k r) (rR r) /\ region ps S sp /\
  0 <= rR r /\ sq (a_Mth ps) <= missing_rad_sq ps S sp (rtau r) (rphi_k r) (rR r) /\
  forall e f T, same_event e ps S sp -> same_photon f e (rtau r) (rphi_k r) (rR r) -> lorentz T -> let t := tapp4 T in
    obeys_cuts cut (rphi_h r) (rphi r) (t (v_p e)) (t (v_k1 e)) (t (v_q e)) (t (v_ph e)) /\
    obeys_cuts_rad cut_rad (rtau r) (rphi_k r) (t (v_p e)) (t (v_k1 e)) (t (v_q e)) (t (v_ph e)) (t (v_k e f)) (t (v_n f)).
Proof.
  intros HP Hth H sp. unfold take9_cut in H. destruct (take_cut cut ps S u) as [[k jk]|] eqn:E; [|discriminate]. unfold take3_cut in H.
  destruct (sample3 k _ _ _ _) as [[[[tau phi_k] R] jr]|] eqn:E3; [|discriminate]. cbv zeta in H. destruct (valid_cut_rad cut_rad _) eqn:V; [|discriminate].
  injection H as <- <-. unfold sp. rewrite make_rad_copies. change (rtau (make_rad k tau phi_k R)) with tau. change (rphi_k (make_rad k tau phi_k R)) with phi_k.
  change (rR (make_rad k tau phi_k R)) with R. change (rphi_h (make_rad k tau phi_k R)) with (kphi_h k). change (rphi (make_rad k tau phi_k R)) with (kphi k).
  destruct (take_cut_sound _ _ _ _ _ _ HP E) as (Ek & HR & HO). rewrite Ek in V.
  assert (V' : valid_rad (make_rad (make_kin ps S (sp_of k)) tau phi_k R) = true).
  { revert V. unfold valid_cut_rad. cbv zeta. rewrite chain. tauto. }
  apply valid_rad_spec in V'; auto. destruct V' as (_ & _ & HR0 & HR1). split; [rewrite <- Ek; auto|]. split; [auto|]. split; [auto|]. split; [auto|].
  intros e f T HE HF HT. split; [apply HO; auto|]. destruct HT as [T1 T2]. apply T_obeys_rad; auto. apply (valid_cut_rad_spec cut_rad e f ps S (sp_of k)) in V; auto. apply V.
Qed.
Lemma W_ninf_drops cut ps S u : is_set (c_W_sq cut) -> bmin (c_W_sq cut) = NInf -> 0 < S -> 0 < lamS ps S -> 0 < a_m ps -> take_cut cut ps S u = None.
Proof.
  intros V E HS HL Hm. unfold take_cut. rewrite sample6_empty; [auto|apply x_cut_wf|]. intros t H. unfold x_bound_cut in H. cbv zeta in H. unfold is_set in V. rewrite V in H. apply binter_points in H. destruct H as [_ H].
  rewrite mk_bound_points, E in H. destruct H as [H _]. cbn [eadd esub eneg emul] in H. fold (lamS ps S) in H. rewrite (sinf_neg (- S)), (sinf_neg (- (4 * sq (a_m ps)))) in H by (unfold sq; nra).
  cbn [eneg eadd emul] in H. rewrite (sinf_pos (lamS ps S)) in H by auto. cbn [esqrt eneg eadd ediv] in H. inversion H.
Qed.
(** The strict part of the region is where events exist. *)
Lemma valid_cut_iff_obeys cut ps S sp : masses_ok ps -> admissible ps S sp -> exists e, same_event e ps S sp /\
  (valid_cut cut (make_kin ps S sp) = true <->
   region ps S sp /\ obeys_cuts cut (s_phi_h sp) (s_phi sp) (v_p e) (v_k1 e) (v_q e) (v_ph e)).
Proof.
  intros HP HA. destruct (KinAll.admissible_event ps S sp HA) as [e He]. exists e. split; [auto|].
  rewrite (valid_cut_spec cut e ps S sp) by (auto; apply HP). rewrite valid_region by auto. reflexivity.
Qed.
Lemma W_keeps cut ps S sp w : masses_ok ps -> region ps S sp -> is_set (c_W_sq cut) -> bmin (c_W_sq cut) = Fin w ->
  sq (a_M ps) <= w -> (is_set (c_Q_sq cut) -> exists hi, bmax (c_Q_sq cut) = Fin hi) ->
  (is_set (c_phi_h cut) -> exists lo hi, ends (c_phi_h cut) lo hi) -> (is_set (c_phi cut) -> exists lo hi, ends (c_phi cut) lo hi) ->
  valid_cut cut (make_kin ps S sp) = true ->
  (~ is_set (c_phi_h cut) -> - PI <= s_phi_h sp <= PI) -> (~ is_set (c_phi cut) -> - PI <= s_phi sp <= PI) ->
  exists u jac, unit_cube 6 u /\ take_cut cut ps S u = Some (make_kin ps S sp, jac).
Proof.
  intros HP HR V E Hw HQ H3 H4. apply take_cut_onto; auto. split; [auto|]. split; [|auto]. intros _. exists w. split; [auto|].
  pose proof (rg_beam _ _ _ HR). assert (0 <= sq (a_M ps) * (w - sq (a_M ps))) by (apply Rmult_le_pos; [apply Rle_0_sqr|lra]). lra.
Qed.
Lemma W_value ps S sp : kW_sq (make_kin ps S sp) = sq (a_M ps) + (1 - s_x sp) * (S * s_y sp).
Proof.
  rewrite (ke_W_sq _ (make_kin_eqs ps S sp)). change (kS_x (make_kin ps S sp)) with (S * s_y sp) || change (kS_x (make_kin ps S sp)) with (S - S * (1 - s_y sp)).
  change (kQ_sq (make_kin ps S sp)) with (S * s_x sp * s_y sp). change (kM (make_kin ps S sp)) with (a_M ps). ring.
Qed.
