(** The radiative sampler with cuts reaches every point that passes the cuts. *)
From Coq Require Import Reals Bool Lra Psatz Lia.
From Verif Require Import ExtModel BoundModel BoundSpec BoundProofs MathModel MathProofs MapModel MapSpec MapProofs ParticleModel VecModel TransModel VecTac FrameBase KinModel KinEqs KinSpec CutModel CutSpec CutProofs CutBounds CutPhoton CutTake CutNames CutReach.
Local Open Scope R_scope.

Lemma sub_wf c b : wf b -> wf (if valid c then binter b c else b).
Proof. destruct (valid c); auto. intros _. apply wf_binter. Qed.
Lemma sub_points (c : bool) a b t : points (if c then binter a b else a) t -> points a t.
Proof. destruct c; auto. intros H. apply binter_points in H. tauto. Qed.

Lemma sample3_onto ps S sp taub phib Rb tau phi_k R : masses_ok ps -> 0 < a_Mth ps -> region ps S sp ->
  sq (a_m ps) * (sq (S * s_y sp) + 4 * sq (a_M ps) * (S * s_x sp * s_y sp)) < S * s_x sp * s_y sp * (S * (S * (1 - s_y sp)) - sq (a_M ps) * (S * s_x sp * s_y sp)) ->
  sq (a_Mth ps) < missing_sq ps S sp -> let k := make_kin ps S sp in
  wf taub -> contains taub (Fin tau) = true -> (forall t, points taub t -> points (tau_bound k) t) ->
  wf phib -> contains phib (Fin phi_k) = true -> (exists lo hi, ends phib lo hi) ->
  wf (Rb tau phi_k) -> contains (Rb tau phi_k) (Fin R) = true -> (forall t, points (Rb tau phi_k) t -> points (R_bound k tau phi_k) t) ->
  exists a b c jac, 0 <= a <= 1 /\ 0 <= b <= 1 /\ 0 <= c <= 1 /\ sample3 k taub phib Rb (cube3 a b c) = Some (tau, phi_k, R, jac).
Proof.
  intros HP Hth HR Hl Hmm k W1 C1 I1 W2 C2 I2 W3 C3 I3.
  destruct (region_q0 _ _ _ HP HR) as [Hq HQ]. pose proof HP as (HM & Hm & Hmh & _ & _).
  pose proof HR as [HS Hbm Hx Hy Hz Hpt Hlep [Hh1 Hh2] Hmis].
  assert (L1 : 0 < klambda_1 k).
  { change (klambda_1 k) with (kQ_sq k * (kS k * kX k - sq (kM k) * kQ_sq k) - sq (km k) * klambda_Y k).
    assert (EY : klambda_Y k = sq (S * s_y sp) + 4 * sq (a_M ps) * (S * s_x sp * s_y sp)).
    { change (klambda_Y k) with (sq (kS_x k) + 4 * sq (a_M ps) * (S * s_x sp * s_y sp)). unfold k. rewrite (f_Sx ps S sp HM).
      unfold q0_of, sq. field. lra. }
    rewrite EY. change (kQ_sq k) with (S * s_x sp * s_y sp). change (kS k) with S. change (kX k) with ((1 - s_y sp) * S). change (kM k) with (a_M ps). change (km k) with (a_m ps). lra. }
  assert (PL1 : 0 < klambda_1_sqrt k) by (change (klambda_1_sqrt k) with (sqrt (klambda_1 k)); apply sqrt_lt_R0; auto).
  assert (Q0 : 0 < S * s_x sp * s_y sp).
  { destruct (Rle_lt_or_eq_dec _ _ HQ) as [h|h]; auto. rewrite <- h in Hl. unfold sq in Hl. nra. }
  assert (Y1 : s_y sp < 1).
  { destruct (Rle_lt_dec 1 (s_y sp)) as [h|h]; auto. assert (s_y sp = 1) as E1 by lra. exfalso.
    assert (0 <= sq (a_m ps) * (sq (S * s_y sp) + 4 * sq (a_M ps) * (S * s_x sp * s_y sp))) by (unfold sq; apply Rmult_le_pos; [nra|]; apply Rplus_le_le_0_compat; [apply Rle_0_sqr|apply Rmult_le_pos; [nra|auto]]).
    replace (S * (S * (1 - s_y sp))) with 0 in Hl by (rewrite E1; ring).
    assert (0 <= S * s_x sp * s_y sp * (sq (a_M ps) * (S * s_x sp * s_y sp))) by (apply Rmult_le_pos; [auto|apply Rmult_le_pos; [apply Rle_0_sqr|auto]]). lra. }
  assert (X0 : 0 < kX k) by (change (kX k) with ((1 - s_y sp) * S); nra).
  assert (DN : 0 < 1 + kS_x k / sq (kM k) - kph_l k / kM k).
  { unfold k at 1 3. rewrite (f_Sx ps S sp HM), (f_ph_l ps S sp HM Hh1 Hh2). change (kM k) with (a_M ps).
    assert (PLE : pl_of ps S sp <= q0_of ps S sp).
    { unfold pl_of. apply Rle_trans with (Eh_of ps S sp). - apply Rle_trans with (sqrt (Eh_of ps S sp * Eh_of ps S sp)); [apply sqrt_le_1_alt; unfold sq; nra|rewrite sqrt_square; lra]. - unfold Eh_of. nra. }
    replace (1 + 2 * a_M ps * q0_of ps S sp / sq (a_M ps) - pl_of ps S sp / a_M ps) with ((a_M ps + 2 * q0_of ps S sp - pl_of ps S sp) / a_M ps) by (unfold sq; field; lra).
    apply Rmult_lt_0_compat; [lra|apply Rinv_0_lt_compat; auto]. }
  assert (RT : 0 < (kmx_sq k - sq (kMth k)) / (1 + kS_x k / sq (kM k) - kph_l k / kM k) / 128).
  { destruct (f_mx_sq ps S sp HM Hq) as [F _]; auto. fold k in F. rewrite F. change (kMth k) with (a_Mth ps).
    apply Rmult_lt_0_compat; [apply Rmult_lt_0_compat; [lra|apply Rinv_0_lt_compat; auto]|lra]. }
  assert (S2 : 0 < sqrt 2) by (apply sqrt_lt_R0; lra).
  destruct (one_onto (Sigmoid2 (kQ_sq k / kX k) (sqrt 2 * klambda_1_sqrt k * km k / sq (kX k)) (- (1 - ky k)) (sq (1 - ky k)))
     (width_dom (sqrt 2 * klambda_1_sqrt k * km k / sq (kX k) * sq (1 - ky k))) taub tau) as (p0 & j0 & P0 & A0 & _); [exact W1| |exact C1|].
  { assert (V1 : 0 < sqrt 2 * klambda_1_sqrt k * km k / sq (kX k)).
    { apply Rmult_lt_0_compat; [apply Rmult_lt_0_compat; [nra|exact Hm]|apply Rinv_0_lt_compat; unfold sq; nra]. }
    assert (V2 : 0 < sq (1 - ky k)) by (change (ky k) with (s_y sp); unfold sq; nra).
    pose proof (tau_ends ps S sp HM Hq HQ) as TE. fold k in TE.
    destruct (fin_ends taub ((q0_of ps S sp - qn_of ps S sp) / a_M ps) ((q0_of ps S sp + qn_of ps S sp) / a_M ps) tau W1 C1) as (lo & hi & E & _).
    { intros t H. apply I1 in H. rewrite TE in H. exact H. }
    exists lo, hi. split; [exact E|]. split; [apply width_spec; nra|]. split; [apply width_spec; nra|]. apply sigmoid2_cov; auto. apply (wf_ends _ _ _ W1 E). }
  destruct (one_onto (Sigmoid 0 (klambda_Y_sqrt k / klambda_1_sqrt k / sqrt 2 * km k)) (width_dom (klambda_Y_sqrt k / klambda_1_sqrt k / sqrt 2 * km k)) phib phi_k) as (p1 & j1 & P1 & A1 & _); [exact W2| |exact C2|].
  { assert (W : 0 < klambda_Y_sqrt k / klambda_1_sqrt k / sqrt 2 * km k).
    { unfold k at 1. rewrite (f_lambda_Y_sqrt ps S sp HM HQ). pose proof (qn_pos ps S sp Hq HQ).
      apply Rmult_lt_0_compat; [|exact Hm]. apply Rmult_lt_0_compat; [apply Rmult_lt_0_compat; [nra|]|]; apply Rinv_0_lt_compat; auto. }
    destruct I2 as (lo & hi & E). exists lo, hi. split; [exact E|]. split; [apply width_spec; lra|]. split; [apply width_spec; lra|].
    apply sigmoid_cov; auto. }
  assert (Ht : contains (tau_bound k) (Fin tau) = true) by (apply contains_points, I1, contains_points, C1).
  destruct (R_ends ps S sp tau phi_k HP Hth HR Ht) as (Rm & E1 & L0 & _ & E2). fold k in E1.
  set (rt := (kmx_sq k - sq (kMth k)) / (1 + kS_x k / sq (kM k) - kph_l k / kM k) / 128) in *.
  destruct (one_onto (Log rt) (log_dom rt) (Rb tau phi_k) R) as (p2 & j2 & P2 & A2 & _); [exact W3| |exact C3|].
  { destruct (fin_ends _ 0 Rm R W3 C3) as (lo & hi & E & Llo & _). { intros t H. apply I3 in H. rewrite E1 in H. exact H. }
    pose proof (wf_ends _ _ _ W3 E). exists lo, hi. split; [exact E|]. unfold log_dom. rewrite !rltb_spec. split; [lra|]. split; [lra|]. apply log_cov; lra. }
  exists p0, p1, p2, (j0 * j1 * j2). split; [exact P0|]. split; [exact P1|]. split; [exact P2|].
  unfold sample3. cbv zeta. fold rt. cbn [cube3].
  replace (reqb (kX k) 0) with false by (symmetry; apply reqb_false; lra). replace (reqb (klambda_1_sqrt k) 0) with false by (symmetry; apply reqb_false; lra).
  replace (reqb (1 + kS_x k / sq (kM k) - kph_l k / kM k) 0) with false by (symmetry; apply reqb_false; lra). cbn [orb].
  rewrite A0, A1, A2. reflexivity.
Qed.

Lemma valid_cut_rad_obeys cut k tau phi_k R : let r := make_rad k tau phi_k R in valid_cut_rad cut r = true ->
  valid_rad r = true /\ obeys (d_tau cut) tau /\ obeys (d_phi_k cut) phi_k /\ obeys (d_R cut) R /\
  (is_set (d_k_0_bar cut) -> contains (d_k_0_bar cut) (ediv (Fin ((1 + tau - rmu r) * R)) (Fin (2 * rmx r))) = true).
Proof.
  intros r. unfold valid_cut_rad. cbv zeta. rewrite chain, !fails_chain. unfold obeys.
  change (rtau r) with tau. change (rphi_k r) with phi_k. change (rR r) with R. tauto.
Qed.
Lemma R_cut_wf cut k tau phi_k : wf (R_bound_cut cut k tau phi_k).
Proof.
  unfold R_bound_cut. cbv zeta. destruct (valid (d_k_0_bar cut)); [apply wf_binter|]. destruct (valid (d_R cut)); [apply wf_binter|apply wf_mk].
Qed.
Lemma R_cut_sub cut k tau phi_k t : points (R_bound_cut cut k tau phi_k) t -> points (R_bound k tau phi_k) t.
Proof. unfold R_bound_cut. cbv zeta. intros H. apply sub_points in H. apply sub_points in H. exact H. Qed.
Lemma mu_is ps S sp tau phi_k R : masses_ok ps -> region ps S sp -> contains (tau_bound (make_kin ps S sp)) (Fin tau) = true ->
  R_mu (make_kin ps S sp) tau phi_k = Fin (rmu (make_rad (make_kin ps S sp) tau phi_k R)).
Proof.
  intros HP HR Ht. destruct (region_q0 _ _ _ HP HR) as [Hq HQ]. pose proof HP as (HM & _).
  assert (Hct : - 1 <= n_ct ps S sp tau <= 1) by (apply tau_points; auto). pose proof HR as [HS Hb Hx Hy Hz Hpt Hlep [Hh1 Hh2] Hmis].
  pose proof (qn_pos ps S sp Hq HQ) as Hn. set (k := make_kin ps S sp). set (r := make_rad k tau phi_k R).
  pose proof (make_rad_eqs k tau phi_k R) as E. fold r in E.
  pose proof (tau_ends ps S sp HM Hq HQ) as TE. fold k in TE. unfold R_mu. rewrite TE. cbn [bmin bmax esub eadd eneg emul].
    assert (W : 0 <= (tau + - ((q0_of ps S sp - qn_of ps S sp) / a_M ps)) * ((q0_of ps S sp + qn_of ps S sp) / a_M ps + - tau)).
    { change (0 <= (tau - ((q0_of ps S sp - qn_of ps S sp) / a_M ps)) * ((q0_of ps S sp + qn_of ps S sp) / a_M ps - tau)). rewrite tau_rad by auto.
      apply Rmult_le_pos; [apply Rle_0_sqr|unfold sq; nra]. }
    rewrite esqrt_fin by auto. unfold k. rewrite (f_lambda_Y_sqrt ps S sp HM HQ). change (kM (make_kin ps S sp)) with (a_M ps).
    rewrite !ediv_fin by nra. cbn [emul esub eadd eneg]. f_equal. rewrite (re_mu _ E), (re_tau_min _ E), (re_tau_max _ E).
    change (rlambda_Y_sqrt r) with (klambda_Y_sqrt k). unfold k. rewrite (f_lambda_Y_sqrt ps S sp HM HQ).
    change (rS_x r) with (kS_x (make_kin ps S sp)). rewrite (f_Sx ps S sp HM).
    change (rM r) with (a_M ps). change (rtau r) with tau.
    replace ((2 * a_M ps * q0_of ps S sp - 2 * a_M ps * qn_of ps S sp) / (2 * sq (a_M ps))) with ((q0_of ps S sp - qn_of ps S sp) / a_M ps) by (unfold sq; field; lra).
    replace ((2 * a_M ps * q0_of ps S sp + 2 * a_M ps * qn_of ps S sp) / (2 * sq (a_M ps))) with ((q0_of ps S sp + qn_of ps S sp) / a_M ps) by (unfold sq; field; lra).
    reflexivity.
Qed.
Lemma keep_R cut ps S sp tau phi_k R : masses_ok ps -> 0 < a_Mth ps -> region ps S sp -> contains (tau_bound (make_kin ps S sp)) (Fin tau) = true ->
  0 <= R -> sq (a_Mth ps) <= missing_rad_sq ps S sp tau phi_k R -> obeys (d_R cut) R ->
  (is_set (d_k_0_bar cut) -> contains (d_k_0_bar cut) (ediv (Fin ((1 + tau - rmu (make_rad (make_kin ps S sp) tau phi_k R)) * R)) (Fin (2 * rmx (make_rad (make_kin ps S sp) tau phi_k R)))) = true) ->
  contains (R_bound_cut cut (make_kin ps S sp) tau phi_k) (Fin R) = true.
Proof.
  intros HP Hth HR Ht HR0 HRR OR OK. destruct (region_q0 _ _ _ HP HR) as [Hq HQ]. pose proof HP as (HM & _).
  assert (Hct : - 1 <= n_ct ps S sp tau <= 1) by (apply tau_points; auto). pose proof HR as [HS Hb Hx Hy Hz Hpt Hlep [Hh1 Hh2] Hmis].
  pose proof (recoil_pos ps S sp tau phi_k HP Hth HR Hct) as HD. rewrite <- denom_value in HD by auto.
  pose proof (mu_is ps S sp tau phi_k R HP HR Ht) as MU. pose proof MU as MV. rewrite mu_value in MV by auto.
  assert (FI : forall a b, Fin a = Fin b -> a = b) by (intros a b H; injection H; auto). apply FI in MV. rewrite MV in HD.
  apply contains_points. unfold R_bound_cut. cbv zeta. rewrite MU.
  set (r := make_rad (make_kin ps S sp) tau phi_k R) in *. set (m := rmu r) in *. clearbody m.
  apply if_inter_in; [apply if_inter_in|].
  - destruct (R_ends ps S sp tau phi_k HP Hth HR Ht) as (Rm & E1 & L0 & _ & E2). rewrite E1. split; cbn [bmin bmax]; rewrite le_FF; [exact HR0|apply E2; exact HRR].
  - intros V. apply contains_points, OR, V.
  - intros V. specialize (OK V). apply contains_points. cbn [esub eadd eneg].
    assert (PM : 0 < 2 * kmx (make_kin ps S sp)).
    { destruct (f_mx_sq ps S sp HM Hq) as [F _]; auto. change (kmx (make_kin ps S sp)) with (sqrt (kmx_sq (make_kin ps S sp))). rewrite F.
      assert (0 < sqrt (missing_sq ps S sp)); [|lra]. apply sqrt_lt_R0. apply Rlt_le_trans with (sq (a_Mth ps)); [unfold sq; nra|exact Hmis]. }
    change (rmx r) with (kmx (make_kin ps S sp)) in OK. set (x := kmx (make_kin ps S sp)) in *. clearbody x. clear - OK PM HD.
    change (1 + tau + - m) with (1 + tau - m).
    rewrite ediv_fin in OK by lra. replace R with ((1 + tau - m) * R / (2 * x) * (2 * x) / (1 + tau - m)) by (field; split; lra).
    rewrite bdiv_contains by exact HD. rewrite bmul_contains by exact PM. exact OK.
Qed.
(** Points that pass the cuts are produced. *)
Lemma take9_cut_onto cut cut_rad ps S sp tau phi_k R : masses_ok ps -> 0 < a_Mth ps -> usable cut ps S -> (is_set (d_phi_k cut_rad) -> exists lo hi, ends (d_phi_k cut_rad) lo hi) ->
  valid_cut_both cut cut_rad (make_rad (make_kin ps S sp) tau phi_k R) = true ->
  (~ is_set (c_phi_h cut) -> - PI <= s_phi_h sp <= PI) -> (~ is_set (c_phi cut) -> - PI <= s_phi sp <= PI) -> (~ is_set (d_phi_k cut_rad) -> - PI <= phi_k <= PI) ->
  sq (a_m ps) * (sq (S * s_y sp) + 4 * sq (a_M ps) * (S * s_x sp * s_y sp)) < S * s_x sp * s_y sp * (S * (S * (1 - s_y sp)) - sq (a_M ps) * (S * s_x sp * s_y sp)) ->
  sq (a_Mth ps) < missing_sq ps S sp ->
  exists u jac, unit_cube 9 u /\ take9_cut cut cut_rad ps S u = Some (make_rad (make_kin ps S sp) tau phi_k R, jac).
Proof.
  intros HP Hth HU HU' V Ha Hb Hc Hl Hmm. unfold valid_cut_both in V. rewrite make_rad_copies in V.
  destruct (valid_cut cut (make_kin ps S sp)) eqn:V1; [|discriminate]. destruct (valid_cut_rad cut_rad _) eqn:V2; [|discriminate]. clear V.
  destruct (take_cut_onto cut ps S sp HP HU V1 Ha Hb) as (u & j & U & E).
  destruct (valid_cut_rad_obeys _ _ _ _ _ V2) as (VR & OT & OP & OR & OK).
  apply valid_rad_spec in VR; auto. destruct VR as (HR & Hct & HR0 & HRR).
  destruct (region_q0 _ _ _ HP HR) as [Hq HQ]. pose proof HP as (HM & _).
  assert (Ht : contains (tau_bound (make_kin ps S sp)) (Fin tau) = true) by (apply tau_points; auto).
  pose proof (keep_R cut_rad ps S sp tau phi_k R HP Hth HR Ht HR0 HRR OR OK) as KR.
  destruct (sample3_onto ps S sp (tau_bound_cut cut_rad (make_kin ps S sp)) (if valid (d_phi_k cut_rad) then d_phi_k cut_rad else FULL_ANGLE)
     (R_bound_cut cut_rad (make_kin ps S sp)) tau phi_k R HP Hth HR Hl Hmm) as (a & b & c & jr & A & B & C & E3).
  - unfold tau_bound_cut. cbv zeta. apply sub_wf, wf_binter.
  - apply contains_points. unfold tau_bound_cut. cbv zeta. apply if_inter_in; [apply contains_points; exact Ht|]. intros V. apply contains_points, OT, V.
  - intros t H. apply sub_points in H. exact H.
  - destruct (valid (d_phi_k cut_rad)) eqn:V; [right; exact V|apply wf_mk].
  - unfold obeys, is_set in *. destruct (valid (d_phi_k cut_rad)) eqn:V; [apply OP; reflexivity|].
    apply contains_points. unfold FULL_ANGLE. rewrite mk_bound_points, !le_FF. apply Hc. discriminate.
  - unfold is_set in *. destruct (valid (d_phi_k cut_rad)) eqn:V; [auto|]. pose proof PI_RGT_0. exists (- PI), PI.
    unfold FULL_ANGLE, mk_bound. cbn [eleb]. replace (rleb (- PI) PI) with true by (symmetry; apply rleb_spec; lra). split; reflexivity.
  - apply R_cut_wf.
  - exact KR.
  - intros t H. apply R_cut_sub in H. exact H.
  - exists (cube9 u (cube3 a b c)), (jr * j). split.
    + intros i Hi. unfold cube9. destruct (Nat.ltb i 6) eqn:Ei; [apply U; apply Nat.ltb_lt; auto|].
      apply Nat.ltb_ge in Ei. assert (Hcs : i = 6%nat \/ i = 7%nat \/ i = 8%nat) by lia. destruct Hcs as [ -> | [ -> | -> ] ]; auto.
    + unfold take9_cut. assert (EK : take_cut cut ps S (cube9 u (cube3 a b c)) = take_cut cut ps S u).
      { unfold take_cut. rewrite (sample6_local _ _ _ _ _ _ u); [reflexivity|]. intros l Hl'. unfold cube9. apply Nat.ltb_lt in Hl'. rewrite Hl'. reflexivity. }
      rewrite EK, E. unfold take3_cut.
      assert (ET : forall kk tb pb Rb, sample3 kk tb pb Rb (tail6 (cube9 u (cube3 a b c))) = sample3 kk tb pb Rb (cube3 a b c)) by reflexivity. rewrite ET.
      rewrite E3. cbv zeta. rewrite V2. reflexivity.
Qed.
