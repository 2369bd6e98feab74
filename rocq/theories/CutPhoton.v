From Coq Require Import Reals Bool Lra Psatz.
From Verif Require Import ExtModel BoundModel BoundSpec BoundProofs MathModel MathProofs MapModel ParticleModel VecModel TransModel VecTac FrameBase KinModel KinEqs KinSpec CutModel CutSpec CutProofs CutBounds.
Local Open Scope R_scope.

Lemma unit_null c phi : - 1 <= c <= 1 -> norm_sq4 (V4 1 (sqrt (1 - sq c) * cos phi) (sqrt (1 - sq c) * sin phi) c) = 0.
Proof.
  intros H. assert (Es : sqrt (1 - sq c) * sqrt (1 - sq c) = 1 - sq c) by (apply sqrt_sqrt; unfold sq; nra).
  pose proof (sin2_cos2 phi) as SC. unfold Rsqr in SC. unfold sq in *. set (s := sqrt (1 - c * c)) in *. clearbody s. uvec.
  transitivity (1 - s * s * (sin phi * sin phi + cos phi * cos phi) - c * c); [ring|rewrite Es, SC; ring].
Qed.

Section Photon.
Variables (ps : parts) (S : R) (sp : phase_space) (tau phi_k : R).
Hypotheses (HM : 0 < a_M ps) (Hq : 0 < q0_of ps S sp) (HQ : 0 <= S * s_x sp * s_y sp).
Local Notation k := (make_kin ps S sp).
Local Notation M := (a_M ps).
Local Notation q0 := (q0_of ps S sp).
Local Notation qn := (qn_of ps S sp).
Local Notation Eh := (Eh_of ps S sp).
Local Notation pl := (pl_of ps S sp).
Local Notation ct := (n_ct ps S sp tau).

Lemma qn_pos : 0 < qn.
Proof. pose proof (qn_sq ps S sp HQ). assert (0 <= qn) by apply sqrt_pos. nra. Qed.
Lemma tau_ends : tau_bound k = Bnd (Fin ((q0 - qn) / M)) (Fin ((q0 + qn) / M)).
Proof.
  pose proof qn_pos as Hn. unfold tau_bound. change (kM k) with M. rewrite (f_lambda_Y_sqrt ps S sp HM HQ), (f_Sx ps S sp HM). rewrite !ediv_fin by (unfold sq; nra).
  replace ((2 * M * q0 - 2 * M * qn) / (2 * sq M)) with ((q0 - qn) / M) by (unfold sq; field; lra).
  replace ((2 * M * q0 + 2 * M * qn) / (2 * sq M)) with ((q0 + qn) / M) by (unfold sq; field; lra).
  assert (L : (q0 - qn) / M <= (q0 + qn) / M) by (apply Rmult_le_compat_r; [apply Rlt_le, Rinv_0_lt_compat|]; lra).
  assert (E : rleb ((q0 - qn) / M) ((q0 + qn) / M) = true) by (apply rleb_spec; auto).
  unfold mk_bound. cbn [eleb]. rewrite E. cbn [negb]. unfold BOUND_FULL, mk_bound, binter. cbn. rewrite E. reflexivity.
Qed.
Lemma tau_points : contains (tau_bound k) (Fin tau) = true <-> - 1 <= ct <= 1.
Proof.
  pose proof qn_pos as Hn. rewrite tau_ends, contains_points. unfold points. cbn [bmin bmax]. rewrite !le_FF, div_le, le_div by auto.
  unfold n_ct. rewrite div_le, le_div by auto. lra.
Qed.
Lemma tau_null : contains (tau_bound k) (Fin tau) = true <->
  exists n, null_future n /\ tau = dot4 n (q_rest ps S sp) / dot4 n (p_rest ps).
Proof.
  pose proof qn_pos as Hn. rewrite tau_points. split.
  - intros H. exists (n_rest ps S sp tau phi_k). unfold n_rest, null_future, q_rest, p_rest. cbv zeta. set (c := ct) in *.
    pose proof (unit_null c phi_k H) as UN. split; [split|].
    + uvec. lra.
    + exact UN.
    + uvec. unfold c, n_ct. field. split; lra.
  - intros (n & [N1 N2] & ->). destruct n as [nt nx ny nz]. unfold q_rest, p_rest, n_ct in *. revert N1 N2. uvec. intros N1 N2.
    match goal with |- - 1 <= ?X <= 1 => replace X with (nz / nt) by (field; repeat split; nra) end.
    rewrite le_div, div_le by auto. assert (nz * nz <= nt * nt) by nra. split; nra.
Qed.

Hypotheses (Hh1 : 0 < Eh) (Hh2 : s_ph_t_sq sp + sq (a_mh ps) <= sq Eh) (Hpt : 0 <= s_ph_t_sq sp) (Hct : - 1 <= ct <= 1).
Lemma tau_rad : (tau - (q0 - qn) / M) * ((q0 + qn) / M - tau) = (qn / M) * (qn / M) * (1 - sq ct).
Proof. pose proof qn_pos. unfold n_ct, sq. field. lra. Qed.
(** mu of R_bound = n.ph / n.p *)
Lemma mu_value : R_mu k tau phi_k = Fin (dot4 (n_rest ps S sp tau phi_k) (ph_rest ps S sp) / dot4 (n_rest ps S sp tau phi_k) (p_rest ps)).
Proof.
  pose proof qn_pos as Hn. unfold R_mu. rewrite tau_ends. cbn [bmin bmax esub eadd eneg emul].
  change (kM k) with M. rewrite (f_lambda_Y_sqrt ps S sp HM HQ), (f_Sx ps S sp HM), (f_ph_0 ps S sp HM), (f_ph_l ps S sp HM Hh1 Hh2).
  change (kph_t k) with (sqrt (s_ph_t_sq sp)). change (kphi_h k) with (s_phi_h sp).
  change ((tau + - ((q0 - qn) / M)) * ((q0 + qn) / M + - tau)) with ((tau - (q0 - qn) / M) * ((q0 + qn) / M - tau)).
  rewrite tau_rad. assert (W : 0 <= 1 - sq ct) by (unfold sq; nra).
  assert (Q : 0 <= qn / M) by (apply Rmult_le_pos; [lra|apply Rlt_le, Rinv_0_lt_compat; lra]).
  rewrite esqrt_fin by (apply Rmult_le_pos; nra). rewrite sqrt_mult by nra. rewrite sqrt_square by auto.
  assert (NZ : 2 * M * qn <> 0) by (apply Rgt_not_eq; nra).
  rewrite !ediv_fin by (auto; lra). cbn [emul esub eadd eneg]. f_equal.
  unfold n_rest, ph_rest, p_rest. cbv zeta. rewrite cos_minus. set (st := sqrt (1 - sq ct)). set (pt := sqrt (s_ph_t_sq sp)). uvec.
  assert (Ec : M * tau = q0 - qn * ct) by (unfold n_ct; field; lra).
  assert (Et : tau = (q0 - qn * ct) / M) by (rewrite <- Ec; field; lra).
  set (c := ct) in *. clearbody c st. rewrite Et. unfold sq. field. split; lra.
Qed.
Lemma denom_value : 1 + tau - dot4 (n_rest ps S sp tau phi_k) (ph_rest ps S sp) / dot4 (n_rest ps S sp tau phi_k) (p_rest ps) =
  dot4 (n_rest ps S sp tau phi_k) (sub4 (add4 (p_rest ps) (q_rest ps S sp)) (ph_rest ps S sp)) / M.
Proof.
  pose proof qn_pos as Hn. assert (Ec : M * tau = q0 - qn * ct) by (unfold n_ct; field; lra).
  assert (Et : tau = (q0 - qn * ct) / M) by (rewrite <- Ec; field; lra).
  unfold n_rest, ph_rest, p_rest, q_rest. cbv zeta. set (c := ct) in *. clearbody c. rewrite Et. uvec. field. lra.
Qed.
Lemma n_rest_null : norm_sq4 (n_rest ps S sp tau phi_k) = 0.
Proof.
  apply unit_null; auto.
Qed.
Lemma missing_is : missing_sq ps S sp = norm_sq4 (sub4 (add4 (p_rest ps) (q_rest ps S sp)) (ph_rest ps S sp)).
Proof.
  unfold missing_sq, p_rest, q_rest, ph_rest. pose proof (sin2_cos2 (s_phi_h sp)) as SC. pose proof (sqrt_sqrt _ Hpt) as ST. unfold Rsqr in SC.
  set (pt := sqrt (s_ph_t_sq sp)) in *. rewrite <- ST. unfold sq. uvec.
  transitivity ((q0 + M - Eh) * (q0 + M - Eh) - (qn - pl) * (qn - pl) - pt * pt * (sin (s_phi_h sp) * sin (s_phi_h sp) + cos (s_phi_h sp) * cos (s_phi_h sp))); [rewrite SC; ring|ring].
Qed.
Lemma rad_value R : missing_rad_sq ps S sp tau phi_k R =
  missing_sq ps S sp - R * (dot4 (n_rest ps S sp tau phi_k) (sub4 (add4 (p_rest ps) (q_rest ps S sp)) (ph_rest ps S sp)) / M).
Proof.
  rewrite missing_is. unfold missing_rad_sq. pose proof n_rest_null as N. set (n := n_rest ps S sp tau phi_k) in *. set (X := sub4 (add4 _ _) _).
  assert (G : forall a b c, norm_sq4 (sub4 a (scale4 c b)) = norm_sq4 a - 2 * c * dot4 b a + c * c * norm_sq4 b).
  { clear. intros a b c. dv4 a. dv4 b. uvec. ring. }
  rewrite G, N. field. lra.
Qed.
End Photon.

(** A time-like or null future vector has a positive product with a null future one. *)
Lemma null_product A u1 u2 u3 n1 n2 n3 m : 0 < m -> 0 < A -> m * m <= A * A - (u1 * u1 + u2 * u2 + u3 * u3) -> n1 * n1 + n2 * n2 + n3 * n3 = 1 ->
  0 < A - (n1 * u1 + n2 * u2 + n3 * u3).
Proof.
  intros Hm HA H N.
  assert (CS : (n1 * u1 + n2 * u2 + n3 * u3) * (n1 * u1 + n2 * u2 + n3 * u3) <= (n1 * n1 + n2 * n2 + n3 * n3) * (u1 * u1 + u2 * u2 + u3 * u3)).
  { pose proof (Rle_0_sqr (n1 * u2 - n2 * u1)). pose proof (Rle_0_sqr (n1 * u3 - n3 * u1)). pose proof (Rle_0_sqr (n2 * u3 - n3 * u2)). unfold Rsqr in *. nra. }
  rewrite N in CS. assert (n1 * u1 + n2 * u2 + n3 * u3 < A); [|lra]. set (d := n1 * u1 + n2 * u2 + n3 * u3) in *. nra.
Qed.
Lemma recoil_pos ps S sp tau phi_k : masses_ok ps -> 0 < a_Mth ps -> region ps S sp -> - 1 <= n_ct ps S sp tau <= 1 ->
  0 < dot4 (n_rest ps S sp tau phi_k) (sub4 (add4 (p_rest ps) (q_rest ps S sp)) (ph_rest ps S sp)) / a_M ps.
Proof.
  intros HP Hth HR Hct. destruct (region_q0 _ _ _ HP HR) as [Hq HQ]. pose proof HP as (HM & _).
  pose proof (rg_missing _ _ _ HR) as Hm. rewrite missing_is in Hm by apply (rg_pt _ _ _ HR).
  assert (HE : Eh_of ps S sp <= q0_of ps S sp) by (unfold Eh_of; pose proof (rg_z _ _ _ HR); nra).
  pose proof (n_rest_null ps S sp tau phi_k Hct) as N.
  apply Rmult_lt_0_compat; [|apply Rinv_0_lt_compat; auto].
  revert N Hm. unfold n_rest, p_rest, q_rest, ph_rest, sq. cbv zeta. uvec. intros N Hm.
  match goal with |- 0 < 1 * ?A - ?n1 * ?u1 - ?n2 * ?u2 - ?n3 * ?u3 =>
    assert (G : 0 < A - (n1 * u1 + n2 * u2 + n3 * u3)) by (apply (null_product A u1 u2 u3 n1 n2 n3 (a_Mth ps)); lra) end. lra.
Qed.
(** The upper end of R, and what it means. *)
Lemma R_ends ps S sp tau phi_k : masses_ok ps -> 0 < a_Mth ps -> region ps S sp -> contains (tau_bound (make_kin ps S sp)) (Fin tau) = true ->
  exists Rmax, R_bound (make_kin ps S sp) tau phi_k = Bnd (Fin 0) (Fin Rmax) /\ 0 <= Rmax /\
    missing_rad_sq ps S sp tau phi_k Rmax = sq (a_Mth ps) /\
    (forall R, R <= Rmax <-> sq (a_Mth ps) <= missing_rad_sq ps S sp tau phi_k R).
Proof.
  intros HP Hth HR Ht. destruct (region_q0 _ _ _ HP HR) as [Hq HQ]. pose proof HP as (HM & _).
  assert (Hct : - 1 <= n_ct ps S sp tau <= 1) by (apply tau_points; auto).
  pose proof (recoil_pos ps S sp tau phi_k HP Hth HR Hct) as HD. pose proof HR as [HS Hb Hx Hy Hz Hpt Hlep [Hh1 Hh2] Hmis].
  unfold R_bound. rewrite (mu_value ps S sp tau phi_k) by auto. cbn [esub eadd eneg].
  pose proof (denom_value ps S sp tau phi_k) as DV. unfold Rminus in DV. rewrite DV by auto. clear DV.
  set (d := dot4 _ _ / a_M ps) in *. destruct (f_mx_sq ps S sp HM Hq) as [F _]; auto. rewrite F. change (kMth (make_kin ps S sp)) with (a_Mth ps).
  rewrite ediv_fin by lra. cbn [emul]. set (X := missing_sq ps S sp) in *.
  exists (1 / d * (X - sq (a_Mth ps))).
  assert (P : 0 <= 1 / d * (X - sq (a_Mth ps))) by (apply Rmult_le_pos; [apply Rmult_le_pos; [lra|apply Rlt_le, Rinv_0_lt_compat; auto]|lra]).
  assert (RV : forall R, missing_rad_sq ps S sp tau phi_k R = X - R * d) by (intros; apply rad_value; auto).
  split; [|split; [auto|split]].
  - unfold mk_bound. cbn [eleb]. replace (rleb 0 _) with true by (symmetry; apply rleb_spec; auto). reflexivity.
  - rewrite RV. field. lra.
  - intros R. rewrite RV. replace (1 / d * (X - sq (a_Mth ps))) with ((X - sq (a_Mth ps)) / d) by (field; lra). rewrite le_div by auto. lra.
Qed.
(** The shifted missing mass of KinematicsRad is the one above. *)
Lemma shift_mx ps S sp tau phi_k R : masses_ok ps -> region ps S sp -> contains (tau_bound (make_kin ps S sp)) (Fin tau) = true ->
  rshift_mx_sq (make_rad (make_kin ps S sp) tau phi_k R) = missing_rad_sq ps S sp tau phi_k R.
Proof.
  intros HP HR Ht. destruct (region_q0 _ _ _ HP HR) as [Hq HQ]. pose proof HP as (HM & _).
  assert (Hct : - 1 <= n_ct ps S sp tau <= 1) by (apply tau_points; auto). pose proof HR as [HS Hb Hx Hy Hz Hpt Hlep [Hh1 Hh2] Hmis].
  rewrite rad_value by auto. rewrite <- denom_value by auto. pose proof (qn_pos ps S sp Hq HQ) as Hn.
  destruct (f_mx_sq ps S sp HM Hq) as [F _]; auto. rewrite <- F. set (k := make_kin ps S sp). set (r := make_rad k tau phi_k R).
  pose proof (make_rad_eqs k tau phi_k R) as E. fold r in E.
  assert (MU : R_mu k tau phi_k = Fin (rmu r)).
  { pose proof (tau_ends ps S sp HM Hq HQ) as TE. fold k in TE. unfold R_mu. rewrite TE. cbn [bmin bmax esub eadd eneg emul].
    assert (W : 0 <= (tau + - ((q0_of ps S sp - qn_of ps S sp) / a_M ps)) * ((q0_of ps S sp + qn_of ps S sp) / a_M ps + - tau)).
    { change (0 <= (tau - ((q0_of ps S sp - qn_of ps S sp) / a_M ps)) * ((q0_of ps S sp + qn_of ps S sp) / a_M ps - tau)). rewrite tau_rad by auto.
      apply Rmult_le_pos; [apply Rle_0_sqr|unfold sq; nra]. }
    rewrite esqrt_fin by auto. unfold k. rewrite (f_lambda_Y_sqrt ps S sp HM HQ). change (kM (make_kin ps S sp)) with (a_M ps).
    rewrite !ediv_fin by nra. cbn [emul esub eadd eneg]. f_equal. rewrite (re_mu _ E), (re_tau_min _ E), (re_tau_max _ E).
    change (rlambda_Y_sqrt r) with (klambda_Y_sqrt k). unfold k. rewrite (f_lambda_Y_sqrt ps S sp HM HQ).
    change (rS_x r) with (kS_x (make_kin ps S sp)). rewrite (f_Sx ps S sp HM).
    change (rM r) with (a_M ps). change (rtau r) with tau.
    replace ((2 * a_M ps * q0_of ps S sp - 2 * a_M ps * qn_of ps S sp) / (2 * sq (a_M ps))) with ((q0_of ps S sp - qn_of ps S sp) / a_M ps) by (unfold sq; field; lra).
    replace ((2 * a_M ps * q0_of ps S sp + 2 * a_M ps * qn_of ps S sp) / (2 * sq (a_M ps))) with ((q0_of ps S sp + qn_of ps S sp) / a_M ps) by (unfold sq; field; lra).
    reflexivity. }
  unfold k in MU. rewrite mu_value in MU by auto. assert (FI : forall a b, Fin a = Fin b -> a = b) by (intros a b H; injection H; auto). apply FI in MU. rewrite MU.
  rewrite (re_shift_mx_sq _ E), (re_lambda_RV _ E), (re_lambda_RY _ E), (re_mu _ E).
  change (rmx_sq r) with (kmx_sq k). change (rR r) with R. change (rtau r) with tau. change (rph_0 r) with (rz r * rS_x r / (2 * rM r)).
  change (rlambda_Y_sqrt r) with (klambda_Y_sqrt (make_kin ps S sp)). rewrite (f_lambda_Y_sqrt ps S sp HM HQ). change (rM r) with (a_M ps).
  generalize (rz r) (rS_x r) (rph_l r) (rph_t r) (cos (rphi_h r - rphi_k r)) (sqrt ((tau - rtau_min r) * (rtau_max r - tau))).
  intros. unfold sq. field. split; lra.
Qed.

