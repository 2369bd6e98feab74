(** Proofs about the densities. *)
From Coq Require Import Reals Bool Lra.
From Verif Require Import ParamModel ExtModel BoundModel BoundSpec BoundProofs VecModel TransModel FrameBase KinModel KinSpec FrameModel CutModel CutSpec
  CutTake CutNames CutProofs CutBounds CutPhoton CutReach CutReach9 GenModel GenSpec.
Local Open Scope R_scope.

Lemma weigh_spec j xs : (exists v, xs = Fin v /\ 0 <= v /\ weigh j xs = j * v) \/
  (weigh j xs = 0 /\ forall v, xs = Fin v -> v < 0).
Proof.
  unfold weigh. destruct xs as [v| | |]; cbn; try (right; split; [reflexivity|congruence]).
  unfold egeb, eleb, rleb. destruct (Rle_dec 0 v) as [H|H]; cbn.
  - left. exists v. auto.
  - right. split; [reflexivity|]. intros w [= <-]. lra.
Qed.
Lemma weigh_nonneg j xs : 0 <= j -> 0 <= weigh j xs.
Proof.
  intros H. destruct (weigh_spec j xs) as [(v & _ & Hv & ->)|[-> _]]; [|lra]. now apply Rmult_le_pos.
Qed.
Lemma weigh_nonzero j xs : weigh j xs <> 0 -> exists v, xs = Fin v /\ 0 < v /\ weigh j xs = j * v.
Proof.
  intros H. destruct (weigh_spec j xs) as [(v & E & Hv & E')|[E _]]; [|contradiction]. exists v. split; [exact E|]. split; [|exact E'].
  destruct Hv as [Hv|<-]; [exact Hv|]. rewrite E' in H. exfalso. apply H. ring.
Qed.

Lemma deg_pos : 0 < DEG. Proof. unfold DEG. pose proof PI_RGT_0. lra. Qed.
Lemma bmul_valid b s : 0 < s -> valid (bmul b (Fin s)) = valid b.
Proof.
  intros Hs. unfold bmul. replace (eltb (Fin s) (Fin 0)) with false by (symmetry; apply rltb_false; lra).
  unfold valid. cbn [bmin bmax]. apply eq_true_iff_eq. rewrite !eleb_spec. apply emul_le. exact Hs.
Qed.
Lemma obeys_degrees b a : obeys (bmul b (Fin DEG)) a <-> obeys b (a * 180 / PI).
Proof.
  pose proof deg_pos as D. pose proof PI_RGT_0 as P. unfold obeys, is_set. rewrite (bmul_valid b DEG D).
  replace (Fin a) with (Fin (a * 180 / PI * DEG)); [|f_equal; unfold DEG; field; lra].
  now rewrite (bmul_contains b DEG (a * 180 / PI) D).
Qed.
Lemma soft_bound soft : mk_bound (Fin soft) PInf = Bnd (Fin soft) PInf. Proof. reflexivity. Qed.
Lemma k_0_bar_split k0 soft e : contains (binter k0 (mk_bound (Fin soft) PInf)) (Fin e) = true <->
  contains k0 (Fin e) = true /\ soft <= e.
Proof.
  rewrite !contains_points, binter_points, <- contains_points, <- (contains_points (mk_bound _ _)), soft_bound.
  unfold contains at 2. cbn. unfold rleb. destruct (Rle_dec soft e); cbn; intuition congruence.
Qed.
Lemma k_0_bar_set k0 soft rc : is_set k0 -> rad_accepts rc soft k0 = true -> is_set (binter k0 (mk_bound (Fin soft) PInf)).
Proof.
  intros V A. unfold rad_accepts in A. assert (G : egtb (bmax k0) (Fin soft) = true) by (destruct rc; [discriminate|exact A|exact A]). clear A.
  unfold is_set, valid in *. rewrite soft_bound. destruct k0 as [mn mx]. cbn [bmin bmax] in *.
  destruct mn as [a| | |], mx as [b| | |]; cbn in V, G; try discriminate; apply eleb_spec.
  all: try (apply rleb_spec in V); try (apply rltb_spec in G).
  all: repeat (cbn [binter bmin bmax eisnan orb efmax efmin eltb eleb negb]; unfold rltb, rleb;
    match goal with |- context [if Rlt_dec ?x ?y then _ else _] => destruct (Rlt_dec x y) | |- context [if Rle_dec ?x ?y then _ else _] => destruct (Rle_dec x y) | _ => idtac end);
    cbn; try constructor; try lra.
Qed.


Lemma set_degrees b : is_set (bmul b (Fin DEG)) <-> is_set b.
Proof. unfold is_set. rewrite (bmul_valid b DEG deg_pos). tauto. Qed.
Lemma user_cuts p phi_h phi a b c d : obeys_cuts (cut_from_params p) phi_h phi a b c d <-> obeys_user p phi_h phi a b c d.
Proof.
  split; intros [H1 H2 H3 H4 H5 H6 H7 H8 H9 H10 H11 H12 H13 H14 H15 H16 H17 H18 H19];
    cbn [cut_from_params c_x c_y c_z c_ph_t_sq c_phi_h c_phi c_Q_sq c_t c_W_sq c_r c_mx_sq c_qt_to_Q c_lab_mom_q c_lab_mom_k2 c_lab_mom_h c_lab_theta_q c_lab_theta_k2 c_lab_theta_h] in *.
  - rewrite obeys_degrees in H5, H6, H16, H17, H18. rewrite set_degrees in H19. split; assumption.
  - split; cbn [cut_from_params c_x c_y c_z c_ph_t_sq c_phi_h c_phi c_Q_sq c_t c_W_sq c_r c_mx_sq c_qt_to_Q c_lab_mom_q c_lab_mom_k2 c_lab_mom_h c_lab_theta_q c_lab_theta_k2 c_lab_theta_h];
      try (apply obeys_degrees); try (rewrite set_degrees); assumption.
Qed.
Lemma user_cuts_rad soft p tau phi_k a b c d k n rc : is_set (d_k_0_bar p) -> rad_accepts rc soft (d_k_0_bar p) = true ->
  obeys_cuts_rad (cut_rad_from_params true soft p) tau phi_k a b c d k n <->
  obeys_user_rad p tau phi_k a b c d k n /\ soft <= rest_energy (sub4 (add4 a c) d) k.
Proof.
  intros V A. pose proof (k_0_bar_set _ _ _ V A) as V'.
  split.
  - intros [H1 H2 H3 H4 H5 H6]; cbn [cut_rad_from_params d_tau d_phi_k d_R d_k_0_bar d_lab_mom_k d_lab_theta_k] in *.
    apply k_0_bar_split in H4; [|exact V']. rewrite obeys_degrees in H2, H6. split; [split; try assumption|]; [intros _|]; apply H4.
  - intros [[H1 H2 H3 H4 H5 H6] H7]. split; cbn [cut_rad_from_params d_tau d_phi_k d_R d_k_0_bar d_lab_mom_k d_lab_theta_k];
      try (apply obeys_degrees); try assumption. intros _. apply k_0_bar_split. split; [apply H4, V|exact H7].
Qed.

Lemma nrad_eval_some rc soft b i n cut ps S bp tp u : nrad_eval rc soft b i n cut ps S bp tp u <> 0 ->
  exists k jac v, take_cut cut ps S u = Some (k, jac) /\
    match rc with RcNone => b | RcApprox => i soft | RcExact => n soft end k bp (tapp3 (hadron_from_target k) tp) = Fin v /\ 0 < v /\
    nrad_eval rc soft b i n cut ps S bp tp u = jac * v.
Proof.
  unfold nrad_eval. destruct (take_cut cut ps S u) as [[k jac]|]; [|congruence]. intros H.
  destruct (weigh_nonzero _ _ H) as (v & E & P & E'). exists k, jac, v. auto.
Qed.
Lemma rad_eval_some xs cut cr ps S bp tp u : rad_eval xs cut cr ps S bp tp u <> 0 ->
  exists r jac v, take9_cut cut cr ps S u = Some (r, jac) /\ xs r bp (tapp3 (hadron_from_target (project r)) tp) = Fin v /\ 0 < v /\
    rad_eval xs cut cr ps S bp tp u = jac * v.
Proof.
  unfold rad_eval. destruct (take9_cut cut cr ps S u) as [[r jac]|]; [|congruence]. intros H.
  destruct (weigh_nonzero _ _ H) as (v & E & P & E'). exists r, jac, v. auto.
Qed.
Lemma jac_pos j v : 0 <= j -> j * v <> 0 -> 0 < j.
Proof. intros [H|<-] N; [exact H|]. exfalso. apply N. ring. Qed.
Lemma egeb_fin b e : egeb b (Fin e) = true <-> ext_le (Fin e) b.
Proof. unfold egeb. apply eleb_spec. Qed.

Lemma cos_one_zero x : - (2 * PI) < x < 2 * PI -> cos x = 1 -> x = 0.
Proof.
  intros H C. assert (S : sin (x / 2) = 0).
  { pose proof (cos_2a_sin (x / 2)) as D. replace (2 * (x / 2)) with x in D by field. rewrite C in D.
    assert (sin (x / 2) * sin (x / 2) = 0) by lra. apply Rmult_integral in H0. tauto. }
  destruct (Rtotal_order x 0) as [L|[E|L]]; [|exact E|]; exfalso.
  - assert (0 < sin (- (x / 2))) by (apply sin_gt_0; lra). rewrite sin_neg in H0. lra.
  - assert (0 < sin (x / 2)) by (apply sin_gt_0; lra). lra.
Qed.
Lemma same_dir_eq a b lo hi : lo <= a <= hi -> lo <= b <= hi -> hi - lo < 2 * PI -> same_direction a b -> a = b.
Proof.
  intros A B W [C S]. assert (a - b = 0); [|lra]. apply cos_one_zero; [lra|]. rewrite cos_minus, C, S.
  pose proof (sin2_cos2 b) as T. unfold Rsqr in T. lra.
Qed.

Lemma recoil_mu ps S sp tau phi_k R : masses_ok ps -> 0 < a_Mth ps -> region ps S sp -> contains (tau_bound (make_kin ps S sp)) (Fin tau) = true ->
  0 < 1 + tau - rmu (make_rad (make_kin ps S sp) tau phi_k R).
Proof.
  intros HP Hth HR Ht. destruct (region_q0 _ _ _ HP HR) as [Hq HQ]. pose proof HP as (HM & _).
  assert (Hct : - 1 <= n_ct ps S sp tau <= 1) by (apply tau_points; auto). pose proof HR as [HS Hb Hx Hy Hz Hpt Hlep [Hh1 Hh2] Hmis].
  pose proof (recoil_pos ps S sp tau phi_k HP Hth HR Hct) as HD. rewrite <- denom_value in HD by auto.
  pose proof (mu_is ps S sp tau phi_k R HP HR Ht) as MU. rewrite mu_value in MU by auto.
  assert (FI : forall a b, Fin a = Fin b -> a = b) by (intros a b H; injection H; auto). apply FI in MU. rewrite <- MU. exact HD.
Qed.
