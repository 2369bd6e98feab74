(** C60, C75-C77: the densities of the generator. *)
From Coq Require Import Reals Bool Lra Psatz Lia.
From Verif Require Import ParamModel ExtModel BoundModel BoundSpec BoundProofs MathModel ParticleModel VecModel TransModel FrameBase KinModel KinEqs KinSpec FrameModel CutModel CutSpec
  CutProofs CutBounds CutPhoton CutTake CutNames CutReach CutReach9 KinProps CutProps GenModel GenSpec GenProofs.
Local Open Scope R_scope.

(** ** C60: the densities *)
(** Never negative, whatever the cross-section routine returns. *)
Theorem C60_nrad_nonneg rc soft xb xi xn cut ps S beam target u : unit_cube 6 u -> 0 <= nrad_eval rc soft xb xi xn cut ps S beam target u.
Proof.
  intros U. unfold nrad_eval. destruct (take_cut cut ps S u) as [[k jac]|] eqn:E; [|lra]. apply weigh_nonneg.
  exact (C08_jacobian_nonneg _ _ _ _ _ _ _ _ (C08_take_cut_jacobian cut ps S) U E).
Qed.
Theorem C60_rad_nonneg xs cut cut_rad ps S beam target u : 0 <= a_m ps -> unit_cube 9 u -> 0 <= rad_eval xs cut cut_rad ps S beam target u.
Proof.
  intros Hm U. unfold rad_eval. destruct (take9_cut cut cut_rad ps S u) as [[k jac]|] eqn:E; [|lra]. apply weigh_nonneg.
  exact (C08_jacobian_nonneg _ _ _ _ _ _ _ _ (C08_take_rad_cut_jacobian cut cut_rad ps S Hm) U E).
Qed.
(** Where it is not zero: the point is physical, obeys the user's cuts in every frame, the cross-section there is finite
    and positive, and the density is that cross-section times the Jacobian of the map from the unit cube. *)
Theorem C60_nrad_support rc soft xb xi xn user ps S beam target u : masses_ok ps -> unit_cube 6 u ->
  let density := nrad_eval rc soft xb xi xn (cut_from_params user) ps S beam target u in density <> 0 ->
  exists k jac v, take_cut (cut_from_params user) ps S u = Some (k, jac) /\ 0 < jac /\ 0 < v /\ density = jac * v /\
    match rc with RcNone => xb | RcApprox => xi soft | RcExact => xn soft end k beam (tapp3 (hadron_from_target k) target) = Fin v /\
    region ps S (sp_of k) /\
    forall e T, same_event e ps S (sp_of k) -> lorentz T ->
      obeys_user user (kphi_h k) (kphi k) (tapp4 T (v_p e)) (tapp4 T (v_k1 e)) (tapp4 T (v_q e)) (tapp4 T (v_ph e)).
Proof.
  intros HP U d N. destruct (nrad_eval_some _ _ _ _ _ _ _ _ _ _ _ N) as (k & jac & v & E & X & Pv & Ed). fold d in Ed.
  pose proof (C08_jacobian_nonneg _ _ _ _ _ _ _ _ (C08_take_cut_jacobian _ ps S) U E) as J. rewrite Ed in N.
  destruct (C26_take_cut_sound _ _ _ _ _ _ HP E) as (_ & HR & O). exists k, jac, v. split; [exact E|]. split; [exact (jac_pos _ _ J N)|].
  split; [exact Pv|]. split; [exact Ed|]. split; [exact X|]. split; [exact HR|]. intros e T He HT. apply user_cuts. exact (O e T He HT).
Qed.
Theorem C60_rad_support xs user user_rad rc soft ps S beam target u : masses_ok ps -> 0 < a_Mth ps -> unit_cube 9 u ->
  is_set (d_k_0_bar user_rad) -> rad_accepts rc soft (d_k_0_bar user_rad) = true ->
  let density := rad_eval xs (cut_from_params user) (cut_rad_from_params true soft user_rad) ps S beam target u in density <> 0 ->
  exists r jac v, take9_cut (cut_from_params user) (cut_rad_from_params true soft user_rad) ps S u = Some (r, jac) /\ 0 < jac /\ 0 < v /\ density = jac * v /\
    xs r beam (tapp3 (hadron_from_target (project r)) target) = Fin v /\
    let sp := sp_of (project r) in region ps S sp /\ 0 <= rR r /\ sq (a_Mth ps) <= missing_rad_sq ps S sp (rtau r) (rphi_k r) (rR r) /\
    forall e f T, same_event e ps S sp -> same_photon f e (rtau r) (rphi_k r) (rR r) -> lorentz T -> let t := tapp4 T in
      obeys_user user (rphi_h r) (rphi r) (t (v_p e)) (t (v_k1 e)) (t (v_q e)) (t (v_ph e)) /\
      obeys_user_rad user_rad (rtau r) (rphi_k r) (t (v_p e)) (t (v_k1 e)) (t (v_q e)) (t (v_ph e)) (t (v_k e f)) (t (v_n f)).
Proof.
  intros HP Hth U V A d N. destruct (rad_eval_some _ _ _ _ _ _ _ _ N) as (r & jac & v & E & X & Pv & Ed). fold d in Ed.
  assert (Hm : 0 <= a_m ps) by (destruct HP; lra).
  pose proof (C08_jacobian_nonneg _ _ _ _ _ _ _ _ (C08_take_rad_cut_jacobian _ _ ps S Hm) U E) as J. rewrite Ed in N.
  destruct (C26_take_rad_cut_sound _ _ _ _ _ _ _ HP Hth E) as (_ & HR & H1 & H2 & O). exists r, jac, v. split; [exact E|]. split; [exact (jac_pos _ _ J N)|].
  split; [exact Pv|]. split; [exact Ed|]. split; [exact X|]. intros sp. split; [exact HR|]. split; [exact H1|]. split; [exact H2|].
  intros e f T He Hf HT t. destruct (O e f T He Hf HT) as [O1 O2]. split; [apply user_cuts; exact O1|].
  apply (user_cuts_rad soft user_rad _ _ _ _ _ _ _ _ rc V A) in O2. apply O2.
Qed.
(** Conversely, nothing is thrown away but cross-sections that are negative or not finite. *)
Theorem C60_nrad_value rc soft xb xi xn cut ps S beam target u k jac v : take_cut cut ps S u = Some (k, jac) ->
  match rc with RcNone => xb | RcApprox => xi soft | RcExact => xn soft end k beam (tapp3 (hadron_from_target k) target) = Fin v -> 0 <= v ->
  nrad_eval rc soft xb xi xn cut ps S beam target u = jac * v.
Proof.
  intros E X Hv. transitivity (weigh jac (Fin v)); [unfold nrad_eval; rewrite E, <- X; reflexivity|]. destruct (weigh_spec jac (Fin v)) as [(w & Ew & _ & ->)|[_ H]].
  - injection Ew as <-. reflexivity.
  - specialize (H v eq_refl). lra.
Qed.
Theorem C60_rad_value xs cut cut_rad ps S beam target u r jac v : take9_cut cut cut_rad ps S u = Some (r, jac) ->
  xs r beam (tapp3 (hadron_from_target (project r)) target) = Fin v -> 0 <= v -> rad_eval xs cut cut_rad ps S beam target u = jac * v.
Proof.
  intros E X Hv. unfold rad_eval. rewrite E. cbv zeta. rewrite X. destruct (weigh_spec jac (Fin v)) as [(w & Ew & _ & ->)|[_ H]].
  - injection Ew as <-. reflexivity.
  - specialize (H v eq_refl). lra.
Qed.
(** Every physical point obeying usable cuts is weighed somewhere in the unit cube with its own cross-section. *)
Theorem C60_nrad_covers rc soft xb xi xn cut ps S sp beam target v : masses_ok ps -> usable cut ps S -> valid_cut cut (make_kin ps S sp) = true ->
  (~ is_set (c_phi_h cut) -> - PI <= s_phi_h sp <= PI) -> (~ is_set (c_phi cut) -> - PI <= s_phi sp <= PI) ->
  let k := make_kin ps S sp in
  match rc with RcNone => xb | RcApprox => xi soft | RcExact => xn soft end k beam (tapp3 (hadron_from_target k) target) = Fin v -> 0 <= v ->
  exists u jac, unit_cube 6 u /\ nrad_eval rc soft xb xi xn cut ps S beam target u = jac * v /\ 0 <= jac /\ (roomy 6 (limits_cut cut ps S k) -> 0 < jac).
Proof.
  intros HP HU V Ha Hb k X Hv. destruct (take_cut_onto cut ps S sp HP HU V Ha Hb) as (u & jac & U & E). exists u, jac. split; [exact U|].
  split; [exact (C60_nrad_value _ _ _ _ _ _ _ _ _ _ _ _ _ _ E X Hv)|].
  split; [exact (C08_jacobian_nonneg _ _ _ _ _ _ _ _ (C08_take_cut_jacobian cut ps S) U E)|].
  exact (C08_jacobian_positive _ _ _ _ _ _ _ _ (C08_take_cut_jacobian cut ps S) U E).
Qed.
(** A flat cross-section without cuts: the density is positive at some point. *)
Lemma two_inside b x y : contains b (Fin x) = true -> contains b (Fin y) = true -> x < y -> eltb (bmin b) (bmax b) = true.
Proof.
  unfold contains. intros H1 H2 L. apply andb_true_iff in H1, H2. destruct H1 as [H1 _], H2 as [_ H2]. destruct (bmin b) as [a| | |], (bmax b) as [c| | |]; cbn in *; try discriminate; try reflexivity.
  apply rleb_spec in H1, H2. apply rltb_spec. lra.
Qed.
Ltac inside := constructor; unfold missing_sq, qn_of, pl_of, Eh_of, q0_of, ex_ps, sq; cbn [a_M a_m a_mh a_Mth s_x s_y s_z s_ph_t_sq]; try lra;
  let A := fresh "A" in let B := fresh "B" in set (A := sqrt _); set (B := sqrt _);
  assert (5.4 <= A) by (unfold A; rewrite <- (sqrt_square 5.4) by lra; apply sqrt_le_1; lra);
  assert (A <= 5.6) by (unfold A; rewrite <- (sqrt_square 5.6) by lra; apply sqrt_le_1; lra);
  assert (2.35 <= B) by (unfold B; rewrite <- (sqrt_square 2.35) by lra; apply sqrt_le_1; lra);
  assert (B <= 2.5) by (unfold B; rewrite <- (sqrt_square 2.5) by lra; apply sqrt_le_1; lra); nra.
Definition no_cuts := Cuts none none none none none none none none none none none none none none none none none none.
Lemma ex_roomy : roomy 6 (limits_cut no_cuts ex_ps 20 (make_kin ex_ps 20 ex_sp)).
Proof.
  assert (F : forall x y z pt, region ex_ps 20 (PhaseSpace x y z pt 1 2) -> contains (x_bound ex_ps 20) (Fin x) = true /\ contains (y_bound ex_ps 20 x) (Fin y) = true /\
    contains (z_bound ex_ps 20 x y) (Fin z) = true /\ contains (ph_t_sq_bound ex_ps 20 x y z) (Fin pt) = true).
  { intros x y z pt H. apply (C24_valid_is_physical _ _ _ ex_masses) in H. exact (C24_limits_sound _ _ _ ex_masses H). }
  destruct (F _ _ _ _ ex_region) as (X & Y & Z & T). intros i Hi.
  destruct i as [|[|[|[|i]]]].
  - apply (two_inside _ (1 / 2) 0.51 X); [|lra]. apply (F 0.51 (1 / 2) (1 / 2) (1 / 4)). inside.
  - apply (two_inside _ (1 / 2) 0.51 Y); [|lra]. apply (F (1 / 2) 0.51 (1 / 2) (1 / 4)). inside.
  - apply (two_inside _ 0.49 (1 / 2)); [|exact Z|lra]. apply (F (1 / 2) (1 / 2) 0.49 (1 / 8)). inside.
  - apply (two_inside _ (1 / 8) (1 / 4)); [|exact T|lra]. apply (F (1 / 2) (1 / 2) (1 / 2) (1 / 8)). inside.
  - assert (E : eltb (bmin FULL_ANGLE) (bmax FULL_ANGLE) = true).
    { pose proof PI_RGT_0. unfold FULL_ANGLE, mk_bound. cbn [eleb]. replace (rleb (- PI) PI) with true by (symmetry; apply rleb_spec; lra). apply rltb_spec. lra. }
    destruct i as [|i]; exact E.
Qed.
Example C60_example xn xi : exists u, unit_cube 6 u /\ 0 < nrad_eval RcNone 1 (fun _ _ _ => Fin 1) xi xn no_cuts ex_ps 20 0 (V3 0 0 0) u.
Proof.
  destruct (C60_nrad_covers RcNone 1 (fun _ _ _ => Fin 1) xi xn no_cuts ex_ps 20 ex_sp 0 (V3 0 0 0) 1 ex_masses) as (u & jac & U & E & _ & P); try (intros _; apply ex_angles); [| |reflexivity|lra|].
  - repeat split; discriminate.
  - unfold valid_cut. cbv zeta. rewrite chain, !fails_chain. split; [apply (C24_valid_is_physical _ _ _ ex_masses), ex_region|].
    repeat (split; [discriminate|]). reflexivity.
  - exists u. split; [exact U|]. rewrite E, Rmult_1_r. apply P, ex_roomy.
Qed.
(** A negative or infinite cross-section gives zero. *)
Example C60_example_zero xn xi u : nrad_eval RcNone 1 (fun _ _ _ => Fin (-1)) xi xn no_cuts ex_ps 20 0 (V3 0 0 0) u = 0 /\
  nrad_eval RcNone 1 (fun _ _ _ => PInf) xi xn no_cuts ex_ps 20 0 (V3 0 0 0) u = 0 /\ nrad_eval RcNone 1 (fun _ _ _ => NaN) xi xn no_cuts ex_ps 20 0 (V3 0 0 0) u = 0.
Proof.
  unfold nrad_eval. destruct (take_cut _ _ _ u) as [[k jac]|]; [|auto]. cbv zeta. split; [|split; reflexivity].
  destruct (weigh_spec jac (Fin (-1))) as [(v & [= <-] & H & _)|[H _]]; [lra|exact H].
Qed.
Print Assumptions C60_nrad_nonneg.
Print Assumptions C60_rad_nonneg.
Print Assumptions C60_nrad_support.
Print Assumptions C60_rad_support.
Print Assumptions C60_nrad_value.
Print Assumptions C60_rad_value.
Print Assumptions C60_nrad_covers.

(** ** C75: the photon energy separates the two kinds of events *)
(** Radiative events have a photon above the threshold and inside the user's range (in the frame p + q - p_h = 0). *)
Theorem C75_photon_energy user user_rad rc soft ps S u r jac : masses_ok ps -> 0 < a_Mth ps ->
  is_set (d_k_0_bar user_rad) -> rad_accepts rc soft (d_k_0_bar user_rad) = true ->
  take9_cut (cut_from_params user) (cut_rad_from_params true soft user_rad) ps S u = Some (r, jac) ->
  forall e f T, same_event e ps S (sp_of (project r)) -> same_photon f e (rtau r) (rphi_k r) (rR r) -> lorentz T -> let t := tapp4 T in
    let E := rest_energy (sub4 (add4 (t (v_p e)) (t (v_q e))) (t (v_ph e))) (t (v_k e f)) in
    soft <= E /\ contains (d_k_0_bar user_rad) (Fin E) = true.
Proof.
  intros HP Hth V A E e f T He Hf HT t x. destruct (C26_take_rad_cut_sound _ _ _ _ _ _ _ HP Hth E) as (_ & _ & _ & _ & O).
  destruct (O e f T He Hf HT) as [_ O2]. apply (user_cuts_rad soft user_rad _ _ _ _ _ _ _ _ rc V A) in O2. destruct O2 as [[_ _ _ H _ _] H']. split; [exact H'|exact (H V)].
Qed.
(** If both kinds are accepted the energies are covered without gap or overlap: of the range asked for, everything up
    to the threshold counts as non-radiative, the rest as radiative. *)
Theorem C75_no_gap rc soft user set photon_set E : let asked := d_k_0_bar user in let generated := d_k_0_bar (cut_rad_from_params true soft user) in
  is_set asked -> (set = false -> asked = mk_bound (Fin 0) PInf) -> 0 <= soft -> 0 <= E ->
  nrad_accepts rc soft set asked photon_set = true -> rad_accepts rc soft asked = true ->
  photon_set = false /\ (contains asked (Fin E) = true <-> E <= soft \/ contains generated (Fin E) = true) /\
  (E < soft -> contains generated (Fin E) = false).
Proof.
  intros k_0_bar generated V D Hs HE N A. change generated with (binter k_0_bar (mk_bound (Fin soft) PInf)). clearbody k_0_bar. clear generated.
  assert (G : photon_set = false /\ (E <= soft -> contains k_0_bar (Fin E) = true)).
  { destruct set.
    - unfold nrad_accepts, rad_accepts in *. destruct rc; [discriminate| |];
        (destruct (true && _) eqn:Q in N; [discriminate|]; cbn [andb] in Q; apply orb_false_iff in Q; destruct Q as [Q1 Q2];
         apply negb_false_iff in Q1, Q2; split; [destruct photon_set; [discriminate|reflexivity]|]; intros L;
         unfold contains; apply andb_true_iff; rewrite !eleb_spec; split;
         [eapply ext_le_trans; [apply eleb_spec; exact Q1|rewrite le_FF; exact HE] | eapply ext_le_trans; [|apply egeb_fin; exact Q2]; rewrite le_FF; exact L]).
    - rewrite (D eq_refl). split; [unfold nrad_accepts, rad_accepts in *; destruct rc, photon_set; (discriminate || reflexivity)|].
      intros _. unfold contains. cbn. apply andb_true_iff. split; [apply rleb_spec; exact HE|reflexivity]. }
  destruct G as [G1 G2]. split; [exact G1|]. split.
  - split.
    + intros C. destruct (Rle_lt_dec E soft) as [L|L]; [left; exact L|]. right. apply k_0_bar_split. split; [exact C|lra].
    + intros [L|C]; [exact (G2 L)|]. apply k_0_bar_split in C. apply C.
  - intros L. apply not_true_is_false. intros C. apply k_0_bar_split in C. lra.
Qed.
Example C75_example : let user := CutsRad none none none (Bnd (Fin 0) (Fin 3)) none none in
  is_set (d_k_0_bar user) /\ rad_accepts RcExact (1 / 100) (d_k_0_bar user) = true /\ nrad_accepts RcExact (1 / 100) true (d_k_0_bar user) false = true /\
  nrad_accepts RcExact (1 / 100) true (Bnd (Fin 1) (Fin 3)) false = false /\ rad_accepts RcExact 4 (d_k_0_bar user) = false /\
  contains (d_k_0_bar (cut_rad_from_params true (1 / 100) user)) (Fin 1) = true.
Proof.
  assert (L : forall a b, a <= b -> rleb a b = true) by (intros; now apply rleb_spec).
  cbv zeta. split; [apply L; lra|]. split; [apply rltb_spec; lra|]. split; [|split; [|split]].
  - unfold nrad_accepts. cbn. rewrite !L by lra. reflexivity.
  - unfold nrad_accepts. cbn. replace (rleb 1 0) with false by (symmetry; apply rleb_false; lra). reflexivity.
  - unfold rad_accepts. cbn. apply rltb_false. lra.
  - apply k_0_bar_split. split; [|lra]. unfold contains. cbn. rewrite !L by lra. reflexivity.
Qed.
Print Assumptions C75_photon_energy.
Print Assumptions C75_no_gap.

(** ** C76: angles are given in degrees *)
Theorem C76_user_cuts user phi_h phi p k1 q ph : obeys_cuts (cut_from_params user) phi_h phi p k1 q ph <-> obeys_user user phi_h phi p k1 q ph.
Proof. exact (user_cuts user phi_h phi p k1 q ph). Qed.
Theorem C76_user_cuts_rad rc soft user tau phi_k p k1 q ph k n : is_set (d_k_0_bar user) -> rad_accepts rc soft (d_k_0_bar user) = true ->
  obeys_cuts_rad (cut_rad_from_params true soft user) tau phi_k p k1 q ph k n <->
  obeys_user_rad user tau phi_k p k1 q ph k n /\ soft <= rest_energy (sub4 (add4 p q) ph) k.
Proof. exact (fun V A => user_cuts_rad soft user tau phi_k p k1 q ph k n rc V A). Qed.
Example C76_example : obeys (bmul (Bnd (Fin 0) (Fin 90)) (Fin DEG)) 1 /\ ~ obeys (bmul (Bnd (Fin 0) (Fin 90)) (Fin DEG)) 3.
Proof.
  pose proof PI2_1 as HPI. unfold PI2 in HPI. pose proof PI_4 as HPI4. rewrite !obeys_degrees. split.
  - intros _. unfold contains. cbn. apply andb_true_iff. rewrite !rleb_spec. rewrite le_div, div_le by lra. lra.
  - intros H. assert (V : is_set (Bnd (Fin 0) (Fin 90))) by (apply rleb_spec; lra). specialize (H V). unfold contains in H. cbn in H.
    apply andb_true_iff in H. rewrite !rleb_spec in H. rewrite le_div, div_le in H by lra. lra.
Qed.
Print Assumptions C76_user_cuts.
Print Assumptions C76_user_cuts_rad.

(** ** C77: an angular cut counts an event once *)
(** Narrower than a full turn: two sampled angles that are the same direction are the same number. *)
Theorem C77_once_partial cut ps S u u' k k' jac jac' lo hi : masses_ok ps -> is_set (c_phi_h cut) -> ends (c_phi_h cut) lo hi -> hi - lo < 2 * PI ->
  take_cut cut ps S u = Some (k, jac) -> take_cut cut ps S u' = Some (k', jac') -> same_direction (kphi_h k) (kphi_h k') -> kphi_h k = kphi_h k'.
Proof.
  intros HP V [E1 E2] W A B D. apply take_cut_make in A, B. destruct A as [_ A], B as [_ B].
  assert (G : forall q, valid_cut cut q = true -> lo <= kphi_h q <= hi).
  { intros q H. unfold valid_cut in H. cbv zeta in H. rewrite chain, !fails_chain in H. destruct H as (_ & _ & _ & _ & _ & H & _). specialize (H V).
    unfold contains in H. rewrite E1, E2 in H. apply andb_true_iff in H. cbn [eleb] in H. rewrite !rleb_spec in H. lra. }
  apply G in A, B. exact (same_dir_eq _ _ lo hi A B W D).
Qed.
(** Wider: from -180 to 540 degrees the same event is produced by two points of the cube. *)
Definition wide_cut := Cuts none none none none (Bnd (Fin (-180)) (Fin 540)) none none none none none none none none none none none none none.
Lemma wide_contains a : - PI <= a <= 3 * PI -> contains (bmul (Bnd (Fin (-180)) (Fin 540)) (Fin DEG)) (Fin a) = true.
Proof.
  intros H. pose proof PI_RGT_0. replace a with (a * 180 / PI * DEG) by (unfold DEG; field; lra). rewrite (bmul_contains _ _ _ deg_pos).
  unfold contains. cbn. apply andb_true_iff. rewrite !rleb_spec. rewrite le_div, div_le by lra. lra.
Qed.
Lemma unset_angle : ~ is_set (bmul none (Fin DEG)).
Proof. rewrite set_degrees. discriminate. Qed.
Lemma only_phi_h b k : valid_kin k = true -> obeys (bmul b (Fin DEG)) (kphi_h k) ->
  valid_cut (cut_from_params (Cuts none none none none b none none none none none none none none none none none none none)) k = true.
Proof.
  intros V H2. assert (N : is_set (bmul none (Fin DEG)) <-> is_set none) by apply set_degrees.
  unfold valid_cut. cbv zeta. rewrite chain, !fails_chain. split; [exact V|].
  cbn [cut_from_params c_x c_y c_z c_ph_t_sq c_phi_h c_phi c_Q_sq c_t c_W_sq c_r c_mx_sq c_qt_to_Q c_lab_mom_q c_lab_mom_k2 c_lab_mom_h c_lab_theta_q c_lab_theta_k2 c_lab_theta_h].
  assert (F : ~ is_set none) by discriminate. assert (F' : ~ is_set (bmul none (Fin DEG))) by tauto.
  repeat (split; [intros H; (contradiction || auto)|]). reflexivity.
Qed.
Lemma turned_usable b lo hi : ends b lo hi -> usable (cut_from_params (Cuts none none none none b none none none none none none none none none none none none none)) ex_ps 20.
Proof.
  intros [E1 E2]. split; [discriminate|]. split; [discriminate|]. split.
  - intros _. exists (lo * DEG), (hi * DEG). cbn [cut_from_params c_phi_h]. unfold bmul. replace (eltb (Fin DEG) (Fin 0)) with false by (symmetry; apply rltb_false; pose proof deg_pos; lra).
    rewrite E1, E2. split; reflexivity.
  - intros H. exfalso. assert (is_set none) by (apply set_degrees; exact H). discriminate.
Qed.
(** An event with such a photon. *)
Example C75_example_event : exists soft u r jac, 0 < soft /\
  take9_cut (cut_from_params no_cuts) (cut_rad_from_params true soft (CutsRad none none none (mk_bound (Fin 0) PInf) none none)) ex_ps 20 u = Some (r, jac) /\ 0 < rR r.
Proof.
  pose proof PI2_1 as HPI. unfold PI2 in HPI.
  destruct (C28_R_bound_exact ex_ps 20 ex_sp 1 2 ex_masses ltac:(unfold ex_ps; cbn; lra) ex_region ex_tau_in) as (Rm & ER & H0 & HM & HI).
  assert (Rp : 0 < Rm).
  { destruct H0 as [H0|<-]; [exact H0|]. exfalso. pose proof ex_missing as X. destruct (region_q0 _ _ _ ex_masses ex_region) as [Hq HQ].
    assert (Hct : - 1 <= n_ct ex_ps 20 ex_sp 1 <= 1) by (apply tau_points; auto; [apply ex_masses|exact ex_tau_in]).
    pose proof ex_masses as (HM0 & _). pose proof ex_region as [HS Hb Hx Hy Hz Hpt Hlep [Hh1 Hh2] Hmis]. rewrite rad_value in HM by auto.
    rewrite Rmult_0_l, Rminus_0_r in HM. rewrite HM in X. unfold ex_ps, sq in X. cbn [a_Mth] in X. lra. }
  set (r := make_rad (make_kin ex_ps 20 ex_sp) 1 2 Rm). set (E := (1 + 1 - rmu r) * Rm / (2 * rmx r)).
  assert (PM : 0 < rmx r).
  { change (rmx r) with (sqrt (kmx_sq (make_kin ex_ps 20 ex_sp))). destruct (region_q0 _ _ _ ex_masses ex_region) as [Hq HQ].
    destruct (f_mx_sq ex_ps 20 ex_sp (proj1 ex_masses) Hq) as [F _]; auto; try apply ex_region. rewrite F. apply sqrt_lt_R0. pose proof ex_missing. lra. }
  assert (PD : 0 < 1 + 1 - rmu r) by (apply (recoil_mu ex_ps 20 ex_sp 1 2 Rm ex_masses ltac:(unfold ex_ps; cbn; lra) ex_region ex_tau_in)).
  assert (PE : 0 < E) by (unfold E; apply Rmult_lt_0_compat; [apply Rmult_lt_0_compat; lra|apply Rinv_0_lt_compat; lra]).
  assert (V : valid_cut_both (cut_from_params no_cuts) (cut_rad_from_params true E (CutsRad none none none (mk_bound (Fin 0) PInf) none none)) r = true).
  { unfold valid_cut_both. unfold r at 1. rewrite make_rad_copies.
    unfold no_cuts. rewrite only_phi_h; [|apply (C24_valid_is_physical _ _ _ ex_masses), ex_region|intros H; exact (False_ind _ (unset_angle H))].
    replace (valid_cut_rad _ r) with true; [reflexivity|]. symmetry. unfold valid_cut_rad. cbv zeta. rewrite chain, !fails_chain.
    split; [apply (valid_rad_spec ex_ps 20 ex_sp 1 2 Rm ex_masses); [unfold ex_ps; cbn; lra|]; split; [exact ex_region|]; split|].
    - destruct (region_q0 _ _ _ ex_masses ex_region) as [Hq HQ]. apply tau_points; auto; [apply ex_masses|exact ex_tau_in].
    - split; [lra|]. rewrite HM. lra.
    - cbn [cut_rad_from_params d_tau d_phi_k d_R d_k_0_bar d_lab_mom_k d_lab_theta_k]. split; [discriminate|]. split; [intros H; exact (False_ind _ (unset_angle H))|].
      split; [discriminate|]. split; [intros _|]. + change (rtau r) with 1. change (rR r) with Rm. rewrite ediv_fin by lra. fold E. apply k_0_bar_split. split; [|lra].
        unfold contains. cbn. apply andb_true_iff. split; [apply rleb_spec; lra|reflexivity].
      + split; [discriminate|]. split; [intros H; exact (False_ind _ (unset_angle H))|]. reflexivity. }
  destruct (C69_take_rad_cut_onto (cut_from_params no_cuts) (cut_rad_from_params true E (CutsRad none none none (mk_bound (Fin 0) PInf) none none)) ex_ps 20 ex_sp 1 2 Rm ex_masses ltac:(unfold ex_ps; cbn; lra)
    ltac:(repeat split; intros H; try discriminate; exact (False_ind _ (unset_angle H))) ltac:(intros H; exact (False_ind _ (unset_angle H))) V) as (u & jac & _ & T);
    try (intros _; apply ex_angles).
  - unfold ex_ps, ex_sp, sq. cbn [a_M a_m s_x s_y]. lra.
  - pose proof ex_missing. unfold ex_ps at 1, sq. cbn [a_Mth]. lra.
  - exists E, u, r, jac. split; [exact PE|]. split; [exact T|exact Rp].
Qed.
Definition ex_turned := PhaseSpace (1 / 2) (1 / 2) (1 / 2) (1 / 4) (1 + 2 * PI) 2.
Theorem C77_twice_refuted : exists u u' k k' jac jac', unit_cube 6 u /\ unit_cube 6 u' /\
  take_cut (cut_from_params wide_cut) ex_ps 20 u = Some (k, jac) /\ take_cut (cut_from_params wide_cut) ex_ps 20 u' = Some (k', jac') /\
  kphi_h k' = kphi_h k + 2 * PI /\ same_direction (kphi_h k) (kphi_h k') /\
  (kx k', ky k', kz k', kph_t_sq k', kphi k') = (kx k, ky k, kz k, kph_t_sq k, kphi k) /\ exists i, u i <> u' i.
Proof.
  pose proof PI2_1 as HPI. unfold PI2 in HPI. pose proof PI_4 as HPI4.
  assert (R1 : region ex_ps 20 ex_turned) by (destruct ex_region; constructor; assumption).
  assert (W : forall sp, region ex_ps 20 sp -> - PI <= s_phi_h sp <= 3 * PI -> valid_cut (cut_from_params wide_cut) (make_kin ex_ps 20 sp) = true).
  { intros sp H1 H2. apply only_phi_h; [apply (C24_valid_is_physical _ _ _ ex_masses), H1|]. intros _. apply wide_contains. exact H2. }
  pose proof (turned_usable (Bnd (Fin (-180)) (Fin 540)) (-180) 540 (conj eq_refl eq_refl)) as HU. fold wide_cut in HU.
  assert (P : is_set (c_phi_h (cut_from_params wide_cut))) by (apply set_degrees; unfold is_set, valid; cbn; apply rleb_spec; lra).
  destruct (take_cut_onto _ ex_ps 20 ex_sp ex_masses HU (W ex_sp ex_region ltac:(cbn; lra))) as (u & jac & U & E); [intros H; contradiction|intros _; cbn; lra|].
  destruct (take_cut_onto _ ex_ps 20 ex_turned ex_masses HU (W ex_turned R1 ltac:(cbn; lra))) as (u' & jac' & U' & E'); [intros H; contradiction|intros _; cbn; lra|].
  exists u, u', (make_kin ex_ps 20 ex_sp), (make_kin ex_ps 20 ex_turned), jac, jac'. split; [exact U|]. split; [exact U'|]. split; [exact E|]. split; [exact E'|].
  change (kphi_h (make_kin ex_ps 20 ex_sp)) with 1. change (kphi_h (make_kin ex_ps 20 ex_turned)) with (1 + 2 * PI). split; [ring|].
  split; [split; [rewrite cos_plus, cos_2PI, sin_2PI|rewrite sin_plus, cos_2PI, sin_2PI]; ring|]. split; [reflexivity|].
  exists 4%nat. intros Q. assert (E4 : kphi_h (make_kin ex_ps 20 ex_sp) = kphi_h (make_kin ex_ps 20 ex_turned)).
  { revert E E'. unfold take_cut, sample6. rewrite Q.
    destruct (apply_map_b (MapModel.Inverse X_CUTOFF) _ (u 0%nat) _) as [[x j0]|]; [|discriminate].
    destruct (apply_map_b (MapModel.Inverse X_CUTOFF) _ (u' 0%nat) _) as [[x' j0']|]; [|discriminate].
    destruct (apply_map_b _ _ (u 1%nat) _) as [[y j1]|]; [|discriminate]. destruct (apply_map_b _ _ (u' 1%nat) _) as [[y' j1']|]; [|discriminate].
    destruct (apply_map_b _ _ (u 2%nat) _) as [[z j2]|]; [|discriminate]. destruct (apply_map_b _ _ (u' 2%nat) _) as [[z' j2']|]; [|discriminate].
    destruct (apply_map_b _ _ (u 3%nat) _) as [[pt j3]|]; [|discriminate]. destruct (apply_map_b _ _ (u' 3%nat) _) as [[pt' j3']|]; [|discriminate].
    destruct (apply_map_b _ _ (u' 4%nat) _) as [[ph j4]|]; [|discriminate].
    destruct (apply_map_b _ _ (u 5%nat) _) as [[phi j5]|]; [|discriminate]. destruct (apply_map_b _ _ (u' 5%nat) _) as [[phi' j5']|]; [|discriminate]. cbv zeta.
    set (k := make_kin ex_ps 20 (PhaseSpace x y z pt ph phi)). set (k' := make_kin ex_ps 20 (PhaseSpace x' y' z' pt' ph phi')).
    assert (K : kphi_h k = kphi_h k') by reflexivity. clearbody k k'.
    destruct (valid_cut _ k); [|discriminate]. destruct (valid_cut _ k'); [|discriminate]. intros E E'.
    assert (k = make_kin ex_ps 20 ex_sp) as <- by congruence. assert (k' = make_kin ex_ps 20 ex_turned) as <- by congruence. exact K. }
  change (1 = 1 + 2 * PI) in E4. lra.
Qed.
Example C77_example : exists lo hi, let cut := cut_from_params (Cuts none none none none (Bnd (Fin 0) (Fin 90)) none none none none none none none none none none none none none) in
  ends (c_phi_h cut) lo hi /\ hi - lo < 2 * PI /\ valid_cut cut (make_kin ex_ps 20 ex_sp) = true.
Proof.
  pose proof PI2_1 as HPI. unfold PI2 in HPI. pose proof deg_pos. exists (0 * DEG), (90 * DEG). cbv zeta. split; [|split].
  - cbn [cut_from_params c_phi_h]. unfold bmul. replace (eltb (Fin DEG) (Fin 0)) with false by (symmetry; apply rltb_false; lra). split; reflexivity.
  - unfold DEG. lra.
  - apply only_phi_h; [apply (C24_valid_is_physical _ _ _ ex_masses), ex_region|]. apply obeys_degrees. intros _. change (kphi_h (make_kin ex_ps 20 ex_sp)) with 1.
    unfold contains. cbn. apply andb_true_iff. rewrite !rleb_spec. rewrite le_div, div_le by lra. lra.
Qed.
Print Assumptions C77_once_partial.
Print Assumptions C77_twice_refuted.
