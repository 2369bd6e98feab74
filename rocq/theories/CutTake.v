(** Sampling of the phase space: the Jacobian, and which points are reached. *)
From Coq Require Import Reals Bool Lra Psatz Lia.
From Coquelicot Require Import Coquelicot.
From Verif Require Import ExtModel BoundModel BoundSpec BoundProofs MathModel MathProofs MapModel MapSpec MapProofs ParticleModel VecModel TransModel VecTac FrameBase KinModel KinEqs KinSpec CutModel CutSpec CutProofs CutBounds CutPhoton.
Local Open Scope R_scope.

(** An interval that is either ordered or all NaN. *)
Definition wf (b : bound) : Prop := is_invalid b \/ valid b = true.
Lemma wf_binter a b : wf (binter a b).
Proof. apply binter_shape. Qed.
Lemma wf_mk a b : wf (mk_bound a b).
Proof.
  destruct (eleb a b) eqn:E.
  - right. apply mk_bound_valid. apply eleb_spec; auto.
  - left. apply mk_bound_empty. apply eleb_false; auto.
Qed.
Lemma wf_ends b lo hi : wf b -> ends b lo hi -> lo <= hi.
Proof.
  intros [I|V] [E1 E2]. { unfold is_invalid in I. rewrite E1 in I. destruct I. discriminate. }
  unfold valid in V. rewrite E1, E2 in V. apply rleb_spec in V. auto.
Qed.
Lemma one_map t dom b p x j : wf b -> apply_map_b t dom p b = Some (x, j) ->
  (forall lo hi, ends b lo hi -> lo <= hi -> dom lo = true -> dom hi = true -> change_of_variable_on t lo hi) ->
  exists X J, (exists lo hi, ends b lo hi /\ coordinate X J lo hi) /\ (forall p', apply_map_b t dom p' b = Some (X p', J p')) /\ x = X p /\ j = J p.
Proof.
  intros W A C. unfold apply_map_b in *. destruct (bmin b) as [lo| | |] eqn:E1; try discriminate. destruct (bmax b) as [hi| | |] eqn:E2; try discriminate.
  destruct (dom lo && dom hi) eqn:D; [|discriminate]. apply andb_true_iff in D. destruct D as [D1 D2].
  assert (L : lo <= hi) by (apply (wf_ends b); [auto|split; auto]).
  destruct (apply_map_correct t lo hi L) as (X & J & AM & RG & X0 & X1 & ON & DV & PO). { apply C; auto. split; auto. }
  exists X, J. split; [exists lo, hi; split; [split; auto|constructor; auto]|].
  - split; [auto|]. rewrite AM in A. injection A. auto.
Qed.
(** ... and every value of the interval is reached. *)
Lemma one_onto t dom b x : wf b -> (exists lo hi, ends b lo hi /\ dom lo = true /\ dom hi = true /\ change_of_variable_on t lo hi) -> contains b (Fin x) = true ->
  exists p j, 0 <= p <= 1 /\ apply_map_b t dom p b = Some (x, j) /\ 0 <= j.
Proof.
  intros W (lo & hi & E & D1 & D2 & C) I. pose proof (wf_ends _ _ _ W E) as L. destruct E as [E1 E2].
  destruct (apply_map_correct t lo hi L C) as (X & J & AM & RG & X0 & X1 & ON & DV & PO).
  unfold contains in I. rewrite E1, E2 in I. apply andb_true_iff in I. destruct I as [I1 I2]. apply rleb_spec in I1. apply rleb_spec in I2.
  destruct (ON x) as (p & Hp & Ex); [lra|]. exists p, (J p). split; [auto|]. split; [|apply PO; auto].
  unfold apply_map_b. rewrite E1, E2, D1, D2. cbn [andb]. rewrite AM, Ex. reflexivity.
Qed.

Lemma X_CUTOFF_pos : 0 < X_CUTOFF. Proof. unfold X_CUTOFF. lra. Qed.
Lemma WIDTH_pos : 0 < PH_T_SQ_DECAY_WIDTH. Proof. unfold PH_T_SQ_DECAY_WIDTH. lra. Qed.
Definition nonneg (b : bound) : Prop := forall lo hi, ends b lo hi -> 0 <= lo.

Section Six.
Variables (ps : parts) (S : R).
Variables (xb : bound) (yb : R -> bound) (zb : R -> R -> bound) (ptb : R -> R -> R -> bound) (phib phib' : bound).
Local Notation limits6 := (CutSpec.limits6 xb yb zb ptb phib phib').
Hypotheses (Wx : wf xb) (Wy : forall x, wf (yb x)) (Wz : forall x y, wf (zb x y)) (Wpt : forall x y z, wf (ptb x y z)) (Wp : wf phib) (Wp' : wf phib').
Hypotheses (Nx : nonneg xb) (Ny : forall x, nonneg (yb x)).
Definition F6 (u : nat -> R) : option (kin * R) :=
  match sample6 xb yb zb ptb phib phib' u with Some (sp, jac) => Some (make_kin ps S sp, jac) | None => None end.

Lemma inv_dom off x : inverse_dom off x = true <-> x + off <> 0.
Proof. unfold inverse_dom. destruct (reqb (x + off) 0) eqn:E; [apply reqb_spec in E|apply reqb_false in E]; cbn; split; intros; auto; congruence. Qed.
Lemma jacobian6 : jacobian_of 6 kin_coord F6 limits6.
Proof.
  intros u a jac U HF. unfold F6 in HF. destruct (sample6 xb yb zb ptb phib phib' u) as [[sp j0]|] eqn:E; [|discriminate].
  injection HF as <- <-. unfold sample6 in E.
  destruct (apply_map_b (Inverse X_CUTOFF) _ (u 0%nat) xb) as [[x jx]|] eqn:A0; [|discriminate].
  destruct (apply_map_b (Inverse 0) _ (u 1%nat) (yb x)) as [[y jy]|] eqn:A1; [|discriminate].
  destruct (apply_map_b Linear _ (u 2%nat) (zb x y)) as [[z jz]|] eqn:A2; [|discriminate].
  destruct (apply_map_b (Decay PH_T_SQ_DECAY_WIDTH) _ (u 3%nat) (ptb x y z)) as [[pt jpt]|] eqn:A3; [|discriminate].
  destruct (apply_map_b Linear _ (u 4%nat) phib) as [[ph jph]|] eqn:A4; [|discriminate].
  destruct (apply_map_b Linear _ (u 5%nat) phib') as [[ph' jph']|] eqn:A5; [|discriminate].
  injection E as <- <-.
  destruct (one_map _ _ _ _ _ _ Wx A0) as (X0 & J0 & C0 & B0 & -> & ->).
  { intros lo hi EE L D1 D2. apply inverse_cov; auto. left. pose proof (Nx _ _ EE). pose proof X_CUTOFF_pos. lra. }
  set (x := X0 (u 0%nat)) in *.
  destruct (one_map _ _ _ _ _ _ (Wy x) A1) as (X1 & J1 & C1 & B1 & -> & ->).
  { intros lo hi EE L D1 D2. apply inverse_cov; auto. left. pose proof (Ny _ _ _ EE). apply inv_dom in D1. lra. }
  set (y := X1 (u 1%nat)) in *.
  destruct (one_map _ _ _ _ _ _ (Wz x y) A2) as (X2 & J2 & C2 & B2 & -> & ->). { intros; apply linear_cov. }
  set (z := X2 (u 2%nat)) in *.
  destruct (one_map _ _ _ _ _ _ (Wpt x y z) A3) as (X3 & J3 & C3 & B3 & -> & ->). { intros; apply decay_cov. apply WIDTH_pos. }
  destruct (one_map _ _ _ _ _ _ Wp A4) as (X4 & J4 & C4 & B4 & -> & ->). { intros; apply linear_cov. }
  destruct (one_map _ _ _ _ _ _ Wp' A5) as (X5 & J5 & C5 & B5 & -> & ->). { intros; apply linear_cov. }
  exists (fun i => match i with 0 => X0 | 1 => X1 | 2 => X2 | 3 => X3 | 4 => X4 | _ => X5 end%nat),
         (fun i => match i with 0 => J0 | 1 => J1 | 2 => J2 | 3 => J3 | 4 => J4 | _ => J5 end%nat).
  split; [|cbn [product]; ring].
  assert (G : forall u' a' jac', F6 u' = Some (a', jac') -> exists sp j, a' = make_kin ps S sp /\ sample6 xb yb zb ptb phib phib' u' = Some (sp, j)).
  { intros u' a' jac' H. unfold F6 in H. destruct (sample6 _ _ _ _ _ _ u') as [[sp' j']|]; [|discriminate]. injection H as <- <-. exists sp', j'. auto. }
  intros i Hi. destruct i as [|[|[|[|[|[|i]]]]]]. 7: lia.
  all: (split; [auto|]; split; [reflexivity|]).
  all: intros u' a' jac' HL HF'; destruct (G _ _ _ HF') as (sp' & j' & -> & E'); unfold sample6 in E'.
  all: rewrite B0 in E'.
  all: try (rewrite (HL 0%nat) in E' by lia; fold x in E'; rewrite B1 in E').
  all: try (rewrite (HL 1%nat) in E' by lia; fold y in E'; rewrite B2 in E').
  all: try (rewrite (HL 2%nat) in E' by lia; fold z in E'; rewrite B3 in E').
  all: try rewrite B4 in E'. all: try rewrite B5 in E'.
  all: repeat match type of E' with context [match ?o with Some _ => _ | None => _ end] => destruct o as [[? ?]|] eqn:?; [|discriminate] end.
  all: injection E' as <- <-; reflexivity.
Qed.
End Six.

(** The last three coordinates. *)
Section Three.
Variables (k : kin) (taub phib : bound) (Rb : R -> R -> bound).
Hypotheses (Wt : wf taub) (Wp : wf phib) (WR : forall a b, wf (Rb a b)).
Hypotheses (Hm : 0 <= km k) (H1 : klambda_1_sqrt k = sqrt (klambda_1 k)) (HY : klambda_Y_sqrt k = sqrt (klambda_Y k)).
Lemma width_spec w x : width_dom w x = true <-> w <> 0.
Proof. unfold width_dom. destruct (reqb w 0) eqn:E; [apply reqb_spec in E|apply reqb_false in E]; cbn; split; intros; auto; congruence. Qed.
Lemma sample3_maps v tau phi_k R jac : sample3 k taub phib Rb v = Some (tau, phi_k, R, jac) ->
  exists X0 J0 X1 J1 X2 J2,
    (exists lo hi, ends taub lo hi /\ coordinate X0 J0 lo hi) /\ (exists lo hi, ends phib lo hi /\ coordinate X1 J1 lo hi) /\
    (exists lo hi, ends (Rb tau phi_k) lo hi /\ coordinate X2 J2 lo hi) /\
    tau = X0 (v 0%nat) /\ phi_k = X1 (v 1%nat) /\ R = X2 (v 2%nat) /\ jac = J0 (v 0%nat) * J1 (v 1%nat) * J2 (v 2%nat) /\
    forall v' tau' phi_k' R' jac', sample3 k taub phib Rb v' = Some (tau', phi_k', R', jac') ->
      tau' = X0 (v' 0%nat) /\ phi_k' = X1 (v' 1%nat) /\ (v' 0%nat = v 0%nat -> v' 1%nat = v 1%nat -> R' = X2 (v' 2%nat)).
Proof.
  intros E. unfold sample3 in *. cbv zeta in *. destruct (reqb (kX k) 0 || _ || _) eqn:G; [discriminate|].
  apply orb_false_iff in G. destruct G as [G _]. apply orb_false_iff in G. destruct G as [G1 G2]. apply reqb_false in G1. apply reqb_false in G2.
  set (w := sqrt 2 * klambda_1_sqrt k * km k / sq (kX k)) in *. set (rho := sq (1 - ky k)) in *.
  set (pw := klambda_Y_sqrt k / klambda_1_sqrt k / sqrt 2 * km k) in *.
  destruct (apply_map_b (Sigmoid2 _ _ _ _) _ (v 0%nat) taub) as [[t jt]|] eqn:A0; [|discriminate].
  destruct (apply_map_b (Sigmoid _ _) _ (v 1%nat) phib) as [[p jp]|] eqn:A1; [|discriminate].
  destruct (apply_map_b (Log _) _ (v 2%nat) (Rb t p)) as [[r jr]|] eqn:A2; [|discriminate].
  injection E as -> -> -> <-.
  assert (P2 : 0 < sqrt 2) by (apply sqrt_lt_R0; lra).
  assert (P1 : 0 < klambda_1_sqrt k) by (rewrite H1 in *; pose proof (sqrt_pos (klambda_1 k)); lra).
  assert (PY : 0 <= klambda_Y_sqrt k) by (rewrite HY; apply sqrt_pos).
  assert (PX : 0 < sq (kX k)) by (unfold sq; nra).
  assert (Pw : 0 <= w). { unfold w. apply Rmult_le_pos; [apply Rmult_le_pos; [nra|auto]|]. apply Rlt_le, Rinv_0_lt_compat; auto. }
  assert (Pr : 0 <= rho) by (apply Rle_0_sqr).
  assert (Pp : 0 <= pw).
  { unfold pw. apply Rmult_le_pos; [|auto]. apply Rmult_le_pos; [apply Rmult_le_pos; [auto|]|]; apply Rlt_le, Rinv_0_lt_compat; auto. }
  destruct (one_map _ _ _ _ _ _ Wt A0) as (X0 & J0 & C0 & B0 & -> & ->).
  { intros lo hi EE L D1 D2. apply width_spec in D1. apply sigmoid2_cov; auto; nra. }
  destruct (one_map _ _ _ _ _ _ Wp A1) as (X1 & J1 & C1 & B1 & -> & ->).
  { intros lo hi EE L D1 D2. apply width_spec in D1. apply sigmoid_cov; auto; nra. }
  destruct (one_map _ _ _ _ _ _ (WR _ _) A2) as (X2 & J2 & C2 & B2 & -> & ->).
  { intros lo hi EE L D1 D2. apply rltb_spec in D1. apply log_cov; auto. }
  exists X0, J0, X1, J1, X2, J2. split; [auto|]. split; [auto|]. split; [auto|]. split; [auto|]. split; [auto|]. split; [auto|]. split; [ring|].
  intros v' tau' phi_k' R' jac' E'. rewrite B0, B1 in E'.
  destruct (apply_map_b (Log _) _ (v' 2%nat) _) as [[r' jr']|] eqn:A'; [|discriminate]. injection E' as <- <- <- <-.
  split; [auto|]. split; [auto|]. intros V0 V1. rewrite V0, V1, B2 in A'. injection A'. auto.
Qed.
End Three.

(** All nine. *)
Section Nine.
Variables (F : (nat -> R) -> option (kin * R)) (lim : kin -> nat -> bound) (taub : kin -> bound) (phib : bound) (Rb : kin -> R -> R -> bound).
Local Notation limits9 := (CutSpec.limits9 lim taub phib Rb).
Definition F9 (u : nat -> R) : option (kinrad * R) :=
  match F u with
  | Some (k, jac) =>
    match sample3 k (taub k) phib (Rb k) (tail6 u) with
    | Some (tau, phi_k, R, jac_rad) => Some (make_rad k tau phi_k R, jac_rad * jac) | None => None end
  | None => None end.
Hypotheses (HF : jacobian_of 6 kin_coord F lim)
  (Hloc : forall u u', (forall l, (l < 6)%nat -> u' l = u l) -> F u' = F u)
  (Hk : forall u k jac, F u = Some (k, jac) -> 0 <= km k /\ klambda_1_sqrt k = sqrt (klambda_1 k) /\ klambda_Y_sqrt k = sqrt (klambda_Y k))
  (Wt : forall k, wf (taub k)) (Wp : wf phib) (WR : forall k a b, wf (Rb k a b)).
Lemma jacobian9 : jacobian_of 9 rad_coord F9 limits9.
Proof.
  intros u r jac U H. unfold F9 in H. destruct (F u) as [[k jk]|] eqn:E; [|discriminate].
  destruct (sample3 k (taub k) phib (Rb k) (tail6 u)) as [[[[tau phi_k] R] jr]|] eqn:A; [|discriminate]. injection H as <- <-.
  destruct (HF u k jk) as (X & j & HX & EJ); [intros i Hi; apply U; lia|auto|].
  destruct (Hk _ _ _ E) as (K1 & K2 & K3).
  destruct (sample3_maps k (taub k) phib (Rb k) (Wt k) Wp (WR k) K1 K2 K3 _ _ _ _ _ A) as (X0 & J0 & X1 & J1 & X2 & J2 & C0 & C1 & C2 & E0 & E1 & E2 & EJ' & HV).
  exists (fun i => match i with 6 => X0 | 7 => X1 | 8 => X2 | _ => X i end%nat), (fun i => match i with 6 => J0 | 7 => J1 | 8 => J2 | _ => j i end%nat).
  assert (PR : forall tau phi_k R, project (make_rad k tau phi_k R) = k) by (intros; apply make_rad_copies).
  assert (G : forall u' a' jac', F9 u' = Some (a', jac') -> exists k' j' tau' phi_k' R' jr', F u' = Some (k', j') /\ a' = make_rad k' tau' phi_k' R' /\
    sample3 k' (taub k') phib (Rb k') (tail6 u') = Some (tau', phi_k', R', jr')).
  { intros u' a' jac' H. unfold F9 in H. destruct (F u') as [[k' j']|]; [|discriminate]. destruct (sample3 k' (taub k') phib (Rb k') (tail6 u')) as [[[[tau' phi_k'] R'] jr']|] eqn:A'; [|discriminate].
    injection H as <- <-. exists k', j', tau', phi_k', R', jr'. auto. }
  split; [|rewrite EJ, EJ'; cbn [product]; unfold tail6; cbn [Nat.add]; ring].
  intros i Hi. assert (Hc : (i < 6)%nat \/ i = 6%nat \/ i = 7%nat \/ i = 8%nat) by lia. destruct Hc as [Hc | [ -> | [ -> | -> ]]].
  - destruct (HX i Hc) as (Q1 & Q2 & Q3).
    assert (EX : forall (A : Type) (f g h : A) (f' : nat -> A), match i with 6 => f | 7 => g | 8 => h | _ => f' i end%nat = f' i).
    { intros. destruct i as [|[|[|[|[|[|i]]]]]]; [..|lia]; reflexivity. }
    unfold rad_coord, limits9. rewrite !EX, !PR. split; [auto|]. split; [auto|].
    intros u' a' jac' HL H'. destruct (G _ _ _ H') as (k' & j' & tau' & phi_k' & R' & jr' & EF & -> & _).
    rewrite EX, make_rad_copies. eapply Q3; eauto.
  - unfold limits9. rewrite PR. split; [auto|]. split; [exact E0|].
    intros u' a' jac' HL H'. destruct (G _ _ _ H') as (k' & j' & tau' & phi_k' & R' & jr' & EF & -> & A').
    rewrite (Hloc u u') in EF by (intros; apply HL; lia). rewrite E in EF. injection EF as <- <-. apply HV in A'. apply A'.
  - unfold limits9. split; [auto|]. split; [exact E1|].
    intros u' a' jac' HL H'. destruct (G _ _ _ H') as (k' & j' & tau' & phi_k' & R' & jr' & EF & -> & A').
    rewrite (Hloc u u') in EF by (intros; apply HL; lia). rewrite E in EF. injection EF as <- <-. apply HV in A'. apply A'.
  - unfold limits9. rewrite PR. split; [auto|]. split; [exact E2|].
    intros u' a' jac' HL H'. destruct (G _ _ _ H') as (k' & j' & tau' & phi_k' & R' & jr' & EF & -> & A').
    rewrite (Hloc u u') in EF by (intros; apply HL; lia). rewrite E in EF. injection EF as <- <-. apply HV in A'. apply A'; apply HL; lia.
Qed.
End Nine.

(** The code's samplers. *)
Lemma jac_restrict {A} n coord (F G : (nat -> R) -> option (A * R)) lim : (forall u r, G u = Some r -> F u = Some r) -> jacobian_of n coord F lim -> jacobian_of n coord G lim.
Proof.
  intros H J u a jac U E. destruct (J u a jac U (H _ _ E)) as (X & j & HX & EJ). exists X, j. split; [|auto].
  intros i Hi. destruct (HX i Hi) as (Q1 & Q2 & Q3). split; [auto|]. split; [auto|]. intros u' a' jac' HL HF. eapply Q3; eauto.
Qed.
Lemma sub_nonneg b c : wf b -> (forall t, points b t -> points c t) -> (forall t, points c t -> ext_le (Fin 0) t) -> nonneg b.
Proof.
  intros W Hs H lo hi E. pose proof (wf_ends _ _ _ W E) as L. destruct E as [E1 E2].
  assert (P : points b (Fin lo)) by (unfold points; rewrite E1, E2, !le_FF; lra). apply Hs in P. apply H in P. rewrite le_FF in P. exact P.
Qed.
Lemma unit_range a t : points (binter BOUND_UNIT a) t -> ext_le (Fin 0) t /\ ext_le t (Fin 1).
Proof.
  intros H. apply binter_points in H. destruct H as [H _]. unfold BOUND_UNIT in H. rewrite mk_bound_points in H. auto.
Qed.
Lemma x_range ps S t : points (x_bound ps S) t -> ext_le (Fin 0) t /\ ext_le t (Fin 1).
Proof. apply unit_range. Qed.
Lemma y_range ps S x t : points (y_bound ps S x) t -> ext_le (Fin 0) t /\ ext_le t (Fin 1).
Proof. apply unit_range. Qed.
Lemma z_range ps S x y t : points (z_bound ps S x y) t -> ext_le (Fin 0) t /\ ext_le t (Fin 1).
Proof. apply unit_range. Qed.
Lemma if_inter (c : bool) a b t : points (if c then binter a b else a) t -> points a t.
Proof. destruct c; auto. rewrite binter_points. tauto. Qed.
Lemma if_wf (c : bool) a b : wf a -> wf (if c then binter a b else a).
Proof. destruct c; auto. intros. apply wf_binter. Qed.
Lemma x_cut_sub cut ps S t : points (x_bound_cut cut ps S) t -> points (x_bound ps S) t.
Proof. unfold x_bound_cut. cbv zeta. intros H. apply if_inter in H. apply if_inter in H. apply if_inter in H. auto. Qed.
Lemma y_cut_sub cut ps S x t : points (y_bound_cut cut ps S x) t -> points (y_bound ps S x) t.
Proof. unfold y_bound_cut. cbv zeta. intros H. apply if_inter in H. apply if_inter in H. apply if_inter in H. auto. Qed.
Lemma z_cut_sub cut ps S x y t : points (z_bound_cut cut ps S x y) t -> points (z_bound ps S x y) t.
Proof. unfold z_bound_cut. apply if_inter. Qed.
Lemma pt_cut_sub cut ps S x y z t : points (ph_t_sq_bound_cut cut ps S x y z) t -> points (ph_t_sq_bound ps S x y z) t.
Proof. unfold ph_t_sq_bound_cut. apply if_inter. Qed.
Lemma x_cut_wf cut ps S : wf (x_bound_cut cut ps S).
Proof. unfold x_bound_cut. cbv zeta. do 3 apply if_wf. apply wf_binter. Qed.
Lemma y_cut_wf cut ps S x : wf (y_bound_cut cut ps S x).
Proof. unfold y_bound_cut. cbv zeta. do 3 apply if_wf. apply wf_binter. Qed.
Lemma z_cut_wf cut ps S x y : wf (z_bound_cut cut ps S x y).
Proof. unfold z_bound_cut. apply if_wf. apply wf_binter. Qed.
Lemma pt_cut_wf cut ps S x y z : wf (ph_t_sq_bound_cut cut ps S x y z).
Proof. unfold ph_t_sq_bound_cut. apply if_wf. apply wf_binter. Qed.
Lemma tau_cut_wf cut k : wf (tau_bound_cut cut k).
Proof. unfold tau_bound_cut. apply if_wf. apply wf_binter. Qed.
Lemma R_cut_wf cut k tau phi : wf (R_bound_cut cut k tau phi).
Proof. unfold R_bound_cut. cbv zeta. do 2 apply if_wf. apply wf_mk. Qed.
Lemma phi_wf c : wf (if valid c then c else FULL_ANGLE).
Proof. destruct (valid c) eqn:E; [right; auto|apply wf_mk]. Qed.

Lemma take_kin_jacobian ps S : jacobian_of 6 kin_coord (take_kin ps S) (limits_plain ps S).
Proof.
  apply (jacobian6 ps S); try (intros; apply wf_binter); try apply wf_mk.
  - eapply sub_nonneg; [apply wf_binter|intros t Ht; exact Ht|intros t Ht; apply x_range in Ht; tauto].
  - intros x. eapply sub_nonneg; [apply wf_binter|intros t Ht; exact Ht|intros t Ht; apply y_range in Ht; tauto].
Qed.
Definition take_cut_all (cut : cuts) (ps : parts) (S : R) : (nat -> R) -> option (kin * R) :=
  F6 ps S (x_bound_cut cut ps S) (y_bound_cut cut ps S) (z_bound_cut cut ps S) (ph_t_sq_bound_cut cut ps S) (angle (c_phi_h cut)) (angle (c_phi cut)).
Lemma take_cut_sub cut ps S u r : take_cut cut ps S u = Some r -> take_cut_all cut ps S u = Some r.
Proof.
  unfold take_cut, take_cut_all, F6, angle. destruct (sample6 _ _ _ _ _ _ u) as [[sp jac]|]; [|discriminate].
  cbv zeta. destruct (valid_cut _ _); [auto|discriminate].
Qed.
Lemma take_cut_all_jacobian cut ps S : jacobian_of 6 kin_coord (take_cut_all cut ps S) (limits_cut cut ps S).
Proof.
  apply jacobian6; intros; try apply x_cut_wf; try apply y_cut_wf; try apply z_cut_wf; try apply pt_cut_wf; try apply phi_wf.
  - eapply sub_nonneg; [apply x_cut_wf|intros t Ht; apply x_cut_sub in Ht; exact Ht|intros t Ht; apply x_range in Ht; tauto].
  - eapply sub_nonneg; [apply y_cut_wf|intros t Ht; apply y_cut_sub in Ht; exact Ht|intros t Ht; apply y_range in Ht; tauto].
Qed.
Lemma take_cut_jacobian cut ps S : jacobian_of 6 kin_coord (take_cut cut ps S) (limits_cut cut ps S).
Proof. eapply jac_restrict; [apply take_cut_sub|apply take_cut_all_jacobian]. Qed.

Lemma sample6_local xb yb zb ptb pb pb' u u' : (forall l, (l < 6)%nat -> u' l = u l) -> sample6 xb yb zb ptb pb pb' u' = sample6 xb yb zb ptb pb pb' u.
Proof. intros H. unfold sample6. rewrite !H by lia. reflexivity. Qed.
Lemma F6_local ps S xb yb zb ptb pb pb' u u' : (forall l, (l < 6)%nat -> u' l = u l) -> F6 ps S xb yb zb ptb pb pb' u' = F6 ps S xb yb zb ptb pb pb' u.
Proof. intros H. unfold F6. rewrite (sample6_local _ _ _ _ _ _ u u' H). reflexivity. Qed.
Lemma F6_kin ps S xb yb zb ptb pb pb' u k jac : 0 <= a_m ps -> F6 ps S xb yb zb ptb pb pb' u = Some (k, jac) ->
  0 <= km k /\ klambda_1_sqrt k = sqrt (klambda_1 k) /\ klambda_Y_sqrt k = sqrt (klambda_Y k).
Proof.
  intros Hm H. unfold F6 in H. destruct (sample6 _ _ _ _ _ _ u) as [[sp j]|]; [|discriminate]. injection H as <- <-. split; [auto|]. split; reflexivity.
Qed.
Lemma take9_kin_jacobian ps S : 0 <= a_m ps -> jacobian_of 9 rad_coord (take9_kin ps S) (limits9_plain ps S).
Proof.
  intros Hm. apply (jac_restrict 9 rad_coord (F9 (take_kin ps S) tau_bound FULL_ANGLE R_bound)).
  - intros u r. unfold take9_kin, F9, take3_kin, take3_space. destruct (take_kin ps S u) as [[k jac]|]; [|discriminate].
    destruct (sample3 _ _ _ _ _) as [[[[t p] r0] j]|]; [|discriminate]. auto.
  - apply jacobian9; try (intros; apply wf_binter); try (intros; apply wf_mk).
    + apply take_kin_jacobian.
    + intros u u' H. apply (F6_local ps S). auto.
    + intros u k jac. apply (F6_kin ps S). auto.
Qed.
Lemma take9_cut_jacobian cut cut_rad ps S : 0 <= a_m ps -> jacobian_of 9 rad_coord (take9_cut cut cut_rad ps S) (limits9_cut cut cut_rad ps S).
Proof.
  intros Hm. apply (jac_restrict 9 rad_coord (F9 (take_cut_all cut ps S) (tau_bound_cut cut_rad) (angle (d_phi_k cut_rad)) (R_bound_cut cut_rad))).
  - intros u r. unfold take9_cut, F9, take3_cut. destruct (take_cut cut ps S u) as [[k jac]|] eqn:E; [|discriminate]. rewrite (take_cut_sub _ _ _ _ _ E).
    fold (angle (d_phi_k cut_rad)). destruct (sample3 _ _ _ _ _) as [[[[t p] r0] j]|]; [|discriminate]. cbv zeta. destruct (valid_cut_rad _ _); [auto|discriminate].
  - apply jacobian9; intros; try apply tau_cut_wf; try apply R_cut_wf; try apply phi_wf.
    + apply take_cut_all_jacobian.
    + apply F6_local. auto.
    + apply (F6_kin _ _ _ _ _ _ _ _ _ _ _ Hm H).
Qed.

(** Only physical points. *)
Lemma in_limits b X j lo hi p : ends b lo hi -> coordinate X j lo hi -> 0 <= p <= 1 -> contains b (Fin (X p)) = true.
Proof.
  intros [E1 E2] C Hp. apply contains_points. unfold points. rewrite E1, E2, !le_FF. split; apply (co_range _ _ _ _ C); auto.
Qed.
Lemma coords_in {A} n coord F (lim : A -> nat -> bound) u a jac i : jacobian_of n coord F lim -> unit_cube n u -> F u = Some (a, jac) -> (i < n)%nat ->
  contains (lim a i) (Fin (coord a i)) = true.
Proof.
  intros J U E Hi. destruct (J u a jac U E) as (X & j & HX & _). destruct (HX i Hi) as ((lo & hi & E1 & E2) & -> & _). eapply in_limits; eauto.
Qed.
Lemma product_nonneg n f : (forall i, (i < n)%nat -> 0 <= f i) -> 0 <= product n f.
Proof. induction n; intros H; cbn; [lra|]. apply Rmult_le_pos; [apply IHn; intros; apply H; lia|apply H; lia]. Qed.
Lemma jac_nonneg {A} n coord F (lim : A -> nat -> bound) u a jac : jacobian_of n coord F lim -> unit_cube n u -> F u = Some (a, jac) -> 0 <= jac.
Proof.
  intros J U E. destruct (J u a jac U E) as (X & j & HX & ->). apply product_nonneg. intros i Hi. destruct (HX i Hi) as ((lo & hi & E1 & E2) & _).
  apply (co_pos _ _ _ _ E2). auto.
Qed.
Lemma product_pos n f : (forall i, (i < n)%nat -> 0 < f i) -> 0 < product n f.
Proof. induction n; intros H; cbn; [lra|]. apply Rmult_lt_0_compat; [apply IHn; intros; apply H; lia|apply H; lia]. Qed.
Lemma jac_positive {A} n coord F (lim : A -> nat -> bound) u a jac : jacobian_of n coord F lim -> unit_cube n u -> F u = Some (a, jac) -> roomy n (lim a) -> 0 < jac.
Proof.
  intros J U E Ro. destruct (J u a jac U E) as (X & j & HX & ->). apply product_pos. intros i Hi. destruct (HX i Hi) as ((lo & hi & E1 & E2) & _).
  apply (co_pos _ _ _ _ E2); auto. specialize (Ro i Hi). destruct E1 as [E3 E4]. rewrite E3, E4 in Ro. apply rltb_spec in Ro. exact Ro.
Qed.
Lemma take_kin_make ps S u k jac : take_kin ps S u = Some (k, jac) -> k = make_kin ps S (sp_of k).
Proof. unfold take_kin. destruct (take_space ps S u) as [[[x y z pt ph ph'] j]|]; [|discriminate]. intros H. injection H as <- <-. reflexivity. Qed.
Lemma take_kin_physical ps S u k jac : masses_ok ps -> 0 < S -> unit_cube 6 u -> take_kin ps S u = Some (k, jac) ->
  region ps S (sp_of k) /\ - PI <= kphi_h k <= PI /\ - PI <= kphi k <= PI /\ 0 <= jac.
Proof.
  intros HP HS U E. pose proof (take_kin_jacobian ps S) as J.
  pose proof (coords_in _ _ _ _ _ _ _ 0%nat J U E ltac:(lia)) as I0. pose proof (coords_in _ _ _ _ _ _ _ 1%nat J U E ltac:(lia)) as I1.
  pose proof (coords_in _ _ _ _ _ _ _ 2%nat J U E ltac:(lia)) as I2. pose proof (coords_in _ _ _ _ _ _ _ 3%nat J U E ltac:(lia)) as I3.
  pose proof (coords_in _ _ _ _ _ _ _ 4%nat J U E ltac:(lia)) as I4. pose proof (coords_in _ _ _ _ _ _ _ 5%nat J U E ltac:(lia)) as I5.
  unfold limits_plain in *. cbn [limits6 kin_coord] in *.
  split; [apply region_nested; auto; cbn [sp_of s_x s_y s_z s_ph_t_sq]; repeat split; auto|].
  assert (G : forall a, contains FULL_ANGLE (Fin a) = true -> - PI <= a <= PI).
  { intros a H. apply contains_points in H. unfold FULL_ANGLE in H. rewrite mk_bound_points, !le_FF in H. auto. }
  split; [apply G, I4|]. split; [apply G, I5|]. apply (jac_nonneg _ _ _ _ _ _ _ J U E).
Qed.

(** Every physical point. *)
Lemma fin_ends b lo0 hi0 x : wf b -> contains b (Fin x) = true -> (forall t, points b t -> ext_le (Fin lo0) t /\ ext_le t (Fin hi0)) ->
  exists lo hi, ends b lo hi /\ lo0 <= lo /\ hi <= hi0 /\ contains b (Fin lo) = true /\ contains b (Fin hi) = true.
Proof.
  intros W C H. apply contains_points in C. destruct C as [C1 C2]. assert (V : ext_le (bmin b) (bmax b)) by (eapply ext_le_trans; eauto).
  assert (P1 : points b (bmin b)). { split; [apply ext_le_refl; eapply ext_le_nan_l; eauto|auto]. }
  assert (P2 : points b (bmax b)). { split; [auto|apply ext_le_refl; eapply ext_le_nan_r; eauto]. }
  pose proof (H _ P1) as [Q1 Q2]. pose proof (H _ P2) as [Q3 Q4].
  destruct b as [[lo| | |] [hi| | |]]; cbn [bmin bmax] in *; try (exfalso; inversion Q1; inversion Q2; inversion Q3; inversion Q4; fail).
  rewrite le_FF in Q1, Q4. exists lo, hi. split; [split; auto|]. split; [exact Q1|]. split; [exact Q4|].
  split; apply contains_points; [exact P1|exact P2].
Qed.
Lemma angle_onto a : - PI <= a <= PI -> exists p j, 0 <= p <= 1 /\ apply_map_b Linear anywhere p FULL_ANGLE = Some (a, j) /\ 0 <= j.
Proof.
  intros H. pose proof PI_RGT_0. assert (E : FULL_ANGLE = Bnd (Fin (- PI)) (Fin PI)).
  { unfold FULL_ANGLE, mk_bound. cbn [eleb]. replace (rleb (- PI) PI) with true by (symmetry; apply rleb_spec; lra). reflexivity. }
  apply one_onto; [apply wf_mk| |].
  - exists (- PI), PI. rewrite E. split; [split; reflexivity|]. split; [reflexivity|]. split; [reflexivity|]. apply linear_cov.
  - apply contains_points. rewrite E. unfold points. cbn [bmin bmax]. rewrite !le_FF. lra.
Qed.
Definition cube6 (p0 p1 p2 p3 p4 p5 : R) (i : nat) : R := match i with 0 => p0 | 1 => p1 | 2 => p2 | 3 => p3 | 4 => p4 | _ => p5 end%nat.
Lemma take_kin_onto ps S sp : masses_ok ps -> region ps S sp -> - PI <= s_phi_h sp <= PI -> - PI <= s_phi sp <= PI ->
  exists u jac, unit_cube 6 u /\ take_kin ps S u = Some (make_kin ps S sp, jac).
Proof.
  intros HP HR Ha Hb. pose proof (proj1 (region_nested ps S sp HP) HR) as (HS & X & Y & Z & T). pose proof (region_q0 _ _ _ HP HR) as [Hq HQ].
  pose proof HP as (HM & Hm & Hmh & Hth & HN).
  assert (Hx : 0 <= s_x sp <= 1) by apply (rg_x _ _ _ HR).
  destruct (one_onto (Inverse X_CUTOFF) (inverse_dom X_CUTOFF) (x_bound ps S) (s_x sp)) as (p0 & j0 & P0 & A0 & _); [apply wf_binter| |auto|].
  { destruct (fin_ends _ 0 1 _ (wf_binter _ _) X (x_range ps S)) as (lo & hi & E & L1 & L2 & _). exists lo, hi. pose proof X_CUTOFF_pos.
    pose proof (wf_ends _ _ _ (wf_binter _ _) E) as L. split; [exact E|]. split; [apply inv_dom; lra|]. split; [apply inv_dom; lra|]. apply inverse_cov; auto. lra. }
  destruct (one_onto (Inverse 0) (inverse_dom 0) (y_bound ps S (s_x sp)) (s_y sp)) as (p1 & j1 & P1 & A1 & _); [apply wf_binter| |auto|].
  { destruct (fin_ends _ 0 1 _ (wf_binter _ _) Y (y_range ps S _)) as (lo & hi & E & L1 & L2 & C1 & C2). exists lo, hi.
    pose proof (wf_ends _ _ _ (wf_binter _ _) E) as L. apply y_points in C1; auto. destruct C1 as (c1 & c2 & c3 & c4).
    split; [exact E|]. split; [apply inv_dom; lra|]. split; [apply inv_dom; lra|]. apply inverse_cov; auto. lra. }
  destruct (one_onto Linear anywhere (z_bound ps S (s_x sp) (s_y sp)) (s_z sp)) as (p2 & j2 & P2 & A2 & _); [apply wf_binter| |auto|].
  { destruct (fin_ends _ 0 1 _ (wf_binter _ _) Z (z_range ps S _ _)) as (lo & hi & E & L1 & L2 & C1 & C2). exists lo, hi.
    split; [exact E|]. split; [reflexivity|]. split; [reflexivity|]. apply linear_cov. }
  destruct (one_onto (Decay PH_T_SQ_DECAY_WIDTH) anywhere (ph_t_sq_bound ps S (s_x sp) (s_y sp) (s_z sp)) (s_ph_t_sq sp)) as (p3 & j3 & P3 & A3 & _); [apply wf_binter| |auto|].
  { assert (NZ : sq (S * s_y sp) + 4 * sq (a_M ps) * (S * s_x sp * s_y sp) <> 0).
    { assert (0 < S * s_y sp). { unfold q0_of in Hq. assert (0 < S * s_y sp / (2 * a_M ps) * (2 * a_M ps)) by (apply Rmult_lt_0_compat; lra).
        replace (S * s_y sp / (2 * a_M ps) * (2 * a_M ps)) with (S * s_y sp) in * by (field; lra). auto. }
      unfold sq. assert (0 <= 4 * (a_M ps * a_M ps) * (S * s_x sp * s_y sp)) by (apply Rmult_le_pos; [nra|auto]). nra. }
    assert (B : exists h, forall t, points (ph_t_sq_bound ps S (s_x sp) (s_y sp) (s_z sp)) t -> ext_le (Fin 0) t /\ ext_le t (Fin h)).
    { unfold ph_t_sq_bound. cbv zeta. rewrite ediv_fin by exact NZ. cbn [emul esub eadd eneg].
      match goal with |- context [mk_bound (Fin 0) (Fin ?h)] => exists h end. intros t H. apply binter_points in H. destruct H as [_ H]. rewrite mk_bound_points in H. auto. }
    destruct B as (h & B). destruct (fin_ends _ 0 h _ (wf_binter _ _) T B) as (lo & hi & E & L1 & L2 & C1 & C2). exists lo, hi.
    split; [exact E|]. split; [reflexivity|]. split; [reflexivity|]. apply decay_cov. apply WIDTH_pos. }
  destruct (angle_onto _ Ha) as (p4 & j4 & P4 & A4 & _). destruct (angle_onto _ Hb) as (p5 & j5 & P5 & A5 & _).
  exists (cube6 p0 p1 p2 p3 p4 p5), (j0 * j1 * j2 * j3 * j4 * j5). split.
  - intros i Hi. destruct i as [|[|[|[|[|[|i]]]]]]; [exact P0|exact P1|exact P2|exact P3|exact P4|exact P5|lia].
  - unfold take_kin, take_space, sample6. cbn [cube6]. rewrite A0, A1, A2, A3, A4, A5. destruct sp. reflexivity.
Qed.
