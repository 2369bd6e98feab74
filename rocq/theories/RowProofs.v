(** Proofs about the rows of the event tree. *)
From Coq Require Import Reals Lra Psatz ZArith String List Bool.
From Verif Require Import ParamModel ExtModel BoundProofs MathModel MathProofs ParticleModel VecModel TransModel VecTac VecProofs TransProofs
  FrameBase KinModel KinEqs KinSpec KinProofs KinRadProofs KinEvent KinFinal FrameModel FrameSpec FrameProofs FrameRot KinAll KinFin SfModel HadModel FormatModel RowModel RowSpec.
Import ListNotations.
Local Open Scope R_scope.

(** * Rotations *)
Lemma rot_cross A u v : rot3 A -> cross3 (tapp3 A u) (tapp3 A v) = tapp3 A (cross3 u v).
Proof.
  intros HA. destruct (rot3_transpose A HA) as (_ & E & _).
  assert (P : tapp3 (transpose3 A) (cross3 (tapp3 A u) (tapp3 A v)) = scale3 (det3 A) (cross3 u v)) by (clear; dt3 A; dv3 u; dv3 v; uvec; comps; ring).
  rewrite (proj2 HA) in P. transitivity (tapp3 A (tapp3 (transpose3 A) (cross3 (tapp3 A u) (tapp3 A v)))).
  - rewrite <- tmul3_app, E. generalize (cross3 (tapp3 A u) (tapp3 A v)). clear. intros w. dv3 w. uvec. comps; ring.
  - rewrite P. f_equal. generalize (cross3 u v). clear. intros w. dv3 w. uvec. comps; ring.
Qed.
Lemma rot_norm A u : rot3 A -> norm3 (tapp3 A u) = norm3 u.
Proof. intros HA. rewrite !norm3_eq, (proj1 HA). reflexivity. Qed.
Lemma rot_unit A u : rot3 A -> u <> VEC3_ZERO -> unit3 (tapp3 A u) = tapp3 A (unit3 u).
Proof.
  intros HA HU. pose proof (norm3_pos _ HU) as P.
  assert (NZ : tapp3 A u <> VEC3_ZERO). { intros E. pose proof (rot_norm A u HA) as N. rewrite E in N. rewrite <- N in P. rewrite norm3_eq in P. replace (dot3 VEC3_ZERO VEC3_ZERO) with 0 in P by (uvec; ring). rewrite sqrt_0 in P. lra. }
  rewrite !unit3_scale, tapp3_scale, rot_norm by auto. reflexivity.
Qed.
Lemma norm3_V v a : 0 <= a -> dot3 v v = a * a -> norm3 v = a.
Proof. intros Ha E. rewrite norm3_eq, E. apply sqrt_square. auto. Qed.

(** * The target frame of a target at rest *)
Lemma transform_rest M : 0 < M -> transform_to4 (V4 M 0 0 0) VEC4_T = Some TRANSFORM4_ID.
Proof.
  intros HM.
  assert (U : unit4 (V4 M 0 0 0) = VEC4_T).
  { assert (N : norm4 (V4 M 0 0 0) = M). { rewrite norm4_eq. replace (dot4 (V4 M 0 0 0) (V4 M 0 0 0)) with (M * M) by (uvec; ring). rewrite Rabs_right by nra. apply sqrt_square. lra. }
    unfold unit4. rewrite N. cbv zeta. destruct (reqb M 0) eqn:E; [apply reqb_spec in E; lra|]. uvec. unfold VEC4_T. comps; field; lra. }
  unfold transform_to4. rewrite U, unit4_T. cbv zeta.
  assert (SG : sign4 VEC4_T = 1%Z).
  { unfold sign4. replace (norm_sq4 VEC4_T) with 1 by (unfold norm_sq4; uvec; ring). cbv zeta.
    destruct (rltb 0 1) eqn:E1; [|apply rltb_false in E1; lra]. destruct (rltb 1 0) eqn:E2; [apply rltb_spec in E2; lra|]. reflexivity. }
  rewrite SG. cbn [Z.eqb Pos.eqb negb orb]. replace (dot4 VEC4_T VEC4_T) with 1 by (uvec; ring).
  destruct (reqb (1 + 1) 0) eqn:E; [apply reqb_spec in E; lra|]. f_equal. uvec. comps; field; lra.
Qed.
Lemma lift_id A : tmul4 (lift4 A) TRANSFORM4_ID = lift4 A.
Proof. dt3 A. uvec. comps; ring. Qed.
Lemma rest_frame init pol M E kz : 0 < M -> 0 < kz -> in_p init = V4 M 0 0 0 -> in_k1 init = V4 E 0 0 kz ->
  exists A, rot3 A /\ lab_from_target init pol = Some (lift4 (transpose3 A)) /\
    (forall v, z3 (tapp3 A v) = z3 v) /\ tapp3 A pol = V3 0 (sqrt (sq (x3 pol) + sq (y3 pol))) (z3 pol).
Proof.
  intros HM Hk Ep Ek.
  assert (SD : sdot (in_p init) (in_k1 init) (in_k1 init) = kz * kz). { rewrite Ep, Ek. unfold sdot. uvec. field. lra. }
  assert (NP : norm_sq4 (in_p init) = M * M) by (rewrite Ep; unfold norm_sq4; uvec; ring).
  destruct (target_from_lab_ok init pol) as (T & b & T1 & T2 & T3 & T4 & T5 & T6 & _ & _ & T7 & T8); [rewrite NP; nra|rewrite Ep; cbn; lra|rewrite SD; nra|].
  rewrite Ep in T6. rewrite transform_rest in T6 by auto. injection T6 as <-.
  assert (ET : T = lift4 (rotate_basis3 (r4 (in_k1 init)) (frame_y_axis pol (unit3 (r4 (in_k1 init)))))).
  { unfold target_from_lab in T1. rewrite Ep, transform_rest, id4_app in T1 by auto. cbv zeta in T1. rewrite lift_id in T1. congruence. }
  set (A := rotate_basis3 _ _) in ET. exists A.
  assert (Knz : r4 (in_k1 init) <> VEC3_ZERO). { rewrite Ek. intros H. apply (f_equal z3) in H. cbn in H. lra. }
  destruct (frame_y_axis_ok pol (unit3 (r4 (in_k1 init))) (unit3_nonzero _ Knz)) as (Y1 & Y2 & Y3).
  assert (Yk : dot3 (frame_y_axis pol (unit3 (r4 (in_k1 init)))) (r4 (in_k1 init)) = 0). { rewrite <- (unit3_dir (r4 (in_k1 init))) at 2. rewrite dot3_scale_r, Y1. ring. }
  destruct (rotate_basis3_props _ _ (perp_cross _ _ Yk Y2 Knz)) as (RI & RD & RZ & _). fold A in RI, RD, RZ.
  assert (HA : rot3 A) by (split; auto).
  split; [auto|]. split; [rewrite T2, ET, lift4_transpose; reflexivity|].
  assert (NK : norm3 (r4 (in_k1 init)) = kz) by (apply norm3_V; [lra|rewrite Ek; uvec; ring]).
  rewrite NK, Ek in RZ. change (r4 (V4 E 0 0 kz)) with (V3 0 0 kz) in RZ.
  assert (Z : forall v, z3 (tapp3 A v) = z3 v).
  { intros v. pose proof (RI v (V3 0 0 kz)) as H. rewrite RZ in H. replace (dot3 (tapp3 A v) (V3 0 0 kz)) with (z3 (tapp3 A v) * kz) in H by (clear; generalize (tapp3 A v); intros w; dv3 w; uvec; ring).
    replace (dot3 v (V3 0 0 kz)) with (z3 v * kz) in H by (clear; dv3 v; uvec; ring). apply (Rmult_eq_reg_r kz); lra. }
  split; [exact Z|].
  assert (PP : tapp4 T (tapp4 (transpose4 TRANSFORM4_ID) (mk4 0 pol)) = mk4 0 (tapp3 A pol)).
  { rewrite ET. replace (tapp4 (transpose4 TRANSFORM4_ID) (mk4 0 pol)) with (mk4 0 pol) by (clear; dv3 pol; uvec; comps; ring).
    rewrite lift4_props. replace (r4 (mk4 0 pol)) with pol by (clear; dv3 pol; reflexivity). reflexivity. }
  rewrite PP in T7, T8. pose proof (RI pol pol) as NN. pose proof (Z pol) as Zp.
  revert T7 T8 NN Zp. generalize (tapp3 A pol). clear. intros w. dv3 w. dv3 pol. cbn [mk4 x4 y4 x3 y3 z3]. intros -> H. unfold dot3. cbn [x3 y3 z3]. intros NN ->.
  f_equal. symmetry. replace (sq a0 + sq b0) with (b * b) by (unfold sq; lra). apply sqrt_square. auto.
Qed.

(** * The initial state *)
Lemma initial_ok ps E sp : admissible ps (setup_S ps E) sp ->
  exists kz, 0 < kz /\ sq E = sq kz + sq (a_m ps) /\ initial_energy ps E = Some (Initial (a_target ps) (a_beam ps) (V4 (a_M ps) 0 0 0) (V4 E 0 0 kz)) /\ 0 < a_M ps.
Proof.
  intros H. destruct (admissible_event _ _ _ H) as (e & He & _ & ES & EM & Em & _).
  assert (HM : 0 < e_M e) by apply He. assert (Hkx : 0 < e_kx e) by apply He. assert (HE : 0 < e_E e) by apply He. pose proof (ph_k1 _ He) as K1. pose proof (ph_m _ He) as Hm.
  assert (EE : e_E e = E). { unfold event_S, setup_S in ES. rewrite <- EM in ES. unfold v_p, v_k1 in ES. replace (dot4 (V4 (e_M e) 0 0 0) (V4 (e_E e) (e_kx e) 0 (e_kz e))) with (e_M e * e_E e) in ES by (uvec; ring). nra. }
  assert (K2 : e_E e * e_E e = e_kx e * e_kx e + e_kz e * e_kz e + e_m e * e_m e).
  { unfold v_k1, norm_sq4, sq in K1. revert K1. uvec. lra. }
  destruct (proj2 (from_length_and_t_defined (e_m e) (e_E e) VEC3_Z)) as [v Hv].
  { split; [lra|]. rewrite !Rabs_right by lra. nra. }
  assert (ZN : VEC3_Z <> VEC3_ZERO) by (intros X; apply (f_equal z3) in X; cbn in X; lra).
  destruct (from_length_and_t_spec _ _ _ _ ZN Hv) as (F1 & F2 & kz & F3 & F4).
  rewrite unit3_z in F4.
  assert (EV : v = V4 (e_E e) 0 0 kz).
  { clear Hv F2. dv4 v. cbn in F1. subst. unfold r4, scale3, VEC3_Z in F4. cbn in F4. injection F4 as -> -> ->. comps; ring. }
  assert (KK : kz * kz = e_E e * e_E e - e_m e * e_m e). { rewrite EV in F2. revert F2. uvec. lra. }
  exists kz. split; [nra|]. split; [rewrite <- EE, <- Em; unfold sq; lra|]. split; [|rewrite <- EM; auto].
  unfold initial_energy. rewrite <- EM, <- Em, <- EE, Hv, EV. reflexivity.
Qed.
Lemma initial_fits ps E sp init : admissible ps (setup_S ps E) sp -> initial_energy ps E = Some init -> init_fits init ps (setup_S ps E).
Proof.
  intros H HI. destruct (initial_ok _ _ _ H) as (kz & K1 & K2 & K3 & K4). rewrite K3 in HI. injection HI as <-.
  unfold init_fits, setup_S. cbn [in_p in_k1 t4]. unfold norm_sq4, sq in *. uvec. repeat split; nra.
Qed.

(** * Planes *)
Lemma plane_facts A kx kz qz pt pl phi : rot3 A -> 0 < kx -> 0 < qz -> 0 <= pt ->
  let q := tapp3 A (V3 0 0 qz) in let k1 := tapp3 A (V3 kx 0 kz) in let h := tapp3 A (V3 (pt * cos phi) (pt * sin phi) pl) in
  sq pt * norm_sq3 q = norm_sq3 (cross3 q h) /\
  dot3 (cross3 q k1) (cross3 q h) = norm3 (cross3 q k1) * norm3 (cross3 q h) * cos phi /\
  norm3 q * dot3 (cross3 q k1) h = norm3 (cross3 q k1) * norm3 (cross3 q h) * sin phi.
Proof.
  intros HA H1 H2 H3 q k1 h. subst q k1 h. rewrite !rot_cross, !rot_norm, !(proj1 HA) by auto. unfold norm_sq3. rewrite !(proj1 HA).
  pose proof (cs1 phi) as CS.
  rewrite (norm3_V (V3 0 0 qz) qz), (norm3_V (cross3 (V3 0 0 qz) (V3 kx 0 kz)) (qz * kx)), (norm3_V (cross3 (V3 0 0 qz) (V3 (pt * cos phi) (pt * sin phi) pl)) (qz * pt));
    [|nra|uvec; transitivity (qz * qz * (pt * pt) * (cos phi * cos phi + sin phi * sin phi)); [ring|rewrite CS; ring]|nra|uvec; ring|lra|uvec; ring].
  unfold sq. uvec. split; [transitivity (qz * qz * (pt * pt) * (cos phi * cos phi + sin phi * sin phi)); [rewrite CS; ring|ring]|]. split; ring.
Qed.

(** * The lab frame of the generator *)
Section Lab.
Variables (ps : parts) (E : R) (sp : phase_space) (pol : vec3) (init : initial) (e : event).
Hypothesis (HA : admissible ps (setup_S ps E) sp) (HI : initial_energy ps E = Some init) (He : same_event e ps (setup_S ps E) sp).
Notation k := (make_kin ps (setup_S ps E) sp).
Lemma lab_frame : exists A B, rot3 A /\ rot3 B /\ lab_from_target init pol = Some (lift4 (transpose3 B)) /\ A = tmul3 (transpose3 B) (target_from_lepton k) /\
  (forall v, z3 (tapp3 B v) = z3 v) /\ tapp3 B pol = V3 0 (sqrt (sq (x3 pol) + sq (y3 pol))) (z3 pol) /\
  in_p init = V4 (a_M ps) 0 0 0 /\ (exists kz, 0 < kz /\ in_k1 init = V4 E 0 0 kz /\ sq E = sq kz + sq (a_m ps)) /\
  in_k1 init = mk4 (e_E e) (tapp3 A (V3 (e_kx e) 0 (e_kz e))).
Proof.
  destruct (initial_ok _ _ _ HA) as (kz & K1 & K2 & K3 & K4). rewrite K3 in HI. 
  destruct (rest_frame init pol (a_M ps) E kz K4 K1) as (B & B1 & B2 & B3 & B4); [injection HI as <-; reflexivity|injection HI as <-; reflexivity|].
  destruct (final_frame init pol e ps _ sp He (initial_fits _ _ _ _ HA (eq_trans K3 HI))) as (lt & F1 & F2 & F3 & F4 & F5 & _).
  rewrite B2 in F1. injection F1 as <-. rewrite lift4_mul in F3, F4, F5.
  exists (tmul3 (transpose3 B) (target_from_lepton k)), B.
  assert (RA : rot3 (tmul3 (transpose3 B) (target_from_lepton k))).
  { apply rot3_mul; [apply rot3_transpose; auto|]. destruct (lepton_frame _ _ _ HA) as (L1 & _). apply rot3_transpose in L1. apply L1. }
  split; [auto|]. split; [auto|]. split; [auto|]. split; [auto|]. split; [auto|]. split; [auto|].
  split; [injection HI as <-; reflexivity|]. split; [exists kz; injection HI as <-; auto|].
  rewrite <- F5, lift4_props. reflexivity.
Qed.
Lemma four_conv v : four (convert_vec4 v) = v. Proof. destruct v. reflexivity. Qed.
Lemma space_conv v : space (convert_vec4 v) = r4 v. Proof. destruct v. reflexivity. Qed.
Lemma space_lift A t u : space (convert_vec4 (mk4 t (tapp3 A u))) = tapp3 A u. Proof. rewrite space_conv. destruct (tapp3 A u). reflexivity. Qed.
(** What every row satisfies, with the momenta q, k2, ph of Final or FinalRad. *)
Lemma describes_ok q k2 ph mk w ty tau phi_k Rr sfv :
  k2 = sub4 (in_k1 init) q -> norm_sq4 k2 = sq (a_m ps) -> norm_sq4 ph = sq (a_mh ps) ->
  transfer_names (kin_vals k) (in_p init) (in_k1 init) q ph ->
  (exists lt, lab_from_target init pol = Some lt /\ q = tapp4 lt (tapp4 (lift4 (target_from_lepton k)) (v_q e)) /\ ph = tapp4 lt (tapp4 (lift4 (target_from_lepton k)) (v_ph e)) /\
     k2 = tapp4 lt (V4 (kk2_0 k) (kk2_t k * ksin_phi k) (kk2_t k * kcos_phi k) (kk2_l k))) ->
  let r := Row ty w (kx k) (ky k) (kz k) (kph_t_sq k) (kphi_h k) (kphi k) tau phi_k Rr
    (Momenta (convert_vec4 (in_p init)) (convert_vec4 (in_k1 init)) (convert_vec4 q) (convert_vec4 k2) (convert_vec4 ph) mk) sfv in
  describes ps E r /\ azimuth pol r /\
  (0 < s_ph_t_sq sp -> hadron_axes pol r = tapp3 (hadron_from_target k) (V3 0 (sqrt (sq (x3 pol) + sq (y3 pol))) (z3 pol))).
Proof.
  intros K2 N1 N2 TN (lt & LT & Q1 & P1 & K2') r.
  destruct lab_frame as (A & B & RA & RB & LB & EA & BZ & BP & IP & (kzv & KZ & IK & EKZ) & IKA).
  rewrite LB in LT. injection LT as <-.
  assert (Hp : physical e) by apply He. pose proof (same_kin_at _ _ _ _ He) as AT. pose proof (physical_ok e Hp) as OK.
  assert (Q2 : q = mk4 (e_q0 e) (tapp3 A (V3 0 0 (e_qz e)))).
  { rewrite Q1, <- tmul4_app, lift4_mul, <- EA, lift4_props. reflexivity. }
  assert (P2 : ph = mk4 (e_Eh e) (tapp3 A (V3 (e_pt e * cos (e_phi_h e)) (e_pt e * sin (e_phi_h e)) (e_pl e)))).
  { rewrite P1, <- tmul4_app, lift4_mul, <- EA, lift4_props. reflexivity. }
  assert (EPT : kph_t_sq k = sq (e_pt e)). { symmetry. exact (same_pt _ _ _ _ He). }
  assert (EPH : kphi_h k = e_phi_h e). { destruct He as (_ & <- & _). reflexivity. }
  pose proof (plane_facts A (e_kx e) (e_kz e) (e_qz e) (e_pt e) (e_pl e) (e_phi_h e) RA (ph_kx _ Hp) (ph_qz _ Hp) (ph_pt _ Hp)) as (PF1 & PF2 & PF3).
  destruct TN. split; [|split].
  - constructor; unfold r; cbn [o_momenta o_x o_y o_z o_ph_t_sq o_phi_h m_p m_k1 m_q m_k2 m_ph]; rewrite ?four_conv; auto.
    + rewrite IP. reflexivity.
    + exists kzv. rewrite IK. auto.
    + rewrite Q2, P2, EPT, !space_lift. exact PF1.
    + rewrite Q2, P2, IKA, EPH, !space_lift. exact PF2.
    + rewrite Q2, P2, IKA, EPH, !space_lift. exact PF3.
  - (* the azimuth of k2 *)
    unfold azimuth, r. cbn [o_momenta m_k2 o_phi]. rewrite lift4_props in K2'.
    change (kcos_phi k) with (cos (kphi k)) in K2'. change (ksin_phi k) with (sin (kphi k)) in K2'.
    cbn [t4 r4 x4 y4 z4] in K2'.
    assert (KT : 0 <= kk2_t k).
    { rewrite (at_k2_t _ _ _ _ _ _ _ _ _ _ _ _ _ _ _ AT). pose proof (kapp _ _ _ _ _ _ _ _ _ _ _ OK). apply Rmult_le_pos; [apply Rmult_le_pos; apply Rlt_le, Hp|apply Rlt_le, Rinv_0_lt_compat; auto]. }
    rewrite K2'. clear - KT RB BZ BP. generalize (kk2_t k) (kphi k) (kk2_0 k) (kk2_l k) KT. clear KT. intros kt phi k0 kl KT.
    change (r4 (V4 k0 (kt * sin phi) (kt * cos phi) kl)) with (V3 (kt * sin phi) (kt * cos phi) kl).
    set (u := V3 (kt * sin phi) (kt * cos phi) kl). set (v := tapp3 (transpose3 B) u).
    assert (BV : tapp3 B v = u).
    { unfold v. rewrite <- tmul3_app. destruct (rot3_transpose B RB) as (_ & EQ & _). rewrite EQ. clear. generalize u. intros w. dv3 w. uvec. comps; ring. }
    pose proof (proj1 RB pol v) as D1. rewrite BP, BV in D1. pose proof (BZ v) as D2. rewrite BV in D2.
    pose proof (proj1 RB v v) as D3. rewrite BV in D3.
    pose proof (BZ (cross3 pol v)) as D4. rewrite <- rot_cross, BP, BV in D4 by auto.
    clearbody v. unfold u in *. clear BV BP BZ RB u. set (pt := sqrt (sq (x3 pol) + sq (y3 pol))) in *. clearbody pt.
    dv3 v. dv3 pol. unfold convert_vec4. cbn [lv_x lv_y mk4 x4 y4 x3 y3 z3] in *. revert D1 D3 D4. uvec. intros D1 D3 D4. subst c.
    assert (NN : sqrt (sq a + sq b) = kt).
    { replace (sq a + sq b) with (kt * kt); [apply sqrt_square; auto|]. unfold sq. pose proof (cs1 phi) as CS.
      transitivity (kt * kt * (cos phi * cos phi + sin phi * sin phi)); [rewrite CS; ring|lra]. }
    rewrite NN. split; lra.
  - (* the hadron axes *)
    intros Hpt. unfold hadron_axes, r. cbn [o_momenta m_q m_ph]. cbv zeta.
    set (H := tmul3 (transpose3 B) (target_from_hadron k)).
    assert (Ppt : 0 < e_pt e). { pose proof (same_pt _ _ _ _ He) as X. rewrite <- X in Hpt. unfold sq in Hpt. pose proof (ph_pt _ Hp). nra. }
    assert (RH : rot3 H). { apply rot3_mul; [apply rot3_transpose; auto|]. exact (hadron_rot _ _ _ _ _ _ _ _ _ _ _ _ _ _ OK _ AT). }
    assert (Q3 : space (convert_vec4 q) = tapp3 H (V3 0 0 (e_qz e))).
    { rewrite Q2, space_lift. unfold H. rewrite EA, !tmul3_app, (hadron_app _ _ _ _ _ _ _ _ _ _ _ _ _ _ _ AT). f_equal. f_equal. cbn [x3 y3 z3]. comps; ring. }
    assert (P3 : space (convert_vec4 ph) = tapp3 H (V3 (e_pt e) 0 (e_pl e))).
    { rewrite P2, space_lift. unfold H. rewrite EA, !tmul3_app, (hadron_app _ _ _ _ _ _ _ _ _ _ _ _ _ _ _ AT). f_equal. f_equal. cbn [x3 y3 z3]. comps; ring. }
    rewrite Q3, P3. pose proof (ph_qz _ Hp) as Hq.
    assert (UZ : unit3 (V3 0 0 (e_qz e)) = V3 0 0 1).
    { rewrite unit3_scale by (intros X; apply (f_equal z3) in X; cbn in X; lra). rewrite (norm3_V _ (e_qz e)) by (lra || (uvec; ring)). uvec. comps; field; lra. }
    assert (CR : cross3 (V3 0 0 (e_qz e)) (V3 (e_pt e) 0 (e_pl e)) = V3 0 (e_qz e * e_pt e) 0) by (uvec; comps; ring).
    assert (HQP : 0 < e_qz e * e_pt e) by nra.
    assert (UY : unit3 (V3 0 (e_qz e * e_pt e) 0) = V3 0 1 0).
    { rewrite unit3_scale by (intros X; apply (f_equal y3) in X; cbn [y3 VEC3_ZERO] in X; lra). rewrite (norm3_V _ (e_qz e * e_pt e)) by (lra || (uvec; ring)). uvec. comps; field; lra. }
    rewrite rot_cross, CR, !rot_unit, UZ, UY, rot_cross by (auto; intros X; first [apply (f_equal z3) in X; cbn [z3 VEC3_ZERO] in X; lra|apply (f_equal y3) in X; cbn [y3 VEC3_ZERO] in X; lra]).
    replace (cross3 (V3 0 1 0) (V3 0 0 1)) with (V3 1 0 0) by (uvec; comps; ring).
    transitivity (tapp3 (transpose3 H) pol); [clear; dt3 H; dv3 pol; uvec; comps; ring|].
    rewrite <- BP. unfold H, hadron_from_target. rewrite <- tmul3_app. f_equal. clear. generalize (target_from_hadron k). intros t. dt3 t; dt3 B. uvec. comps; ring.
Qed.
End Lab.
(** * Rows *)
Section Rows.
Variables (ps : parts) (E : R) (sp : phase_space) (pol : vec3) (init : initial) (sf : sf_set sf_point) (had : hadron) (w : R).
Hypothesis (HA : admissible ps (setup_S ps E) sp) (HI : initial_energy ps E = Some init).
Notation k := (make_kin ps (setup_S ps E) sp).
Lemma row_nrad : exists r, fill init pol sf had (setup_S ps E) (DNrad w k) = Some r /\ o_type r = 1%Z /\ o_weight r = w /\ row_space r = sp /\
  o_tau r = 0 /\ o_phi_k r = 0 /\ o_R r = 0 /\ m_k (o_momenta r) = LVec 0 0 0 0 /\ describes ps E r /\ azimuth pol r /\
  o_sf r = sf_lp sf (had, o_x r, o_z r, - norm_sq4 (four (m_q (o_momenta r))), o_ph_t_sq r) /\
  (0 < s_ph_t_sq sp -> hadron_axes pol r = tapp3 (hadron_from_target k) (V3 0 (sqrt (sq (x3 pol) + sq (y3 pol))) (z3 pol))).
Proof.
  destruct (admissible_event _ _ _ HA) as [e He]. pose proof (initial_fits _ _ _ _ HA HI) as F.
  destruct (final_ok init pol e ps _ sp He F) as (f & E1 & _ & _ & E2 & E3 & E4 & E5 & _). cbv zeta in E1, E5.
  destruct (final_frame init pol e ps _ sp He F) as (lt & L0 & _ & _ & _ & _ & L4 & L5 & _ & L7).
  unfold fill. rewrite E1. eexists. split; [reflexivity|].
  assert (EX : exists lt, lab_from_target init pol = Some lt /\ fin_q f = tapp4 lt (tapp4 (lift4 (target_from_lepton k)) (v_q e)) /\ fin_ph f = tapp4 lt (tapp4 (lift4 (target_from_lepton k)) (v_ph e)) /\
     fin_k2 f = tapp4 lt (V4 (kk2_0 k) (kk2_t k * ksin_phi k) (kk2_t k * kcos_phi k) (kk2_l k))).
  { exists lt. split; [auto|]. unfold make_final in E1. rewrite L0 in E1. cbv zeta in E1. match type of E1 with Some ?a = _ => assert (EF : f = a) by congruence end. rewrite EF. cbn [fin_q fin_ph fin_k2]. rewrite <- L4, <- L7, !tmul4_app. auto. }
  destruct (describes_ok ps E sp pol init e HA HI He (fin_q f) (fin_k2 f) (fin_ph f) lvec_zero w (ev_idx NRAD + 1) 0 0 0
    (sf_lp sf (had, kx k, kz k, setup_S ps E * kx k * ky k, kph_t_sq k)) E2 E3 E4 E5 EX) as (D1 & D2 & D3).
  split; [reflexivity|]. split; [reflexivity|]. split; [destruct sp; reflexivity|]. split; [reflexivity|]. split; [reflexivity|]. split; [reflexivity|]. split; [reflexivity|].
  split; [exact D1|]. split; [exact D2|]. split; [|exact D3].
  cbn [o_sf o_x o_z o_ph_t_sq o_momenta m_q]. rewrite four_conv, <- (n_Q_sq _ _ _ _ _ E5). reflexivity.
Qed.
Lemma row_rad tau phi_k R : tau_ok ps (setup_S ps E) sp tau -> 0 <= R ->
  exists r, fill init pol sf had (setup_S ps E) (DRad w (make_rad k tau phi_k R)) = Some r /\ o_type r = 2%Z /\ o_weight r = w /\ row_space r = sp /\
  o_tau r = tau /\ o_phi_k r = phi_k /\ o_R r = R /\ describes ps E r /\ azimuth pol r /\ describes_photon r /\
  o_sf r = sf_lp sf (had, o_x r, o_z r, - norm_sq4 (four (m_q (o_momenta r))), o_ph_t_sq r) /\
  (0 < s_ph_t_sq sp -> hadron_axes pol r = tapp3 (hadron_from_target k) (V3 0 (sqrt (sq (x3 pol) + sq (y3 pol))) (z3 pol))).
Proof.
  intros Ht HR. destruct (admissible_event _ _ _ HA) as [e He]. pose proof (initial_fits _ _ _ _ HA HI) as F.
  destruct (admissible_photon e ps _ sp tau phi_k R He Ht HR) as [f Hf].
  destruct (final_rad_ok init pol e f ps _ sp tau phi_k R He Hf F) as (g & n & E1 & _ & _ & E2 & E3 & E4 & E5 & _ & EK1 & EN & E6 & _). cbv zeta in E1, E5, E6.
  destruct (final_frame init pol e ps _ sp He F) as (lt & L0 & _ & _ & _ & _ & L4 & L5 & L6 & L7).
  set (rr := make_rad k tau phi_k R) in *.
  pose proof (same_rad_at _ _ _ _ _ _ _ _ He Hf) as B. fold rr in B.
  assert (PR : project rr = k) by apply make_rad_copies.
  assert (EK : V4 (rk_0 rr) (rk_t rr * rcos_phi_k rr) (rk_t rr * rsin_phi_k rr) (rk_l rr) = v_k e f).
  { rewrite (rat_k_0 _ _ _ _ _ _ _ _ _ _ _ _ _ _ _ _ _ B), (rat_k_t _ _ _ _ _ _ _ _ _ _ _ _ _ _ _ _ _ B), (rat_k_l _ _ _ _ _ _ _ _ _ _ _ _ _ _ _ _ _ B),
      (rat_cos_phi_k _ _ _ _ _ _ _ _ _ _ _ _ _ _ _ _ _ B), (rat_sin_phi_k _ _ _ _ _ _ _ _ _ _ _ _ _ _ _ _ _ B).
    unfold v_k, v_n. uvec. comps; ring. }
  unfold fill. rewrite E1. eexists. split; [reflexivity|].
  assert (EX : exists lt, lab_from_target init pol = Some lt /\ finr_q g = tapp4 lt (tapp4 (lift4 (target_from_lepton k)) (v_q e)) /\ finr_ph g = tapp4 lt (tapp4 (lift4 (target_from_lepton k)) (v_ph e)) /\
     finr_k2 g = tapp4 lt (V4 (kk2_0 k) (kk2_t k * ksin_phi k) (kk2_t k * kcos_phi k) (kk2_l k))).
  { exists lt. split; [auto|]. unfold make_final_rad in E1. rewrite L0 in E1. cbv zeta in E1. rewrite PR in E1. match type of E1 with Some ?a = _ => assert (EF : g = a) by congruence end. rewrite EF. cbn [finr_q finr_ph finr_k2].
    rewrite !tmul4_app in L4, L6. rewrite !tmul4_app. rewrite L4, L6. auto. }
  assert (EKK : finr_k g = tapp4 lt (tapp4 (lift4 (target_from_lepton k)) (v_k e f))).
  { unfold make_final_rad in E1. rewrite L0 in E1. cbv zeta in E1. rewrite PR in E1. match type of E1 with Some ?a = _ => assert (EF : g = a) by congruence end. rewrite EF. cbn [finr_k]. rewrite EK, tmul4_app. reflexivity. }
  destruct (describes_ok ps E sp pol init e HA HI He (finr_q g) (finr_k2 g) (finr_ph g) (convert_vec4 (finr_k g)) w (ev_idx RAD + 1) tau phi_k R
    (sf_lp sf (had, kx k, kz k, setup_S ps E * kx k * ky k, kph_t_sq k)) E2 E3 E4 E5 EX) as (D1 & D2 & D3).
  split; [reflexivity|]. split; [reflexivity|]. split; [destruct sp; reflexivity|]. split; [reflexivity|]. split; [reflexivity|]. split; [reflexivity|].
  split; [exact D1|]. split; [exact D2|]. split; [|split; [|exact D3]].
  - destruct (lab_frame ps E sp pol init e HA HI He) as (A & Bm & RA & RB & LB & EA & _ & _ & IP & _ & IKA).
    rewrite LB in L0. injection L0 as <-.
    assert (Hp : physical e) by apply He. destruct Hf as ((F1 & F2 & F3) & F4 & F5 & F6).
    assert (QQ : finr_q g = mk4 (e_q0 e) (tapp3 A (V3 0 0 (e_qz e)))).
    { destruct EX as (lt' & X1 & X2 & _). rewrite LB in X1. injection X1 as <-. rewrite X2, <- tmul4_app, lift4_mul, <- EA, lift4_props. reflexivity. }
    assert (KK : finr_k g = mk4 (t4 (v_k e f)) (tapp3 A (V3 (f_R f / (2 * e_M e) * f_st f * cos (f_phi f)) (f_R f / (2 * e_M e) * f_st f * sin (f_phi f)) (f_R f / (2 * e_M e) * f_ct f)))).
    { rewrite EKK, <- tmul4_app, lift4_mul, <- EA, lift4_props. f_equal. f_equal. unfold v_k, v_n. uvec. comps; ring. }
    assert (PT : 0 <= f_R f / (2 * e_M e) * f_st f). { apply Rmult_le_pos; auto. pose proof (ph_M _ Hp). apply Rmult_le_pos; [auto|apply Rlt_le, Rinv_0_lt_compat; lra]. }
    pose proof (plane_facts A (e_kx e) (e_kz e) (e_qz e) (f_R f / (2 * e_M e) * f_st f) (f_R f / (2 * e_M e) * f_ct f) (f_phi f) RA (ph_kx _ Hp) (ph_qz _ Hp) PT) as (_ & PF2 & PF3).
    constructor; cbn [o_momenta m_k m_q m_k1 m_p o_R o_tau o_phi_k]; rewrite ?four_conv.
    + apply E6.
    + apply E6.
    + pose proof (n_tau _ _ _ _ _ _ _ E6) as X. change (rtau rr) with tau in X |- *. pose proof (ph_M _ Hp) as HM. assert (EM : e_M e = a_M ps) by apply He. rewrite EN in X.
      rewrite EK1. replace (dot4 (scale4 (R / (2 * a_M ps)) n) (finr_q g)) with (R / (2 * a_M ps) * dot4 n (finr_q g)) by (clear; generalize (finr_q g); intros v; dv4 v; dv4 n; uvec; ring).
      replace (dot4 (scale4 (R / (2 * a_M ps)) n) (in_p init)) with (R / (2 * a_M ps) * dot4 n (in_p init)) by (clear; generalize (in_p init); intros v; dv4 v; dv4 n; uvec; ring).
      rewrite EN, X. field. lra.
    + change (rphi_k rr) with phi_k. rewrite QQ, KK, IKA, <- F5, !space_lift. exact PF2.
    + change (rphi_k rr) with phi_k. rewrite QQ, KK, IKA, <- F5, !space_lift. exact PF3.
  - cbn [o_sf o_x o_z o_ph_t_sq o_momenta m_q]. rewrite four_conv, <- (n_Q_sq _ _ _ _ _ E5). reflexivity.
Qed.
End Rows.
(** * Polarization *)
Lemma pol_iff (H : tr3) pol : rot3 H -> (tapp3 H pol = tapp3 H (V3 0 (sqrt (sq (x3 pol) + sq (y3 pol))) (z3 pol)) <-> x3 pol = 0 /\ 0 <= y3 pol).
Proof.
  intros HH. split.
  - intros EQ. apply (f_equal (tapp3 (transpose3 H))) in EQ. rewrite !inv_app3 in EQ by auto. pose proof (f_equal x3 EQ) as X. pose proof (f_equal y3 EQ) as Y. cbn [x3 y3] in X, Y.
    split; [auto|]. rewrite Y. apply sqrt_pos.
  - intros [X Y]. f_equal. destruct pol as [a b c]. cbn [x3 y3 z3] in *. subst a. f_equal. unfold sq. replace (0 * 0 + b * b) with (b * b) by ring. symmetry. apply sqrt_square. auto.
Qed.
(** * Structure functions *)
Lemma sf_leaves {Pt} (sf : sf_set Pt) p : sf_written sf p (leaves sf_leaflist) (memory (sf_lp sf p)).
Proof.
  split; [reflexivity|]. set (l := leaves sf_leaflist). vm_compute in l.
  intros n. destruct n;
    [exists 0%nat|exists 1%nat|exists 2%nat|exists 3%nat|exists 4%nat|exists 5%nat|exists 6%nat|exists 7%nat|exists 8%nat
    |exists 9%nat|exists 10%nat|exists 11%nat|exists 12%nat|exists 13%nat|exists 14%nat|exists 15%nat|exists 16%nat|exists 17%nat];
    (split; [reflexivity|]; split; [reflexivity|]; intros j t; subst l;
     do 18 (destruct j as [|j]; [cbn; first [reflexivity|discriminate]|]); cbn; destruct j; discriminate).
Qed.
Lemma branches_ok m ra ph s : NoDup (branches m ra ph s) /\
  (forall b, In b ["type"; "weight"; "x"; "y"; "z"; "ph_t_sq"; "phi_h"; "phi"; "tau"; "phi_k"; "R"]%string -> In b (branches m ra ph s)) /\
  (forall b, In b ["p"; "k1"; "q"; "k2"; "ph"]%string -> (In b (branches m ra ph s) <-> m = true)) /\
  (In "k"%string (branches m ra ph s) <-> m = true /\ ra = true /\ ph = true) /\ (In "sf"%string (branches m ra ph s) <-> s = true).
Proof.
  split; [|split; [|split; [|split]]].
  - destruct m, ra, ph, s; cbn; repeat (constructor; [cbn; intuition discriminate|]); constructor.
  - intros b Hb. unfold branches. apply in_or_app. auto.
  - intros b Hb. destruct m, ra, ph, s; cbn in Hb |- *; split; auto; intuition (subst; discriminate || auto 25).
  - destruct m, ra, ph, s; cbn; intuition (discriminate || auto 25).
  - destruct m, ra, ph, s; cbn; intuition (discriminate || auto 25).
Qed.
(** * The sampled distribution *)
From Verif Require Import BoundModel CutModel GenModel.
Section Sampled.
Variables (ps : parts) (E : R) (sp : phase_space) (pol : vec3) (init : initial) (sf : sf_set sf_point) (had : hadron) (w : R).
Hypothesis (HA : admissible ps (setup_S ps E) sp) (HI : initial_energy ps E = Some init) (Hpt : 0 < s_ph_t_sq sp).
Notation k := (make_kin ps (setup_S ps E) sp).
Lemma axes_nrad r : fill init pol sf had (setup_S ps E) (DNrad w k) = Some r ->
  hadron_axes pol r = tapp3 (hadron_from_target k) (V3 0 (sqrt (sq (x3 pol) + sq (y3 pol))) (z3 pol)).
Proof. intros H. destruct (row_nrad ps E sp pol init sf had w HA HI) as (r' & R1 & R2). rewrite H in R1. injection R1 as <-. apply R2. auto. Qed.
Lemma axes_rad tau phi_k R r : tau_ok ps (setup_S ps E) sp tau -> 0 <= R -> fill init pol sf had (setup_S ps E) (DRad w (make_rad k tau phi_k R)) = Some r ->
  hadron_axes pol r = tapp3 (hadron_from_target k) (V3 0 (sqrt (sq (x3 pol) + sq (y3 pol))) (z3 pol)).
Proof. intros Ht HR H. destruct (row_rad ps E sp pol init sf had w HA HI tau phi_k R Ht HR) as (r' & R1 & R2). rewrite H in R1. injection R1 as <-. apply R2. auto. Qed.
Lemma had_rot : rot3 (hadron_from_target k).
Proof. destruct (hadron_frame _ _ _ HA) as (H & _). exact H. Qed.
Lemma sampled_nrad r rc soft xb xi xn cut bp u jac : fill init pol sf had (setup_S ps E) (DNrad w k) = Some r -> x3 pol = 0 -> 0 <= y3 pol ->
  take_cut cut ps (setup_S ps E) u = Some (k, jac) ->
  nrad_eval rc soft xb xi xn cut ps (setup_S ps E) bp pol u =
  weigh jac (match rc with RcNone => xb | RcApprox => xi soft | RcExact => xn soft end k bp (hadron_axes pol r)).
Proof.
  intros H X Y T. unfold nrad_eval. rewrite T, (axes_nrad r H). cbv zeta. rewrite <- (proj2 (pol_iff (hadron_from_target k) pol had_rot) (conj X Y)). reflexivity.
Qed.
Lemma sampled_rad tau phi_k R r xr cut cut_rad bp u jac : tau_ok ps (setup_S ps E) sp tau -> 0 <= R ->
  fill init pol sf had (setup_S ps E) (DRad w (make_rad k tau phi_k R)) = Some r -> x3 pol = 0 -> 0 <= y3 pol ->
  take9_cut cut cut_rad ps (setup_S ps E) u = Some (make_rad k tau phi_k R, jac) ->
  rad_eval xr cut cut_rad ps (setup_S ps E) bp pol u = weigh jac (xr (make_rad k tau phi_k R) bp (hadron_axes pol r)).
Proof.
  intros Ht HR H X Y T. unfold rad_eval. rewrite T, (axes_rad _ _ _ r Ht HR H). cbv zeta. replace (project (make_rad k tau phi_k R)) with k by (symmetry; apply make_rad_copies).
  rewrite <- (proj2 (pol_iff (hadron_from_target k) pol had_rot) (conj X Y)). reflexivity.
Qed.
Lemma sampled_bad r soft xi xn cut bp u jac : fill init pol sf had (setup_S ps E) (DNrad w k) = Some r -> ~ (x3 pol = 0 /\ 0 <= y3 pol) ->
  take_cut cut ps (setup_S ps E) u = Some (k, jac) -> jac <> 0 ->
  exists xb, (forall k' b eta, exists v, xb k' b eta = Fin v /\ 0 <= v) /\
    nrad_eval RcNone soft xb xi xn cut ps (setup_S ps E) bp pol u <> weigh jac (xb k bp (hadron_axes pol r)).
Proof.
  intros H N T J. pose proof (axes_nrad r H) as EQ. set (e0 := hadron_axes pol r) in *.
  assert (P : forall v, 0 <= norm_sq3 v) by (intros v; unfold norm_sq3; clear; dv3 v; uvec; nra).
  exists (fun _ _ eta => Fin (norm_sq3 (sub3 eta e0))). split; [intros; eexists; split; [reflexivity|apply P]|].
  unfold nrad_eval. rewrite T. cbv zeta. set (e1 := tapp3 (hadron_from_target k) pol).
  assert (NE : e1 <> e0) by (intros X; apply N, (proj1 (pol_iff (hadron_from_target k) pol had_rot)); rewrite <- EQ; exact X).
  assert (W : forall v, 0 <= v -> weigh jac (Fin v) = jac * v).
  { intros v Hv. unfold weigh. cbn [eisfinite negb orb]. replace (egeb (Fin v) (Fin 0)) with true; [reflexivity|]. symmetry. cbn. apply rleb_spec. auto. }
  rewrite !W by apply P. intros X. apply Rmult_eq_reg_l in X; [|auto].
  apply NE. clear - X. revert X. generalize e1 e0. clear. intros [a b c] [a' b' c']. unfold norm_sq3. uvec. intros X.
  pose proof (Rle_0_sqr (a - a')) as Q1. pose proof (Rle_0_sqr (b - b')) as Q2. pose proof (Rle_0_sqr (c - c')) as Q3. unfold Rsqr in *.
  assert (Z : forall t, t * t <= 0 -> t = 0) by (intros t; nra).
  assert (a - a' = 0) by (apply Z; lra). assert (b - b' = 0) by (apply Z; lra). assert (c - c' = 0) by (apply Z; lra). f_equal; lra.
Qed.
End Sampled.
