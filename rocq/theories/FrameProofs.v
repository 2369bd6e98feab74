(** Frame changes: rotations and Lorentz transforms, and the vectors they map to each other. *)
From Coq Require Import Reals Lra Psatz Bool ZArith.
From Verif Require Import ExtModel BoundProofs MathModel MathProofs ParticleModel VecModel TransModel VecTac VecProofs TransProofs
  FrameBase KinModel KinEqs KinSpec KinProofs KinRadProofs KinEvent KinFinal FrameModel.
Local Open Scope R_scope.

(** * transform_to has determinant 1: it is a product of two reflections *)
Lemma refl_det c n : det4 (tsub4 TRANSFORM4_ID (tscale4 c (outer4 n n))) = 1 - c * dot4 n n.
Proof. dvars. uvec. ring. Qed.
Lemma refl_mul c1 n1 c2 n2 : tmul4 (tsub4 TRANSFORM4_ID (tscale4 c1 (outer4 n1 n1))) (tsub4 TRANSFORM4_ID (tscale4 c2 (outer4 n2 n2))) =
  tsub4 TRANSFORM4_ID (tsub4 (tadd4 (tscale4 c1 (outer4 n1 n1)) (tscale4 c2 (outer4 n2 n2))) (tscale4 (c1 * c2 * dot4 n1 n2) (outer4 n1 n2))).
Proof. vring. Qed.
Lemma tt_mat_det a b s c : s * s = 1 -> dot4 a a = s -> dot4 b b = s -> dot4 a b = c -> s + c <> 0 -> det4 (tt_mat a b s c) = 1.
Proof.
  intros Hs Ha Hb Hc Hn.
  assert (Hab : dot4 (add4 a b) (add4 a b) = 2 * (s + c)).
  { transitivity (dot4 a a + 2 * dot4 a b + dot4 b b); [vring|]. rewrite Ha, Hb, Hc. ring. }
  assert (Haa : dot4 (add4 a b) a = s + c).
  { transitivity (dot4 a a + dot4 a b); [vring|]. rewrite Ha, Hc. ring. }
  replace (tt_mat a b s c) with (tmul4 (tsub4 TRANSFORM4_ID (tscale4 (/ (s + c)) (outer4 (add4 a b) (add4 a b))))
    (tsub4 TRANSFORM4_ID (tscale4 (2 * s) (outer4 a a)))).
  - rewrite det4_mul, !refl_det, Hab, Ha. transitivity (-1 * (1 - 2 * (s * s))); [field; auto|]. rewrite Hs. ring.
  - rewrite refl_mul, Haa. replace (/ (s + c) * (2 * s) * (s + c)) with (2 * s) by (field; auto).
    unfold tt_mat. replace (tscale4 (2 * s * c) (outer4 b a)) with (tscale4 (2 * s * (s + c) - 2) (outer4 b a)).
    + clear Ha Hb Hc Hab Haa Hs. dvars. uvec. comps; field; auto.
    + f_equal. ring [Hs].
Qed.
Lemma transform_to4_det a b t : transform_to4 a b = Some t -> det4 t = 1.
Proof.
  unfold transform_to4. cbv zeta.
  destruct (_ || _)%bool eqn:G; [discriminate|].
  apply orb_false_iff in G as [G1 G2]. apply negb_false_iff, Z.eqb_eq in G1. apply Z.eqb_neq in G2.
  destruct (reqb _ 0) eqn:N; [discriminate|]. apply reqb_false in N.
  intros H; inversion H; subst t; clear H.
  change (tsub4 TRANSFORM4_ID _) with (tt_mat (unit4 a) (unit4 b) (IZR (sign4 (unit4 b))) (dot4 (unit4 a) (unit4 b))).
  destruct (sign4_cases _ _ G1 G2) as [(A & B & S)|(A & B & S)]; rewrite S in *.
  - apply tt_mat_det; auto; try lra; [destruct (unit4_cases a)|destruct (unit4_cases b)]; lra.
  - apply tt_mat_det; auto; try lra; [destruct (unit4_cases a)|destruct (unit4_cases b)]; lra.
Qed.

(** * The target frame *)
Lemma lorentz_mul a b : lorentz a -> lorentz b -> lorentz (tmul4 a b).
Proof.
  intros [A1 A2] [B1 B2]. split; [intros; rewrite !tmul4_app, A1, B1; auto|]. rewrite det4_mul, A2, B2. ring.
Qed.
Lemma lorentz_lift a : rot3 a -> lorentz (lift4 a).
Proof. intros [A B]. split; [apply lift4_isometry; auto|rewrite lift4_det; auto]. Qed.
Lemma lorentz_transpose a : lorentz a -> lorentz (transpose4 a) /\ tmul4 a (transpose4 a) = TRANSFORM4_ID /\ tmul4 (transpose4 a) a = TRANSFORM4_ID.
Proof.
  intros [A B]. destruct (lorentz_inv a A) as (_ & L1 & L2). repeat split; auto.
  - intros v w. rewrite (transpose4_adj (transpose4 a)). replace (transpose4 (transpose4 a)) with a by (clear; dvars; reflexivity).
    rewrite <- tmul4_app, L1, id4_app. reflexivity.
  - rewrite det4_transpose; auto.
Qed.
Lemma rot3_mul a b : rot3 a -> rot3 b -> rot3 (tmul3 a b).
Proof. intros [A1 A2] [B1 B2]. split; [intros; rewrite !tmul3_app, A1, B1; auto|]. rewrite det3_mul, A2, B2. ring. Qed.
Lemma rot3_transpose a : rot3 a -> rot3 (transpose3 a) /\ tmul3 a (transpose3 a) = TRANSFORM3_ID /\ tmul3 (transpose3 a) a = TRANSFORM3_ID.
Proof.
  intros [A B]. destruct (orth3_inv a A) as (_ & L1 & L2). repeat split; auto.
  - intros v w. rewrite (transpose3_adj (transpose3 a)). replace (transpose3 (transpose3 a)) with a by (clear; dvars; reflexivity).
    rewrite <- tmul3_app, L1. replace (tapp3 TRANSFORM3_ID w) with w by (clear; vring). reflexivity.
  - rewrite det3_transpose; auto.
Qed.
Lemma rot3_of_transpose a : tmul3 (transpose3 a) a = TRANSFORM3_ID -> det3 a = 1 -> rot3 a.
Proof. intros A B. split; auto. apply isometry3_of_transpose; auto. Qed.
Lemma rot3_of_transpose_r a : tmul3 a (transpose3 a) = TRANSFORM3_ID -> det3 a = 1 -> rot3 a.
Proof.
  intros A B. apply rot3_of_transpose; auto.
  destruct (inv3_both a) as [I1 I2]; [lra|].
  replace (transpose3 a) with (inv3 a); auto. rewrite <- (proj1 (id3 (inv3 a))), <- A, <- tmul3_assoc, I2. apply id3.
Qed.

Lemma perp_cross y d : dot3 y d = 0 -> y <> VEC3_ZERO -> d <> VEC3_ZERO -> cross3 y d <> VEC3_ZERO.
Proof.
  intros H Hy Hd Hc. assert (dot3 (cross3 y d) (cross3 y d) = 0) by (rewrite Hc; uvec; ring).
  rewrite lagrange3, H in H0. assert (0 < dot3 y y) by (pose proof (dot3_nonneg y); pose proof (proj1 (dot3_zero y)); destruct (Req_dec (dot3 y y) 0); [tauto|lra]).
  assert (0 < dot3 d d) by (pose proof (dot3_nonneg d); pose proof (proj1 (dot3_zero d)); destruct (Req_dec (dot3 d d) 0); [tauto|lra]).
  nra.
Qed.
Lemma frame_y_axis_ok pol d : d <> VEC3_ZERO -> let y := frame_y_axis pol d in
  dot3 y d = 0 /\ y <> VEC3_ZERO /\ (perp3 pol d <> VEC3_ZERO -> y = perp3 pol d).
Proof.
  intros Hd. unfold frame_y_axis. cbv zeta.
  assert (Z : forall v, reqb (norm_sq3 v) 0 = true -> v = VEC3_ZERO) by (intros v Hv; apply reqb_spec in Hv; apply dot3_zero; auto).
  assert (NZ : forall v, reqb (norm_sq3 v) 0 = false -> v <> VEC3_ZERO).
  { intros v Hv ->. apply reqb_false in Hv. apply Hv. unfold norm_sq3. uvec. ring. }
  destruct (reqb (norm_sq3 (perp3 pol d)) 0) eqn:E1.
  - apply Z in E1. destruct (reqb (norm_sq3 (cross3 VEC3_X d)) 0) eqn:E2.
    + apply Z in E2. destruct (reqb (norm_sq3 (cross3 VEC3_Y d)) 0) eqn:E3.
      * exfalso. apply Z in E3. apply Hd. clear - E2 E3. dv3 d. pose proof (f_equal z3 E3) as A1. pose proof (f_equal y3 E2) as A2. pose proof (f_equal z3 E2) as A3. clear E2 E3. revert A1 A2 A3. uvec. intros. comps; lra.
      * split; [clear; vring|split; [auto|congruence]].
    + rewrite E2. split; [clear; vring|split; [auto|congruence]].
  - rewrite !E1. split; [apply par_perp3|split; auto].
Qed.
Lemma unit3_nonzero v : v <> VEC3_ZERO -> unit3 v <> VEC3_ZERO.
Proof. intros H E. pose proof (unit3_norm v H) as N. rewrite E in N. uvec. lra. Qed.

Lemma par3_mult a v : v <> VEC3_ZERO -> exists s, par3 a v = scale3 s v.
Proof.
  intros H. unfold par3. cbv zeta. destruct (reqb _ 0) eqn:E; [apply reqb_spec, dot3_zero in E; contradiction|]. clear H. apply reqb_false in E. revert E.
  generalize (norm_sq3 v) (dot3 a v). intros n c E. exists (c / n). dv3 v. uvec. comps; field; auto.
Qed.
Lemma par3_unit a v : v <> VEC3_ZERO -> exists s, par3 a (unit3 v) = scale3 s v.
Proof.
  intros H. destruct (par3_mult a (unit3 v) (unit3_nonzero v H)) as [s E]. rewrite E, unit3_scale by auto. exists (s * / norm3 v). generalize (/ norm3 v). intros i. clear. vring.
Qed.

Lemma unit4_T : unit4 VEC4_T = VEC4_T.
Proof.
  destruct (unit4_scale VEC4_T) as [N E]; [uvec; lra|]. rewrite E.
  assert (norm4 VEC4_T = 1). { rewrite norm4_eq. rewrite Rabs_right by (uvec; lra). replace (dot4 VEC4_T VEC4_T) with 1 by (uvec; ring). apply sqrt_1. }
  rewrite H. uvec. comps; field.
Qed.
(** The target frame: target at rest, beam along z, polarization in the half-plane y > 0. *)
Lemma target_from_lab_ok init pol : let p := in_p init in let k1 := in_k1 init in
  0 < norm_sq4 p -> 0 < t4 p -> 0 < sdot p k1 k1 ->
  exists T boost, target_from_lab init pol = Some T /\ lab_from_target init pol = Some (transpose4 T) /\ lorentz T /\
    tapp4 T p = V4 (sqrt (norm_sq4 p)) 0 0 0 /\
    tapp4 T k1 = V4 (dot4 p k1 / sqrt (norm_sq4 p)) 0 0 (sqrt (sdot p k1 k1)) /\
    transform_to4 p VEC4_T = Some boost /\ lorentz boost /\ tapp4 boost p = V4 (sqrt (norm_sq4 p)) 0 0 0 /\
    x4 (tapp4 T (tapp4 (transpose4 boost) (mk4 0 pol))) = 0 /\ 0 <= y4 (tapp4 T (tapp4 (transpose4 boost) (mk4 0 pol))).
Proof.
  intros p k1 Hp Ht Hs.
  destruct (transform_to4_defined p VEC4_T) as [B HB]; [exact Hp|uvec; lra|cbn; lra|].
  destruct (transform_to4_props _ _ _ HB) as [BI BU]. pose proof (transform_to4_det _ _ _ HB) as BD.
  rewrite unit4_T in BU.
  assert (NP : norm4 p = sqrt (norm_sq4 p)) by (rewrite norm4_eq; change (dot4 p p) with (norm_sq4 p); rewrite Rabs_right by lra; reflexivity).
  assert (Bp : tapp4 B p = V4 (sqrt (norm_sq4 p)) 0 0 0).
  { rewrite <- (unit4_dir p) at 1 by (change (dot4 p p) with (norm_sq4 p); lra). rewrite <- T_scale, BU, NP. uvec. comps; ring. }
  set (M := sqrt (norm_sq4 p)) in *. assert (HM : 0 < M) by (apply sqrt_lt_R0; auto).
  set (kb := tapp4 B k1).
  assert (SK : dot3 (r4 kb) (r4 kb) = sdot p k1 k1).
  { rewrite <- (T_sdot B BI p k1 k1), Bp. fold kb. rewrite rest_sdot by auto. clear. dv4 kb. uvec. ring. }
  assert (Kt : t4 kb = dot4 p k1 / M).
  { rewrite <- (BI p k1), Bp. fold kb. rewrite rest_dot. field. lra. }
  assert (Knz : r4 kb <> VEC3_ZERO). { intros E. rewrite E in SK. assert (dot3 VEC3_ZERO VEC3_ZERO = 0) by (uvec; ring). lra. }
  destruct (frame_y_axis_ok pol (unit3 (r4 kb)) (unit3_nonzero _ Knz)) as (Y1 & Y2 & Y3).
  set (y := frame_y_axis pol (unit3 (r4 kb))) in *.
  assert (Yk : dot3 y (r4 kb) = 0). { rewrite <- (unit3_dir (r4 kb)), dot3_scale_r, Y1. ring. }
  destruct (rotate_basis3_props (r4 kb) y (perp_cross _ _ Yk Y2 Knz)) as (RI & RD & RZ & RX & RY).
  set (Rm := rotate_basis3 (r4 kb) y) in *.
  assert (LR : lorentz (lift4 Rm)) by (apply lorentz_lift; split; auto).
  assert (LB : lorentz B) by (split; auto).
  exists (tmul4 (lift4 Rm) B), B.
  assert (E1 : target_from_lab init pol = Some (tmul4 (lift4 Rm) B)).
  { unfold target_from_lab. fold p. rewrite HB. reflexivity. }
  split; [exact E1|]. split; [unfold lab_from_target; rewrite E1; reflexivity|].
  split; [apply lorentz_mul; auto|].
  split; [rewrite tmul4_app, Bp, lift4_props; clear; dt3 Rm; uvec; comps; ring|].
  split.
  { rewrite tmul4_app. fold kb. rewrite lift4_props, RZ, Kt, norm3_eq, SK. reflexivity. }
  split; [auto|]. split; [auto|]. split; [auto|].
  rewrite tmul4_app, <- (tmul4_app B). destruct (lorentz_transpose B LB) as (_ & L1 & _). rewrite L1, id4_app, lift4_props.
  replace (r4 (mk4 0 pol)) with pol by (clear; dv3 pol; reflexivity). cbn [mk4 x4 y4].
  destruct (par_perp3 pol (unit3 (r4 kb))) as (P1 & P2 & P3).
  destruct (reqb (norm_sq3 (perp3 pol (unit3 (r4 kb)))) 0) eqn:EZ.
  - (* no transverse part *)
    apply reqb_spec in EZ. apply dot3_zero in EZ.
    assert (PP : pol = par3 pol (unit3 (r4 kb))). { rewrite <- P1 at 1. rewrite EZ. clear. generalize (par3 pol (unit3 (r4 kb))). intros v. vring. }
    destruct (par3_unit pol (r4 kb) Knz) as [s Es]. rewrite PP, Es, tapp3_scale, RZ. uvec. lra.
  - assert (NZ : perp3 pol (unit3 (r4 kb)) <> VEC3_ZERO). { intros E. rewrite E in EZ. apply reqb_false in EZ. apply EZ. unfold norm_sq3. uvec. ring. }
    rewrite <- (Y3 NZ) in P1. 
    destruct (par3_unit pol (r4 kb) Knz) as [s Es]. rewrite <- P1, Es.
    assert (LIN : tapp3 Rm (add3 (scale3 s (r4 kb)) y) = add3 (scale3 s (tapp3 Rm (r4 kb))) (tapp3 Rm y)).
    { clear. generalize (r4 kb), y. generalize Rm. intros t v w. vring. }
    rewrite LIN, RZ. clear - RX RY. generalize dependent (tapp3 Rm y). intros v Hx Hy. dv3 v. uvec. lra.
Qed.
