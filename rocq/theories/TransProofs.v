From Coq Require Import Reals Lra Psatz ZArith Bool.
From Verif Require Import ExtModel BoundProofs MathModel MathProofs MapProofs VecModel TransModel VecTac VecProofs.
Local Open Scope R_scope.

(** ** Isometries *)
Lemma isometry3_of_transpose a : tmul3 (transpose3 a) a = TRANSFORM3_ID ->
  forall v w, dot3 (tapp3 a v) (tapp3 a w) = dot3 v w.
Proof.
  intros H v w. rewrite transpose3_adj, <- tmul3_app, H. vring.
Qed.
Lemma isometry4_of_transpose a : tmul4 (transpose4 a) a = TRANSFORM4_ID ->
  forall v w, dot4 (tapp4 a v) (tapp4 a w) = dot4 v w.
Proof. intros H v w. rewrite transpose4_adj, <- tmul4_app, H, id4_app. reflexivity. Qed.

(** Abstract rotation with unit axis [(a,b,c)] and a point [(cs,sn)] of the unit circle. *)
Definition rodrigues (u : vec3) (cs sn : R) : tr3 :=
  tadd3 (tadd3 (tscale3 cs TRANSFORM3_ID) (tscale3 sn (tcross3 u))) (tscale3 (1 - cs) (outer3 u u)).

Lemma rodrigues_app u cs sn v :
  tapp3 (rodrigues u cs sn) v =
  add3 (add3 (scale3 cs v) (scale3 sn (cross3 u v))) (scale3 ((1 - cs) * dot3 u v) u).
Proof. unfold rodrigues. vring. Qed.
Lemma transpose_of_isometry3 a : (forall v w, dot3 (tapp3 a v) (tapp3 a w) = dot3 v w) ->
  tmul3 (transpose3 a) a = TRANSFORM3_ID.
Proof.
  intros H.
  transitivity (T3 (V3 (dot3 (tapp3 a VEC3_X) (tapp3 a VEC3_X)) (dot3 (tapp3 a VEC3_X) (tapp3 a VEC3_Y)) (dot3 (tapp3 a VEC3_X) (tapp3 a VEC3_Z)))
    (V3 (dot3 (tapp3 a VEC3_Y) (tapp3 a VEC3_X)) (dot3 (tapp3 a VEC3_Y) (tapp3 a VEC3_Y)) (dot3 (tapp3 a VEC3_Y) (tapp3 a VEC3_Z)))
    (V3 (dot3 (tapp3 a VEC3_Z) (tapp3 a VEC3_X)) (dot3 (tapp3 a VEC3_Z) (tapp3 a VEC3_Y)) (dot3 (tapp3 a VEC3_Z) (tapp3 a VEC3_Z)))).
  - clear H. vring.
  - rewrite !H. vring.
Qed.
Lemma rodrigues_det u cs sn : let n := dot3 u u in
  det3 (rodrigues u cs sn) = (cs + (1 - cs) * n) * (cs * cs + sn * sn * n).
Proof. cbv zeta. unfold rodrigues. vring. Qed.

Lemma rodrigues_orth u cs sn : dot3 u u = 1 -> cs * cs + sn * sn = 1 ->
  (forall v w, dot3 (tapp3 (rodrigues u cs sn) v) (tapp3 (rodrigues u cs sn) w) = dot3 v w) /\
  det3 (rodrigues u cs sn) = 1 /\ tapp3 (rodrigues u cs sn) u = u.
Proof.
  intros H Hc. split; [|split].
  - intros v w. rewrite !rodrigues_app.
    transitivity (cs * cs * dot3 v w + 2 * cs * (1 - cs) * (dot3 u v * dot3 u w)
       + sn * sn * (dot3 u u * dot3 v w - dot3 u v * dot3 u w)
       + (1 - cs) * (1 - cs) * (dot3 u v * dot3 u w) * dot3 u u); [clear; vring|].
    rewrite H. replace (sn * sn) with (1 - cs * cs) by lra. ring.
  - rewrite rodrigues_det, H. replace (cs * cs + sn * sn * 1) with 1 by lra. ring.
  - rewrite rodrigues_app. rewrite H. clear. vring.
Qed.
Lemma tmul3_expand a b c a' b' c' K O :
  tmul3 (tadd3 (tadd3 (tscale3 a TRANSFORM3_ID) (tscale3 b K)) (tscale3 c O))
        (tadd3 (tadd3 (tscale3 a' TRANSFORM3_ID) (tscale3 b' K)) (tscale3 c' O)) =
  tadd3 (tadd3 (tadd3 (tadd3 (tadd3 (tadd3 (tscale3 (a * a') TRANSFORM3_ID) (tscale3 (a * b' + b * a') K))
    (tscale3 (a * c' + c * a') O)) (tscale3 (b * b') (tmul3 K K))) (tscale3 (b * c') (tmul3 K O)))
    (tscale3 (c * b') (tmul3 O K))) (tscale3 (c * c') (tmul3 O O)).
Proof. vring. Qed.
Lemma rodrigues_comp u c1 s1 c2 s2 : dot3 u u = 1 ->
  tmul3 (rodrigues u c1 s1) (rodrigues u c2 s2) = rodrigues u (c1 * c2 - s1 * s2) (s1 * c2 + c1 * s2).
Proof.
  intros H.
  unfold rodrigues. rewrite tmul3_expand.
  assert (KK : tmul3 (tcross3 u) (tcross3 u) = tsub3 (outer3 u u) (tscale3 (dot3 u u) TRANSFORM3_ID)) by (clear; vring).
  assert (KO : tmul3 (tcross3 u) (outer3 u u) = tscale3 0 TRANSFORM3_ID) by (clear; vring).
  assert (OK : tmul3 (outer3 u u) (tcross3 u) = tscale3 0 TRANSFORM3_ID) by (clear; vring).
  assert (OO : tmul3 (outer3 u u) (outer3 u u) = tscale3 (dot3 u u) (outer3 u u)) by (clear; vring).
  rewrite KK, KO, OK, OO, H. clear. generalize (tcross3 u) (outer3 u u). intros K O. clear u. vring.
Qed.
Lemma rotate3_rodrigues dir angle : rotate3 dir angle = rodrigues (unit3 dir) (cos angle) (sin angle).
Proof. reflexivity. Qed.
Lemma cs1 x : cos x * cos x + sin x * sin x = 1.
Proof. pose proof (sin2_cos2 x) as H. unfold Rsqr in H. lra. Qed.
Lemma tapp3_scale t s v : tapp3 t (scale3 s v) = scale3 s (tapp3 t v).
Proof. vring. Qed.

Lemma rotate3_props dir angle : dir <> VEC3_ZERO ->
  let r := rotate3 dir angle in
  (forall v w, dot3 (tapp3 r v) (tapp3 r w) = dot3 v w) /\ det3 r = 1 /\ tapp3 r dir = dir /\
  transpose3 r = rotate3 dir (- angle) /\
  (forall angle', tmul3 r (rotate3 dir angle') = rotate3 dir (angle + angle')) /\
  trace3 r = 1 + 2 * cos angle.
Proof.
  intros H r. pose proof (unit3_norm dir H) as U.
  destruct (rodrigues_orth (unit3 dir) (cos angle) (sin angle) U (cs1 angle)) as (O1 & D & F).
  split; [exact O1|]. split; [exact D|]. split.
  - transitivity (tapp3 r (scale3 (norm3 dir) (unit3 dir))); [rewrite unit3_dir; reflexivity|].
    rewrite tapp3_scale. unfold r. rewrite rotate3_rodrigues, F. apply unit3_dir.
  - split; [|split].
    + unfold r. rewrite !rotate3_rodrigues, cos_neg, sin_neg.
      generalize (cos angle) (sin angle) (unit3 dir). intros. unfold rodrigues. dvars; uvec; comps; ring.
    + intros angle'. unfold r. rewrite !rotate3_rodrigues, rodrigues_comp by auto.
      rewrite cos_plus, sin_plus. reflexivity.
    + unfold r. rewrite rotate3_rodrigues.
      transitivity (3 * cos angle + (1 - cos angle) * dot3 (unit3 dir) (unit3 dir)); [|rewrite U; ring].
      generalize (cos angle) (sin angle) (unit3 dir). clear. intros. unfold rodrigues. vring.
Qed.

(** The orientation is right-handed: a quarter turn about z takes x to y. *)
Lemma norm3_z : norm3 VEC3_Z = 1.
Proof. rewrite norm3_eq. unfold dot3; cbn. replace (0 * 0 + 0 * 0 + 1 * 1) with 1 by ring. apply sqrt_1. Qed.
Lemma unit3_z : unit3 VEC3_Z = VEC3_Z.
Proof.
  unfold unit3. rewrite norm3_z. replace (reqb 1 0) with false by (symmetry; apply reqb_false; lra).
  uvec. comps; field.
Qed.
Lemma rotate3_z angle : tapp3 (rotate3 VEC3_Z angle) VEC3_X = V3 (cos angle) (sin angle) 0.
Proof. unfold rotate3. rewrite unit3_z. uvec. comps; ring. Qed.

(** A zero axis does not give a rotation. *)
Lemma rotate3_zero_axis : exists angle, det3 (rotate3 VEC3_ZERO angle) = 0.
Proof.
  exists (PI / 2). unfold rotate3. rewrite unit3_zero, cos_PI2, sin_PI2. uvec. ring.
Qed.

(** ** rotate_basis *)
Lemma lagrange3 a b : dot3 (cross3 a b) (cross3 a b) = dot3 a a * dot3 b b - dot3 a b * dot3 a b.
Proof. vring. Qed.
Lemma cross3_scale_r s a b : cross3 a (scale3 s b) = scale3 s (cross3 a b).
Proof. vring. Qed.
Lemma cross3_scale_l s a b : cross3 (scale3 s a) b = scale3 s (cross3 a b).
Proof. vring. Qed.
Lemma unit3_id v : dot3 v v = 1 -> unit3 v = v.
Proof.
  intros H. assert (N : norm3 v = 1) by (rewrite norm3_eq, H; apply sqrt_1).
  unfold unit3. rewrite N. replace (reqb 1 0) with false by (symmetry; apply reqb_false; lra).
  dv3 v; uvec; comps; field.
Qed.
Lemma cross3_zero_l b : cross3 VEC3_ZERO b = VEC3_ZERO.
Proof. vring. Qed.
Lemma cross3_zero_r b : cross3 b VEC3_ZERO = VEC3_ZERO.
Proof. vring. Qed.

Lemma rotate_basis3_props z_axis y_up : cross3 y_up z_axis <> VEC3_ZERO ->
  let r := rotate_basis3 z_axis y_up in
  (forall v w, dot3 (tapp3 r v) (tapp3 r w) = dot3 v w) /\ det3 r = 1 /\
  tapp3 r z_axis = V3 0 0 (norm3 z_axis) /\
  x3 (tapp3 r y_up) = 0 /\ 0 < y3 (tapp3 r y_up).
Proof.
  intros H r.
  assert (Hz : z_axis <> VEC3_ZERO) by (intros ->; apply H, cross3_zero_r).
  pose proof (unit3_norm z_axis Hz) as Z1. pose proof (unit3_norm _ H) as X1.
  pose proof (norm3_pos _ Hz) as Pz. pose proof (norm3_pos _ H) as Px.
  set (z := unit3 z_axis) in *. set (x := unit3 (cross3 y_up z_axis)) in *.
  assert (XZ : dot3 x z = 0).
  { unfold x, z. rewrite !unit3_scale, dot3_scale, dot3_scale_r by auto.
    replace (dot3 (cross3 y_up z_axis) z_axis) with 0; [ring|vring]. }
  assert (XY : dot3 x y_up = 0).
  { unfold x. rewrite unit3_scale, dot3_scale by auto.
    replace (dot3 (cross3 y_up z_axis) y_up) with 0; [ring|vring]. }
  assert (Y1 : dot3 (cross3 z x) (cross3 z x) = 1).
  { rewrite lagrange3, Z1, X1, (dot3_comm z x), XZ. ring. }
  assert (EY : unit3 (cross3 z x) = cross3 z x) by (apply unit3_id; auto).
  assert (ER : r = T3 x (cross3 z x) z) by (unfold r, rotate_basis3; fold x z; rewrite EY; reflexivity).
  assert (DET : det3 r = 1).
  { rewrite ER. transitivity (dot3 x x * dot3 z z - dot3 x z * dot3 x z).
    - clear. dvars; uvec; ring.
    - rewrite X1, Z1, XZ. ring. }
  assert (OT : tmul3 r (transpose3 r) = TRANSFORM3_ID).
  { rewrite ER. 
    transitivity (T3 (V3 (dot3 x x) (dot3 x (cross3 z x)) (dot3 x z))
      (V3 (dot3 x (cross3 z x)) (dot3 (cross3 z x) (cross3 z x)) (dot3 (cross3 z x) z))
      (V3 (dot3 x z) (dot3 (cross3 z x) z) (dot3 z z))).
    - clear. dvars; uvec; comps; ring.
    - rewrite X1, Z1, XZ, Y1.
      replace (dot3 x (cross3 z x)) with 0 by (clear; vring).
      replace (dot3 (cross3 z x) z) with 0 by (clear; vring). reflexivity. }
  assert (INV : transpose3 r = inv3 r).
  { destruct (inv3_both r) as [I1 I2]; [rewrite DET; lra|].
    rewrite <- (proj2 (id3 (transpose3 r))), <- I2, tmul3_assoc, OT. apply id3. }
  assert (OT' : tmul3 (transpose3 r) r = TRANSFORM3_ID).
  { rewrite INV. apply inv3_both. rewrite DET; lra. }
  split; [apply isometry3_of_transpose; auto|]. split; [auto|].
  assert (ZA : z_axis = scale3 (norm3 z_axis) z) by (symmetry; apply unit3_dir).
  split; [|split].
  - rewrite ZA at 1. rewrite tapp3_scale, ER.
    transitivity (scale3 (norm3 z_axis) (V3 (dot3 x z) (dot3 (cross3 z x) z) (dot3 z z))); [reflexivity|].
    rewrite XZ, Z1. replace (dot3 (cross3 z x) z) with 0 by (clear; vring).
    uvec. comps; ring.
  - rewrite ER. exact XY.
  - rewrite ER. cbn [y3 tapp3 ry].
    replace (dot3 (cross3 z x) y_up) with (dot3 x (cross3 y_up z)) by (clear; vring).
    assert (E2 : cross3 y_up z = scale3 (norm3 (cross3 y_up z_axis) / norm3 z_axis) x).
    { unfold z, x. rewrite (unit3_scale z_axis), (unit3_scale (cross3 y_up z_axis)) by auto.
      rewrite cross3_scale_r. remember (cross3 y_up z_axis) as k eqn:Ek. clear - Px Pz.
      generalize dependent (norm3 k). generalize dependent (norm3 z_axis). intros nz Hnz nk Hnk.
      dv3 k; uvec; comps; field; lra. }
    rewrite E2, dot3_scale_r, X1. rewrite Rmult_1_r. apply Rdiv_lt_0_compat; auto.
Qed.

(** ** rotate_to *)
Lemma rotate_to3_rodrigues a b : rotate_to3 a b =
  rodrigues (unit3 (cross3 (unit3 a) (unit3 b))) (dot3 (unit3 a) (unit3 b)) (norm3 (cross3 (unit3 a) (unit3 b))).
Proof. reflexivity. Qed.

Lemma rotate_to3_unit a b : dot3 a a = 1 -> dot3 b b = 1 -> dot3 a b <> -1 ->
  let r := rodrigues (unit3 (cross3 a b)) (dot3 a b) (norm3 (cross3 a b)) in
  (forall v w, dot3 (tapp3 r v) (tapp3 r w) = dot3 v w) /\ det3 r = 1 /\ tapp3 r a = b.
Proof.
  intros Ha Hb Hc r.
  assert (S2 : norm3 (cross3 a b) * norm3 (cross3 a b) = 1 - dot3 a b * dot3 a b).
  { rewrite norm3_sq, lagrange3, Ha, Hb. ring. }
  destruct (Req_dec (norm3 (cross3 a b)) 0) as [E|E].
  - (* parallel *)
    assert (Z : cross3 a b = VEC3_ZERO) by (apply norm3_zero; auto).
    assert (C1 : dot3 a b = 1).
    { rewrite E in S2. assert ((dot3 a b - 1) * (dot3 a b + 1) = 0) by lra.
      apply Rmult_integral in H as [H|H]; lra. }
    assert (AB : b = a).
    { assert (D : dot3 (sub3 b a) (sub3 b a) = 0).
      { transitivity (dot3 b b - 2 * dot3 a b + dot3 a a); [clear; vring|rewrite Ha, Hb, C1; ring]. }
      apply dot3_zero in D. destruct a as [a1 a2 a3], b as [b1 b2 b3]. unfold sub3 in D; cbn in D.
      inversion D. f_equal; lra. }
    assert (ER : r = TRANSFORM3_ID).
    { unfold r. rewrite Z, C1, unit3_zero. replace (norm3 VEC3_ZERO) with 0 by (symmetry; apply norm3_zero; reflexivity).
      unfold rodrigues. uvec. comps; ring. }
    rewrite ER. split; [intros; vring|]. split; [vring|]. rewrite AB. vring.
  - assert (N : cross3 a b <> VEC3_ZERO) by (intros H; apply norm3_zero in H; contradiction).
    set (n := unit3 (cross3 a b)) in *. pose proof (unit3_norm _ N) as N1. fold n in N1.
    set (s := norm3 (cross3 a b)) in *.
    destruct (rodrigues_orth n (dot3 a b) s N1) as (O1 & D & F); [lra|].
    split; [exact O1|]. split; [exact D|].
    (* r a = c a + s n x a + (1-c) n (n.a), n = (a x b)/s *)
    assert (EX : cross3 a b = scale3 s n) by (symmetry; apply unit3_dir).
    assert (NA : dot3 n a = 0).
    { unfold n. rewrite unit3_scale, dot3_scale by auto. replace (dot3 (cross3 a b) a) with 0; [ring|vring]. }
    transitivity (add3 (add3 (scale3 (dot3 a b) a) (cross3 (scale3 s n) a)) (scale3 ((1 - dot3 a b) * dot3 n a) n)).
    + unfold r, rodrigues. generalize (dot3 a b). clearbody n s. clear. intros c. dvars; uvec; comps; ring.
    + rewrite NA, <- EX. 
      transitivity (scale3 (dot3 a a) b); [|rewrite Ha; clear; vring].
      clear. dvars; uvec; comps; ring.
Qed.
Lemma rotate_to3_props a b : a <> VEC3_ZERO -> b <> VEC3_ZERO -> dot3 (unit3 a) (unit3 b) <> -1 ->
  let r := rotate_to3 a b in
  (forall v w, dot3 (tapp3 r v) (tapp3 r w) = dot3 v w) /\ det3 r = 1 /\ tapp3 r (unit3 a) = unit3 b.
Proof. intros Ha Hb Hc r. apply rotate_to3_unit; auto using unit3_norm. Qed.
(** Opposite directions: minus the identity, an improper transform. *)
Lemma rotate_to3_opposite a : a <> VEC3_ZERO ->
  det3 (rotate_to3 a (neg3 a)) = -1.
Proof.
  intros H.
  assert (Hn : neg3 a <> VEC3_ZERO).
  { intros E. apply H. destruct a as [p q s]. unfold neg3 in E; cbn in E. inversion E. unfold VEC3_ZERO. f_equal; lra. }
  assert (NN : norm3 (neg3 a) = norm3 a) by (rewrite !norm3_eq; f_equal; vring).
  assert (U : unit3 (neg3 a) = neg3 (unit3 a)).
  { rewrite !unit3_scale, NN by auto. generalize (norm3 a). intros. vring. }
  rewrite rotate_to3_rodrigues, U.
  pose proof (unit3_norm a H) as U1. set (u := unit3 a) in *.
  replace (cross3 u (neg3 u)) with VEC3_ZERO by (clear; vring).
  replace (dot3 u (neg3 u)) with (-1) by (replace (dot3 u (neg3 u)) with (- dot3 u u) by (clear; vring); lra).
  rewrite unit3_zero. replace (norm3 VEC3_ZERO) with 0 by (symmetry; apply norm3_zero; reflexivity).
  unfold rodrigues. uvec. ring.
Qed.

(** ** scale and project *)
Lemma project3_props d p : project3 d = Some p ->
  (forall v, tapp3 p v = par3 v d) /\ tmul3 p p = p.
Proof.
  unfold project3. destruct (reqb _ _) eqn:E; [discriminate|]. intros H; inversion H; subst; clear H.
  split.
  - intros v. unfold par3. rewrite E. apply reqb_false in E. dvars; uvec; comps; field; auto.
  - apply reqb_false in E. dvars; uvec; comps; field; auto.
Qed.
Lemma project4_props d p : project4 d = Some p ->
  (forall v, tapp4 p v = par4 v d) /\ tmul4 p p = p.
Proof.
  unfold project4. destruct (reqb _ _) eqn:E; [discriminate|]. intros H; inversion H; subst; clear H.
  split.
  - intros v. unfold par4. rewrite E. apply reqb_false in E. dvars; uvec; comps; field; auto.
  - apply reqb_false in E. dvars; uvec; comps; field; auto.
Qed.
Lemma tr_scale3_props d s : d <> VEC3_ZERO ->
  tapp3 (tr_scale3 d s) d = scale3 s d /\ (forall v, dot3 v d = 0 -> tapp3 (tr_scale3 d s) v = v) /\
  det3 (tr_scale3 d s) = s.
Proof.
  intros H. pose proof (unit3_norm d H) as U. pose proof (unit3_dir d) as D. unfold tr_scale3.
  set (u := unit3 d) in *. set (n := norm3 d) in *.
  assert (A : forall v, tapp3 (tadd3 TRANSFORM3_ID (tscale3 (s - 1) (outer3 u u))) v
              = add3 v (scale3 ((s - 1) * dot3 u v) u)) by (intros; clear; vring).
  split; [|split].
  - rewrite A. rewrite <- D. rewrite dot3_scale_r, U. clear. vring.
  - intros v Hv. rewrite A. rewrite <- D, dot3_scale_r, dot3_comm in Hv.
    assert (n <> 0) by (unfold n; intros E; apply norm3_zero in E; contradiction).
    apply Rmult_integral in Hv as [Hv|Hv]; [contradiction|]. rewrite Hv. clear. vring.
  - transitivity (1 + (s - 1) * dot3 u u); [clear; vring|rewrite U; ring].
Qed.

(** ** Lorentz transforms *)
Lemma lift4_props a v : tapp4 (lift4 a) v = mk4 (t4 v) (tapp3 a (r4 v)).
Proof. vring. Qed.
Lemma lift4_mul a b : tmul4 (lift4 a) (lift4 b) = lift4 (tmul3 a b).
Proof. vring. Qed.
Lemma lift4_transpose a : transpose4 (lift4 a) = lift4 (transpose3 a).
Proof. vring. Qed.
Lemma lift4_det a : det4 (lift4 a) = det3 a.
Proof. vring. Qed.
Lemma lift4_isometry a : (forall v w, dot3 (tapp3 a v) (tapp3 a w) = dot3 v w) ->
  forall v w, dot4 (tapp4 (lift4 a) v) (tapp4 (lift4 a) w) = dot4 v w.
Proof.
  intros H v w. rewrite !lift4_props.
  transitivity (t4 v * t4 w - dot3 (tapp3 a (r4 v)) (tapp3 a (r4 w))); [unfold dot4, mk4, dot3; cbn; ring|].
  rewrite H. dvars; uvec; ring.
Qed.

Definition boost_mat (d : vec3) (ch sh : R) : tr4 :=
  let d4 := mk4 0 d in
  tadd4 (tadd4 TRANSFORM4_ID (tscale4 sh (tsub4 (outer4 d4 VEC4_T) (outer4 VEC4_T d4))))
        (tscale4 (1 - ch) (tsub4 (outer4 d4 d4) (outer4 VEC4_T VEC4_T))).
Lemma boost_mat_app d ch sh v : let d4 := mk4 0 d in
  tapp4 (boost_mat d ch sh) v =
  add4 v (add4 (scale4 (sh * dot4 VEC4_T v + (1 - ch) * dot4 d4 v) d4)
               (scale4 (- (sh * dot4 d4 v) - (1 - ch) * dot4 VEC4_T v) VEC4_T)).
Proof. cbv zeta. unfold boost_mat. vring. Qed.
Lemma boost_mat_det d ch sh : let n := dot3 d d in
  det4 (boost_mat d ch sh) = ch * (1 - (1 - ch) * n) - sh * sh * n.
Proof. cbv zeta. unfold boost_mat. vring. Qed.
Lemma boost_mat_props d ch sh : dot3 d d = 1 -> ch * ch = 1 + sh * sh ->
  (forall v w, dot4 (tapp4 (boost_mat d ch sh) v) (tapp4 (boost_mat d ch sh) w) = dot4 v w) /\
  det4 (boost_mat d ch sh) = 1 /\ tapp4 (boost_mat d ch sh) VEC4_T = mk4 ch (scale3 sh d).
Proof.
  intros H Hc. split; [|split].
  - intros v w. rewrite !boost_mat_app. cbv zeta. set (e := mk4 0 d).
    assert (EE : dot4 e e = -1) by (transitivity (- dot3 d d); [unfold e; clear; vring|lra]).
    assert (ET : dot4 e VEC4_T = 0) by (unfold e; clear; vring).
    assert (TT : dot4 VEC4_T VEC4_T = 1) by (clear; vring).
    assert (BIL : forall A B A' B' e T,
      dot4 (add4 v (add4 (scale4 A e) (scale4 B T))) (add4 w (add4 (scale4 A' e) (scale4 B' T))) =
      dot4 v w + (A' * dot4 e v + B' * dot4 T v) + (A * dot4 e w + B * dot4 T w)
      + (A * A' * dot4 e e + (A * B' + B * A') * dot4 e T + B * B' * dot4 T T)).
    { clear. intros. vring. }
    rewrite BIL, EE, ET, TT. clear BIL.
    generalize (dot4 e v) (dot4 VEC4_T v) (dot4 e w) (dot4 VEC4_T w) (dot4 v w). intros ev tv ew tw vw.
    assert (S2 : sh * sh = ch * ch - 1) by lra.
    match goal with |- ?l = _ => replace l with (vw + (sh * sh - (ch * ch - 1)) * (ev * ew - tv * tw)) by ring end.
    rewrite S2. ring.
  - rewrite boost_mat_det, H. lra.
  - clear. unfold boost_mat. vring.
Qed.
Lemma tmul4_expand a b a' b' K O :
  tmul4 (tadd4 (tadd4 TRANSFORM4_ID (tscale4 a K)) (tscale4 b O))
        (tadd4 (tadd4 TRANSFORM4_ID (tscale4 a' K)) (tscale4 b' O)) =
  tadd4 (tadd4 (tadd4 (tadd4 (tadd4 (tadd4 TRANSFORM4_ID (tscale4 (a + a') K)) (tscale4 (b + b') O))
    (tscale4 (a * a') (tmul4 K K))) (tscale4 (a * b') (tmul4 K O))) (tscale4 (b * a') (tmul4 O K)))
    (tscale4 (b * b') (tmul4 O O)).
Proof. vring. Qed.
Lemma outer_prod a b c d e f g h :
  tmul4 (tsub4 (outer4 a b) (outer4 c d)) (tsub4 (outer4 e f) (outer4 g h)) =
  tadd4 (tsub4 (tscale4 (dot4 b e) (outer4 a f)) (tscale4 (dot4 b g) (outer4 a h)))
        (tsub4 (tscale4 (dot4 d g) (outer4 c h)) (tscale4 (dot4 d e) (outer4 c f))).
Proof. vring. Qed.
Lemma boost_mat_comp d c1 s1 c2 s2 : dot3 d d = 1 ->
  tmul4 (boost_mat d c1 s1) (boost_mat d c2 s2) = boost_mat d (c1 * c2 + s1 * s2) (s1 * c2 + c1 * s2).
Proof.
  intros H.
  unfold boost_mat. cbv zeta. set (e := mk4 0 d).
  assert (EE : dot4 e e = -1) by (transitivity (- dot3 d d); [unfold e; clear; vring|lra]).
  assert (ET : dot4 e VEC4_T = 0) by (unfold e; clear; vring).
  assert (TE : dot4 VEC4_T e = 0) by (unfold e; clear; vring).
  assert (TT : dot4 VEC4_T VEC4_T = 1) by (clear; vring).
  set (P := tsub4 (outer4 e VEC4_T) (outer4 VEC4_T e)). set (Q := tsub4 (outer4 e e) (outer4 VEC4_T VEC4_T)).
  rewrite tmul4_expand.
  assert (PP : tmul4 P P = tscale4 (-1) Q).
  { unfold P, Q. rewrite outer_prod. rewrite EE, ET, TE, TT. clear. generalize VEC4_T. intros T. vring. }
  assert (PQ : tmul4 P Q = tscale4 (-1) P).
  { unfold P, Q. rewrite outer_prod. rewrite EE, ET, TE, TT. clear. generalize VEC4_T. intros T. vring. }
  assert (QP : tmul4 Q P = tscale4 (-1) P).
  { unfold P, Q. rewrite outer_prod. rewrite EE, ET, TE, TT. clear. generalize VEC4_T. intros T. vring. }
  assert (QQ : tmul4 Q Q = tscale4 (-1) Q).
  { unfold P, Q. rewrite outer_prod. rewrite EE, ET, TE, TT. clear. generalize VEC4_T. intros T. vring. }
  rewrite PP, PQ, QP, QQ. clear. generalize P Q. intros P' Q'. clear. vring.
Qed.
Lemma boost4_mat d r : boost4 d r = boost_mat (unit3 d) (cosh r) (sinh r).
Proof. reflexivity. Qed.
Lemma boost4_props dir rap : dir <> VEC3_ZERO ->
  let b := boost4 dir rap in
  (forall v w, dot4 (tapp4 b v) (tapp4 b w) = dot4 v w) /\ det4 b = 1 /\
  tapp4 b VEC4_T = mk4 (cosh rap) (scale3 (sinh rap) (unit3 dir)) /\
  (forall rap', tmul4 b (boost4 dir rap') = boost4 dir (rap + rap')).
Proof.
  intros H b. pose proof (unit3_norm dir H) as U.
  destruct (boost_mat_props (unit3 dir) (cosh rap) (sinh rap) U (cosh_sq rap)) as (O & D & A).
  split; [exact O|]. split; [exact D|]. split; [exact A|].
  intros rap'. unfold b. rewrite !boost4_mat, boost_mat_comp, cosh_plus, sinh_plus by auto. reflexivity.
Qed.
(** A boost along the zero vector is not even the identity. *)
Lemma boost4_zero_dir : exists rap, dot4 (tapp4 (boost4 VEC3_ZERO rap) VEC4_T) (tapp4 (boost4 VEC3_ZERO rap) VEC4_T) <> dot4 VEC4_T VEC4_T.
Proof.
  exists 1. rewrite boost4_mat, unit3_zero.
  assert (C : 1 < cosh 1).
  { pose proof (cosh_sq 1). pose proof (cosh_pos 1).
    assert (S : 0 < sinh 1). { rewrite <- sinh_0. apply sinh_lt. lra. }
    nra. }
  unfold boost_mat. uvec. nra.
Qed.

Lemma sign4_cases a b : sign4 a = sign4 b -> sign4 b <> 0%Z ->
  (0 < dot4 a a /\ 0 < dot4 b b /\ sign4 b = 1%Z) \/ (dot4 a a < 0 /\ dot4 b b < 0 /\ sign4 b = (-1)%Z).
Proof.
  destruct (sign4_spec a) as (A1 & A2 & A3). destruct (sign4_spec b) as (B1 & B2 & B3).
  intros E N. destruct (Rtotal_order 0 (dot4 b b)) as [P|[Z|P]].
  - destruct (Rtotal_order 0 (dot4 a a)) as [P'|[Z'|P']].
    + left. auto.
    + rewrite A3, B1 in E by auto. discriminate.
    + rewrite A2, B1 in E by lra. discriminate.
  - rewrite B3 in N by auto. contradiction.
  - destruct (Rtotal_order 0 (dot4 a a)) as [P'|[Z'|P']].
    + rewrite A1, B2 in E by lra. discriminate.
    + rewrite A3, B2 in E by auto. discriminate.
    + right. auto.
Qed.

Lemma unit4_cases u :
  (0 < dot4 u u /\ dot4 (unit4 u) (unit4 u) = 1) \/ (dot4 u u < 0 /\ dot4 (unit4 u) (unit4 u) = -1) \/
  (dot4 u u = 0 /\ dot4 (unit4 u) (unit4 u) = 0).
Proof.
  destruct (Rtotal_order 0 (dot4 u u)) as [P|[Z|P]].
  - left. auto using unit4_norm_pos.
  - right; right. split; auto. assert (norm4 u = 0) by (rewrite norm4_eq, <- Z, Rabs_R0; apply sqrt_0).
    unfold unit4. replace (reqb (norm4 u) 0) with true by (symmetry; apply reqb_spec; auto). uvec. ring.
  - right; left. auto using unit4_norm_neg.
Qed.

Definition tt_mat (a b : vec4) (s c : R) : tr4 :=
  tsub4 TRANSFORM4_ID (tdiv4 (tsub4 (tadd4 (tadd4 (outer4 a a) (outer4 b b)) (tsub4 (outer4 a b) (outer4 b a)))
    (tscale4 (2 * s * c) (outer4 b a))) (s + c)).
Lemma tt_mat_app a b s c v : s + c <> 0 ->
  tapp4 (tt_mat a b s c) v =
  sub4 v (scale4 (/ (s + c)) (add4 (scale4 (dot4 a v + dot4 b v) a)
     (scale4 (dot4 b v - dot4 a v - 2 * s * c * dot4 a v) b))).
Proof. intros H. unfold tt_mat. dvars; uvec; comps; field; auto. Qed.
Lemma tt_mat_props a b s c : s * s = 1 -> dot4 a a = s -> dot4 b b = s -> dot4 a b = c -> s + c <> 0 ->
  (forall v w, dot4 (tapp4 (tt_mat a b s c) v) (tapp4 (tt_mat a b s c) w) = dot4 v w) /\
  tapp4 (tt_mat a b s c) a = b.
Proof.
  intros Hs Ha Hb Hc Hn.
  split.
  - intros v w. rewrite !tt_mat_app by auto. set (k := / (s + c)).
    assert (BIL : forall v w A B A' B',
      dot4 (sub4 v (scale4 k (add4 (scale4 A a) (scale4 B b)))) (sub4 w (scale4 k (add4 (scale4 A' a) (scale4 B' b)))) =
      dot4 v w - k * (A' * dot4 a v + B' * dot4 b v) - k * (A * dot4 a w + B * dot4 b w)
      + k * k * (A * A' * dot4 a a + (A * B' + B * A') * dot4 a b + B * B' * dot4 b b)).
    { clear. intros. vring. }
    rewrite BIL, Ha, Hb, Hc. clear BIL.
    generalize (dot4 a v) (dot4 b v) (dot4 a w) (dot4 b w) (dot4 v w). intros av bv aw bw vw.
    clear Ha Hb Hc. unfold k. field_simplify_eq; auto.
    assert (Hs2 : s ^ 2 = 1) by (simpl; lra).
    assert (Hs3 : s ^ 3 = s) by (replace (s ^ 3) with (s * s * s) by ring; rewrite Hs; ring).
    ring [Hs Hs2 Hs3].
  - rewrite tt_mat_app by auto. rewrite Ha, (dot4_comm b a), Hc.
    transitivity (sub4 a (scale4 (/ (s + c)) (add4 (scale4 (s + c) a) (scale4 (- (s + c)) b)))).
    + repeat f_equal. ring [Hs].
    + clear Ha Hb Hc Hs. dvars; uvec; comps; field; auto.
Qed.
Lemma transform_to4_props a b t : transform_to4 a b = Some t ->
  (forall v w, dot4 (tapp4 t v) (tapp4 t w) = dot4 v w) /\ tapp4 t (unit4 a) = unit4 b.
Proof.
  unfold transform_to4. cbv zeta.
  destruct (_ || _)%bool eqn:G; [discriminate|].
  apply orb_false_iff in G as [G1 G2]. apply negb_false_iff, Z.eqb_eq in G1. apply Z.eqb_neq in G2.
  destruct (reqb _ 0) eqn:N; [discriminate|]. apply reqb_false in N.
  intros H; inversion H; subst t; clear H.
  change (tsub4 TRANSFORM4_ID _) with (tt_mat (unit4 a) (unit4 b) (IZR (sign4 (unit4 b))) (dot4 (unit4 a) (unit4 b))).
  destruct (sign4_cases _ _ G1 G2) as [(A & B & S)|(A & B & S)]; rewrite S in *.
  - apply tt_mat_props; auto; try lra; [destruct (unit4_cases a)|destruct (unit4_cases b)]; lra.
  - apply tt_mat_props; auto; try lra; [destruct (unit4_cases a)|destruct (unit4_cases b)]; lra.
Qed.
Lemma timelike_dot_pos a b : 0 < dot4 a a -> 0 < dot4 b b -> 0 < t4 a * t4 b -> 0 < dot4 a b.
Proof.
  intros A B T. destruct a as [a0 a1 a2 a3], b as [b0 b1 b2 b3]. unfold dot4 in *; cbn in *.
  set (D := a1 * b1 + a2 * b2 + a3 * b3). set (RA := a1 * a1 + a2 * a2 + a3 * a3). set (RB := b1 * b1 + b2 * b2 + b3 * b3).
  assert (CS : D * D <= RA * RB).
  { unfold D, RA, RB. pose proof (Rle_0_sqr (a1 * b2 - a2 * b1)). pose proof (Rle_0_sqr (a1 * b3 - a3 * b1)).
    pose proof (Rle_0_sqr (a2 * b3 - a3 * b2)). unfold Rsqr in *. nra. }
  assert (PA : 0 <= RA) by (unfold RA; nra). assert (PB : 0 <= RB) by (unfold RB; nra).
  assert (HA : RA < a0 * a0) by (unfold RA; lra). assert (HB : RB < b0 * b0) by (unfold RB; lra).
  assert (M : RA * RB < a0 * a0 * (b0 * b0)) by (apply Rmult_le_0_lt_compat; auto).
  assert (L : D < a0 * b0).
  { destruct (Rlt_le_dec D (a0 * b0)); auto. exfalso.
    assert ((a0 * b0) * (a0 * b0) <= D * D) by (apply Rmult_le_compat; lra). nra. }
  unfold D in L. lra.
Qed.
(** Defined for timelike vectors of the same time orientation. *)
Lemma transform_to4_defined a b : 0 < dot4 a a -> 0 < dot4 b b -> 0 < t4 a * t4 b ->
  exists t, transform_to4 a b = Some t.
Proof.
  intros A B T. unfold transform_to4. cbv zeta.
  destruct (sign4_spec (unit4 a)) as (SA & _ & _). destruct (sign4_spec (unit4 b)) as (SB & _ & _).
  rewrite SA by (rewrite unit4_norm_pos by auto; lra). rewrite SB by (rewrite unit4_norm_pos by auto; lra).
  cbn [Z.eqb Pos.eqb negb orb]. destruct (reqb _ 0) eqn:E; [|eauto].
  exfalso. apply reqb_spec in E.
  destruct (unit4_scale a) as [Pa Ua]; [lra|]. destruct (unit4_scale b) as [Pb Ub]; [lra|].
  pose proof (timelike_dot_pos a b A B T) as P. rewrite Ua, Ub, dot4_scale, dot4_scale_r in E.
  assert (0 < / norm4 a) by (apply Rinv_0_lt_compat; auto). assert (0 < / norm4 b) by (apply Rinv_0_lt_compat; auto).
  assert (0 < / norm4 a * (/ norm4 b * dot4 a b)) by (apply Rmult_lt_0_compat; auto; apply Rmult_lt_0_compat; auto).
  lra.
Qed.

(** The inverse of a Lorentz transform is its transpose. *)
Lemma transpose_of_isometry4 a : (forall v w, dot4 (tapp4 a v) (tapp4 a w) = dot4 v w) ->
  tmul4 (transpose4 a) a = TRANSFORM4_ID.
Proof.
  intros H.
  transitivity (let e s v := V4 (s * dot4 (tapp4 a v) (tapp4 a VEC4_T)) (- s * dot4 (tapp4 a v) (tapp4 a VEC4_X))
                      (- s * dot4 (tapp4 a v) (tapp4 a VEC4_Y)) (- s * dot4 (tapp4 a v) (tapp4 a VEC4_Z)) in
    T4 (e 1 VEC4_T) (e (-1) VEC4_X) (e (-1) VEC4_Y) (e (-1) VEC4_Z)).
  - clear H. cbv beta zeta. vring.
  - cbv beta zeta. rewrite !H. vring.
Qed.
Lemma left_inv4_det a b : tmul4 b a = TRANSFORM4_ID -> det4 a <> 0.
Proof.
  intros H E. assert (D : det4 (tmul4 b a) = 1) by (rewrite H; vring). rewrite det4_mul, E in D. lra.
Qed.
Lemma left_inv4_unique a b : tmul4 b a = TRANSFORM4_ID -> b = inv4 a /\ tmul4 a b = TRANSFORM4_ID.
Proof.
  intros H. destruct (inv4_both a (left_inv4_det a b H)) as [I1 I2].
  assert (E : b = inv4 a).
  { rewrite <- (proj1 (id4 b)), <- I1, <- tmul4_assoc, H. apply id4. }
  split; auto. rewrite E; auto.
Qed.
Lemma lorentz_inv a : (forall v w, dot4 (tapp4 a v) (tapp4 a w) = dot4 v w) ->
  inv4 a = transpose4 a /\ tmul4 a (transpose4 a) = TRANSFORM4_ID /\ tmul4 (transpose4 a) a = TRANSFORM4_ID.
Proof.
  intros H. pose proof (transpose_of_isometry4 a H) as T. destruct (left_inv4_unique _ _ T) as [E1 E2]. auto.
Qed.
Lemma orth3_det a : tmul3 (transpose3 a) a = TRANSFORM3_ID -> det3 a <> 0.
Proof.
  intros H E. assert (D : det3 (tmul3 (transpose3 a) a) = 1) by (rewrite H; vring). rewrite det3_mul, E in D. lra.
Qed.
Lemma orth3_inv a : (forall v w, dot3 (tapp3 a v) (tapp3 a w) = dot3 v w) ->
  inv3 a = transpose3 a /\ tmul3 a (transpose3 a) = TRANSFORM3_ID /\ tmul3 (transpose3 a) a = TRANSFORM3_ID.
Proof.
  intros H. pose proof (transpose_of_isometry3 a H) as T.
  destruct (inv3_both a (orth3_det a T)) as [I1 I2].
  assert (E : transpose3 a = inv3 a).
  { rewrite <- (proj1 (id3 (transpose3 a))), <- I1, <- tmul3_assoc, T. apply id3. }
  split; [auto|]. split; [rewrite E; auto|auto].
Qed.
Lemma sym_prod_bad : exists a b, sym_prod3 a b <> sym_prod3 b a /\ transpose3 (sym_prod3 a b) <> sym_prod3 a b.
Proof.
  exists VEC3_X, VEC3_Y. split; uvec; intros E; inversion E; lra.
Qed.
Lemma sym_prod4_bad : exists a b, sym_prod4 a b <> sym_prod4 b a /\ transpose4 (sym_prod4 a b) <> sym_prod4 a b.
Proof.
  exists VEC4_T, VEC4_Y. split; uvec; intros E; inversion E; lra.
Qed.
Lemma asym_prod_ok a b : asym_prod3 a b = tscale3 (-1) (asym_prod3 b a) /\
  transpose3 (asym_prod3 a b) = tscale3 (-1) (asym_prod3 a b).
Proof. split; vring. Qed.
