From Coq Require Import Reals Lra Psatz ZArith.
From Verif Require Import ExtModel BoundProofs MathModel MathProofs MapProofs VecModel TransModel VecTac.
Local Open Scope R_scope.

(** ** Norms *)
Lemma max3_ge a b c : a <= max3 a b c /\ b <= max3 a b c /\ c <= max3 a b c.
Proof.
  unfold max3. pose proof (Rmax_l (Rmax a b) c). pose proof (Rmax_r (Rmax a b) c).
  pose proof (Rmax_l a b). pose proof (Rmax_r a b). lra.
Qed.
Lemma max4_ge a b c d : a <= max4 a b c d /\ b <= max4 a b c d /\ c <= max4 a b c d /\ d <= max4 a b c d.
Proof.
  unfold max4. pose proof (Rmax_l (max3 a b c) d). pose proof (Rmax_r (max3 a b c) d).
  pose proof (max3_ge a b c). lra.
Qed.
Lemma Rabs_le0 x : Rabs x <= 0 -> x = 0.
Proof. intros H. pose proof (Rabs_pos x). destruct (Req_dec x 0); auto. apply Rabs_no_R0 in H1. lra. Qed.

Lemma scaled_sqrt mx s : 0 < mx -> 0 <= s -> mx * sqrt (s / (mx * mx)) = sqrt s.
Proof.
  intros Hm Hs. rewrite sqrt_div_alt by nra. rewrite sqrt_square by lra. field. lra.
Qed.

Lemma norm3_eq a : norm3 a = sqrt (dot3 a a).
Proof.
  unfold norm3. set (mx := max3 _ _ _).
  destruct (max3_ge (Rabs (x3 a)) (Rabs (y3 a)) (Rabs (z3 a))) as (H1 & H2 & H3). fold mx in H1, H2, H3.
  destruct (reqb mx 0) eqn:E.
  - apply reqb_spec in E. rewrite E in *. apply Rabs_le0 in H1, H2, H3.
    unfold dot3. rewrite H1, H2, H3. replace (0 * 0 + 0 * 0 + 0 * 0) with 0 by ring. rewrite sqrt_0. reflexivity.
  - apply reqb_false in E. assert (P : 0 < mx) by (pose proof (Rabs_pos (x3 a)); lra).
    rewrite <- (scaled_sqrt mx (dot3 a a)); auto.
    + f_equal. f_equal. unfold dot3. field. lra.
    + unfold dot3. nra.
Qed.
Lemma norm3_sq a : norm3 a * norm3 a = dot3 a a.
Proof. rewrite norm3_eq. apply sqrt_sqrt. unfold dot3. nra. Qed.
Lemma norm3_nonneg a : 0 <= norm3 a.
Proof. rewrite norm3_eq. apply sqrt_pos. Qed.
Lemma dot3_nonneg a : 0 <= dot3 a a.
Proof. unfold dot3. nra. Qed.
Lemma sumsq0 a b c : a * a + b * b + c * c = 0 -> a = 0 /\ b = 0 /\ c = 0.
Proof. intros H. repeat split; nra. Qed.
Lemma dot3_zero a : dot3 a a = 0 <-> a = VEC3_ZERO.
Proof.
  split.
  - destruct a as [x y z]. unfold dot3; cbn. intros H. apply sumsq0 in H as (-> & -> & ->). reflexivity.
  - intros ->. unfold dot3; cbn. ring.
Qed.
Lemma norm3_zero a : norm3 a = 0 <-> a = VEC3_ZERO.
Proof.
  rewrite <- dot3_zero. rewrite <- norm3_sq. split; intros H; [rewrite H; ring|].
  apply Rmult_integral in H. tauto.
Qed.
Lemma norm3_pos a : a <> VEC3_ZERO -> 0 < norm3 a.
Proof. intros H. rewrite <- norm3_zero in H. pose proof (norm3_nonneg a). lra. Qed.

Lemma unit3_scale a : a <> VEC3_ZERO -> unit3 a = scale3 (/ norm3 a) a.
Proof.
  intros H. pose proof (norm3_pos a H). unfold unit3. replace (reqb (norm3 a) 0) with false by (symmetry; apply reqb_false; lra).
  reflexivity.
Qed.
Lemma dot3_scale s a b : dot3 (scale3 s a) b = s * dot3 a b.
Proof. vring. Qed.
Lemma dot3_scale_r s a b : dot3 a (scale3 s b) = s * dot3 a b.
Proof. vring. Qed.
Lemma dot3_comm a b : dot3 a b = dot3 b a.
Proof. vring. Qed.
Lemma unit3_norm a : a <> VEC3_ZERO -> dot3 (unit3 a) (unit3 a) = 1.
Proof.
  intros H. rewrite unit3_scale, dot3_scale, dot3_scale_r, <- norm3_sq by auto.
  pose proof (norm3_pos a H). field. lra.
Qed.
Lemma unit3_zero : unit3 VEC3_ZERO = VEC3_ZERO.
Proof.
  unfold unit3. replace (reqb (norm3 VEC3_ZERO) 0) with true; [reflexivity|].
  symmetry. apply reqb_spec, norm3_zero. reflexivity.
Qed.
Lemma unit3_dir a : scale3 (norm3 a) (unit3 a) = a.
Proof.
  destruct (Req_dec (norm3 a) 0) as [E|E].
  - apply norm3_zero in E. subst a. rewrite unit3_zero. uvec. comps; ring.
  - assert (H : a <> VEC3_ZERO) by (intros H; apply norm3_zero in H; contradiction).
    rewrite unit3_scale by auto. generalize dependent (norm3 a). intros n Hn. dvars; uvec; comps; field; auto.
Qed.

Lemma par_perp3 a v : add3 (par3 a v) (perp3 a v) = a /\ dot3 (perp3 a v) v = 0 /\
  (v <> VEC3_ZERO -> cross3 (par3 a v) v = VEC3_ZERO).
Proof.
  unfold par3, perp3. destruct (reqb (norm_sq3 v) 0) eqn:E.
  - apply reqb_spec in E. unfold norm_sq3 in E. apply dot3_zero in E. split; [vring|split].
    + subst; vring.
    + intros H; contradiction.
  - apply reqb_false in E. unfold norm_sq3 in *. split; [|split].
    + dvars; uvec; comps; field; auto.
    + dvars; uvec; field; auto.
    + intros _. dvars; uvec; comps; field; auto.
Qed.
Lemma angle_between_cos a b : a <> VEC3_ZERO -> b <> VEC3_ZERO ->
  0 <= angle_between a b <= PI /\ norm3 a * norm3 b * cos (angle_between a b) = dot3 a b.
Proof.
  intros Ha Hb. unfold angle_between.
  assert (B : -1 <= dot3 (unit3 a) (unit3 b) <= 1).
  { pose proof (unit3_norm a Ha) as A1. pose proof (unit3_norm b Hb) as B1.
    destruct (unit3 a) as [a1 a2 a3], (unit3 b) as [b1 b2 b3]. unfold dot3 in *; cbn in *.
    pose proof (Rle_0_sqr (a1 - b1)). pose proof (Rle_0_sqr (a2 - b2)). pose proof (Rle_0_sqr (a3 - b3)).
    pose proof (Rle_0_sqr (a1 + b1)). pose proof (Rle_0_sqr (a2 + b2)). pose proof (Rle_0_sqr (a3 + b3)).
    unfold Rsqr in *. lra. }
  split; [apply acos_bound|]. rewrite cos_acos by auto.
  pose proof (norm3_pos a Ha). pose proof (norm3_pos b Hb).
  rewrite (unit3_scale a), (unit3_scale b), dot3_scale, dot3_scale_r by auto. field. lra.
Qed.

(** ** Four-vectors *)
Lemma norm4_eq a : norm4 a = sqrt (Rabs (dot4 a a)).
Proof.
  unfold norm4. set (mx := max4 _ _ _ _).
  destruct (max4_ge (Rabs (t4 a)) (Rabs (x4 a)) (Rabs (y4 a)) (Rabs (z4 a))) as (H0 & H1 & H2 & H3). fold mx in H0, H1, H2, H3.
  destruct (reqb mx 0) eqn:E.
  - apply reqb_spec in E. rewrite E in *. apply Rabs_le0 in H0, H1, H2, H3.
    unfold dot4. rewrite H0, H1, H2, H3. replace (0 * 0 - 0 * 0 - 0 * 0 - 0 * 0) with 0 by ring.
    rewrite Rabs_R0, sqrt_0. reflexivity.
  - apply reqb_false in E. assert (P : 0 < mx) by (pose proof (Rabs_pos (t4 a)); lra).
    rewrite <- (scaled_sqrt mx (Rabs (dot4 a a))); auto using Rabs_pos.
    f_equal. f_equal.
    assert (A : Rabs (dot4 a a) / (mx * mx) = Rabs (dot4 a a / (mx * mx))).
    { unfold Rdiv. rewrite Rabs_mult, (Rabs_pos_eq (/ (mx * mx))); [reflexivity|].
      left. apply Rinv_0_lt_compat. nra. }
    rewrite A. f_equal. unfold dot4. field. lra.
Qed.
Lemma norm4_sq a : norm4 a * norm4 a = Rabs (dot4 a a).
Proof. rewrite norm4_eq. apply sqrt_sqrt, Rabs_pos. Qed.
Lemma dot4_scale s a b : dot4 (scale4 s a) b = s * dot4 a b.
Proof. vring. Qed.
Lemma dot4_scale_r s a b : dot4 a (scale4 s b) = s * dot4 a b.
Proof. vring. Qed.
Lemma dot4_comm a b : dot4 a b = dot4 b a.
Proof. vring. Qed.
Lemma unit4_scale a : dot4 a a <> 0 -> 0 < norm4 a /\ unit4 a = scale4 (/ norm4 a) a.
Proof.
  intros H. assert (P : 0 < norm4 a).
  { rewrite norm4_eq. apply sqrt_lt_R0. apply Rabs_pos_lt. auto. }
  split; auto. unfold unit4. replace (reqb (norm4 a) 0) with false by (symmetry; apply reqb_false; lra). reflexivity.
Qed.
Lemma unit4_norm a : dot4 a a <> 0 -> dot4 (unit4 a) (unit4 a) = dot4 a a / Rabs (dot4 a a).
Proof.
  intros H. destruct (unit4_scale a H) as [P ->]. rewrite dot4_scale, dot4_scale_r.
  rewrite <- norm4_sq. field. lra.
Qed.
Lemma unit4_norm_pos a : 0 < dot4 a a -> dot4 (unit4 a) (unit4 a) = 1.
Proof. intros H. rewrite unit4_norm by lra. rewrite Rabs_pos_eq by lra. field. lra. Qed.
Lemma unit4_norm_neg a : dot4 a a < 0 -> dot4 (unit4 a) (unit4 a) = -1.
Proof. intros H. rewrite unit4_norm by lra. rewrite Rabs_left by lra. field. lra. Qed.
Lemma unit4_dir a : dot4 a a <> 0 -> scale4 (norm4 a) (unit4 a) = a.
Proof.
  intros H. destruct (unit4_scale a H) as [P ->]. generalize dependent (norm4 a). intros n Hn.
  dvars; uvec; comps; field; lra.
Qed.
Lemma par_perp4 a v : add4 (par4 a v) (perp4 a v) = a /\
  (norm_sq4 v <> 0 -> dot4 (perp4 a v) v = 0 /\ par4 a v = scale4 (dot4 a v / norm_sq4 v) v).
Proof.
  unfold par4, perp4. split.
  - unfold par4. destruct (reqb _ _); [|set (w := div4 _ _)]; vring.
  - intros H. unfold par4. replace (reqb (norm_sq4 v) 0) with false by (symmetry; apply reqb_false; auto).
    split; dvars; uvec; comps; field; auto.
Qed.
Lemma sign4_spec a : (0 < dot4 a a -> sign4 a = 1%Z) /\ (dot4 a a < 0 -> sign4 a = (-1)%Z) /\
  (dot4 a a = 0 -> sign4 a = 0%Z).
Proof.
  unfold sign4, norm_sq4. repeat split; intros H; rcase; try lra; reflexivity.
Qed.

(** ** Four-dimensional cross product *)
Lemma cross4_orth_refuted : exists a b c, dot4 (cross4 a b c) a <> 0.
Proof.
  exists (V4 1 1 0 0), VEC4_Y, VEC4_Z. uvec. lra.
Qed.
(** The result is orthogonal for the Euclidean product: its spatial components carry lower indices. *)
Lemma cross4_orth_flipped a b c :
  let n := cross4 a b c in let f := V4 (t4 n) (- x4 n) (- y4 n) (- z4 n) in
  dot4 f a = 0 /\ dot4 f b = 0 /\ dot4 f c = 0.
Proof. cbv zeta. repeat split; vring. Qed.
Lemma cross4_alt a b c : cross4 b a c = neg4 (cross4 a b c) /\ cross4 a c b = neg4 (cross4 a b c).
Proof. split; vring. Qed.
Lemma cross4_lin s a a' b c : cross4 (add4 (scale4 s a) a') b c = add4 (scale4 s (cross4 a b c)) (cross4 a' b c).
Proof. vring. Qed.
Lemma cross4_basis : cross4 VEC4_X VEC4_Y VEC4_Z = VEC4_T /\ cross4 VEC4_T VEC4_X VEC4_Y = neg4 VEC4_Z.
Proof. split; vring. Qed.
Lemma cross4_gram a b c :
  let '(aa, bb, cc) := (dot4 a a, dot4 b b, dot4 c c) in
  let '(ab, bc, ca) := (dot4 a b, dot4 b c, dot4 c a) in
  dot4 (cross4 a b c) (cross4 a b c) =
    - (aa * bb * cc + 2 * ab * bc * ca - aa * bc * bc - bb * ca * ca - cc * ab * ab).
Proof. vring. Qed.
Lemma tcross4_app a b c : tapp4 (tcross4 a b) c = cross4 a b c.
Proof. vring. Qed.
Lemma tcross3_app a b : tapp3 (tcross3 a) b = cross3 a b.
Proof. vring. Qed.

(** ** Four-vectors of given length *)
Lemma from_length_and_r_spec m p v : from_length_and_r m p = Some v ->
  r4 v = p /\ 0 <= t4 v /\ dot4 v v = m * m.
Proof.
  unfold from_length_and_r. set (mx := max4 _ _ _ _). 
  destruct (max4_ge (Rabs m) (Rabs (x3 p)) (Rabs (y3 p)) (Rabs (z3 p))) as (H0 & _). fold mx in H0.
  destruct (reqb mx 0) eqn:E; [discriminate|]. apply reqb_false in E.
  assert (P : 0 < mx) by (pose proof (Rabs_pos m); lra).
  intros H; inversion H; subst v; clear H. split; [destruct p; reflexivity|].
  assert (EQ : mx * sqrt (m / mx * (m / mx) + x3 p / mx * (x3 p / mx) + y3 p / mx * (y3 p / mx) + z3 p / mx * (z3 p / mx))
    = sqrt (m * m + dot3 p p)).
  { rewrite <- (scaled_sqrt mx (m * m + dot3 p p)); auto.
    - f_equal. f_equal. unfold dot3. field. lra.
    - pose proof (dot3_nonneg p). nra. }
  rewrite EQ. split; [apply sqrt_pos|].
  assert (S : sqrt (m * m + dot3 p p) * sqrt (m * m + dot3 p p) = m * m + dot3 p p).
  { apply sqrt_sqrt. pose proof (dot3_nonneg p). nra. }
  unfold dot4, mk4; cbn. rewrite S. unfold dot3. ring.
Qed.
Lemma from_length_and_r_defined m p :
  (exists v, from_length_and_r m p = Some v) <-> m <> 0 \/ p <> VEC3_ZERO.
Proof.
  unfold from_length_and_r. set (mx := max4 _ _ _ _).
  destruct (max4_ge (Rabs m) (Rabs (x3 p)) (Rabs (y3 p)) (Rabs (z3 p))) as (H0 & H1 & H2 & H3).
  fold mx in H0, H1, H2, H3.
  destruct (reqb mx 0) eqn:E.
  - apply reqb_spec in E. rewrite E in *. apply Rabs_le0 in H0, H1, H2, H3.
    split; [intros [v H]; discriminate|]. intros [H|H]; [contradiction|].
    exfalso; apply H. destruct p; cbn in *; subst; reflexivity.
  - apply reqb_false in E. split; [|eauto]. intros _.
    destruct (Req_dec m 0) as [->|]; auto. right. intros ->. apply E. unfold mx. cbn.
    rewrite !Rabs_R0. unfold max4, max3. assert (M0 : Rmax 0 0 = 0) by (apply Rmax_left; lra). rewrite !M0. reflexivity.
Qed.
Lemma from_length_and_t_spec m t dir v : dir <> VEC3_ZERO -> from_length_and_t m t dir = Some v ->
  t4 v = t /\ dot4 v v = m * m /\ exists k, 0 <= k /\ r4 v = scale3 k (unit3 dir).
Proof.
  intros Hd. unfold from_length_and_t. set (mx := Rmax _ _).
  destruct (reqb mx 0) eqn:E; [discriminate|]. apply reqb_false in E.
  assert (P : 0 < mx).
  { pose proof (Rmax_l (Rabs m) (Rabs t)). fold mx in H. pose proof (Rabs_pos m). lra. }
  cbv zeta. destruct (rltb _ 0) eqn:N; [discriminate|]. apply rltb_false in N.
  intros H; inversion H; subst v; clear H.
  set (p := mx * sqrt _).
  assert (Ep : p * p = t * t - m * m).
  { unfold p. replace (mx * sqrt (t / mx * (t / mx) - m / mx * (m / mx)) * (mx * sqrt (t / mx * (t / mx) - m / mx * (m / mx))))
      with (mx * mx * (sqrt (t / mx * (t / mx) - m / mx * (m / mx)) * sqrt (t / mx * (t / mx) - m / mx * (m / mx)))) by ring.
    rewrite sqrt_sqrt by auto. field. lra. }
  assert (Pp : 0 <= p) by (unfold p; pose proof (sqrt_pos (t / mx * (t / mx) - m / mx * (m / mx))); nra).
  clearbody p. pose proof (unit3_norm dir Hd) as U. destruct (unit3 dir) as [a b c]. unfold dot3 in U; cbn in U.
  split; [reflexivity|]. split.
  - unfold dot4; cbn. replace (t * t - a * p * (a * p) - b * p * (b * p) - c * p * (c * p))
      with (t * t - p * p * (a * a + b * b + c * c)) by ring. rewrite U, Ep. ring.
  - exists p. split; auto.
Qed.
Lemma from_length_and_t_defined m t dir :
  (exists v, from_length_and_t m t dir = Some v) <-> t <> 0 /\ Rabs m <= Rabs t.
Proof.
  unfold from_length_and_t. set (mx := Rmax _ _).
  pose proof (Rmax_l (Rabs m) (Rabs t)) as L1. pose proof (Rmax_r (Rabs m) (Rabs t)) as L2. fold mx in L1, L2.
  assert (SQ : forall u, u * u = Rabs u * Rabs u) by (intros u; rewrite <- Rabs_mult, Rabs_pos_eq; nra).
  destruct (reqb mx 0) eqn:E.
  - apply reqb_spec in E. rewrite E in *. apply Rabs_le0 in L2.
    split; [intros [v H]; discriminate|]. intros [H _]. contradiction.
  - apply reqb_false in E. assert (P : 0 < mx) by (pose proof (Rabs_pos m); lra).
    cbv zeta.
    assert (EQ : t / mx * (t / mx) - m / mx * (m / mx) = (t * t - m * m) / (mx * mx)) by (field; lra).
    rewrite EQ. pose proof (Rabs_pos m). pose proof (Rabs_pos t).
    assert (IP : 0 < / (mx * mx)) by (apply Rinv_0_lt_compat; nra).
    destruct (rltb _ 0) eqn:N.
    + apply rltb_spec in N. split; [intros [v Hv]; discriminate|]. intros [H1 H2]. exfalso.
      rewrite (SQ t), (SQ m) in N. unfold Rdiv in N.
      assert (0 <= Rabs t * Rabs t - Rabs m * Rabs m) by nra. nra.
    + apply rltb_false in N. split; [|eauto]. intros _.
      assert (Q : m * m <= t * t).
      { unfold Rdiv in N. destruct (Rle_lt_dec (m * m) (t * t)) as [|L]; auto. exfalso. nra. }
      rewrite (SQ t), (SQ m) in Q. split; [|nra]. intros ->. apply E.
      rewrite Rabs_R0 in Q. unfold mx. rewrite Rabs_R0. rewrite Rmax_left; [|lra]. nra.
Qed.

(** ** Matrix algebra *)
Lemma tmul3_assoc a b c : tmul3 (tmul3 a b) c = tmul3 a (tmul3 b c).
Proof. vring. Qed.
Lemma tmul3_app a b v : tapp3 (tmul3 a b) v = tapp3 a (tapp3 b v).
Proof. vring. Qed.
Lemma transpose3_mul a b : transpose3 (tmul3 a b) = tmul3 (transpose3 b) (transpose3 a).
Proof. vring. Qed.
Lemma transpose3_adj a v w : dot3 (tapp3 a v) w = dot3 v (tapp3 (transpose3 a) w).
Proof. vring. Qed.
Lemma det3_mul a b : det3 (tmul3 a b) = det3 a * det3 b.
Proof. vring. Qed.
Lemma det3_transpose a : det3 (transpose3 a) = det3 a.
Proof. vring. Qed.
Lemma id3 a : tmul3 a TRANSFORM3_ID = a /\ tmul3 TRANSFORM3_ID a = a.
Proof. split; vring. Qed.
Lemma inv3_both a : det3 a <> 0 -> tmul3 a (inv3 a) = TRANSFORM3_ID /\ tmul3 (inv3 a) a = TRANSFORM3_ID.
Proof.
  intros H. dt3 a. unfold inv3. unfold det3 in H. split; uvec; comps; field; exact H.
Qed.
Lemma tmul4_assoc a b c : tmul4 (tmul4 a b) c = tmul4 a (tmul4 b c).
Proof. vring. Qed.
Lemma tmul4_app a b v : tapp4 (tmul4 a b) v = tapp4 a (tapp4 b v).
Proof. vring. Qed.
Lemma transpose4_mul a b : transpose4 (tmul4 a b) = tmul4 (transpose4 b) (transpose4 a).
Proof. vring. Qed.
Lemma transpose4_adj a v w : dot4 (tapp4 a v) w = dot4 v (tapp4 (transpose4 a) w).
Proof. vring. Qed.
Lemma det4_mul a b : det4 (tmul4 a b) = det4 a * det4 b.
Proof. vring. Qed.
Lemma det4_transpose a : det4 (transpose4 a) = det4 a.
Proof. vring. Qed.
Lemma id4 a : tmul4 a TRANSFORM4_ID = a /\ tmul4 TRANSFORM4_ID a = a.
Proof. split; vring. Qed.
Lemma id4_app v : tapp4 TRANSFORM4_ID v = v.
Proof. vring. Qed.
Lemma inv4_adj a : exists adj, inv4 a = tscale4 (1 / det4 a) adj /\
  tmul4 a adj = tscale4 (det4 a) TRANSFORM4_ID /\ tmul4 adj a = tscale4 (det4 a) TRANSFORM4_ID.
Proof. dt4 a. eexists. split; [reflexivity|]. split; uvec; comps; ring. Qed.
Lemma tmul4_scale_r a s b : tmul4 a (tscale4 s b) = tscale4 s (tmul4 a b).
Proof. vring. Qed.
Lemma tmul4_scale_l a s b : tmul4 (tscale4 s a) b = tscale4 s (tmul4 a b).
Proof. vring. Qed.
Lemma inv4_both a : det4 a <> 0 -> tmul4 a (inv4 a) = TRANSFORM4_ID /\ tmul4 (inv4 a) a = TRANSFORM4_ID.
Proof.
  intros H. destruct (inv4_adj a) as (adj & E & E1 & E2). rewrite E, tmul4_scale_r, tmul4_scale_l, E1, E2.
  clear E E1 E2. generalize dependent (det4 a). intros d Hd.
  split; uvec; comps; field; auto.
Qed.
