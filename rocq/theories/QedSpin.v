(** Axes in the rest frame of the target; components of the target spin along the axes of another momentum transfer. *)
From Coq Require Import Reals List Lra Ring Field Psatz Lia.
From Verif Require Import ParamModel MathModel ParticleModel VecModel TransModel FrameBase FrameModel FrameSpec SfModel KinModel KinSpec KinRadProofs KinEqs KinEvent KinFinal FrameRot KinAll KinFin HadModel
  QedSpec QedAlg QedWord QedTab QedEvent QedXsSpec QedHadSpec QedFrame QedHad.
Local Open Scope R_scope.

(** ** Covariance *)
Section Cov.
Variable tr : tr4.
Hypothesis Ht : lorentz tr.
Let t := tapp4 tr.
Let tdot a b : dot4 (t a) (t b) = dot4 a b. Proof. apply Ht. Qed.
Let tsub a b : t (sub4 a b) = sub4 (t a) (t b). Proof. exact (t_sub tr Ht a b). Qed.
Let tsc x a : t (scale4 x a) = scale4 x (t a). Proof. exact (t_scale tr Ht x a). Qed.
Lemma ext4 a b : (forall x, dot4 a x = dot4 b x) -> a = b.
Proof.
  intros E. pose proof (E VEC4_T) as E0. pose proof (E VEC4_X) as E1. pose proof (E VEC4_Y) as E2. pose proof (E VEC4_Z) as E3.
  unfold dot4, dot3, r4, VEC4_T, VEC4_X, VEC4_Y, VEC4_Z in E0, E1, E2, E3. cbn [t4 x4 y4 z4 x3 y3 z3] in E0, E1, E2, E3.
  destruct a as [a0 a1 a2 a3], b as [b0 b1 b2 b3]. cbn [t4 x4 y4 z4] in *. f_equal; lra.
Qed.
Lemma normal_cov q p h : normal (t q) (t p) (t h) = t (normal q p h).
Proof.
  apply ext4. intros x. destruct (inverse4_T tr Ht) as [I _]. destruct (I x) as [<- _]. fold t.
  rewrite normal_dot. unfold t at 1 2 3 4. rewrite (T_det tr (proj2 Ht)), tdot, normal_dot. reflexivity.
Qed.
Lemma off_cov q a : project_off (t q) (t a) = t (project_off q a).
Proof. unfold project_off. rewrite tsub, tsc, !tdot. reflexivity. Qed.
Lemma transverse_cov q p h : transverse (t q) (t p) (t h) = t (transverse q p h).
Proof. unfold transverse. rewrite !off_cov, tsub, tsc, !tdot. reflexivity. Qed.
Lemma axis_cov q p h i : axis (t q) (t p) (t h) i = t (axis q p h i).
Proof.
  unfold axis, norm_sq4. rewrite !off_cov, transverse_cov, normal_cov, !tdot. destruct i as [|[|[|]]]; symmetry; apply tsc.
Qed.
Lemma dual_cov q p h i : dual (t q) (t p) (t h) i = t (dual q p h i).
Proof. unfold dual. destruct i; rewrite axis_cov; [reflexivity|]. symmetry. apply tsc. Qed.
Lemma spin_cov q p h eta : spin_vector (t q) (t p) (t h) eta = t (spin_vector q p h eta).
Proof.
  unfold spin_vector. rewrite !axis_cov. apply ext4. intros x. destruct (inverse4_T tr Ht) as [I _]. destruct (I x) as [<- _]. fold t.
  rewrite !dot_add_l, !dot_scale_l, !tdot, !dot_add_l, !dot_scale_l. reflexivity.
Qed.
Lemma along_cov q' p h q eta : spin_along (t q') (t p) (t h) (spin_vector (t q) (t p) (t h) eta) = spin_along q' p h (spin_vector q p h eta).
Proof. unfold spin_along. rewrite spin_cov, !dual_cov, !tdot. reflexivity. Qed.
End Cov.

(** ** Rest frame of the target *)
Section Rest.
Variables (M q0 h0 : R) (a b : vec3).
Hypothesis HM : 0 < M.
Hypothesis Haa : 0 < dot3 a a.
Hypothesis Hqq : q0 * q0 < dot3 a a.
Let ez := scale3 (/ sqrt (dot3 a a)) a.
Let tv := sub3 b (scale3 (dot3 b a / dot3 a a) a).
Let ex := scale3 (/ sqrt (dot3 tv tv)) tv.
Hypothesis Htt : 0 < dot3 tv tv.
Let q := mk4 q0 a. Let p := V4 M 0 0 0. Let h := mk4 h0 b.
Lemma rest_off : project_off p q = mk4 0 a.
Proof. unfold project_off, p, q, mk4. destruct a as [a1 a2 a3]. unfold dot4, dot3, r4, sub4, scale4. cbn [t4 x4 y4 z4 x3 y3 z3]. f_equal; field; lra. Qed.
Lemma mk_mk v : - dot4 (mk4 0 v) (mk4 0 v) = dot3 v v.
Proof. unfold mk4, dot4, dot3, r4. cbn [t4 x4 y4 z4 x3 y3 z3]. ring. Qed.
Lemma rest3 : axis q p h 3 = mk4 0 ez.
Proof.
  unfold axis. rewrite rest_off. unfold norm_sq4. rewrite mk_mk. unfold ez, mk4, scale4, scale3. cbn [t4 x4 y4 z4 x3 y3 z3]. f_equal; ring.
Qed.
Lemma rest_transverse : transverse q p h = mk4 0 tv.
Proof.
  assert (D : dot4 q q = q0 * q0 - dot3 a a) by (unfold q, mk4, dot4, dot3, r4; cbn [t4 x4 y4 z4 x3 y3 z3]; ring).
  assert (P : forall x, dot4 p x = M * t4 x) by (intros; unfold p, dot4, dot3, r4; cbn [t4 x4 y4 z4 x3 y3 z3]; ring).
  assert (E : dot4 q h = q0 * h0 - dot3 a b) by (unfold q, h, mk4, dot4, dot3, r4; cbn [t4 x4 y4 z4 x3 y3 z3]; ring).
  unfold transverse, project_off. rewrite !dot_sub_l, !dot_sub_r, !dot_scale_l, !dot_scale_r, (dot_comm q p), (dot_comm h p), (dot_comm h q), !P, D, E.
  replace (t4 q) with q0 by reflexivity. replace (t4 h) with h0 by reflexivity. replace (t4 p) with M by reflexivity.
  assert (A : dot3 a b = dot3 b a) by (unfold dot3; ring). rewrite A. unfold tv. set (aa := dot3 a a) in *. set (ab := dot3 b a).
  unfold q, p, h, mk4, sub4, scale4, sub3, scale3. cbn [t4 x4 y4 z4 x3 y3 z3]. f_equal; field; repeat split; try lra; (match goal with |- ?g <> 0 => replace g with (- (M * M * aa)) by ring end; assert (0 < M * M * aa) by (repeat apply Rmult_lt_0_compat; lra); lra).
Qed.
Lemma rest1 : axis q p h 1 = mk4 0 ex.
Proof.
  unfold axis. rewrite rest_transverse. unfold norm_sq4. rewrite mk_mk. unfold ex. set (v := tv). clearbody v. unfold mk4, scale4, scale3. cbn [t4 x4 y4 z4 x3 y3 z3]. f_equal; ring.
Qed.
Lemma rest_normal : normal q p h = mk4 0 (scale3 M (cross3 a b)).
Proof. apply ext4. intros x. rewrite normal_dot. unfold q, p, h, mk4, scale3, dot4, det_rows, dot3, cross3, r4. cbn [t4 x4 y4 z4 x3 y3 z3]. ring. Qed.
Lemma rest2 : axis q p h 2 = mk4 0 (cross3 ez ex).
Proof.
  unfold axis. rewrite rest_normal. unfold norm_sq4.
  pose proof (sqrt_lt_R0 _ Haa) as A1. pose proof (sqrt_lt_R0 _ Htt) as T1. pose proof (sqrt_sqrt _ (Rlt_le _ _ Haa)) as A2. pose proof (sqrt_sqrt _ (Rlt_le _ _ Htt)) as T2.
  assert (C : dot3 (cross3 a b) (cross3 a b) = dot3 a a * dot3 tv tv).
  { unfold tv. transitivity (dot3 a a * dot3 b b - dot3 b a * dot3 b a); [unfold dot3, cross3; cbn [x3 y3 z3]; ring|].
    transitivity (dot3 a a * (dot3 b b - 2 * (dot3 b a / dot3 a a) * dot3 b a + dot3 b a / dot3 a a * (dot3 b a / dot3 a a) * dot3 a a)); [field; lra|].
    f_equal. set (x := dot3 b a / dot3 a a). unfold dot3, sub3, scale3. cbn [x3 y3 z3]. ring. }
  assert (X : - dot4 (mk4 0 (scale3 M (cross3 a b))) (mk4 0 (scale3 M (cross3 a b))) = (M * (sqrt (dot3 a a) * sqrt (dot3 tv tv))) * (M * (sqrt (dot3 a a) * sqrt (dot3 tv tv)))).
  { transitivity (M * M * ((sqrt (dot3 a a) * sqrt (dot3 a a)) * (sqrt (dot3 tv tv) * sqrt (dot3 tv tv)))); [|ring]. rewrite A2, T2, <- C, mk_mk.
    generalize (cross3 a b). intros v. unfold scale3, dot3. cbn [x3 y3 z3]. ring. }
  rewrite X, sqrt_square by (apply Rlt_le; repeat apply Rmult_lt_0_compat; assumption).
  assert (E : cross3 ez ex = scale3 (/ (sqrt (dot3 a a) * sqrt (dot3 tv tv))) (cross3 a b)).
  { unfold ez, ex. set (u := sqrt (dot3 a a)) in *. set (w := sqrt (dot3 tv tv)) in *. unfold tv. set (x := dot3 b a / dot3 a a).
    unfold cross3, scale3, sub3. cbn [x3 y3 z3]. f_equal; field; lra. }
  rewrite E. unfold mk4, scale4, scale3. cbn [t4 x4 y4 z4 x3 y3 z3]. f_equal; field; lra.
Qed.
Lemma rest_along s0 s : spin_along q p h (mk4 s0 s) = tapp3 (T3 ex (cross3 ez ex) ez) s.
Proof.
  unfold spin_along, dual. rewrite rest1, rest2, rest3. generalize (cross3 ez ex). intros ey. clearbody ez ex. unfold tapp3. cbn [TransModel.rx TransModel.ry TransModel.rz].
  f_equal; unfold mk4, scale4, dot4, dot3, r4; cbn [t4 x4 y4 z4 x3 y3 z3]; ring.
Qed.
End Rest.

(** ** Spin of the target in an event with a photon *)
Definition turn (c s : R) (v : vec3) : vec3 := V3 (c * x3 v - s * y3 v) (s * x3 v + c * y3 v) (z3 v).
Section Turn.
Variables c s : R. Hypothesis C : c * c + s * s = 1.
Lemma turn_dot u v : dot3 (turn c s u) (turn c s v) = dot3 u v.
Proof. unfold turn, dot3. cbn [x3 y3 z3]. transitivity ((c * c + s * s) * (x3 u * x3 v + y3 u * y3 v) + z3 u * z3 v); [ring|rewrite C; ring]. Qed.
Lemma turn_cross u v : cross3 (turn c s u) (turn c s v) = turn c s (cross3 u v).
Proof.
  unfold turn, cross3. cbn [x3 y3 z3]. f_equal; try ring.
  transitivity ((c * c + s * s) * (x3 u * y3 v - y3 u * x3 v)); [ring|rewrite C; ring].
Qed.
Lemma turn_scale x u : scale3 x (turn c s u) = turn c s (scale3 x u).
Proof. unfold turn, scale3. cbn [x3 y3 z3]. f_equal; ring. Qed.
Lemma turn_sub u v : sub3 (turn c s u) (turn c s v) = turn c s (sub3 u v).
Proof. unfold turn, sub3. cbn [x3 y3 z3]. f_equal; ring. Qed.
End Turn.
Section Shift.
Variables (M q0 q0' h0 c s : R) (a a' b eta : vec3).
Hypothesis HM : 0 < M.
Hypothesis C : c * c + s * s = 1.
Hypothesis Hqq : q0' * q0' < dot3 a' a'.
Variables qz pt pl : R.
Hypothesis Hqz : 0 < qz. Hypothesis Hpt : 0 < pt. Hypothesis Hq0 : q0 * q0 < qz * qz.
Let t3 v := turn c s v.
Let ez := scale3 (/ sqrt (dot3 a' a')) a'.
Let tv := sub3 (V3 pt 0 pl) (scale3 (dot3 (V3 pt 0 pl) a' / dot3 a' a') a').
Let ex := scale3 (/ sqrt (dot3 tv tv)) tv.
Hypothesis Htt : 0 < dot3 tv tv.
Lemma rest_spin : spin_vector (mk4 q0 (V3 0 0 qz)) (V4 M 0 0 0) (mk4 h0 (t3 (V3 pt 0 pl))) eta = mk4 0 (t3 eta).
Proof.
  assert (A : dot3 (V3 0 0 qz) (V3 0 0 qz) = qz * qz) by (unfold dot3; cbn [x3 y3 z3]; ring).
  assert (B : sub3 (t3 (V3 pt 0 pl)) (scale3 (dot3 (t3 (V3 pt 0 pl)) (V3 0 0 qz) / dot3 (V3 0 0 qz) (V3 0 0 qz)) (V3 0 0 qz)) = t3 (V3 pt 0 0)).
  { rewrite A. unfold t3, turn, sub3, scale3, dot3. cbn [x3 y3 z3]. f_equal; field; lra. }
  assert (D : dot3 (t3 (V3 pt 0 0)) (t3 (V3 pt 0 0)) = pt * pt) by (unfold t3; rewrite turn_dot by exact C; unfold dot3; cbn [x3 y3 z3]; ring).
  assert (S1 : sqrt (qz * qz) = qz) by (apply sqrt_square; lra). assert (S2 : sqrt (pt * pt) = pt) by (apply sqrt_square; lra).
  assert (P1 : 0 < qz * qz) by nra. assert (P2 : 0 < pt * pt) by nra.
  unfold spin_vector. rewrite rest1, rest2, rest3 by (rewrite ?B, ?D, ?A; assumption). rewrite !B, !D, !A, S1, S2.
  unfold mk4, add4, scale4, cross3, scale3, t3, turn. cbn [t4 x4 y4 z4 x3 y3 z3]. f_equal; field; lra.
Qed.
Lemma rest_shift : spin_along (mk4 q0' (t3 a')) (V4 M 0 0 0) (mk4 h0 (t3 (V3 pt 0 pl))) (spin_vector (mk4 q0 (V3 0 0 qz)) (V4 M 0 0 0) (mk4 h0 (t3 (V3 pt 0 pl))) eta) =
  tapp3 (T3 ex (cross3 ez ex) ez) eta.
Proof.
  rewrite rest_spin.
  assert (A : dot3 (t3 a') (t3 a') = dot3 a' a') by (apply turn_dot; exact C).
  assert (Haa : 0 < dot3 a' a') by nra.
  assert (B : sub3 (t3 (V3 pt 0 pl)) (scale3 (dot3 (t3 (V3 pt 0 pl)) (t3 a') / dot3 (t3 a') (t3 a')) (t3 a')) = t3 tv).
  { unfold t3. rewrite !turn_dot by exact C. rewrite turn_scale, turn_sub. reflexivity. }
  rewrite rest_along by (rewrite ?B; unfold t3; rewrite ?turn_dot by exact C; assumption).
  rewrite B, A. unfold t3. rewrite !turn_dot, !turn_scale, turn_cross by exact C. fold ex ez.
  unfold tapp3. cbn [TransModel.rx TransModel.ry TransModel.rz]. rewrite !turn_dot by exact C. reflexivity.
Qed.
End Shift.
