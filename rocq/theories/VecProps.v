(** C09-C16: vectors and linear transforms. *)
From Coq Require Import Reals Lra ZArith.
From Verif Require Import ExtModel BoundProofs VecModel TransModel VecTac VecProofs TransProofs.
Local Open Scope R_scope.

(** C09 *)
Theorem C09_par_perp a v : add3 (par3 a v) (perp3 a v) = a /\ dot3 (perp3 a v) v = 0 /\
  (v <> VEC3_ZERO -> cross3 (par3 a v) v = VEC3_ZERO).
Proof. exact (par_perp3 a v). Qed.
Theorem C09_norm a : norm3 a = sqrt (x3 a * x3 a + y3 a * y3 a + z3 a * z3 a).
Proof. exact (norm3_eq a). Qed.
Theorem C09_unit a : scale3 (norm3 a) (unit3 a) = a /\ (a <> VEC3_ZERO -> norm_sq3 (unit3 a) = 1) /\
  unit3 VEC3_ZERO = VEC3_ZERO.
Proof. exact (conj (unit3_dir a) (conj (unit3_norm a) unit3_zero)). Qed.
Theorem C09_angle_between a b : a <> VEC3_ZERO -> b <> VEC3_ZERO ->
  0 <= angle_between a b <= PI /\ norm3 a * norm3 b * cos (angle_between a b) = dot3 a b.
Proof. exact (angle_between_cos a b). Qed.
(** The same decomposition for four-vectors; the projection axis must not be light-like. *)
Theorem C09_par_perp4 a v : add4 (par4 a v) (perp4 a v) = a /\
  (norm_sq4 v <> 0 -> dot4 (perp4 a v) v = 0 /\ par4 a v = scale4 (dot4 a v / norm_sq4 v) v).
Proof. exact (par_perp4 a v). Qed.
Theorem C09_norm4 a : norm4 a = sqrt (Rabs (dot4 a a)) /\
  (norm_sq4 a <> 0 -> scale4 (norm4 a) (unit4 a) = a).
Proof. exact (conj (norm4_eq a) (unit4_dir a)). Qed.
Example C09_example : perp3 (V3 3 4 0) (V3 2 0 0) = V3 0 4 0.
Proof.
  unfold perp3, norm_sq3. replace (reqb (dot3 (V3 2 0 0) (V3 2 0 0)) 0) with false
    by (symmetry; apply reqb_false; unfold dot3; cbn; lra).
  uvec. comps; field.
Qed.

(** C10: the four-dimensional cross product is alternating and linear, but not Minkowski-orthogonal to its
    arguments; the vector with reversed spatial part is. *)
Theorem C10_cross_orthogonal_refuted : exists a b c, dot4 (cross4 a b c) a <> 0.
Proof. exact cross4_orth_refuted. Qed.
Theorem C10_cross_flipped_orthogonal a b c :
  let n := cross4 a b c in let f := V4 (t4 n) (- x4 n) (- y4 n) (- z4 n) in
  dot4 f a = 0 /\ dot4 f b = 0 /\ dot4 f c = 0.
Proof. exact (cross4_orth_flipped a b c). Qed.
Theorem C10_cross_alternating a b c :
  cross4 b a c = neg4 (cross4 a b c) /\ cross4 a c b = neg4 (cross4 a b c).
Proof. exact (cross4_alt a b c). Qed.
Theorem C10_cross_linear s a a' b c :
  cross4 (add4 (scale4 s a) a') b c = add4 (scale4 s (cross4 a b c)) (cross4 a' b c).
Proof. exact (cross4_lin s a a' b c). Qed.
Theorem C10_cross_length a b c :
  let '(aa, bb, cc) := (dot4 a a, dot4 b b, dot4 c c) in
  let '(ab, bc, ca) := (dot4 a b, dot4 b c, dot4 c a) in
  dot4 (cross4 a b c) (cross4 a b c) =
    - (aa * bb * cc + 2 * ab * bc * ca - aa * bc * bc - bb * ca * ca - cc * ab * ab).
Proof. exact (cross4_gram a b c). Qed.
Theorem C10_partial_cross_is_cross a b c u v :
  tapp4 (tcross4 a b) c = cross4 a b c /\ tapp3 (tcross3 u) v = cross3 u v.
Proof. exact (conj (tcross4_app a b c) (tcross3_app u v)). Qed.
Example C10_example : cross4 VEC4_X VEC4_Y VEC4_Z = VEC4_T.
Proof. exact (proj1 cross4_basis). Qed.

(** C11 *)
Theorem C11_from_length_and_r m p v : from_length_and_r m p = Some v ->
  r4 v = p /\ 0 <= t4 v /\ dot4 v v = m * m.
Proof. exact (from_length_and_r_spec m p v). Qed.
Theorem C11_from_length_and_r_defined m p :
  (exists v, from_length_and_r m p = Some v) <-> m <> 0 \/ p <> VEC3_ZERO.
Proof. exact (from_length_and_r_defined m p). Qed.
Theorem C11_from_length_and_t m t dir v : dir <> VEC3_ZERO -> from_length_and_t m t dir = Some v ->
  t4 v = t /\ dot4 v v = m * m /\ exists k, 0 <= k /\ r4 v = scale3 k (unit3 dir).
Proof. exact (from_length_and_t_spec m t dir v). Qed.
Theorem C11_from_length_and_t_defined m t dir :
  (exists v, from_length_and_t m t dir = Some v) <-> t <> 0 /\ Rabs m <= Rabs t.
Proof. exact (from_length_and_t_defined m t dir). Qed.
Example C11_example : exists v, from_length_and_r 3 (V3 0 4 0) = Some v /\ dot4 v v = 9.
Proof.
  destruct (proj2 (C11_from_length_and_r_defined 3 (V3 0 4 0))) as [v Hv]; [left; lra|].
  exists v. split; auto. apply C11_from_length_and_r in Hv as (_ & _ & ->). lra.
Qed.

(** C12 *)
Theorem C12_rotate dir angle : dir <> VEC3_ZERO ->
  let r := rotate3 dir angle in
  (forall v w, dot3 (tapp3 r v) (tapp3 r w) = dot3 v w) /\ det3 r = 1 /\ tapp3 r dir = dir /\
  transpose3 r = rotate3 dir (- angle) /\
  (forall angle', tmul3 r (rotate3 dir angle') = rotate3 dir (angle + angle')) /\
  trace3 r = 1 + 2 * cos angle.
Proof. exact (rotate3_props dir angle). Qed.
Theorem C12_rotate_orientation angle : tapp3 (rotate3 VEC3_Z angle) VEC3_X = V3 (cos angle) (sin angle) 0.
Proof. exact (rotate3_z angle). Qed.
Theorem C12_rotate_basis z_axis y_up : cross3 y_up z_axis <> VEC3_ZERO ->
  let r := rotate_basis3 z_axis y_up in
  (forall v w, dot3 (tapp3 r v) (tapp3 r w) = dot3 v w) /\ det3 r = 1 /\
  tapp3 r z_axis = V3 0 0 (norm3 z_axis) /\
  x3 (tapp3 r y_up) = 0 /\ 0 < y3 (tapp3 r y_up).
Proof. exact (rotate_basis3_props z_axis y_up). Qed.
(** A zero axis silently gives a singular matrix. *)
Theorem C12_rotate_zero_axis_refuted : exists angle, det3 (rotate3 VEC3_ZERO angle) = 0.
Proof. exact rotate3_zero_axis. Qed.
Theorem C12_scale_project d s : d <> VEC3_ZERO ->
  tapp3 (tr_scale3 d s) d = scale3 s d /\ (forall v, dot3 v d = 0 -> tapp3 (tr_scale3 d s) v = v) /\
  det3 (tr_scale3 d s) = s /\
  (forall p, project3 d = Some p -> (forall v, tapp3 p v = par3 v d) /\ tmul3 p p = p).
Proof.
  exact (fun H => let t := tr_scale3_props d s H in
    conj (proj1 t) (conj (proj1 (proj2 t)) (conj (proj2 (proj2 t)) (project3_props d)))).
Qed.
Theorem C12_project4 d p : project4 d = Some p -> (forall v, tapp4 p v = par4 v d) /\ tmul4 p p = p.
Proof. exact (project4_props d p). Qed.
Example C12_example_project4 : exists p, project4 (V4 2 1 0 0) = Some p /\ tapp4 p (V4 3 0 0 1) = V4 4 2 0 0.
Proof.
  unfold project4. destruct (reqb _ _) eqn:E; [apply reqb_spec in E; revert E; uvec; cbn; lra|]. eexists. split; [reflexivity|]. uvec. comps; field.
Qed.
Example C12_example : det3 (rotate3 (V3 1 2 3) 1) = 1.
Proof. apply C12_rotate. intros E; inversion E; lra. Qed.

(** C13 *)
Theorem C13_rotate_to a b : a <> VEC3_ZERO -> b <> VEC3_ZERO -> dot3 (unit3 a) (unit3 b) <> -1 ->
  let r := rotate_to3 a b in
  (forall v w, dot3 (tapp3 r v) (tapp3 r w) = dot3 v w) /\ det3 r = 1 /\ tapp3 r (unit3 a) = unit3 b.
Proof. exact (rotate_to3_props a b). Qed.
(** For opposite directions the result is a reflection through the origin, not a rotation. *)
Theorem C13_rotate_to_opposite_refuted a : a <> VEC3_ZERO -> det3 (rotate_to3 a (neg3 a)) = -1.
Proof. exact (rotate_to3_opposite a). Qed.
Example C13_example : tapp3 (rotate_to3 VEC3_X VEC3_Z) (unit3 VEC3_X) = unit3 VEC3_Z.
Proof.
  apply C13_rotate_to; try (intros E; inversion E; lra).
  rewrite !unit3_id; uvec; lra.
Qed.

(** C14 *)
Theorem C14_product3 a b c v :
  tmul3 (tmul3 a b) c = tmul3 a (tmul3 b c) /\ tapp3 (tmul3 a b) v = tapp3 a (tapp3 b v) /\
  det3 (tmul3 a b) = det3 a * det3 b /\ transpose3 (tmul3 a b) = tmul3 (transpose3 b) (transpose3 a).
Proof. exact (conj (tmul3_assoc a b c) (conj (tmul3_app a b v) (conj (det3_mul a b) (transpose3_mul a b)))). Qed.
Theorem C14_product4 a b c v :
  tmul4 (tmul4 a b) c = tmul4 a (tmul4 b c) /\ tapp4 (tmul4 a b) v = tapp4 a (tapp4 b v) /\
  det4 (tmul4 a b) = det4 a * det4 b /\ transpose4 (tmul4 a b) = tmul4 (transpose4 b) (transpose4 a).
Proof. exact (conj (tmul4_assoc a b c) (conj (tmul4_app a b v) (conj (det4_mul a b) (transpose4_mul a b)))). Qed.
Theorem C14_inverse3 a : det3 a <> 0 -> tmul3 a (inv3 a) = TRANSFORM3_ID /\ tmul3 (inv3 a) a = TRANSFORM3_ID.
Proof. exact (inv3_both a). Qed.
Theorem C14_inverse4 a : det4 a <> 0 -> tmul4 a (inv4 a) = TRANSFORM4_ID /\ tmul4 (inv4 a) a = TRANSFORM4_ID.
Proof. exact (inv4_both a). Qed.
Theorem C14_identity a b v : tmul3 a TRANSFORM3_ID = a /\ tmul3 TRANSFORM3_ID a = a /\
  tmul4 b TRANSFORM4_ID = b /\ tmul4 TRANSFORM4_ID b = b /\ tapp4 TRANSFORM4_ID v = v.
Proof.
  exact (conj (proj1 (id3 a)) (conj (proj2 (id3 a)) (conj (proj1 (id4 b)) (conj (proj2 (id4 b)) (id4_app v))))).
Qed.
(** The transpose is the adjoint for the (Minkowski) product. *)
Theorem C14_adjoint a b v w v' w' :
  dot3 (tapp3 a v) w = dot3 v (tapp3 (transpose3 a) w) /\
  dot4 (tapp4 b v') w' = dot4 v' (tapp4 (transpose4 b) w').
Proof. exact (conj (transpose3_adj a v w) (transpose4_adj b v' w')). Qed.
Theorem C14_lorentz_inverse a : (forall v w, dot4 (tapp4 a v) (tapp4 a w) = dot4 v w) ->
  inv4 a = transpose4 a /\ tmul4 a (transpose4 a) = TRANSFORM4_ID /\ tmul4 (transpose4 a) a = TRANSFORM4_ID.
Proof. exact (lorentz_inv a). Qed.
(** Embedding a spatial transform into four dimensions. *)
Theorem C14_lift a b v : tapp4 (lift4 a) v = mk4 (t4 v) (tapp3 a (r4 v)) /\
  tmul4 (lift4 a) (lift4 b) = lift4 (tmul3 a b) /\ det4 (lift4 a) = det3 a.
Proof. exact (conj (lift4_props a v) (conj (lift4_mul a b) (lift4_det a))). Qed.
Example C14_example : det4 (mk_tr4 2 0 0 0 0 3 0 0 0 0 1 0 1 0 0 1) = 6.
Proof. uvec. ring. Qed.

(** C15 *)
Theorem C15_boost dir rap : dir <> VEC3_ZERO ->
  let b := boost4 dir rap in
  (forall v w, dot4 (tapp4 b v) (tapp4 b w) = dot4 v w) /\ det4 b = 1 /\
  tapp4 b VEC4_T = mk4 (cosh rap) (scale3 (sinh rap) (unit3 dir)) /\
  (forall rap', tmul4 b (boost4 dir rap') = boost4 dir (rap + rap')).
Proof. exact (boost4_props dir rap). Qed.
Theorem C15_transform_to a b t : transform_to4 a b = Some t ->
  (forall v w, dot4 (tapp4 t v) (tapp4 t w) = dot4 v w) /\ tapp4 t (unit4 a) = unit4 b.
Proof. exact (transform_to4_props a b t). Qed.
Theorem C15_transform_to_defined a b : 0 < dot4 a a -> 0 < dot4 b b -> 0 < t4 a * t4 b ->
  exists t, transform_to4 a b = Some t.
Proof. exact (transform_to4_defined a b). Qed.
(** A boost along the zero vector is not a Lorentz transform. *)
Theorem C15_boost_zero_direction_refuted : exists rap,
  dot4 (tapp4 (boost4 VEC3_ZERO rap) VEC4_T) (tapp4 (boost4 VEC3_ZERO rap) VEC4_T) <> dot4 VEC4_T VEC4_T.
Proof. exact boost4_zero_dir. Qed.
Example C15_example : exists t, transform_to4 (V4 5 3 0 0) VEC4_T = Some t.
Proof. apply C15_transform_to_defined; unfold dot4; cbn; lra. Qed.

(** C16 *)
Theorem C16_sym_prod3_refuted :
  exists a b, sym_prod3 a b <> sym_prod3 b a /\ transpose3 (sym_prod3 a b) <> sym_prod3 a b.
Proof. exact sym_prod_bad. Qed.
Theorem C16_sym_prod4_refuted :
  exists a b, sym_prod4 a b <> sym_prod4 b a /\ transpose4 (sym_prod4 a b) <> sym_prod4 a b.
Proof. exact sym_prod4_bad. Qed.
Theorem C16_asym_prod_antisymmetric a b : asym_prod3 a b = tscale3 (-1) (asym_prod3 b a) /\
  transpose3 (asym_prod3 a b) = tscale3 (-1) (asym_prod3 a b).
Proof. exact (asym_prod_ok a b). Qed.

Print Assumptions C09_par_perp.
Print Assumptions C09_norm.
Print Assumptions C09_unit.
Print Assumptions C09_angle_between.
Print Assumptions C09_par_perp4.
Print Assumptions C09_norm4.
Print Assumptions C10_cross_orthogonal_refuted.
Print Assumptions C10_cross_flipped_orthogonal.
Print Assumptions C10_cross_alternating.
Print Assumptions C10_cross_linear.
Print Assumptions C10_cross_length.
Print Assumptions C10_partial_cross_is_cross.
Print Assumptions C11_from_length_and_r.
Print Assumptions C11_from_length_and_r_defined.
Print Assumptions C11_from_length_and_t.
Print Assumptions C11_from_length_and_t_defined.
Print Assumptions C12_rotate.
Print Assumptions C12_rotate_orientation.
Print Assumptions C12_rotate_basis.
Print Assumptions C12_rotate_zero_axis_refuted.
Print Assumptions C12_scale_project.
Print Assumptions C13_rotate_to.
Print Assumptions C13_rotate_to_opposite_refuted.
Print Assumptions C14_product3.
Print Assumptions C14_product4.
Print Assumptions C14_inverse3.
Print Assumptions C14_inverse4.
Print Assumptions C14_identity.
Print Assumptions C14_adjoint.
Print Assumptions C14_lorentz_inverse.
Print Assumptions C14_lift.
Print Assumptions C15_boost.
Print Assumptions C15_transform_to.
Print Assumptions C15_transform_to_defined.
Print Assumptions C15_boost_zero_direction_refuted.
Print Assumptions C16_sym_prod3_refuted.
Print Assumptions C12_project4.
Print Assumptions C16_sym_prod4_refuted.
Print Assumptions C16_asym_prod_antisymmetric.
