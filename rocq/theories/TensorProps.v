(** C105: transforms of tensors. *)
From Coq Require Import Reals Lra.
From Verif Require Import ExtModel MathModel VecModel TransModel VecTac TransProofs TensorModel TensorSpec TensorProofs.
Local Open Scope R_scope.

(** Transforming the outer product of two vectors is transforming the vectors. *)
Theorem C105_outer a v w b v' w' :
  transform3_tr3 a (outer3 v w) = outer3 (transform3_vec3 a v) (transform3_vec3 a w)
  /\ transform4_tr4 b (outer4 v' w') = outer4 (transform4_vec4 b v') (transform4_vec4 b w').
Proof. exact (conj (conj3_outer a v w) (conj4_outer b v' w')). Qed.
(** As a bilinear form: the arguments are moved by the transposed transform. *)
Theorem C105_form a t v w b u v' w' :
  form3 (transform3_tr3 a t) v w = form3 t (dot_vec3_tr3 v a) (dot_vec3_tr3 w a)
  /\ form4 (transform4_tr4 b u) v' w' = form4 u (dot_vec4_tr4 v' b) (dot_vec4_tr4 w' b).
Proof. exact (conj (conj3_form a t v w) (conj4_form b u v' w')). Qed.
(** One after the other; not at all; sums and multiples. *)
Theorem C105_action a b t a' b' t' u s :
  transform3_tr3 (tmul3 a b) t = transform3_tr3 a (transform3_tr3 b t)
  /\ transform4_tr4 (tmul4 a' b') t' = transform4_tr4 a' (transform4_tr4 b' t')
  /\ transform4_tr4 TRANSFORM4_ID t' = t'
  /\ transform4_tr4 a' (tadd4 (tscale4 s t') u) = tadd4 (tscale4 s (transform4_tr4 a' t')) (transform4_tr4 a' u).
Proof. exact (conj (conj3_mul a b t) (conj (conj4_mul a' b' t') (conj (conj4_id t') (conj4_linear a' s t' u)))). Qed.
(** Three and four dimensions agree on embedded tensors. *)
Theorem C105_embedding a t : transform3_tr4 a (lift4 t) = lift4 (transform3_tr3 a t) /\ transform4_tr3 (lift4 a) t = lift4 (transform3_tr3 a t).
Proof. exact (conj_lift a t). Qed.
(** A Lorentz transform keeps trace and determinant, respects products, and moves the result with the argument. *)
Theorem C105_lorentz a t u v : isometry4 a ->
  trace4 (transform4_tr4 a t) = trace4 t /\ det4 (transform4_tr4 a t) = det4 t
  /\ transform4_tr4 a (tmul4 t u) = tmul4 (transform4_tr4 a t) (transform4_tr4 a u)
  /\ tapp4 (transform4_tr4 a t) (transform4_vec4 a v) = transform4_vec4 a (tapp4 t v).
Proof. exact (fun H => conj (trace4_inv a t H) (conj (det4_inv a t H) (conj (conj4_prod a t u H) (conj4_app a t v H)))). Qed.
Theorem C105_rotation a t : isometry3 a -> trace3 (transform3_tr3 a t) = trace3 t.
Proof. exact (trace3_inv a t). Qed.
(** Bivectors are exactly the antisymmetric tensors, and act on vectors like a field on a velocity. *)
Theorem C105_bivector v bv w t : tapp4 (bivec4 v bv) w = mk4 (- dot3 v (r4 w)) (sub3 (cross3 bv (r4 w)) (scale3 (t4 w) v))
  /\ antisymmetric4 (bivec4 v bv) /\ (antisymmetric4 t -> exists v' bv', t = bivec4 v' bv').
Proof. exact (conj (bivec4_app v bv w) (conj (bivec4_anti v bv) (anti_bivec t))). Qed.
(** A Lorentz transform takes bivectors to bivectors and keeps their two invariants. *)
Theorem C105_bivector_invariants a v bv : isometry4 a -> exists v' bv', transform4_tr4 a (bivec4 v bv) = bivec4 v' bv'
  /\ dot3 v' v' - dot3 bv' bv' = dot3 v v - dot3 bv bv /\ dot3 v' bv' = det4 a * dot3 v bv.
Proof. exact (bivec_moves a v bv). Qed.
(** A rotation turns both parts; under a reflection the second part is an axial vector. *)
Theorem C105_bivector_rotated a v bv : isometry3 a -> transform3_tr4 a (bivec4 v bv) = bivec4 (tapp3 a v) (scale3 (det3 a) (tapp3 a bv)).
Proof. exact (rotate_bivec a v bv). Qed.
(** Boosts and rotations in terms of the bivectors that generate them. *)
Theorem C105_generators dir s : dir <> VEC3_ZERO -> let b := bivec4 (unit3 dir) VEC3_ZERO in let r := bivec4 VEC3_ZERO (unit3 dir) in
  boost4 dir s = tadd4 (tsub4 TRANSFORM4_ID (tscale4 (sinh s) b)) (tscale4 (cosh s - 1) (tmul4 b b))
  /\ lift4 (rotate3 dir s) = tadd4 (tadd4 TRANSFORM4_ID (tscale4 (sin s) r)) (tscale4 (1 - cos s) (tmul4 r r)).
Proof. exact (fun H => conj (boost_rodrigues dir s H) (rotate_rodrigues dir s H)). Qed.
(** Transforming a spatial tensor by a four-dimensional transform is not linear: it is given a time component of one,
    so that even the zero tensor is transformed into something else. *)
Theorem C105_spatial_tensor_linear_refuted : transform4_tr3 TRANSFORM4_ID (mk_tr3 0 0 0 0 0 0 0 0 0) <> T4 VEC4_ZERO VEC4_ZERO VEC4_ZERO VEC4_ZERO.
Proof. exact boost_zero_tensor. Qed.
(** A quarter turn about z. *)
Example C105_example : isometry3 (mk_tr3 0 (-1) 0 1 0 0 0 0 1) /\ det3 (mk_tr3 0 (-1) 0 1 0 0 0 0 1) = 1
  /\ transform3_tr4 (mk_tr3 0 (-1) 0 1 0 0 0 0 1) (bivec4 (V3 1 2 3) (V3 4 5 6)) = bivec4 (V3 (-2) 1 3) (V3 (-5) 4 6).
Proof. split; [intros v w; vring|]. split; [uvec; ring|]. unfold transform3_tr4, bivec4. uvec. comps; ring. Qed.
Example C105_example_boost : isometry4 (boost4 VEC3_Z 1).
Proof. refine (proj1 (boost4_props VEC3_Z 1 _)). intros E. inversion E. lra. Qed.
Print Assumptions C105_outer.
Print Assumptions C105_form.
Print Assumptions C105_action.
Print Assumptions C105_embedding.
Print Assumptions C105_lorentz.
Print Assumptions C105_rotation.
Print Assumptions C105_bivector.
Print Assumptions C105_bivector_invariants.
Print Assumptions C105_bivector_rotated.
Print Assumptions C105_generators.
Print Assumptions C105_spatial_tensor_linear_refuted.
