(** Proofs about transforms of tensors. *)
From Coq Require Import Reals Lra.
From Verif Require Import ExtModel MathModel VecModel TransModel VecTac VecProofs TransProofs TensorModel TensorSpec.
Local Open Scope R_scope.

Lemma tr4_ext a b : (forall v, tapp4 a v = tapp4 b v) -> a = b.
Proof.
  intros H. pose proof (H VEC4_T) as A. pose proof (H VEC4_X) as B. pose proof (H VEC4_Y) as C. pose proof (H VEC4_Z) as D. clear H.
  dvars. uvec. injection A as A1 A2 A3 A4. injection B as B1 B2 B3 B4. injection C as C1 C2 C3 C4. injection D as D1 D2 D3 D4. comps; lra.
Qed.
Lemma conj3_outer a v w : transform3_tr3 a (outer3 v w) = outer3 (transform3_vec3 a v) (transform3_vec3 a w).
Proof. unfold transform3_tr3, transform3_vec3. vring. Qed.
Lemma conj4_outer a v w : transform4_tr4 a (outer4 v w) = outer4 (transform4_vec4 a v) (transform4_vec4 a w).
Proof. unfold transform4_tr4, transform4_vec4. vring. Qed.
Lemma twice3 a : transpose3 (transpose3 a) = a.
Proof. dvars; reflexivity. Qed.
Lemma twice4 a : transpose4 (transpose4 a) = a.
Proof. dvars; reflexivity. Qed.
Lemma conj3_form a t v w : form3 (transform3_tr3 a t) v w = form3 t (dot_vec3_tr3 v a) (dot_vec3_tr3 w a).
Proof. unfold form3, transform3_tr3, dot_vec3_tr3, conj3. rewrite !tmul3_app. rewrite (transpose3_adj (transpose3 a)), twice3. reflexivity. Qed.
Lemma conj4_form a t v w : form4 (transform4_tr4 a t) v w = form4 t (dot_vec4_tr4 v a) (dot_vec4_tr4 w a).
Proof. unfold form4, transform4_tr4, dot_vec4_tr4, conj4. rewrite !tmul4_app. rewrite (transpose4_adj (transpose4 a)), twice4. reflexivity. Qed.
Lemma conj3_mul a b t : transform3_tr3 (tmul3 a b) t = transform3_tr3 a (transform3_tr3 b t).
Proof. unfold transform3_tr3, conj3. rewrite transpose3_mul, !tmul3_assoc. reflexivity. Qed.
Lemma conj4_mul a b t : transform4_tr4 (tmul4 a b) t = transform4_tr4 a (transform4_tr4 b t).
Proof. unfold transform4_tr4, conj4. rewrite transpose4_mul, !tmul4_assoc. reflexivity. Qed.
Lemma conj4_id t : transform4_tr4 TRANSFORM4_ID t = t.
Proof. unfold transform4_tr4. vring. Qed.
Lemma conj4_linear a s t u : transform4_tr4 a (tadd4 (tscale4 s t) u) = tadd4 (tscale4 s (transform4_tr4 a t)) (transform4_tr4 a u).
Proof. unfold transform4_tr4. vring. Qed.
Lemma conj_lift a t : transform3_tr4 a (lift4 t) = lift4 (transform3_tr3 a t) /\ transform4_tr3 (lift4 a) t = lift4 (transform3_tr3 a t).
Proof. unfold transform3_tr4, transform4_tr3, transform3_tr3, conj4, conj3. rewrite lift4_transpose, !lift4_mul. split; reflexivity. Qed.
Lemma trace4_cyc a b : trace4 (tmul4 a b) = trace4 (tmul4 b a).
Proof. vring. Qed.
Lemma trace3_cyc a b : trace3 (tmul3 a b) = trace3 (tmul3 b a).
Proof. vring. Qed.
Lemma iso4 a : isometry4 a -> tmul4 a (transpose4 a) = TRANSFORM4_ID /\ tmul4 (transpose4 a) a = TRANSFORM4_ID.
Proof. intros H. exact (proj2 (lorentz_inv a H)). Qed.
Lemma trace4_inv a t : isometry4 a -> trace4 (transform4_tr4 a t) = trace4 t.
Proof. intros H. unfold transform4_tr4, conj4. rewrite trace4_cyc, <- tmul4_assoc, (proj2 (iso4 a H)), (proj2 (id4 t)). reflexivity. Qed.
Lemma iso3 a : isometry3 a -> tmul3 (transpose3 a) a = TRANSFORM3_ID.
Proof.
  intros H. assert (G : forall v w, dot3 v (tapp3 (tmul3 (transpose3 a) a) w) = dot3 v w) by (intros v w; rewrite tmul3_app, <- transpose3_adj; apply H).
  set (m := tmul3 (transpose3 a) a) in *. clearbody m. pose proof (G VEC3_X) as X. pose proof (G VEC3_Y) as Y. pose proof (G VEC3_Z) as Z. clear G H.
  pose proof (X VEC3_X) as X1. pose proof (X VEC3_Y) as X2. pose proof (X VEC3_Z) as X3. pose proof (Y VEC3_X) as Y1. pose proof (Y VEC3_Y) as Y2. pose proof (Y VEC3_Z) as Y3.
  pose proof (Z VEC3_X) as Z1. pose proof (Z VEC3_Y) as Z2. pose proof (Z VEC3_Z) as Z3. clear X Y Z. dvars. uvec. comps; lra.
Qed.
Lemma trace3_inv a t : isometry3 a -> trace3 (transform3_tr3 a t) = trace3 t.
Proof. intros H. unfold transform3_tr3, conj3. rewrite trace3_cyc, <- tmul3_assoc, (iso3 a H), (proj2 (id3 t)). reflexivity. Qed.
Lemma conj4_prod a t u : isometry4 a -> transform4_tr4 a (tmul4 t u) = tmul4 (transform4_tr4 a t) (transform4_tr4 a u).
Proof.
  intros H. unfold transform4_tr4, conj4. rewrite !tmul4_assoc. rewrite <- (tmul4_assoc (transpose4 a) a), (proj2 (iso4 a H)), (proj2 (id4 _)). reflexivity.
Qed.
Lemma conj4_app a t v : isometry4 a -> tapp4 (transform4_tr4 a t) (transform4_vec4 a v) = transform4_vec4 a (tapp4 t v).
Proof.
  intros H. unfold transform4_tr4, transform4_vec4, conj4. rewrite <- !tmul4_app, !tmul4_assoc, (proj2 (iso4 a H)), (proj1 (id4 _)). reflexivity.
Qed.
Lemma det4_transpose a : det4 (transpose4 a) = det4 a.
Proof. vring. Qed.
Lemma det4_iso a : isometry4 a -> det4 a * det4 a = 1.
Proof. intros H. rewrite <- (det4_transpose a) at 1. rewrite <- det4_mul, (proj2 (iso4 a H)). uvec. ring. Qed.
Lemma det4_inv a t : isometry4 a -> det4 (transform4_tr4 a t) = det4 t.
Proof. intros H. unfold transform4_tr4, conj4. rewrite !det4_mul, det4_transpose. transitivity (det4 a * det4 a * det4 t); [ring|]. rewrite (det4_iso a H). ring. Qed.

(** Bivectors. *)
Lemma bivec4_app v bv w : tapp4 (bivec4 v bv) w = mk4 (- dot3 v (r4 w)) (sub3 (cross3 bv (r4 w)) (scale3 (t4 w) v)).
Proof. unfold bivec4. vring. Qed.
Lemma bivec4_anti v bv : antisymmetric4 (bivec4 v bv).
Proof. intros a b. unfold form4. rewrite !bivec4_app. vring. Qed.
Lemma anti_bivec t : antisymmetric4 t -> exists v bv, t = bivec4 v bv.
Proof.
  intros H. pose proof (H VEC4_T) as A. pose proof (H VEC4_X) as B. pose proof (H VEC4_Y) as C. pose proof (H VEC4_Z) as D. clear H.
  pose proof (A VEC4_T) as A1. pose proof (A VEC4_X) as A2. pose proof (A VEC4_Y) as A3. pose proof (A VEC4_Z) as A4. pose proof (B VEC4_X) as B1. pose proof (B VEC4_Y) as B2. pose proof (B VEC4_Z) as B3.
  pose proof (C VEC4_Y) as C1. pose proof (C VEC4_Z) as C2. pose proof (D VEC4_Z) as D1. clear A B C D.
  exists (r4 (ft t)), (V3 (z4 (fy t)) (- z4 (fx t)) (y4 (fx t))). unfold form4, bivec4 in *. dvars. uvec. comps; lra.
Qed.
Lemma conj_anti a t : antisymmetric4 t -> antisymmetric4 (transform4_tr4 a t).
Proof. intros H v w. rewrite !conj4_form. apply H. Qed.
(** The two invariants. *)
Lemma bivec_trace v bv : trace4 (tmul4 (bivec4 v bv) (bivec4 v bv)) = 2 * (dot3 v v - dot3 bv bv).
Proof. unfold bivec4. vring. Qed.
Lemma bivec_pf a v bv v' bv' : transform4_tr4 a (bivec4 v bv) = bivec4 v' bv' -> dot3 v' bv' = det4 a * dot3 v bv.
Proof.
  intros H.
  assert (A : v' = r4 (ft (bivec4 v' bv'))) by (clear H; unfold bivec4; vring).
  assert (B : bv' = V3 (z4 (fy (bivec4 v' bv'))) (- z4 (fx (bivec4 v' bv'))) (y4 (fx (bivec4 v' bv')))) by (clear H A; unfold bivec4; vring).
  rewrite <- H in A, B. clear H. rewrite A, B. clear A B. unfold transform4_tr4, bivec4. vring.
Qed.
Lemma bivec_moves a v bv : isometry4 a -> exists v' bv', transform4_tr4 a (bivec4 v bv) = bivec4 v' bv'
  /\ dot3 v' v' - dot3 bv' bv' = dot3 v v - dot3 bv bv /\ dot3 v' bv' = det4 a * dot3 v bv.
Proof.
  intros H. destruct (anti_bivec _ (conj_anti a _ (bivec4_anti v bv))) as (v' & bv' & E). exists v', bv'. split; [exact E|]. split; [|apply (bivec_pf a v bv v' bv' E)].
  pose proof (bivec_trace v' bv') as T. rewrite <- E, <- (conj4_prod a _ _ H), (trace4_inv a _ H), bivec_trace in T. lra.
Qed.
(** Boosts and rotations are exponentials of bivectors. *)
Lemma boost_rodrigues dir rap : dir <> VEC3_ZERO -> let b := bivec4 (unit3 dir) VEC3_ZERO in
  boost4 dir rap = tadd4 (tsub4 TRANSFORM4_ID (tscale4 (sinh rap) b)) (tscale4 (cosh rap - 1) (tmul4 b b)).
Proof.
  intros D b. unfold b, boost4. pose proof (unit3_norm dir D) as U. set (u := unit3 dir) in *. clearbody u. clear b D dir. destruct u as [p q r]. unfold bivec4. uvec.
  comps; try ring. transitivity (1 + (cosh rap - 1) * (p * p + q * q + r * r)); [rewrite U; ring|ring].
Qed.
Lemma rotate_rodrigues dir ang : dir <> VEC3_ZERO -> let b := bivec4 VEC3_ZERO (unit3 dir) in
  lift4 (rotate3 dir ang) = tadd4 (tadd4 TRANSFORM4_ID (tscale4 (sin ang) b)) (tscale4 (1 - cos ang) (tmul4 b b)).
Proof.
  intros D b. unfold b, rotate3. pose proof (unit3_norm dir D) as U. set (u := unit3 dir) in *. clearbody u. clear b D dir. destruct u as [p q r]. unfold bivec4. uvec.
  set (c := cos ang). set (s := sin ang). clearbody c s.
  assert (E1 : p * p = 1 - q * q - r * r) by lra. assert (E2 : q * q = 1 - p * p - r * r) by lra. assert (E3 : r * r = 1 - p * p - q * q) by lra.
  comps; try ring.
  - transitivity (- (c * 1 + s * 0 + (1 - c) * (p * p))); [ring|]. rewrite E1. ring.
  - transitivity (- (c * 1 + s * 0 + (1 - c) * (q * q))); [ring|]. rewrite E2. ring.
  - transitivity (- (c * 1 + s * 0 + (1 - c) * (r * r))); [ring|]. rewrite E3. ring.
Qed.
(** Rotations turn both parts of a bivector, the second as an axial vector. *)
Lemma iso3_right a : isometry3 a -> tmul3 a (transpose3 a) = TRANSFORM3_ID.
Proof.
  intros H. pose proof (proj1 (iso4 (lift4 a) (lift4_isometry a H))) as I. rewrite lift4_transpose, lift4_mul in I. set (m := tmul3 a (transpose3 a)) in *. clearbody m. clear H a. dvars. uvec. injection I as I1 I2 I3 I4 I5 I6 I7 I8 I9. comps; lra.
Qed.
Lemma det3_iso a : isometry3 a -> det3 a * det3 a = 1.
Proof. intros H. rewrite <- lift4_det. apply det4_iso. exact (lift4_isometry a H). Qed.
Lemma cross_iso a v w : isometry3 a -> tapp3 a (cross3 v w) = scale3 (det3 a) (cross3 (tapp3 a v) (tapp3 a w)).
Proof.
  intros H. assert (P : tapp3 (transpose3 a) (cross3 (tapp3 a v) (tapp3 a w)) = scale3 (det3 a) (cross3 v w)) by (clear H; vring).
  apply (f_equal (tapp3 a)) in P. rewrite <- tmul3_app, (iso3_right a H) in P. assert (I : forall u, tapp3 TRANSFORM3_ID u = u) by (intros u; vring). rewrite I in P. rewrite P. clear P I.
  assert (L : forall s u, tapp3 a (scale3 s u) = scale3 s (tapp3 a u)) by (clear H; intros s u; vring). rewrite L.
  assert (S : forall s u, s * s = 1 -> scale3 s (scale3 s u) = u). { clear. intros s u E. destruct u as [p q r]. uvec. comps; match goal with |- _ = ?x => transitivity (s * s * x); [ring|rewrite E; ring] end. }
  rewrite S; [reflexivity|exact (det3_iso a H)].
Qed.
Lemma rotate_bivec a v bv : isometry3 a -> transform3_tr4 a (bivec4 v bv) = bivec4 (tapp3 a v) (scale3 (det3 a) (tapp3 a bv)).
Proof.
  intros H. pose proof (lift4_isometry a H) as H4. apply tr4_ext. intros w. assert (W : w = tapp4 (lift4 a) (tapp4 (lift4 (transpose3 a)) w)).
  { rewrite <- tmul4_app, lift4_mul, (iso3_right a H). clear. vring. }
  rewrite W. set (u := tapp4 (lift4 (transpose3 a)) w). clearbody u. clear W w. change (transform3_tr4 a (bivec4 v bv)) with (transform4_tr4 (lift4 a) (bivec4 v bv)).
  change (tapp4 (lift4 a) u) with (transform4_vec4 (lift4 a) u) at 1. rewrite (conj4_app (lift4 a) _ _ H4). unfold transform4_vec4. rewrite !bivec4_app, !lift4_props.
  assert (R4 : forall t v, r4 (mk4 t v) = v) by (clear; intros t v; dvars; reflexivity). assert (T4' : forall t v, t4 (mk4 t v) = t) by reflexivity.
  set (z := r4 u). set (t := t4 u). rewrite !T4', !R4.
  replace (tapp3 a (sub3 (cross3 bv z) (scale3 t v))) with (sub3 (tapp3 a (cross3 bv z)) (scale3 t (tapp3 a v))) by (clear; vring).
  rewrite (cross_iso a bv z H), (H v z). replace (cross3 (scale3 (det3 a) (tapp3 a bv)) (tapp3 a z)) with (scale3 (det3 a) (cross3 (tapp3 a bv) (tapp3 a z))) by (clear; vring). reflexivity.
Qed.
Lemma boost_zero_tensor : transform4_tr3 TRANSFORM4_ID (mk_tr3 0 0 0 0 0 0 0 0 0) <> T4 VEC4_ZERO VEC4_ZERO VEC4_ZERO VEC4_ZERO.
Proof. intros H. apply (f_equal (fun t => t4 (ft t))) in H. revert H. unfold transform4_tr3. uvec. lra. Qed.
