(** C01, C02: intervals. *)
From Coq Require Import Reals Lra.
From Verif Require Import ExtModel BoundModel BoundSpec BoundProofs.
Local Open Scope R_scope.

(** C01: intersection is set intersection, for all pairs of ends and all points. *)
Theorem C01_intersection_points a b x :
  contains (binter a b) x = true <-> contains a x = true /\ contains b x = true.
Proof. exact (binter_contains a b x). Qed.

(** C01: [contains] is membership of the closed interval; NaN is contained in nothing. *)
Theorem C01_contains_meaning b x :
  contains b x = true <-> ext_le (bmin b) x /\ ext_le x (bmax b).
Proof. exact (contains_points b x). Qed.

Theorem C01_intersection_invalid_iff_disjoint a b :
  is_invalid (binter a b) <-> ~ (exists x, contains a x = true /\ contains b x = true).
Proof. exact (binter_invalid a b). Qed.

(** C01: the constructor yields exactly the points between its arguments, and the invalid bound if none. *)
Theorem C01_constructor mn mx :
  (forall x, contains (mk_bound mn mx) x = true <-> ext_le mn x /\ ext_le x mx) /\
  (~ ext_le mn mx -> is_invalid (mk_bound mn mx)) /\
  (valid (mk_bound mn mx) = true <-> ext_le mn mx).
Proof.
  refine (conj _ (conj (mk_bound_empty mn mx) _)).
  - exact (fun x => iff_trans (contains_points _ x) (mk_bound_points mn mx x)).
  - exact (mk_bound_valid mn mx).
Qed.

(** C01: as objects (both ends, bit for bit up to the sign of zero) the operator is commutative and associative. *)
Theorem C01_intersection_comm_assoc a b c :
  binter a b = binter b a /\ binter (binter a b) c = binter a (binter b c).
Proof. exact (conj (binter_comm a b) (binter_assoc a b c)). Qed.

Example C01_example_overlap :
  binter (mk_bound (Fin 0) (Fin 2)) (mk_bound (Fin 1) PInf) = mk_bound (Fin 1) (Fin 2).
Proof.
  apply canonical_ext; [apply binter_shape|apply mk_bound_canonical|]. intros x.
  rewrite binter_points, !mk_bound_points. split.
  - intros [[H1 H2] [H3 H4]]. split; assumption.
  - intros [H1 H2]. repeat split; auto; inversion H1; subst; inversion H2; subst; constructor; lra.
Qed.
Example C01_example_touching :
  contains (binter (mk_bound (Fin 0) (Fin 1)) (mk_bound (Fin 1) (Fin 2))) (Fin 1) = true.
Proof.
  apply C01_intersection_points. split; apply contains_points, mk_bound_points; split; constructor; lra.
Qed.

(** C02: the union is the smallest interval containing both. *)
Theorem C02_union_is_hull a b : valid a = true -> valid b = true ->
  (forall x, contains a x = true \/ contains b x = true -> contains (bunion a b) x = true) /\
  (forall c, (forall x, contains a x = true \/ contains b x = true -> contains c x = true) ->
     forall x, contains (bunion a b) x = true -> contains c x = true).
Proof. exact (bunion_hull a b). Qed.

Theorem C02_shift b s x :
  contains (badd b (Fin s)) (Fin (x + s)) = contains b (Fin x) /\
  contains (bsub b (Fin s)) (Fin (x - s)) = contains b (Fin x).
Proof. exact (conj (badd_contains b s x) (bsub_contains b s x)). Qed.

Theorem C02_scale b s x : 0 < s ->
  contains (bmul b (Fin s)) (Fin (x * s)) = contains b (Fin x) /\
  contains (bdiv b (Fin s)) (Fin (x / s)) = contains b (Fin x).
Proof. exact (fun H => conj (bmul_contains b s x H) (bdiv_contains b s x H)). Qed.

Theorem C02_scale_negative_invalid b s :
  (s < 0 -> is_invalid (bmul b (Fin s))) /\ (s <= 0 -> is_invalid (bdiv b (Fin s))).
Proof. exact (conj (bmul_negative b s) (bdiv_nonpositive b s)). Qed.

Theorem C02_lerp a b : a <= b ->
  let B := mk_bound (Fin a) (Fin b) in
  lerp B (Fin 0) = Fin a /\ lerp B (Fin 1) = Fin b /\
  (forall p, 0 <= p <= 1 -> contains B (lerp B (Fin p)) = true) /\
  (forall p p', p <= p' -> ext_le (lerp B (Fin p)) (lerp B (Fin p'))) /\
  (forall x, contains B (Fin x) = true -> exists p, 0 <= p <= 1 /\ lerp B (Fin p) = Fin x).
Proof. exact (lerp_props a b). Qed.

(** Scaling an unbounded interval by zero does not give the interval [0,0]. *)
Theorem C02_scale_by_zero_refuted :
  exists b, contains b (Fin 0) = true /\ contains (bmul b (Fin 0)) (Fin (0 * 0)) = false.
Proof.
  exact (ex_intro _ BOUND_POSITIVE
    (conj (proj2 (proj1 (C01_constructor (Fin 0) PInf) (Fin 0))
            (conj (le_fin 0 0 (Rle_refl 0)) (le_fin_pinf 0)))
          (eq_ind_r (fun t => contains _ (Fin t) = false) (proj2 bmul_zero_unbounded) (Rmult_0_l 0)))).
Qed.

Example C02_example : lerp (mk_bound (Fin 1) (Fin 5)) (Fin (1/4)) = Fin 2.
Proof.
  unfold mk_bound. replace (eleb (Fin 1) (Fin 5)) with true by (symmetry; apply rleb_spec; lra).
  cbn. f_equal. lra.
Qed.

Print Assumptions C01_intersection_points.
Print Assumptions C01_contains_meaning.
Print Assumptions C01_intersection_invalid_iff_disjoint.
Print Assumptions C01_constructor.
Print Assumptions C01_intersection_comm_assoc.
Print Assumptions C02_union_is_hull.
Print Assumptions C02_shift.
Print Assumptions C02_scale.
Print Assumptions C02_scale_negative_invalid.
Print Assumptions C02_lerp.
Print Assumptions C02_scale_by_zero_refuted.
