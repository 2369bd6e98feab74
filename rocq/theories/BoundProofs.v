From Coq Require Import Reals Bool Lra.
From Verif Require Import ExtModel BoundModel BoundSpec.
Local Open Scope R_scope.

Lemma rleb_spec x y : rleb x y = true <-> x <= y.
Proof. unfold rleb; destruct (Rle_dec x y); split; intros; auto; discriminate. Qed.
Lemma rltb_spec x y : rltb x y = true <-> x < y.
Proof. unfold rltb; destruct (Rlt_dec x y); split; intros; auto; discriminate. Qed.
Lemma reqb_spec x y : reqb x y = true <-> x = y.
Proof. unfold reqb; destruct (Req_EM_T x y); split; intros; auto; discriminate. Qed.
Lemma rleb_false x y : rleb x y = false <-> y < x.
Proof. unfold rleb; destruct (Rle_dec x y); split; intros; auto; try discriminate; lra. Qed.
Lemma rltb_false x y : rltb x y = false <-> y <= x.
Proof. unfold rltb; destruct (Rlt_dec x y); split; intros; auto; try discriminate; lra. Qed.
Lemma reqb_false x y : reqb x y = false <-> x <> y.
Proof. unfold reqb; destruct (Req_EM_T x y); split; intros; auto; try discriminate; contradiction. Qed.

Lemma eleb_spec a b : eleb a b = true <-> ext_le a b.
Proof.
  destruct a, b; simpl; split; intros H; try discriminate; try constructor; auto;
    try (inversion H; fail).
  - apply rleb_spec; auto.
  - inversion H; subst. apply rleb_spec; auto.
Qed.
Lemma eleb_false a b : eleb a b = false <-> ~ ext_le a b.
Proof. rewrite <- eleb_spec. destruct (eleb a b); split; intros; auto; try discriminate. exfalso; auto. Qed.

Lemma ext_le_refl a : a <> NaN -> ext_le a a.
Proof. destruct a; intros H; try constructor; try lra. contradiction. Qed.
Lemma ext_le_trans a b c : ext_le a b -> ext_le b c -> ext_le a c.
Proof. intros H1 H2; inversion H1; subst; inversion H2; subst; constructor; lra. Qed.
Lemma ext_le_nan_l a b : ext_le a b -> a <> NaN.
Proof. intros H; inversion H; discriminate. Qed.
Lemma ext_le_nan_r a b : ext_le a b -> b <> NaN.
Proof. intros H; inversion H; discriminate. Qed.
Lemma ext_le_total a b : a <> NaN -> b <> NaN -> ext_le a b \/ ext_le b a.
Proof.
  intros Ha Hb; destruct a as [x| | |], b as [y| | |]; try contradiction;
    try (left; constructor; fail); try (right; constructor; fail).
  destruct (Rle_dec x y); [left|right]; constructor; lra.
Qed.
Lemma eltb_spec a b : eltb a b = true <-> ext_le a b /\ ~ ext_le b a.
Proof.
  destruct a as [x| | |], b as [y| | |]; simpl; split; intros H;
    try discriminate; try (split; [constructor|intros HH; inversion HH]; fail);
    try (destruct H as [H1 H2]; try (inversion H1; fail); exfalso; apply H2; constructor; fail); auto.
  - apply rltb_spec in H. split; [constructor; lra|intros HH; inversion HH; lra].
  - destruct H as [H1 H2]. inversion H1; subst. apply rltb_spec.
    destruct (Rlt_dec x y); auto. exfalso; apply H2; constructor; lra.
Qed.
Lemma eltb_false a b : a <> NaN -> b <> NaN -> eltb a b = false <-> ext_le b a.
Proof.
  intros Ha Hb. split; intros H.
  - destruct (ext_le_total b a Hb Ha) as [|L]; auto.
    assert (N : eltb a b <> true) by congruence. rewrite eltb_spec in N.
    destruct (eleb b a) eqn:E; [apply eleb_spec; auto|]. apply eleb_false in E. exfalso; apply N; auto.
  - destruct (eltb a b) eqn:E; auto. apply eltb_spec in E. tauto.
Qed.

Lemma contains_points b x : contains b x = true <-> points b x.
Proof. unfold contains, points. rewrite andb_true_iff, !eleb_spec. tauto. Qed.

Lemma isnan_false a : eisnan a = false <-> a <> NaN.
Proof. destruct a; simpl; split; intros; auto; try discriminate; contradiction. Qed.

Lemma efmax_le a b x : a <> NaN -> b <> NaN -> ext_le (efmax a b) x <-> ext_le a x /\ ext_le b x.
Proof.
  intros Ha Hb.
  assert (E : efmax a b = if eltb a b then b else a) by (destruct a, b; try contradiction; reflexivity).
  rewrite E. destruct (eltb a b) eqn:L.
  - apply eltb_spec in L as [L _]. split; [|tauto]. intros H; split; auto. eapply ext_le_trans; eauto.
  - apply eltb_false in L; auto. split; [|tauto]. intros H; split; auto. eapply ext_le_trans; eauto.
Qed.
Lemma efmin_le a b x : a <> NaN -> b <> NaN -> ext_le x (efmin a b) <-> ext_le x a /\ ext_le x b.
Proof.
  intros Ha Hb.
  assert (E : efmin a b = if eltb b a then b else a) by (destruct a, b; try contradiction; reflexivity).
  rewrite E. destruct (eltb b a) eqn:L.
  - apply eltb_spec in L as [L _]. split; [|tauto]. intros H; split; auto. eapply ext_le_trans; eauto.
  - apply eltb_false in L; auto. split; [|tauto]. intros H; split; auto. eapply ext_le_trans; eauto.
Qed.
Lemma efmax_cases a b : efmax a b = a \/ efmax a b = b.
Proof. unfold efmax. destruct a, b; auto; destruct (eltb _ _); auto. Qed.
Lemma efmin_cases a b : efmin a b = a \/ efmin a b = b.
Proof. unfold efmin. destruct a, b; auto; destruct (eltb _ _); auto. Qed.

Lemma nan_guard a b :
  eisnan (bmin a) || eisnan (bmin b) || eisnan (bmax a) || eisnan (bmax b) = false <->
  bmin a <> NaN /\ bmin b <> NaN /\ bmax a <> NaN /\ bmax b <> NaN.
Proof. rewrite !orb_false_iff, !isnan_false. tauto. Qed.
Lemma nan_guard_true a b :
  eisnan (bmin a) || eisnan (bmin b) || eisnan (bmax a) || eisnan (bmax b) = true ->
  bmin a = NaN \/ bmin b = NaN \/ bmax a = NaN \/ bmax b = NaN.
Proof.
  rewrite !orb_true_iff. destruct (bmin a), (bmin b), (bmax a), (bmax b); simpl; intuition congruence.
Qed.

Lemma points_no_nan b x : points b x -> bmin b <> NaN /\ bmax b <> NaN.
Proof. intros [H1 H2]. split; [eapply ext_le_nan_l|eapply ext_le_nan_r]; eauto. Qed.

Lemma invalid_no_points x : ~ points BOUND_INVALID x.
Proof. intros [H _]; simpl in H; inversion H. Qed.

Lemma binter_points a b x : points (binter a b) x <-> points a x /\ points b x.
Proof.
  unfold binter. destruct (_ || _ || _ || _) eqn:G.
  - apply nan_guard_true in G. split; [intros H; exfalso; eapply invalid_no_points; eauto|].
    intros [Ha Hb]. apply points_no_nan in Ha, Hb. exfalso. intuition congruence.
  - apply nan_guard in G as (Ga & Gb & Gc & Gd).
    assert (M : (ext_le (efmax (bmin a) (bmin b)) x /\ ext_le x (efmin (bmax a) (bmax b)))
                <-> points a x /\ points b x).
    { rewrite efmax_le, efmin_le by auto. unfold points. tauto. }
    destruct (eleb _ _) eqn:L; simpl.
    + unfold points at 1; simpl. exact M.
    + split; [intros H; exfalso; eapply invalid_no_points; eauto|].
      rewrite <- M. intros [H1 H2]. apply eleb_false in L. exfalso; apply L. eapply ext_le_trans; eauto.
Qed.

Lemma binter_contains a b x :
  contains (binter a b) x = true <-> contains a x = true /\ contains b x = true.
Proof. rewrite !contains_points. apply binter_points. Qed.

Lemma valid_iff_point b : valid b = true <-> exists x, points b x.
Proof.
  unfold valid. rewrite eleb_spec. split.
  - intros H. exists (bmin b). split; [apply ext_le_refl; eapply ext_le_nan_l; eauto|auto].
  - intros [x [H1 H2]]. eapply ext_le_trans; eauto.
Qed.

Lemma binter_shape a b : is_invalid (binter a b) \/ valid (binter a b) = true.
Proof.
  unfold binter. destruct (_ || _ || _ || _); [left; split; reflexivity|].
  cbv zeta. destruct (eleb _ _) eqn:L; simpl; [right; exact L|left; split; reflexivity].
Qed.

Lemma binter_invalid a b :
  is_invalid (binter a b) <-> ~ (exists x, contains a x = true /\ contains b x = true).
Proof.
  split.
  - intros [I1 I2] [x H]. apply binter_contains in H. apply contains_points in H.
    apply points_no_nan in H. tauto.
  - intros N. destruct (binter_shape a b) as [|V]; auto.
    exfalso. apply N. apply valid_iff_point in V as [x Hx]. exists x.
    apply binter_contains, contains_points; auto.
Qed.

Lemma efmax_comm a b : efmax a b = efmax b a.
Proof.
  destruct a as [x| | |], b as [y| | |]; simpl; try reflexivity.
  unfold rltb. destruct (Rlt_dec x y), (Rlt_dec y x); try reflexivity; try (f_equal; lra).
Qed.
Lemma efmin_comm a b : efmin a b = efmin b a.
Proof.
  destruct a as [x| | |], b as [y| | |]; simpl; try reflexivity.
  unfold rltb. destruct (Rlt_dec y x), (Rlt_dec x y); try reflexivity; try (f_equal; lra).
Qed.

Lemma ext_le_antisym a b : ext_le a b -> ext_le b a -> a = b.
Proof. intros H1 H2; inversion H1; subst; inversion H2; subst; try reflexivity. f_equal; lra. Qed.

(** Two intersections with the same points are the same object. *)
Definition canonical (b : bound) : Prop := is_invalid b \/ valid b = true.
Lemma canonical_ext a b : canonical a -> canonical b -> (forall x, points a x <-> points b x) -> a = b.
Proof.
  intros [Ia|Va] [Ib|Vb] H.
  - destruct a, b, Ia, Ib; simpl in *; subst; reflexivity.
  - apply valid_iff_point in Vb as [x Hx]. apply H in Hx. destruct a, Ia; simpl in *; subst. destruct Hx as [Hx _]; inversion Hx.
  - apply valid_iff_point in Va as [x Hx]. apply H in Hx. destruct b, Ib; simpl in *; subst. destruct Hx as [Hx _]; inversion Hx.
  - unfold valid in *. apply eleb_spec in Va, Vb.
    assert (Pa : points a (bmin a)) by (split; auto; apply ext_le_refl; eapply ext_le_nan_l; eauto).
    assert (Pa' : points a (bmax a)) by (split; auto; apply ext_le_refl; eapply ext_le_nan_r; eauto).
    assert (Pb : points b (bmin b)) by (split; auto; apply ext_le_refl; eapply ext_le_nan_l; eauto).
    assert (Pb' : points b (bmax b)) by (split; auto; apply ext_le_refl; eapply ext_le_nan_r; eauto).
    apply H in Pa, Pa'. apply H in Pb, Pb'.
    destruct a as [a1 a2], b as [b1 b2]; unfold points in *; simpl in *. f_equal; apply ext_le_antisym; tauto.
Qed.
Lemma binter_comm a b : binter a b = binter b a.
Proof. apply canonical_ext; try apply binter_shape. intros x. rewrite !binter_points. tauto. Qed.
Lemma binter_assoc a b c : binter (binter a b) c = binter a (binter b c).
Proof. apply canonical_ext; try apply binter_shape. intros x. rewrite !binter_points. tauto. Qed.
Lemma binter_idem a : canonical a -> binter a a = a.
Proof. intros C. apply canonical_ext; auto; try apply binter_shape. intros x. rewrite !binter_points. tauto. Qed.
Lemma mk_bound_canonical x y : canonical (mk_bound x y).
Proof.
  unfold mk_bound. destruct (eleb x y) eqn:E; simpl; [right; exact E|left; split; reflexivity].
Qed.
Lemma mk_bound_points mn mx x : points (mk_bound mn mx) x <-> ext_le mn x /\ ext_le x mx.
Proof.
  unfold mk_bound. destruct (eleb mn mx) eqn:E; simpl; [reflexivity|].
  apply eleb_false in E. split; [intros [H _]; inversion H|].
  intros [H1 H2]. exfalso; apply E. eapply ext_le_trans; eauto.
Qed.
Lemma mk_bound_empty mn mx : ~ ext_le mn mx -> is_invalid (mk_bound mn mx).
Proof.
  intros H. unfold mk_bound. destruct (eleb mn mx) eqn:E; simpl; [|split; reflexivity].
  apply eleb_spec in E; contradiction.
Qed.

Lemma mk_bound_valid mn mx : valid (mk_bound mn mx) = true <-> ext_le mn mx.
Proof.
  unfold mk_bound, valid. destruct (eleb mn mx) eqn:E; simpl.
  - rewrite E, eleb_spec in *. tauto.
  - apply eleb_false in E. split; [discriminate|contradiction].
Qed.

(** ** Hull *)
Lemma ext_le_efmin_l a b : a <> NaN -> b <> NaN -> ext_le (efmin a b) a.
Proof. intros Ha Hb. apply (efmin_le a b (efmin a b)); auto. apply ext_le_refl. destruct (efmin_cases a b) as [->| ->]; auto. Qed.
Lemma ext_le_efmin_r a b : a <> NaN -> b <> NaN -> ext_le (efmin a b) b.
Proof. intros Ha Hb. apply (efmin_le a b (efmin a b)); auto. apply ext_le_refl. destruct (efmin_cases a b) as [->| ->]; auto. Qed.
Lemma ext_le_efmax_l a b : a <> NaN -> b <> NaN -> ext_le a (efmax a b).
Proof. intros Ha Hb. apply (efmax_le a b (efmax a b)); auto. apply ext_le_refl. destruct (efmax_cases a b) as [->| ->]; auto. Qed.
Lemma ext_le_efmax_r a b : a <> NaN -> b <> NaN -> ext_le b (efmax a b).
Proof. intros Ha Hb. apply (efmax_le a b (efmax a b)); auto. apply ext_le_refl. destruct (efmax_cases a b) as [->| ->]; auto. Qed.

Lemma bunion_unfold a b : valid a = true -> valid b = true ->
  bunion a b = Bnd (efmin (bmin a) (bmin b)) (efmax (bmax a) (bmax b)) /\
  bmin a <> NaN /\ bmin b <> NaN /\ bmax a <> NaN /\ bmax b <> NaN.
Proof.
  unfold valid. rewrite !eleb_spec. intros Va Vb.
  assert (G : bmin a <> NaN /\ bmin b <> NaN /\ bmax a <> NaN /\ bmax b <> NaN)
    by (repeat split; eauto using ext_le_nan_l, ext_le_nan_r).
  split; auto. unfold bunion. apply nan_guard in G. rewrite G. reflexivity.
Qed.

Lemma bunion_hull a b : valid a = true -> valid b = true ->
  (forall x, contains a x = true \/ contains b x = true -> contains (bunion a b) x = true) /\
  (forall c, (forall x, contains a x = true \/ contains b x = true -> contains c x = true) ->
     forall x, contains (bunion a b) x = true -> contains c x = true).
Proof.
  intros Va Vb. destruct (bunion_unfold a b Va Vb) as (E & N1 & N2 & N3 & N4). rewrite E.
  unfold valid in *. apply eleb_spec in Va, Vb.
  split.
  - intros x. rewrite !contains_points. unfold points; simpl. intros [[H1 H2]|[H1 H2]]; split.
    + eapply ext_le_trans; [apply ext_le_efmin_l|]; auto.
    + eapply ext_le_trans; [|apply ext_le_efmax_l]; auto.
    + eapply ext_le_trans; [apply ext_le_efmin_r|]; auto.
    + eapply ext_le_trans; [|apply ext_le_efmax_r]; auto.
  - intros c Hc x. rewrite !contains_points. unfold points; simpl. intros [H1 H2].
    assert (Pa : points a (bmin a) /\ points a (bmax a)) by (repeat split; auto; apply ext_le_refl; auto).
    assert (Pb : points b (bmin b) /\ points b (bmax b)) by (repeat split; auto; apply ext_le_refl; auto).
    assert (Hc' : forall y, points a y \/ points b y -> points c y).
    { intros y Hy. apply contains_points, Hc. rewrite !contains_points. auto. }
    split.
    + eapply ext_le_trans; [|exact H1].
      destruct (efmin_cases (bmin a) (bmin b)) as [->| ->]; apply Hc'; tauto.
    + eapply ext_le_trans; [exact H2|].
      destruct (efmax_cases (bmax a) (bmax b)) as [->| ->]; apply Hc'; tauto.
Qed.

(** ** Shift and scale *)
Lemma eadd_le a b s : ext_le (eadd a (Fin s)) (eadd b (Fin s)) <-> ext_le a b.
Proof.
  destruct a, b; simpl; split; intros H; inversion H; subst; constructor; lra.
Qed.
Lemma badd_contains b s x : contains (badd b (Fin s)) (Fin (x + s)) = contains b (Fin x).
Proof.
  apply eq_true_iff_eq. rewrite !contains_points. unfold points, badd; simpl.
  change (Fin (x + s)) with (eadd (Fin x) (Fin s)). rewrite !eadd_le. tauto.
Qed.
Lemma bsub_contains b s x : contains (bsub b (Fin s)) (Fin (x - s)) = contains b (Fin x).
Proof. apply (badd_contains b (- s) x). Qed.

Lemma sinf_pos s : 0 < s -> sinf s = PInf.
Proof. intros H. unfold sinf. apply rltb_spec in H. rewrite H. reflexivity. Qed.
Lemma sinf_neg s : s < 0 -> sinf s = NInf.
Proof.
  intros H. unfold sinf. assert (E : rltb 0 s = false) by (apply rltb_false; lra).
  apply rltb_spec in H. rewrite E, H. reflexivity.
Qed.
Lemma emul_le a b s : 0 < s -> ext_le (emul a (Fin s)) (emul b (Fin s)) <-> ext_le a b.
Proof.
  intros Hs. pose proof (sinf_pos s Hs) as E1. pose proof (sinf_neg (- s) ltac:(lra)) as E2.
  destruct a as [x| | |], b as [y| | |]; simpl; rewrite ?E1, ?E2; split; intros H; inversion H; subst; constructor;
    [eapply Rmult_le_reg_r; eauto|apply Rmult_le_compat_r; lra].
Qed.
Lemma bmul_contains b s x : 0 < s -> contains (bmul b (Fin s)) (Fin (x * s)) = contains b (Fin x).
Proof.
  intros Hs. unfold bmul. replace (eltb (Fin s) (Fin 0)) with false by (symmetry; apply rltb_false; lra).
  apply eq_true_iff_eq. rewrite !contains_points. unfold points; simpl.
  change (Fin (x * s)) with (emul (Fin x) (Fin s)). rewrite !emul_le by auto. tauto.
Qed.
Lemma ediv_emul a s : 0 < s -> ediv a (Fin s) = emul a (Fin (/ s)).
Proof.
  intros Hs. assert (0 < / s) by (apply Rinv_0_lt_compat; auto).
  assert (E : reqb s 0 = false) by (apply reqb_false; lra).
  destruct a; simpl; rewrite ?E; auto.
  - rewrite !sinf_pos by lra; auto.
  - rewrite !sinf_neg by lra; auto.
Qed.
Lemma bdiv_contains b s x : 0 < s -> contains (bdiv b (Fin s)) (Fin (x / s)) = contains b (Fin x).
Proof.
  intros Hs. rewrite <- (bmul_contains b (/ s) x) by (apply Rinv_0_lt_compat; auto).
  unfold bdiv, bmul. replace (eleb (Fin s) (Fin 0)) with false by (symmetry; apply rleb_false; lra).
  pose proof (Rinv_0_lt_compat s Hs).
  replace (eltb (Fin (/ s)) (Fin 0)) with false by (symmetry; apply rltb_false; lra).
  rewrite !ediv_emul by auto. reflexivity.
Qed.
Lemma bmul_negative b s : s < 0 -> is_invalid (bmul b (Fin s)).
Proof. intros H. unfold bmul. simpl. apply rltb_spec in H. rewrite H. split; reflexivity. Qed.
Lemma bdiv_nonpositive b s : s <= 0 -> is_invalid (bdiv b (Fin s)).
Proof. intros H. unfold bdiv. simpl. apply rleb_spec in H. rewrite H. split; reflexivity. Qed.
Lemma bmul_zero_unbounded : valid (bmul BOUND_POSITIVE (Fin 0)) = false /\ contains (bmul BOUND_POSITIVE (Fin 0)) (Fin 0) = false.
Proof.
  assert (E : rltb 0 0 = false) by (apply rltb_false; lra).
  unfold bmul, BOUND_POSITIVE, mk_bound, valid, contains. simpl.
  rewrite E. simpl. unfold sinf. rewrite E. simpl. split; [reflexivity|].
  rewrite andb_false_r. reflexivity.
Qed.

(** ** Linear interpolation *)
Lemma lerp_fin a b p : lerp (Bnd (Fin a) (Fin b)) (Fin p) = Fin ((1 + - p) * a + p * b).
Proof. reflexivity. Qed.

Lemma lerp_props a b : a <= b ->
  let B := mk_bound (Fin a) (Fin b) in
  lerp B (Fin 0) = Fin a /\ lerp B (Fin 1) = Fin b /\
  (forall p, 0 <= p <= 1 -> contains B (lerp B (Fin p)) = true) /\
  (forall p p', p <= p' -> ext_le (lerp B (Fin p)) (lerp B (Fin p'))) /\
  (forall x, contains B (Fin x) = true -> exists p, 0 <= p <= 1 /\ lerp B (Fin p) = Fin x).
Proof.
  intros Hab B. assert (EB : B = Bnd (Fin a) (Fin b)).
  { unfold B, mk_bound. simpl. apply rleb_spec in Hab. rewrite Hab. reflexivity. }
  rewrite EB. repeat split.
  - rewrite lerp_fin. f_equal. lra.
  - rewrite lerp_fin. f_equal. lra.
  - intros p Hp. rewrite lerp_fin. apply contains_points. split; simpl; constructor; nra.
  - intros p p' H. rewrite !lerp_fin. constructor. nra.
  - intros x Hx. apply contains_points in Hx as [H1 H2]. simpl in *.
    inversion H1; inversion H2; subst.
    destruct (Req_EM_T a b) as [->|N].
    + exists 0. split; [lra|]. rewrite lerp_fin. f_equal. lra.
    + exists ((x - a) / (b - a)). split.
      * split; [apply Rle_mult_inv_pos; lra|].
        apply (Rmult_le_reg_r (b - a)); [lra|]. unfold Rdiv. rewrite Rmult_assoc, Rinv_l by lra. lra.
      * rewrite lerp_fin. f_equal. field. lra.
Qed.

Lemma size_fin a b : bsize (mk_bound (Fin a) (Fin b)) = Fin (b - a) \/ b < a.
Proof.
  unfold mk_bound, bsize; simpl. destruct (rleb a b) eqn:E; simpl; [left; reflexivity|right].
  apply rleb_false; auto.
Qed.
