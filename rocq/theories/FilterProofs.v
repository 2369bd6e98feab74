(** Proofs about tag conditions. *)
From Coq Require Import String Ascii List Bool Lia.
From Verif Require Import FilterModel FilterSpec.
Import ListNotations.

Definition trichotomous {A} (lt : A -> A -> bool) := forall x y, lt x y = false -> lt y x = false -> x = y.

Lemma string_tri : trichotomous String.ltb.
Proof.
  intros x y H1 H2. unfold String.ltb in *.
  rewrite String.compare_antisym in H2. destruct (String.compare x y) eqn:E; cbn in *; try discriminate.
  now apply String.compare_eq_iff.
Qed.

Lemma term_tri : trichotomous term_lt.
Proof.
  intros a. induction a as [|x a IH]; intros [|y b]; cbn; try discriminate; auto.
  unfold factor_lt. destruct (String.ltb x y) eqn:E1; try discriminate.
  destruct (String.ltb y x) eqn:E2; try discriminate.
  intros H1 H2. rewrite (string_tri x y) by auto. f_equal. auto.
Qed.

Lemma set_insert_in {A} (lt : A -> A -> bool) x l z : trichotomous lt ->
  In z (set_insert lt x l) <-> z = x \/ In z l.
Proof.
  intros T. induction l as [|y l IH]; cbn; [intuition|].
  destruct (lt x y) eqn:E1; [cbn; intuition|].
  destruct (lt y x) eqn:E2.
  - cbn. rewrite IH. intuition.
  - cbn. rewrite (T x y) by auto. intuition.
Qed.

Lemma fold_insert_in {A B} (lt : A -> A -> bool) (g : B -> A) l s z : trichotomous lt ->
  In z (fold_left (fun s x => set_insert lt (g x) s) l s) <-> In z s \/ exists x, In x l /\ z = g x.
Proof.
  intros T. revert s. induction l as [|x l IH]; intros s; cbn.
  - split; [auto|]. intros [?|(y & [] & _)]; auto.
  - rewrite IH, set_insert_in by auto. split.
    + intros [[->|?]|(y & ? & ->)]; eauto.
    + intros [?|(y & [<-|?] & ->)]; eauto.
Qed.

Lemma set_of_in {A} (lt : A -> A -> bool) l z : trichotomous lt -> In z (set_of lt l) <-> In z l.
Proof.
  intros T. unfold set_of. rewrite (fold_insert_in lt (fun x => x)) by auto.
  split; [intros [[]|(x & ? & ->)]; auto | eauto].
Qed.

Lemma f_or_in a b t : In t (f_or a b) <-> In t a \/ In t b.
Proof.
  unfold f_or. rewrite (fold_insert_in term_lt (fun x => x)) by exact term_tri.
  split; [intros [?|(x & ? & ->)]; auto | intros [?|?]; eauto].
Qed.

Lemma term_union_in a b x : In x (term_union a b) <-> In x a \/ In x b.
Proof.
  unfold term_union. rewrite (fold_insert_in factor_lt (fun x => x)) by exact string_tri.
  split; [intros [?|(y & ? & ->)]; auto | intros [?|?]; eauto].
Qed.

Lemma f_and_in a b t : In t (f_and a b) <-> exists t1 t2, In t1 a /\ In t2 b /\ t = term_union t1 t2.
Proof.
  unfold f_and.
  assert (G : forall s, In t (fold_left (fun s t1 => fold_left (fun s t2 => set_insert term_lt (term_union t1 t2) s) b s) a s)
    <-> In t s \/ exists t1 t2, In t1 a /\ In t2 b /\ t = term_union t1 t2).
  { induction a as [|t1 a IH]; intros s; cbn.
    - split; [auto|]. intros [?|(? & ? & [] & _)]; auto.
    - rewrite IH, (fold_insert_in term_lt (term_union t1)) by exact term_tri. split.
      + intros [[?|(x & ? & ->)]|(x & y & ? & ? & ->)]; auto; right; eauto 7.
      + intros [?|(x & y & [<-|?] & ? & ->)]; eauto 8. }
  rewrite G. cbn. intuition.
Qed.

Lemma fcheck_iff f tags : fcheck f tags = true <-> exists t, In t f /\ forall x, In x t -> In x tags.
Proof.
  induction f as [|t f IH]; cbn.
  - split; [discriminate|]. intros (t & [] & _).
  - assert (C : fcheck_term t tags = true <-> forall x, In x t -> In x tags).
    { unfold fcheck_term. rewrite forallb_forall. split; intros H x Hx; specialize (H x Hx).
      - apply existsb_exists in H as (y & Hy & E). apply String.eqb_eq in E. now subst.
      - apply existsb_exists. exists x. split; auto. apply String.eqb_refl. }
    destruct (fcheck_term t tags) eqn:E.
    + split; auto. intros _. exists t. split; auto. now apply C.
    + rewrite IH. split.
      * intros (t' & ? & ?). eauto.
      * intros (t' & [<-|Hin] & Hs); [apply C in Hs; congruence | eauto].
Qed.

Lemma fcheck_or a b tags : fcheck (f_or a b) tags = fcheck a tags || fcheck b tags.
Proof.
  apply eq_true_iff_eq. rewrite orb_true_iff, !fcheck_iff. split.
  - intros (t & H & ?). apply f_or_in in H as [?|?]; eauto.
  - intros [(t & ? & ?)|(t & ? & ?)]; exists t; split; auto; apply f_or_in; auto.
Qed.

Lemma fcheck_and a b tags : fcheck (f_and a b) tags = fcheck a tags && fcheck b tags.
Proof.
  apply eq_true_iff_eq. rewrite andb_true_iff, !fcheck_iff. split.
  - intros (t & H & Hs). apply f_and_in in H as (t1 & t2 & ? & ? & ->).
    split; [exists t1 | exists t2]; split; auto; intros x Hx; apply Hs, term_union_in; auto.
  - intros [(t1 & ? & H1) (t2 & ? & H2)]. exists (term_union t1 t2). split.
    + apply f_and_in. eauto.
    + intros x Hx. apply term_union_in in Hx as [?|?]; auto.
Qed.

Lemma fcheck_tag t tags : fcheck (FTag t) tags = true <-> In t tags.
Proof.
  rewrite fcheck_iff. cbn. split.
  - intros (t' & [<-|[]] & H). apply H. now left.
  - intros H. exists [t]. split; auto. intros x [<-|[]]; auto.
Qed.
Lemma fcheck_reject tags : fcheck FReject tags = false.
Proof. reflexivity. Qed.
Lemma fcheck_accept tags : fcheck FAccept tags = true.
Proof. reflexivity. Qed.

Lemma build_holds c tags : fcheck (build c) tags = true <-> holds c tags.
Proof.
  induction c; cbn [build holds].
  - apply fcheck_tag.
  - rewrite fcheck_reject. split; [discriminate | tauto].
  - rewrite fcheck_accept. tauto.
  - now rewrite fcheck_or, orb_true_iff, IHc1, IHc2.
  - now rewrite fcheck_and, andb_true_iff, IHc1, IHc2.
Qed.

Lemma filter_identities (a : filter) tags :
  fcheck FReject tags = false /\ fcheck FAccept tags = true /\
  fcheck (f_or a FReject) tags = fcheck a tags /\ fcheck (f_or FReject a) tags = fcheck a tags /\
  fcheck (f_and a FAccept) tags = fcheck a tags /\ fcheck (f_and FAccept a) tags = fcheck a tags.
Proof.
  rewrite !fcheck_or, !fcheck_and, fcheck_reject, fcheck_accept.
  destruct (fcheck a tags); auto 10.
Qed.
