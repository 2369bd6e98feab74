(** Tag conditions are stored as sets: proofs. *)
From Coq Require Import String Ascii List Bool Lia Sorted NArith.
From Verif Require Import FilterModel FilterSpec FilterProofs.
Import ListNotations.

Definition transitive_b {A} (lt : A -> A -> bool) := forall x y z, lt x y = true -> lt y z = true -> lt x z = true.
Definition irreflexive_b {A} (lt : A -> A -> bool) := forall x, lt x x = false.
Lemma ascii_trans a b c : Ascii.compare a b = Lt -> Ascii.compare b c = Lt -> Ascii.compare a c = Lt.
Proof. unfold Ascii.compare. rewrite !N.compare_lt_iff. apply N.lt_trans. Qed.
Lemma ascii_refl a : Ascii.compare a a = Eq.
Proof. unfold Ascii.compare. apply N.compare_refl. Qed.
Lemma string_irr : irreflexive_b String.ltb.
Proof. intros x. unfold String.ltb. induction x as [|c x IH]; [reflexivity|]. cbn. rewrite ascii_refl. exact IH. Qed.
Lemma string_lt_iff x y : String.ltb x y = true <-> String.compare x y = Lt.
Proof. unfold String.ltb. destruct (String.compare x y); split; congruence. Qed.
Lemma string_trans : transitive_b String.ltb.
Proof.
  intros x y z. rewrite !string_lt_iff. revert y z. induction x as [|a x IH]; intros [|b y] [|c z]; cbn; try congruence.
  destruct (Ascii.compare a b) eqn:E1; try congruence; destruct (Ascii.compare b c) eqn:E2; try congruence; intros H1 H2.
  - apply Ascii.compare_eq_iff in E1, E2. subst. rewrite ascii_refl. eauto.
  - apply Ascii.compare_eq_iff in E1. subst. rewrite E2. reflexivity.
  - apply Ascii.compare_eq_iff in E2. subst. rewrite E1. reflexivity.
  - rewrite (ascii_trans a b c E1 E2). reflexivity.
Qed.
Lemma string_asym x y : String.ltb x y = true -> String.ltb y x = false.
Proof. intros H. destruct (String.ltb y x) eqn:E; [|reflexivity]. pose proof (string_trans x y x H E) as T. rewrite string_irr in T. discriminate. Qed.
Lemma term_irr : irreflexive_b term_lt.
Proof. intros t. induction t as [|x t IH]; [reflexivity|]. cbn. unfold factor_lt. rewrite !string_irr. exact IH. Qed.
Lemma term_trans : transitive_b term_lt.
Proof.
  intros x. induction x as [|a x IH]; intros [|b y] [|c z]; cbn; try congruence. unfold factor_lt.
  destruct (String.ltb a b) eqn:E1.
  - intros _. destruct (String.ltb b c) eqn:E2; [intros _; rewrite (string_trans a b c E1 E2); reflexivity|]. destruct (String.ltb c b) eqn:E3; [discriminate|]. pose proof (string_tri b c E2 E3). subst. rewrite E1. reflexivity.
  - destruct (String.ltb b a) eqn:E2; [discriminate|]. pose proof (string_tri a b E1 E2). subst. destruct (String.ltb b c); [reflexivity|]. destruct (String.ltb c b); [discriminate|]. apply IH.
Qed.
Section Sets.
Context {A : Type} (lt : A -> A -> bool) (IR : irreflexive_b lt) (TR : transitive_b lt) (TRI : trichotomous lt).
Definition sorted (l : list A) : Prop := StronglySorted (fun x y => lt x y = true) l.
Lemma insert_sorted x l : sorted l -> sorted (set_insert lt x l).
Proof.
  induction 1 as [|y l S IH F]; cbn; [repeat constructor|]. destruct (lt x y) eqn:E1.
  - constructor; [constructor; assumption|]. constructor; [exact E1|]. rewrite Forall_forall in *. intros z Z. exact (TR _ _ _ E1 (F z Z)).
  - destruct (lt y x) eqn:E2; [|constructor; assumption]. constructor; [exact IH|]. rewrite Forall_forall in *. intros z Z. apply set_insert_in in Z; [|exact TRI]. destruct Z as [->|Z]; auto.
Qed.
Lemma fold_sorted {B} (g : B -> A) l : forall s, sorted s -> sorted (fold_left (fun s x => set_insert lt (g x) s) l s).
Proof. induction l as [|x l IH]; intros s S; [exact S|]. cbn. apply IH, insert_sorted, S. Qed.
Lemma sorted_nodup l : sorted l -> NoDup l.
Proof. induction 1 as [|y l S IH F]; constructor; [|exact IH]. intros H. rewrite Forall_forall in F. specialize (F y H). cbn in F. rewrite IR in F. discriminate. Qed.
Lemma sorted_ext l : forall m, sorted l -> sorted m -> (forall z, In z l <-> In z m) -> l = m.
Proof.
  induction l as [|x l IH]; intros [|y m] S1 S2 E.
  - reflexivity.
  - destruct (proj2 (E y) (or_introl eq_refl)).
  - destruct (proj1 (E x) (or_introl eq_refl)).
  - inversion_clear S1 as [|? ? S1' F1]. inversion_clear S2 as [|? ? S2' F2]. rewrite Forall_forall in F1, F2.
    assert (x = y).
    { destruct (proj1 (E x) (or_introl eq_refl)) as [->|H1]; [reflexivity|]. destruct (proj2 (E y) (or_introl eq_refl)) as [->|H2]; [reflexivity|]. pose proof (TR _ _ _ (F1 y H2) (F2 x H1)) as T. rewrite IR in T. discriminate. }
    subst y. f_equal. apply IH; [assumption..|]. intros z. split; intros Z.
    + destruct (proj1 (E z) (or_intror Z)) as [<-|H]; [|exact H]. specialize (F1 x Z). cbn in F1. rewrite IR in F1. discriminate.
    + destruct (proj2 (E z) (or_intror Z)) as [<-|H]; [|exact H]. specialize (F2 x Z). cbn in F2. rewrite IR in F2. discriminate.
Qed.
End Sets.
Definition sets (f : filter) : Prop := sorted term_lt f /\ Forall (sorted factor_lt) f.
Lemma union_sorted a b : sorted factor_lt a -> sorted factor_lt (term_union a b).
Proof. intros S. unfold term_union. apply (fold_sorted factor_lt string_trans string_tri (fun x => x)). exact S. Qed.
Lemma and_sorted a b : sorted term_lt (f_and a b).
Proof.
  unfold f_and. assert (G : forall s, sorted term_lt s -> sorted term_lt (fold_left (fun s t1 => fold_left (fun s t2 => set_insert term_lt (term_union t1 t2) s) b s) a s)).
  { induction a as [|t a IH]; intros s S; [exact S|]. cbn. apply IH. apply (fold_sorted term_lt term_trans term_tri (fun t2 => term_union t t2)). exact S. }
  apply G. constructor.
Qed.
Lemma build_sets c : sets (build c).
Proof.
  induction c as [t| | |a (IA & FA) b (IB & FB)|a (IA & FA) b (IB & FB)]; cbn [build].
  1-3: split; repeat constructor.
  - split; [apply (fold_sorted term_lt term_trans term_tri (fun x => x)); exact IA|]. rewrite Forall_forall in *. intros t T. apply f_or_in in T. destruct T; auto.
  - split; [apply and_sorted|]. rewrite Forall_forall in *. intros t T. apply f_and_in in T. destruct T as (t1 & t2 & T1 & T2 & ->). apply union_sorted. auto.
Qed.
Lemma build_once c : NoDup (build c) /\ Forall (@NoDup string) (build c).
Proof. destruct (build_sets c) as (S & F). split; [exact (sorted_nodup _ term_irr _ S)|]. eapply Forall_impl; [|exact F]. intros t. exact (sorted_nodup factor_lt string_irr t). Qed.
Lemma build_comm a b : build (COr a b) = build (COr b a) /\ build (CAnd a b) = build (CAnd b a).
Proof.
  split; apply (sorted_ext term_lt term_irr term_trans); try apply build_sets; intros z; cbn [build].
  - rewrite !f_or_in. tauto.
  - assert (U : forall t1 t2, In t1 (build a) -> In t2 (build b) -> term_union t1 t2 = term_union t2 t1).
    { intros t1 t2 T1 T2. destruct (build_sets a) as (_ & FA). destruct (build_sets b) as (_ & FB). rewrite Forall_forall in FA, FB. apply (sorted_ext factor_lt string_irr string_trans); [apply union_sorted; auto|apply union_sorted; auto|]. intros x. rewrite !term_union_in. tauto. }
    rewrite !f_and_in. split; intros (t1 & t2 & T1 & T2 & ->); exists t2, t1; (split; [assumption|split; [assumption|]]); [apply U; assumption|symmetry; apply U; assumption].
Qed.
