(** Proofs about lifetimes. *)
From Coq Require Import List Bool Arith Lia FunctionalExtensionality.
From Verif Require Import LifeModel LifeSpec.
Import ListNotations.

Lemma loc_eqb_spec a b : reflect (a = b) (loc_eqb a b).
Proof. destruct a as [a|], b as [b|]; cbn; try (constructor; congruence). destruct (Nat.eqb_spec a b); constructor; congruence. Qed.
Lemma store_same m l k : store m l k l = k.
Proof. unfold store. destruct (loc_eqb_spec l l); [reflexivity|congruence]. Qed.
Lemma store_other m l k l' : l' <> l -> store m l k l' = m l'.
Proof. intros H. unfold store. destruct (loc_eqb_spec l' l); [congruence|reflexivity]. Qed.
Lemma lives_app m t m' t' m'' : lives m t m' -> lives m' t' m'' -> lives m (t ++ t') m''.
Proof. induction 1; intros; cbn; [assumption|constructor; auto..]. Qed.

(** What the flags mean, and what the caller's outlook tells about them. *)
Definition ok_dist (m : memory) (l : loc) (d : dist) : Prop := m l = if valid d then Some (tag d) else None.
Definition ok_gen (m : memory) (h : outlook) (a : nat) (g : option gen) : Prop :=
  match g with
  | None => m (Slot a) = None /\ h a = None
  | Some g => ok_dist m (Slot a) (g_dist g) /\
    match h a with
    | Some Fine => g_valid g = true /\ valid (g_dist g) = true
    | Some ReadFailed => g_valid g = true
    | Some BuildFailed => valid (g_dist g) = false
    | None => False
    end
  end.
Definition ok_world (m : memory) (h : outlook) (w : world) : Prop := m Temp = None /\ forall a, ok_gen m h a (w a).
Lemma dtor_lives m l d : ok_dist m l d -> exists m', lives m (fst (dist_dtor l d)) m' /\ m' l = None /\ (forall l', l' <> l -> m' l' = m l') /\ valid (snd (dist_dtor l d)) = false.
Proof.
  intros H. unfold dist_dtor, ok_dist in *. destruct (valid d) eqn:V; cbn [fst snd].
  - exists (store m l None). split; [constructor; [exact H|constructor]|]. split; [apply store_same|]. split; [apply store_other|reflexivity].
  - exists m. split; [constructor|]. split; [exact H|]. split; [reflexivity|exact V].
Qed.
(** Everything outside of one slot is as before. *)
Lemma ok_update m h w m' a x g : ok_world m h w -> m' Temp = None -> (forall b, b <> a -> m' (Slot b) = m (Slot b)) -> ok_gen m' (note h a x) a g -> ok_world m' (note h a x) (put w a g).
Proof.
  intros (T & W) T' O G. split; [exact T'|]. intros b. unfold put. destruct (Nat.eqb_spec b a) as [->|N]; [exact G|]. specialize (W b). unfold ok_gen, note, ok_dist in *. rewrite (proj2 (Nat.eqb_neq b a) N). rewrite (O b N). exact W.
Qed.
Lemma note_same h a x : note h a x a = x.
Proof. unfold note. rewrite Nat.eqb_refl. reflexivity. Qed.
Lemma note_id h a x : h a = x -> note h a x = h.
Proof. intros <-. apply functional_extensionality. intros b. unfold note. destruct (Nat.eqb_spec b a) as [->|]; reflexivity. Qed.
Lemma slot_neq a b : b <> a -> Slot b <> Slot a.
Proof. congruence. Qed.
(** One operation. *)
Lemma build_lives m a ip k c g : m Temp = None -> ok_dist m (Slot a) (g_dist g) ->
  exists m', lives m (fst (gen_build a ip k c g)) m' /\ m' Temp = None /\ (forall b, b <> a -> m' (Slot b) = m (Slot b)) /\ ok_dist m' (Slot a) (g_dist (snd (gen_build a ip k c g)))
   /\ match after_build k c with Fine => g_valid (snd (gen_build a ip k c g)) = true /\ valid (g_dist (snd (gen_build a ip k c g))) = true | _ => valid (g_dist (snd (gen_build a ip k c g))) = false end.
Proof.
  intros T D. destruct (dtor_lives m (Slot a) (g_dist g) D) as (m1 & L1 & N1 & O1 & V1). unfold gen_build. destruct (dist_dtor (Slot a) (g_dist g)) as (t, d). cbn [fst snd] in *.
  assert (T1 : m1 Temp = None) by (rewrite O1 by discriminate; exact T). assert (S1 : forall b, b <> a -> m1 (Slot b) = m (Slot b)) by (intros b B; apply O1, slot_neq, B).
  destruct ip.
  - (* in place *)
    assert (OK : forall ev, ev = [Construct (Slot a) k] \/ ev = [Construct (Slot a) k; Use (Slot a) k] -> exists m', lives m (t ++ ev) m' /\ m' Temp = None /\ (forall b, b <> a -> m' (Slot b) = m (Slot b)) /\ m' (Slot a) = Some k).
    { intros ev E. exists (store m1 (Slot a) (Some k)). split; [apply (lives_app _ _ m1); [exact L1|]; destruct E as [->| ->]; constructor; try exact N1; repeat constructor; apply store_same|].
      split; [rewrite store_other by discriminate; exact T1|]. split; [intros b B; rewrite store_other by (apply slot_neq; exact B); apply S1; exact B|apply store_same]. }
    assert (KO : exists m', lives m (t ++ [Construct (Slot a) k; Destroy (Slot a) k]) m' /\ m' Temp = None /\ (forall b, b <> a -> m' (Slot b) = m (Slot b)) /\ m' (Slot a) = None).
    { exists (store (store m1 (Slot a) (Some k)) (Slot a) None). split; [apply (lives_app _ _ m1); [exact L1|]; constructor; [exact N1|]; constructor; [apply store_same|constructor]|].
      split; [rewrite !store_other by discriminate; exact T1|]. split; [intros b B; rewrite !store_other by (apply slot_neq; exact B); apply S1; exact B|apply store_same]. }
    assert (NO : exists m', lives m (t ++ []) m' /\ m' Temp = None /\ (forall b, b <> a -> m' (Slot b) = m (Slot b)) /\ m' (Slot a) = None) by (rewrite app_nil_r; exists m1; auto).
    destruct c, k; cbn [build_dist_approx after_build];
      first [ destruct NO as (m' & L & TT & O & S) | destruct KO as (m' & L & TT & O & S) ];
      try (exists m'; cbn [fst snd g_dist g_valid]; split; [exact L|]; split; [exact TT|]; split; [exact O|]; split; [exact S|reflexivity]);
      try (destruct KO as (m'' & L' & TT' & O' & S'); exists m''; cbn [fst snd g_dist g_valid]; split; [exact L'|]; split; [exact TT'|]; split; [exact O'|]; split; [exact S'|reflexivity]);
      try (destruct (OK _ (or_introl eq_refl)) as (m'' & L' & TT' & O' & S'); exists m''; cbn [fst snd g_dist g_valid]; split; [exact L'|]; split; [exact TT'|]; split; [exact O'|]; split; [exact S'|split; reflexivity]);
      try (destruct (OK _ (or_intror eq_refl)) as (m'' & L' & TT' & O' & S'); exists m''; cbn [fst snd g_dist g_valid]; split; [exact L'|]; split; [exact TT'|]; split; [exact O'|]; split; [exact S'|split; reflexivity]).
  - (* through a local variable *)
    assert (OK : forall ev, ev = [Construct Temp k] \/ ev = [Construct Temp k; Use Temp k] -> exists m', lives m (t ++ ev ++ [Use Temp k; Construct (Slot a) k] ++ [Destroy Temp k]) m' /\ m' Temp = None /\ (forall b, b <> a -> m' (Slot b) = m (Slot b)) /\ m' (Slot a) = Some k).
    { intros ev E. set (m2 := store m1 Temp (Some k)). exists (store (store m2 (Slot a) (Some k)) Temp None). split.
      - apply (lives_app _ _ m1); [exact L1|]. apply (lives_app _ _ m2); [destruct E as [->| ->]; constructor; try exact T1; repeat constructor; apply store_same|].
        constructor; [apply store_same|]. constructor; [unfold m2; rewrite store_other by discriminate; exact N1|]. constructor; [rewrite store_other by discriminate; apply store_same|constructor].
      - split; [apply store_same|]. split; [intros b B; rewrite store_other by discriminate; rewrite store_other by (apply slot_neq; exact B); unfold m2; rewrite store_other by discriminate; apply S1; exact B|]. rewrite store_other by discriminate. apply store_same. }
    assert (KO : exists m', lives m (t ++ [Construct Temp k; Destroy Temp k]) m' /\ m' Temp = None /\ (forall b, b <> a -> m' (Slot b) = m (Slot b)) /\ m' (Slot a) = None).
    { exists (store (store m1 Temp (Some k)) Temp None). split; [apply (lives_app _ _ m1); [exact L1|]; constructor; [exact T1|]; constructor; [apply store_same|constructor]|].
      split; [apply store_same|]. split; [intros b B; rewrite !store_other by discriminate; apply S1; exact B|rewrite !store_other by discriminate; exact N1]. }
    assert (NO : exists m', lives m (t ++ []) m' /\ m' Temp = None /\ (forall b, b <> a -> m' (Slot b) = m (Slot b)) /\ m' (Slot a) = None) by (rewrite app_nil_r; exists m1; auto).
    assert (DF : forall m', m' (Slot a) = None -> ok_dist m' (Slot a) d) by (intros m' S; unfold ok_dist; rewrite V1; exact S).
    destruct c, k; cbn [build_dist_approx after_build dist_move dist_dtor tag valid];
      first [ destruct NO as (m' & L & TT & O & S) | destruct KO as (m' & L & TT & O & S) ];
      try (exists m'; cbn [fst snd g_dist g_valid]; split; [exact L|]; split; [exact TT|]; split; [exact O|]; split; [apply DF; exact S|exact V1]);
      try (destruct KO as (m'' & L' & TT' & O' & S'); exists m''; cbn [fst snd g_dist g_valid]; split; [exact L'|]; split; [exact TT'|]; split; [exact O'|]; split; [apply DF; exact S'|exact V1]);
      try (destruct (OK _ (or_introl eq_refl)) as (m'' & L' & TT' & O' & S'); exists m''; cbn [fst snd g_dist g_valid]; split; [exact L'|]; split; [exact TT'|]; split; [exact O'|]; split; [exact S'|split; reflexivity]);
      try (destruct (OK _ (or_intror eq_refl)) as (m'' & L' & TT' & O' & S'); exists m''; cbn [fst snd g_dist g_valid]; split; [exact L'|]; split; [exact TT'|]; split; [exact O'|]; split; [exact S'|split; reflexivity]).
Qed.
Lemma read_lives m l d i : ok_dist m l d ->
  exists m', lives m (fst (dist_read l d i)) m' /\ (forall l', l' <> l -> m' l' = m l') /\ ok_dist m' l (snd (dist_read l d i))
   /\ match i with NoHeader => snd (dist_read l d i) = d | Tag _ false => valid (snd (dist_read l d i)) = true | _ => True end.
Proof.
  intros D. destruct i as [| |k x]; cbn [dist_read].
  - exists m. split; [constructor|]. split; [reflexivity|]. split; [exact D|reflexivity].
  - destruct (dtor_lives m l d D) as (m1 & L1 & N1 & O1 & V1). exists m1. split; [exact L1|]. split; [exact O1|]. split; [|exact I]. unfold ok_dist. rewrite V1. exact N1.
  - destruct (dtor_lives m l d D) as (m1 & L1 & N1 & O1 & V1). destruct (dist_dtor l d) as (t, d1). cbn [fst snd] in *. destruct x; cbn [fst snd].
    + exists m1. split; [exact L1|]. split; [exact O1|]. split; [exact N1|exact I].
    + exists (store m1 l (Some k)). split; [|split; [intros l' N; rewrite store_other by exact N; apply O1; exact N|split; [apply store_same|reflexivity]]].
      apply (lives_app _ _ m1); [exact L1|]. constructor; [exact N1|]. destruct k; repeat constructor. apply store_same.
Qed.
Lemma run_lives h os h' : careful h os h' -> forall m w w' t, ok_world m h w -> run w os = Some (w', t) -> exists m', lives m t m' /\ ok_world m' h' w'.
Proof.
  induction 1 as [h|h a os h' C IH|h a x ip k c os h' HA C IH|h a x i os h' HA HX C IH|h a os h' HA C IH|h a b os h' HB C IH|h a os h' C IH]; intros m w w' t OK R; cbn [run] in R.
  - injection R as <- <-. exists m. split; [constructor|exact OK].
  - cbn [step] in R. destruct (w a) eqn:WA; [discriminate|]. cbn [gen_ctor] in R. destruct (run _ os) as [(w2, t2)|] eqn:R2; [|discriminate]. injection R as <- <-.
    pose proof (proj2 OK a) as G. rewrite WA in G. cbn in G. destruct G as (G & _).
    edestruct (IH (store m (Slot a) (Some Uniform))) as (m' & L & OK'); [ |exact R2| ].
    { apply (ok_update m h w); [exact OK|rewrite store_other by discriminate; apply OK|intros b B; apply store_other, slot_neq, B|]. cbn. rewrite note_same. split; [apply store_same|split; reflexivity]. }
    exists m'. split; [cbn; constructor; [exact G|exact L]|exact OK'].
  - cbn [step] in R. destruct (w a) as [g|] eqn:WA; [|discriminate]. pose proof (proj2 OK a) as G. rewrite WA in G. cbn [ok_gen] in G. destruct G as (G & _).
    destruct (build_lives m a ip k c g (proj1 OK) G) as (m1 & L1 & T1 & O1 & D1 & V1). destruct (gen_build a ip k c g) as (t1, g1). cbn [fst snd] in *.
    destruct (run _ os) as [(w2, t2)|] eqn:R2; [|discriminate]. injection R as <- <-. edestruct (IH m1) as (m' & L & OK'); [ |exact R2| ].
    { apply (ok_update m h w); [exact OK|exact T1|exact O1|]. cbn [ok_gen]. rewrite note_same. split; [exact D1|]. destruct (after_build k c) eqn:AB; [exact V1|destruct k, c; discriminate|exact V1]. }
    exists m'. split; [apply (lives_app _ _ m1); assumption|exact OK'].
  - cbn [step] in R. destruct (w a) as [g|] eqn:WA; [|discriminate]. pose proof (proj2 OK a) as G. rewrite WA in G. cbn [ok_gen] in G. destruct G as (G & GH). rewrite HA in GH.
    destruct (read_lives m (Slot a) (g_dist g) i G) as (m1 & L1 & O1 & D1 & V1). unfold gen_read in R. destruct (dist_read (Slot a) (g_dist g) i) as (t1, d1). cbn [fst snd] in *.
    destruct (run _ os) as [(w2, t2)|] eqn:R2; [|discriminate]. injection R as <- <-. edestruct (IH m1) as (m' & L & OK'); [ |exact R2| ].
    { apply (ok_update m h w); [exact OK|rewrite O1 by discriminate; apply OK|intros b B; apply O1, slot_neq, B|]. cbn [ok_gen g_dist g_valid]. rewrite note_same. split; [exact D1|].
      destruct i as [| |k [|]]; cbn [after_read]; [subst d1; destruct x; [exact GH|exact GH|contradiction]|destruct x; [apply GH|exact GH|contradiction]|destruct x; [apply GH|exact GH|contradiction]|split; [destruct x; [apply GH|exact GH|contradiction]|exact V1]]. }
    exists m'. split; [apply (lives_app _ _ m1); assumption|exact OK'].
  - cbn [step] in R. destruct (w a) as [g|] eqn:WA; [|discriminate]. pose proof (proj2 OK a) as G. rewrite WA in G. cbn [ok_gen] in G. rewrite HA in G. destruct G as (G & _ & V). unfold ok_dist in G. rewrite V in G.
    destruct (run w os) as [(w2, t2)|] eqn:R2; [|discriminate]. injection R as <- <-. destruct (IH m w _ _ OK R2) as (m' & L & OK'). exists m'. split; [|exact OK']. unfold gen_use, dist_use. destruct (tag (g_dist g)) eqn:K; cbn; try exact L. constructor; assumption.
  - cbn [step] in R. destruct (w a) eqn:WA; [discriminate|]. destruct (w b) as [g|] eqn:WB; [|discriminate]. pose proof (proj2 OK a) as GA. rewrite WA in GA. destruct GA as (GA & _). pose proof (proj2 OK b) as G. rewrite WB in G. cbn [ok_gen] in G. rewrite HB in G. destruct G as (G & _ & V). unfold ok_dist in G. rewrite V in G.
    unfold gen_move in R. cbn [dist_move] in R. destruct (run _ os) as [(w2, t2)|] eqn:R2; [|discriminate]. injection R as <- <-. edestruct (IH (store m (Slot a) (Some (tag (g_dist g))))) as (m' & L & OK'); [ |exact R2| ].
    { apply (ok_update m h w); [exact OK|rewrite store_other by discriminate; apply OK|intros c B; apply store_other, slot_neq, B|]. cbn [ok_gen g_dist g_valid]. rewrite note_same. split; [apply store_same|split; reflexivity]. }
    exists m'. split; [cbn; constructor; [exact G|]; constructor; assumption|exact OK'].
  - cbn [step] in R. destruct (w a) as [g|] eqn:WA; [|discriminate]. pose proof (proj2 OK a) as G. rewrite WA in G. cbn [ok_gen] in G. destruct G as (G & GH).
    destruct (dtor_lives m (Slot a) (g_dist g) G) as (m1 & L1 & N1 & O1 & V1). destruct (run _ os) as [(w2, t2)|] eqn:R2; [|discriminate]. injection R as <- <-.
    assert (D : exists m2, lives m (gen_dtor a g) m2 /\ m2 (Slot a) = None /\ forall l, l <> Slot a -> m2 l = m l).
    { unfold gen_dtor. destruct (g_valid g) eqn:GV; [exists m1; auto|]. exists m. split; [constructor|]. split; [|reflexivity]. destruct (h a) as [[]|]; [destruct GH; congruence|congruence| |contradiction]. unfold ok_dist in G. rewrite GH in G. exact G. }
    destruct D as (m2 & L2 & N2 & O2). edestruct (IH m2) as (m' & L & OK'); [ |exact R2| ].
    { apply (ok_update m h w); [exact OK|rewrite O2 by discriminate; apply OK|intros b B; apply O2, slot_neq, B|]. cbn [ok_gen]. split; [exact N2|apply note_same]. }
    exists m'. split; [apply (lives_app _ _ m2); assumption|exact OK'].
Qed.
Definition nobody : world := fun _ => None.
Definition unknown : outlook := fun _ => None.
Lemma exactly_once os h' w t : careful unknown os h' -> run nobody os = Some (w, t) ->
  exists m, lives nothing t m /\ m Temp = None /\ forall a, (forall k, m (Slot a) = Some k -> exists g, w a = Some g) /\ (h' a = Some Fine -> exists k, m (Slot a) = Some k).
Proof.
  intros C R. destruct (run_lives _ _ _ C nothing nobody w t) as (m & L & (T & W)); [split; [reflexivity|intros a; split; reflexivity]|exact R|].
  exists m. split; [exact L|]. split; [exact T|]. intros a. specialize (W a). split.
  - intros k K. destruct (w a) as [g|]; [exists g; reflexivity|]. destruct W as (W & _). congruence.
  - intros F. destruct (w a) as [g|]; cbn [ok_gen] in W; rewrite F in W; [|destruct W; discriminate]. destruct W as (W & _ & V). unfold ok_dist in W. rewrite V in W. exists (tag (g_dist g)). exact W.
Qed.
(** Counts. *)
Lemma loc_eqb_sym a b : loc_eqb a b = loc_eqb b a.
Proof. destruct (loc_eqb_spec a b), (loc_eqb_spec b a); congruence. Qed.
Definition held (m : memory) (l : loc) : nat := if m l then 1 else 0.
Lemma lives_counts m t m' l : lives m t m' -> (held m l + constructed l t = held m' l + destroyed l t)%nat.
Proof.
  induction 1 as [m|m l0 k t m' N L IH|m l0 k t m' N L IH|m l0 k t m' N L IH]; cbn [constructed destroyed]; [lia| |exact IH|];
  unfold held, store in *; rewrite (loc_eqb_sym l l0) in IH; destruct (loc_eqb_spec l0 l) as [->|]; try rewrite N; destruct (m' l); lia.
Qed.
Lemma balanced os h' w t : careful unknown os h' -> run nobody os = Some (w, t) -> (forall a, w a = None) -> forall l, constructed l t = destroyed l t.
Proof.
  intros C R E l. destruct (exactly_once os h' w t C R) as (m & L & T & W). pose proof (lives_counts _ _ _ l L) as K. unfold held, nothing in K.
  replace (m l) with (@None kind) in K; [lia|]. destruct l as [a|]; [|symmetry; exact T]. destruct (W a) as (A & _). destruct (m (Slot a)) as [k|]; [|reflexivity]. destruct (A k eq_refl) as (g & G). rewrite E in G. discriminate.
Qed.
(** All programs, careful or not. *)
Definition fit (m : memory) (w : world) : Prop := forall a g, w a = Some g -> valid (g_dist g) = true -> m (Slot a) = Some (tag (g_dist g)).
Lemma frees_app m t m' t' m'' : frees m t m' -> frees m' t' m'' -> frees m (t ++ t') m''.
Proof. induction 1; intros; cbn; [assumption|constructor; auto..]. Qed.
Definition only_slot (a : nat) (t : list event) : Prop := Forall (fun e => match e with Construct l _ | Destroy l _ => l = Slot a \/ l = Temp | Use _ _ => True end) t.
Lemma frees_other m t m' a b : frees m t m' -> only_slot a t -> b <> a -> m' (Slot b) = m (Slot b).
Proof.
  intros F. revert b. induction F as [m|m l k t m' F IH|m l k t m' F IH|m l k t m' N F IH]; intros b O B; [reflexivity|apply Forall_cons_iff in O; destruct O as (O1 & O2); rewrite (IH b O2 B)..]; try reflexivity;
  (apply store_other; destruct O1 as [->| ->]; congruence).
Qed.
Lemma dtor_frees m a d : (valid d = true -> m (Slot a) = Some (tag d)) -> exists m', frees m (fst (dist_dtor (Slot a) d)) m' /\ only_slot a (fst (dist_dtor (Slot a) d)) /\ valid (snd (dist_dtor (Slot a) d)) = false.
Proof.
  intros H. unfold dist_dtor. destruct (valid d) eqn:V; cbn [fst snd].
  - exists (store m (Slot a) None). split; [constructor; [apply H; reflexivity|constructor]|]. split; [constructor; [left; reflexivity|constructor]|reflexivity].
  - exists m. split; [constructor|]. split; [constructor|exact V].
Qed.
Lemma step_frees m w o w' t : fit m w -> step w o = Some (w', t) -> exists m', frees m t m' /\ fit m' w'.
Proof.
  intros F S.
  assert (UP : forall a g m' t', frees m t' m' -> only_slot a t' -> (valid (g_dist g) = true -> m' (Slot a) = Some (tag (g_dist g))) -> fit m' (put w a (Some g))).
  { intros a g m' t' FT OS V b g'. unfold put. destruct (Nat.eqb_spec b a) as [->|N]; [intros [= <-]; exact V|]. intros WB VB. rewrite (frees_other _ _ _ _ _ FT OS N). apply F; assumption. }
  destruct o as [a|a ip k c|a i|a|a b|a]; cbn [step] in S.
  - destruct (w a) eqn:WA; [discriminate|]. injection S as <- <-. exists (store m (Slot a) (Some Uniform)). assert (FR : frees m [Construct (Slot a) Uniform] (store m (Slot a) (Some Uniform))) by repeat constructor. split; [exact FR|].
    apply (UP _ _ _ _ FR); [repeat constructor|intros _; apply store_same].
  - destruct (w a) as [g|] eqn:WA; [|discriminate]. destruct (dtor_frees m a (g_dist g) (F a g WA)) as (m1 & F1 & O1 & V1). unfold gen_build in S. destruct (dist_dtor (Slot a) (g_dist g)) as (t0, d). cbn [fst snd] in *.
    assert (K : exists t1 g1 m2, (w', t) = (put w a (Some g1), t0 ++ t1) /\ frees m1 t1 m2 /\ only_slot a t1 /\ (valid (g_dist g1) = true -> m2 (Slot a) = Some (tag (g_dist g1)))).
    { destruct ip, c, k; cbn in S; (match type of S with Some (put w a (Some ?G), _ ++ ?T) = _ => exists T, G end); eexists; (split; [symmetry; congruence|]);
      (split; [repeat first [apply frees_nil|apply frees_construct|apply frees_use|apply frees_destroy; [first [apply store_same|rewrite store_other by discriminate; apply store_same]|]]|]); (split; [repeat (constructor; auto)|]); cbn; intros V;
      first [apply store_same|congruence|rewrite store_other by discriminate; apply store_same|discriminate]. }
    destruct K as (t1 & g1 & m2 & E & F2 & O2 & V2). assert (EW : w' = put w a (Some g1)) by congruence. assert (ET : t = t0 ++ t1) by congruence. subst w' t. exists m2. assert (FF : frees m (t0 ++ t1) m2) by (eapply frees_app; eassumption). split; [exact FF|].
    apply (UP _ _ _ _ FF); [apply Forall_app; split; assumption|exact V2].
  - destruct (w a) as [g|] eqn:WA; [|discriminate]. unfold gen_read in S. destruct i as [| |k x]; cbn [dist_read] in S.
    + injection S as <- <-. exists m. assert (FR : frees m [] m) by constructor. split; [exact FR|]. apply (UP _ _ _ _ FR); [constructor|exact (F a g WA)].
    + destruct (dtor_frees m a (g_dist g) (F a g WA)) as (m1 & F1 & O1 & V1). destruct (dist_dtor (Slot a) (g_dist g)) as (t0, d). cbn [fst snd] in *. injection S as <- <-. exists m1. split; [exact F1|]. apply (UP _ _ _ _ F1); [exact O1|cbn; congruence].
    + destruct (dtor_frees m a (g_dist g) (F a g WA)) as (m1 & F1 & O1 & V1). destruct (dist_dtor (Slot a) (g_dist g)) as (t0, d). cbn [fst snd] in *. destruct x.
      * injection S as <- <-. exists m1. split; [exact F1|]. apply (UP _ _ _ _ F1); [exact O1|cbn; congruence].
      * injection S as <- <-. exists (store m1 (Slot a) (Some k)).
        assert (FF : frees m (t0 ++ Construct (Slot a) k :: match k with Bubble => [Use (Slot a) Bubble] | _ => [] end) (store m1 (Slot a) (Some k))) by (eapply frees_app; [exact F1|constructor; destruct k; repeat constructor]).
        split; [exact FF|]. apply (UP _ _ _ _ FF); [apply Forall_app; split; [exact O1|destruct k; repeat (constructor; auto)]|intros _; apply store_same].
  - destruct (w a) as [g|] eqn:WA; [|discriminate]. injection S as <- <-. exists m. split; [|exact F]. unfold gen_use, dist_use. destruct (tag (g_dist g)); repeat constructor.
  - destruct (w a) eqn:WA; [discriminate|]. destruct (w b) as [g|] eqn:WB; [|discriminate]. unfold gen_move in S. cbn [dist_move] in S. injection S as <- <-.
    assert (FR : frees m [Use (Slot b) (tag (g_dist g)); Construct (Slot a) (tag (g_dist g))] (store m (Slot a) (Some (tag (g_dist g))))) by repeat constructor.
    eexists. split; [exact FR|]. apply (UP _ _ _ _ FR); [repeat (constructor; auto)|intros _; apply store_same].
  - destruct (w a) as [g|] eqn:WA; [|discriminate]. injection S as <- <-. destruct (dtor_frees m a (g_dist g) (F a g WA)) as (m1 & F1 & O1 & V1).
    assert (D : exists m2, frees m (gen_dtor a g) m2 /\ only_slot a (gen_dtor a g)) by (unfold gen_dtor; destruct (g_valid g); [exists m1; auto|exists m; split; constructor]).
    destruct D as (m2 & F2 & O2). exists m2. split; [exact F2|]. intros c g'. unfold put. destruct (Nat.eqb_spec c a) as [->|N]; [discriminate|]. intros WC VC. rewrite (frees_other _ _ _ _ _ F2 O2 N). apply F; assumption.
Qed.
Lemma run_frees os : forall m w w' t, fit m w -> run w os = Some (w', t) -> exists m', frees m t m'.
Proof.
  induction os as [|o os IH]; intros m w w' t F R; cbn [run] in R.
  - injection R as <- <-. exists m. constructor.
  - destruct (step w o) as [(w1, t1)|] eqn:S; [|discriminate]. destruct (run w1 os) as [(w2, t2)|] eqn:R2; [|discriminate]. injection R as <- <-.
    destruct (step_frees _ _ _ _ _ F S) as (m1 & F1 & FT). destruct (IH m1 w1 w2 t2 FT R2) as (m2 & F2). exists m2. eapply frees_app; eassumption.
Qed.
Lemma never_twice os w t : run nobody os = Some (w, t) -> exists m, frees nothing t m.
Proof. apply run_frees. intros a g G. discriminate. Qed.
