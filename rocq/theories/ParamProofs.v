(** Proofs about the parameter store. *)
From Coq Require Import String List Bool Lia.
From Verif Require Import FilterModel FilterProofs ParamModel ParamSpec.
Import ListNotations.

Section Proofs.
Context {D : Type}.
Implicit Types ps : params D.

Lemma lookup_in ps n p : lookup ps n = Some p -> In (n, p) ps.
Proof.
  induction ps as [|[m q] ps IH]; cbn; [discriminate|].
  destruct (String.eqb m n) eqn:E.
  - apply String.eqb_eq in E. intros H; inversion H; subst; auto.
  - auto.
Qed.
Lemma in_lookup ps n p : NoDup (names ps) -> In (n, p) ps -> lookup ps n = Some p.
Proof.
  unfold names. induction ps as [|[m q] ps IH]; cbn; [tauto|].
  intros H [E|Hi]; inversion H; subst.
  - inversion E; subst. now rewrite String.eqb_refl.
  - destruct (String.eqb m n) eqn:E; auto. apply String.eqb_eq in E. subst.
    exfalso. apply H2. apply in_map_iff. exists (n, p). auto.
Qed.
Lemma lookup_names ps n : lookup ps n <> None <-> In n (names ps).
Proof.
  unfold names. induction ps as [|[m q] ps IH]; cbn; [tauto|].
  destruct (String.eqb m n) eqn:E.
  - apply String.eqb_eq in E. subst. split; auto. discriminate.
  - apply String.eqb_neq in E. rewrite IH. intuition.
Qed.
Lemma lookup_update_same ps n q : lookup ps n <> None -> lookup (update ps n q) n = Some q.
Proof.
  induction ps as [|[m p] ps IH]; cbn; [tauto|].
  destruct (String.eqb m n) eqn:E; cbn; rewrite ?E, ?String.eqb_refl; auto.
Qed.
Lemma lookup_update_other ps n m q : n <> m -> lookup (update ps n q) m = lookup ps m.
Proof.
  intros N. induction ps as [|[k p] ps IH]; cbn; auto.
  destruct (String.eqb k n) eqn:E; cbn.
  - apply String.eqb_eq in E. subst.
    destruct (String.eqb n m) eqn:E2; auto. apply String.eqb_eq in E2. congruence.
  - now rewrite IH.
Qed.
Lemma lookup_update ps n m q : lookup (update ps n q) m =
  if String.eqb n m then match lookup ps n with Some _ => Some q | None => None end else lookup ps m.
Proof.
  destruct (String.eqb n m) eqn:E.
  - apply String.eqb_eq in E. subst. destruct (lookup ps m) eqn:L.
    + apply lookup_update_same. congruence.
    + assert (lookup (update ps m q) m = None); auto.
      clear - L. induction ps as [|[k p] ps IH]; cbn in *; auto.
      destruct (String.eqb k m) eqn:E; [discriminate|]. cbn. rewrite E. auto.
  - apply String.eqb_neq in E. now apply lookup_update_other.
Qed.
Lemma names_update ps n q : names (update ps n q) = names ps.
Proof.
  unfold names. induction ps as [|[k p] ps IH]; cbn; auto.
  destruct (String.eqb k n) eqn:E; cbn; congruence.
Qed.
Lemma lookup_map (g : param D -> param D) ps n :
  lookup (map (fun np => let '(m, p) := np in (m, g p)) ps) n = option_map g (lookup ps n).
Proof.
  induction ps as [|[k p] ps IH]; cbn; auto. destruct (String.eqb k n); auto.
Qed.
Lemma lookup_clear ps n : lookup (clear_unused ps) n =
  option_map (fun p => if p_used p then p else Param (p_type p) None (p_default p) (p_tags p) (p_used p)) (lookup ps n).
Proof. apply lookup_map. Qed.
Lemma names_clear ps : names (clear_unused ps) = names ps.
Proof.
  unfold names, clear_unused. rewrite map_map. apply map_ext. intros [n p]; auto.
Qed.

Lemma lookup_pfilter ps f n : NoDup (names ps) -> lookup (pfilter ps f) n =
  match lookup ps n with Some p => if fcheck f (p_tags p) then Some p else None | None => None end.
Proof.
  unfold names, pfilter. induction ps as [|[k p] ps IH]; cbn; auto.
  intros H; inversion H; subst. destruct (String.eqb k n) eqn:E.
  - apply String.eqb_eq in E; subst. destruct (fcheck f (p_tags p)) eqn:C; cbn.
    + now rewrite String.eqb_refl.
    + rewrite IH by auto. destruct (lookup ps n) eqn:L; auto.
      exfalso. apply H2. apply lookup_names. congruence.
  - destruct (fcheck f (p_tags p)); cbn; rewrite ?E; auto.
Qed.
Lemma nodup_pfilter ps f : NoDup (names ps) -> NoDup (names (pfilter ps f)).
Proof.
  unfold names, pfilter. induction ps as [|[k p] ps IH]; cbn; auto.
  intros H; inversion H; subst. destruct (fcheck f (p_tags p)); cbn; auto.
  constructor; auto. intros C. apply H2. apply in_map_iff in C as ((k', p') & E & C).
  apply filter_In in C as [C _]. cbn in E. subst. apply in_map_iff. exists (k, p'). auto.
Qed.

(** ** The history semantics *)
Section History.
Variable f : params D.
Hypothesis Hf : is_format f.

(** State of the store after a history, parameter by parameter. *)
Definition param_after (p : param D) (h : list op) (n : string) (q : param D) : Prop :=
  p_type q = p_type p /\ p_default q = p_default p /\ p_tags q = p_tags p /\
  p_value q = provided f h n /\ (p_value q <> None -> p_used q = read_since f h n).
Lemma run_names h : names (run f h) = names f.
Proof.
  induction h as [|o h IH]; cbn [run]; auto. destruct o; cbn [step]; auto.
  - destruct (set (run f h) name v) as [[b ps']|e] eqn:E; auto.
    unfold set, bind, at_ in E. destruct (lookup (run f h) name) as [p|]; try discriminate.
    destruct v as [v'|]; [destruct (vtype_eqb _ _); try discriminate|]; inversion E; subst; rewrite names_update; auto.
  - destruct (set_from1 (run f h) other name) as [[b ps']|e] eqn:E; auto.
    unfold set_from1, bind, at_ in E. destruct (lookup (run f h) name) as [p|]; try discriminate.
    destruct (lookup other name); try discriminate.
    repeat match type of E with (if ?b then _ else _) = _ => destruct b; try discriminate end.
    inversion E; subst; rewrite names_update; auto.
  - destruct (get (run f h) name) as [[b ps']|e] eqn:E; auto.
    unfold get, bind, at_ in E. destruct (lookup (run f h) name) as [p|]; try discriminate.
    destruct (p_value p); [|destruct (p_default p) as [[]|]; try discriminate];
      inversion E; subst; rewrite ?names_update; auto.
  - rewrite names_clear; auto.
Qed.
Lemma run_lookup h n : match lookup f n with
  | Some p => exists q, lookup (run f h) n = Some q /\ param_after p h n q
  | None => lookup (run f h) n = None end.
Proof.
  destruct (lookup f n) as [p|] eqn:L.
  2:{ destruct (lookup (run f h) n) eqn:E; auto. exfalso.
      assert (lookup f n <> None); [|congruence]. apply lookup_names. rewrite <- (run_names h).
      apply lookup_names. congruence. }
  induction h as [|o h (q & Lq & T & Df & Tg & V & U)].
  { exists p. split; auto. destruct Hf as [_ H]. destruct (H n p) as [V U]. { now apply lookup_in. }
    repeat split; auto. all: cbn; congruence. }
  assert (same : lookup (step (run f h) o) n = Some q -> assigns f o n = None -> 
     provided f (o :: h) n = provided f h n -> (p_value q <> None -> read_since f (o :: h) n = read_since f h n) ->
     exists q', lookup (step (run f h) o) n = Some q' /\ param_after p (o :: h) n q').
  { intros A B C E. exists q. split; auto. unfold param_after. repeat split; auto; try congruence. intros K. rewrite E by exact K. apply U; exact K. }
  cbn [run]. destruct o as [m v|other m|m|m|]; cbn [step] in *.
  - unfold set, at_ in *. destruct (lookup (run f h) m) as [r|] eqn:Lr.
    2:{ assert (lookup f m = None).
        { destruct (lookup f m) eqn:E; auto. exfalso.
          assert (lookup (run f h) m <> None); [|congruence]. apply lookup_names. rewrite run_names.
          apply lookup_names. congruence. }
        cbn [bind] in *. apply same; auto; cbn; rewrite ?H; auto. }
    assert (Fm : exists s, lookup f m = Some s /\ (m = n -> s = p /\ r = q)).
    { destruct (lookup f m) as [s|] eqn:E; [exists s; split; auto; intros; subst; split; congruence|].
      exfalso. assert (lookup f m <> None); [|congruence]. apply lookup_names. rewrite <- (run_names h).
      apply lookup_names. congruence. }
    destruct Fm as (s & Ls & Es). cbn [bind] in *.
    destruct (String.eqb m n) eqn:Emn.
    + apply String.eqb_eq in Emn. destruct (Es Emn). subst m s r.
      destruct v as [v|].
      * rewrite T in *. destruct (vtype_eqb (p_type p) (vtype_of v)) eqn:Ev.
        -- exists (with_value q (Some v)). rewrite lookup_update_same by congruence. split; auto.
           unfold param_after. cbn. rewrite Ls, String.eqb_refl, Ev. cbn. repeat split; auto.
        -- apply same; auto; cbn; rewrite ?Ls, ?String.eqb_refl, ?Ev; cbn; auto.
      * exists (with_value q None). rewrite lookup_update_same by congruence. split; auto.
        unfold param_after. cbn. rewrite Ls, String.eqb_refl. cbn. repeat split; auto; congruence.
    + assert (Nmn : m <> n) by (apply String.eqb_neq; auto).
      assert (A : assigns f (OpSet m v) n = None).
      { cbn. rewrite Ls, Emn. destruct v; auto. }
      assert (B : provided f (OpSet m v :: h) n = provided f h n) by (cbn [provided]; now rewrite A).
      assert (C : read_since f (OpSet m v :: h) n = read_since f h n) by (cbn [read_since]; now rewrite A).
      destruct v as [v|]; [destruct (vtype_eqb _ _)|]; apply same; auto; rewrite ?lookup_update_other; auto.
  - unfold set_from1, at_ in *. destruct (lookup (run f h) m) as [r|] eqn:Lr.
    2:{ assert (lookup f m = None).
        { destruct (lookup f m) eqn:E; auto. exfalso.
          assert (lookup (run f h) m <> None); [|congruence]. apply lookup_names. rewrite run_names.
          apply lookup_names. congruence. }
        cbn [bind] in *. apply same; auto; cbn; rewrite ?H; auto. }
    assert (Fm : exists s, lookup f m = Some s /\ (m = n -> s = p /\ r = q)).
    { destruct (lookup f m) as [s|] eqn:E; [exists s; split; auto; intros; subst; split; congruence|].
      exfalso. assert (lookup f m <> None); [|congruence]. apply lookup_names. rewrite <- (run_names h).
      apply lookup_names. congruence. }
    destruct Fm as (s & Ls & Es). cbn [bind] in *.
    destruct (lookup other m) as [w|] eqn:Lw; cbn [bind] in *.
    2:{ apply same; auto; cbn; rewrite ?Ls, ?Lw; auto. }
    destruct (String.eqb m n) eqn:Emn.
    + apply String.eqb_eq in Emn. destruct (Es Emn). subst m s r.
      rewrite T, Df, Tg in *.
      destruct (vtype_eqb (p_type p) (p_type w)) eqn:E1; cbn [negb] in *;
        [|apply same; auto; cbn; rewrite ?Ls, ?Lw, ?String.eqb_refl, ?E1; auto].
      destruct (slist_eqb (p_tags p) (p_tags w)) eqn:E2; cbn [negb] in *;
        [|apply same; auto; cbn; rewrite ?Ls, ?Lw, ?String.eqb_refl, ?E1, ?E2; auto].
      destruct (default_eqb (p_default p) (p_default w)) eqn:E3; cbn [negb] in *;
        [|apply same; auto; cbn; rewrite ?Ls, ?Lw, ?String.eqb_refl, ?E1, ?E2, ?E3; auto].
      exists (with_value q (p_value w)). rewrite lookup_update_same by congruence. split; auto.
      unfold param_after. cbn. rewrite Ls, Lw, String.eqb_refl, E1, E2, E3. cbn. repeat split; auto.
    + assert (Nmn : m <> n) by (apply String.eqb_neq; auto).
      assert (A : assigns f (OpSetFrom other m) n = None).
      { cbn. rewrite Ls, Lw, Emn. auto. }
      assert (B : provided f (OpSetFrom other m :: h) n = provided f h n) by (cbn [provided]; now rewrite A).
      assert (C : read_since f (OpSetFrom other m :: h) n = read_since f h n) by (cbn [read_since]; now rewrite A).
      repeat match goal with |- context [if ?b then Throw _ else _] => destruct b end;
        apply same; auto; rewrite lookup_update_other; auto.
  - unfold get, at_ in *. destruct (lookup (run f h) m) as [r|] eqn:Lr; cbn [bind] in *.
    2:{ apply same; auto. cbn. destruct (String.eqb m n) eqn:E; auto. apply String.eqb_eq in E. congruence. }
    destruct (String.eqb m n) eqn:Emn.
    + apply String.eqb_eq in Emn. subst m. assert (r = q) by congruence. subst r.
      destruct (p_value q) as [v|] eqn:Ev.
      * exists (mark_used q). rewrite lookup_update_same by congruence. split; auto.
        unfold param_after. cbn. rewrite String.eqb_refl. cbn. repeat split; auto. congruence.
      * destruct (p_default q) as [[]|]; apply same; auto; try congruence.
    + assert (Nmn : m <> n) by (apply String.eqb_neq; auto).
      assert (C : read_since f (OpGet m :: h) n = read_since f h n) by (cbn; now rewrite Emn).
      destruct (p_value r); [|destruct (p_default r) as [[]|]]; apply same; auto.
      rewrite lookup_update_other; auto.
  - apply same; auto.
  - rewrite lookup_clear, Lq. cbn [option_map]. eexists. split; [reflexivity|].
    unfold param_after. cbn. destruct (p_value q) eqn:Ev.
    + assert (R : p_used q = read_since f h n) by (apply U; congruence).
      destruct (p_used q) eqn:Eu; rewrite <- R; cbn; repeat split; auto; congruence.
    + rewrite <- V. destruct (p_used q); cbn; repeat split; auto; try congruence; destruct (read_since f h n); auto.
Qed.

Lemma run_get h n : match lookup f n with
  | None => get (run f h) n = Throw (ENoSuch n)
  | Some p =>
    match provided f h n with
    | Some v => exists ps', get (run f h) n = Ok (v, ps')
    | None => match default_of f n with
              | Some d => get (run f h) n = Ok (d, run f h)
              | None => get (run f h) n = Throw (ERequired n)
              end
    end
  end.
Proof.
  pose proof (run_lookup h n) as H. unfold get, at_, default_of. destruct (lookup f n) as [p|] eqn:L.
  - destruct H as (q & -> & T & Df & _ & V & _). cbn. rewrite V, Df.
    destruct (provided f h n); [eexists; reflexivity|]. destruct (p_default p) as [[]|]; reflexivity.
  - now rewrite H.
Qed.
Lemma run_get_soft h n : get_soft (run f h) n = match get (run f h) n with Ok (v, _) => Ok v | Throw e => Throw e end.
Proof.
  unfold get_soft, get. destruct (at_ (run f h) n) as [p|]; cbn; auto.
  destruct (p_value p); auto. destruct (p_default p) as [[]|]; auto.
Qed.

Lemma check_complete_iff ps : NoDup (names ps) ->
  (check_complete ps = Ok tt <-> forall n p, lookup ps n = Some p -> p_value p <> None -> p_used p = true).
Proof.
  intros N. transitivity (forall n p, In (n, p) ps -> p_value p <> None -> p_used p = true).
  2:{ split; intros H n p Hi; [apply (H n), lookup_in; auto | apply (H n), in_lookup; auto]. }
  clear N. induction ps as [|[m q] ps IH]; cbn.
  - split; [intros _ n p [] | reflexivity].
  - destruct (p_value q) eqn:V.
    + destruct (p_used q) eqn:U.
      * rewrite IH. split.
        -- intros H n p [E|?]; eauto. inversion E; subst. auto.
        -- intros H n p ?. eapply H; eauto.
      * split; [discriminate|]. intros H. rewrite (H m q) in U; auto; congruence.
    + rewrite IH. split.
      * intros H n p [E|?]; eauto. inversion E; subst. congruence.
      * intros H n p ?. eapply H; eauto.
Qed.
Lemma run_strict h : check_complete (run f h) = Ok tt <->
  forall n, provided f h n <> None -> In n (names f) -> read_since f h n = true.
Proof.
  rewrite check_complete_iff by (rewrite run_names; apply Hf). split.
  - intros H n P Hn. apply lookup_names in Hn. pose proof (run_lookup h n) as R.
    destruct (lookup f n) as [p|]; [|congruence]. destruct R as (q & Lq & _ & _ & _ & V & U).
    rewrite <- U by congruence. apply (H n); auto. congruence.
  - intros H n q Lq V. pose proof (run_lookup h n) as R.
    destruct (lookup f n) as [p|] eqn:L; [|congruence]. destruct R as (q' & Lq' & _ & _ & _ & V' & U).
    assert (q' = q) by congruence. subst. rewrite U by auto. apply H; [congruence|].
    apply lookup_names. congruence.
Qed.
Lemma provided_known h n : provided f h n <> None -> In n (names f).
Proof.
  intros P. apply lookup_names. intros L. apply P.
  induction h as [|o h IH]; cbn; auto.
  assert (assigns f o n = None) as ->.
  { destruct o; cbn; auto.
    - destruct (String.eqb name n) eqn:E.
      + apply String.eqb_eq in E. subst. now rewrite L.
      + destruct (lookup f name); auto. destruct v; auto.
    - destruct (String.eqb name n) eqn:E.
      + apply String.eqb_eq in E. subst. now rewrite L.
      + destruct (lookup f name); auto. destruct (lookup other name); auto. }
  cbn in P. 
  destruct (assigns f o n) eqn:A in P.
  - destruct o; cbn in A; try discriminate.
    + destruct (String.eqb name n) eqn:E.
      * apply String.eqb_eq in E. subst. rewrite L in A. discriminate.
      * destruct (lookup f name); [|discriminate]. destruct v; discriminate.
    + destruct (String.eqb name n) eqn:E.
      * apply String.eqb_eq in E. subst. rewrite L in A. discriminate.
      * destruct (lookup f name); [|discriminate]. destruct (lookup other name); discriminate.
  - destruct o; auto. destruct (read_since f h n); auto.
Qed.
Lemma run_strict' h : check_complete (run f h) = Ok tt <->
  forall n, provided f h n <> None -> read_since f h n = true.
Proof.
  rewrite run_strict. split; intros H n ?; [apply H; auto; eapply provided_known; eauto | auto].
Qed.
End History.
End Proofs.
