(** Proofs about event-type selection and foam compatibility. *)
From Coq Require Import String List Bool ZArith Lia.
From Verif Require Import FilterModel FilterProofs ParamModel ParamSpec ParamProofs FormatModel FormatSpec.
Import ListNotations.
Local Open Scope string_scope.

(** ** Erasing use marks *)
Definition core {D} (p : param D) : param D := Param (p_type p) (p_value p) (p_default p) (p_tags p) false.
Definition erase {D} (ps : params D) : params D := map (fun np => let '(n, p) := np in (n, core p)) ps.

Section Erase.
Context {D : Type}.
Variable deqb : D -> D -> bool.
Implicit Types ps a b : params D.
Lemma lookup_erase ps n : lookup (erase ps) n = option_map core (lookup ps n).
Proof. apply lookup_map. Qed.
Lemma names_erase ps : names (erase ps) = names ps.
Proof. unfold names, erase. rewrite map_map. apply map_ext. intros [n p]; auto. Qed.
Lemma erase_update ps n p q : lookup ps n = Some p -> core q = core p -> erase (update ps n q) = erase ps.
Proof.
  intros L E. induction ps as [|[m r] ps IH]; cbn in *; auto.
  destruct (String.eqb m n) eqn:K; cbn; [congruence|]. f_equal. auto.
Qed.
Lemma value_of_erase ps n : value_of (erase ps) n = value_of ps n.
Proof. unfold value_of. rewrite lookup_erase. destruct (lookup ps n); auto. Qed.
Lemma value_of_same a b n : erase a = erase b -> value_of a n = value_of b n.
Proof. intros E. rewrite <- (value_of_erase a), <- (value_of_erase b). congruence. Qed.
Lemma reads_same a b n : erase a = erase b -> reads a n = reads b n.
Proof.
  intros E. unfold reads. rewrite (value_of_same a b) by auto. destruct (value_of b n); auto.
  unfold default_of. assert (H : lookup (erase a) n = lookup (erase b) n) by congruence.
  rewrite !lookup_erase in H. destruct (lookup a n), (lookup b n); cbn in H; try discriminate; auto.
  inversion H; congruence.
Qed.
Lemma get_ok ps n v ps' : get ps n = Ok (v, ps') -> reads ps n = Some v /\ erase ps' = erase ps.
Proof.
  unfold get, at_, reads, value_of, default_of. destruct (lookup ps n) as [p|] eqn:L; cbn; [|discriminate].
  destruct (p_value p) eqn:V.
  - intros H; inversion H; subst. split; auto. eapply erase_update; eauto.
  - destruct (p_default p) as [[i d]|]; [|discriminate]. intros H; inversion H; subst; auto.
Qed.
Lemma get_total ps n v : reads ps n = Some v -> exists ps', get ps n = Ok (v, ps') /\ erase ps' = erase ps.
Proof.
  intros R. assert (exists ps', get ps n = Ok (v, ps')) as [ps' G].
  { unfold get, at_, reads, value_of, default_of in *. destruct (lookup ps n) as [p|] eqn:L; cbn in *; [|discriminate].
    destruct (p_value p) eqn:V; [inversion R; eauto|].
    destruct (p_default p) as [[i d]|]; [|discriminate]. inversion R; eauto. }
  exists ps'. split; auto. now apply get_ok in G.
Qed.
Lemma is_set_ok ps n : lookup ps n <> None -> is_set ps n = Ok (match value_of ps n with Some _ => true | None => false end).
Proof. unfold is_set, at_, value_of. destruct (lookup ps n); auto. congruence. Qed.
Lemma is_set_inv ps n (b : bool) : is_set ps n = Ok b -> lookup ps n <> None /\ (b = true <-> value_of ps n <> None).
Proof.
  unfold is_set, at_, value_of. destruct (lookup ps n); cbn; [|discriminate].
  intros H; inversion H. split; [discriminate|]. destruct (p_value p); split; congruence.
Qed.
Lemma pfilter_erase ps f : erase (pfilter ps f) = pfilter (erase ps) f.
Proof.
  unfold erase, pfilter. induction ps as [|[n p] ps IH]; cbn; auto.
  destruct (fcheck f (p_tags p)); cbn; congruence.
Qed.

(** format comparison *)
Definition fmt_eqb (p q : param D) : bool :=
  vtype_eqb (p_type p) (p_type q) && slist_eqb (p_tags p) (p_tags q) && default_eqb (p_default p) (p_default q).
Lemma check_format_iff a b : check_format a b = Ok tt <->
  forall n p, In (n, p) a -> exists q, lookup b n = Some q /\ fmt_eqb p q = true.
Proof.
  unfold fmt_eqb. induction a as [|[m r] a IH]; cbn.
  { split; auto. intros _ n p []. }
  destruct (lookup b m) as [q|] eqn:L.
  2:{ split; [discriminate|]. intros H. destruct (H m r) as (? & ? & _); auto. congruence. }
  destruct (vtype_eqb (p_type r) (p_type q)) eqn:E1; cbn.
  2:{ split; [discriminate|]. intros H. destruct (H m r) as (q' & ? & K); auto. assert (q' = q) by congruence. subst.
      rewrite E1 in K. discriminate. }
  destruct (slist_eqb (p_tags r) (p_tags q)) eqn:E2; cbn.
  2:{ split; [discriminate|]. intros H. destruct (H m r) as (q' & ? & K); auto. assert (q' = q) by congruence. subst.
      rewrite E1, E2 in K. discriminate. }
  destruct (default_eqb (p_default r) (p_default q)) eqn:E3; cbn.
  2:{ split; [discriminate|]. intros H. destruct (H m r) as (q' & ? & K); auto. assert (q' = q) by congruence. subst.
      rewrite E1, E2, E3 in K. discriminate. }
  rewrite IH. split.
  - intros H n p [K|?]; eauto. inversion K; subst. exists q. rewrite E1, E2, E3. auto.
  - intros H n p ?. eauto.
Qed.
Lemma check_equivalent_loop_iff a b : (forall n p, In (n, p) a -> lookup b n <> None) ->
  (check_equivalent_loop deqb a b = Ok tt <->
   forall n p q, In (n, p) a -> lookup b n = Some q -> opt_equivalent deqb (p_value p) (p_value q) = true).
Proof.
  induction a as [|[m r] a IH]; cbn; intros Hl.
  { split; auto; intros _ n p q []. }
  unfold at_. destruct (lookup b m) as [q|] eqn:L; [|exfalso; eapply Hl; eauto]. cbn.
  destruct (opt_equivalent deqb (p_value r) (p_value q)) eqn:E.
  - rewrite IH by eauto. split.
    + intros H n p q' [K|?] Lq; [|eapply H; eauto]. inversion K; subst. congruence.
    + intros H n p q' ? ?. eapply H; eauto.
  - split; [discriminate|]. intros H. specialize (H m r q (or_introl eq_refl) L). congruence.
Qed.
End Erase.

Lemma slist_eqb_refl l : slist_eqb l l = true.
Proof. induction l; cbn; auto. now rewrite String.eqb_refl. Qed.
Lemma vtype_eqb_refl t : vtype_eqb t t = true.
Proof. destruct t; auto. Qed.
Lemma vtype_eqb_eq a b : vtype_eqb a b = true -> a = b.
Proof. destruct a, b; cbn; congruence. Qed.
Lemma default_eqb_refl {D} (d : option (nat * value D)) : default_eqb d d = true.
Proof. destruct d as [[]|]; cbn; auto. apply Nat.eqb_refl. Qed.

(** ** The standard format *)
Local Opaque std_format.
Lemma std_format_defined : std_format_result = Ok std_format.
Proof. vm_compute. reflexivity. Qed.
Fixpoint nodupb (l : list string) : bool :=
  match l with [] => true | x :: l' => negb (existsb (String.eqb x) l') && nodupb l' end.
Lemma nodupb_spec l : nodupb l = true -> NoDup l.
Proof.
  induction l as [|x l IH]; cbn; [constructor|]. rewrite andb_true_iff, negb_true_iff. intros [H1 H2].
  constructor; auto. intros C. assert (existsb (String.eqb x) l = true); [|congruence].
  apply existsb_exists. exists x. split; auto. apply String.eqb_refl.
Qed.
Lemma std_nodup : NoDup (names std_format).
Proof. apply nodupb_spec. vm_compute. reflexivity. Qed.
Lemma std_is_format : is_format std_format.
Proof.
  split; [apply std_nodup|].
  assert (H : forallb (fun np => match p_value (snd np) with None => negb (p_used (snd np)) | _ => false end) std_format = true)
    by (vm_compute; reflexivity).
  intros n p Hi. rewrite forallb_forall in H. specialize (H _ Hi). cbn in H.
  destruct (p_value p); [discriminate|]. split; auto. now apply negb_true_iff.
Qed.

Definition slot_of (ps : pars) (n : string) := option_map (fun p => (p_type p, p_default p, p_tags p)) (lookup ps n).
Lemma formatted_names ps : formatted ps -> names ps = names std_format.
Proof.
  unfold formatted, names. induction 1 as [|[n p] [m q] l l' (E & _)]; cbn; auto. cbn in E. congruence.
Qed.
Lemma formatted_nodup ps : formatted ps -> NoDup (names ps).
Proof. intros H. rewrite (formatted_names ps) by auto. apply std_nodup. Qed.
Lemma formatted_lookup ps : formatted ps -> forall n, match lookup std_format n with
  | None => lookup ps n = None
  | Some q => exists p, lookup ps n = Some p /\ p_type p = p_type q /\ p_default p = p_default q /\ p_tags p = p_tags q /\
      forall v, p_value p = Some v -> vtype_of v = p_type p
  end.
Proof.
  unfold formatted. intros H n. induction H as [|[m p] [m' q] l l' (E & T & Df & Tg & V) F IH]; cbn; auto.
  cbn in *. subst m'. destruct (String.eqb m n); eauto 10.
Qed.
Lemma formatted_std : formatted std_format.
Proof.
  unfold formatted. assert (forall n p, In (n, p) std_format -> p_value p = None) by (intros; eapply std_is_format; eauto).
  induction std_format as [|[n p] l IH]; constructor.
  - repeat split; auto. cbn. intros v. rewrite (H n p); [discriminate | now left].
  - apply IH. intros m q Hi. apply (H m q). now right.
Qed.
Lemma formatted_erase ps ps' : erase ps' = erase ps -> formatted ps -> formatted ps'.
Proof.
  unfold formatted. intros E H. revert ps' E. induction H as [|[m p] [m' q] l l' (E1 & T & Df & Tg & V) F IH]; intros ps' E.
  - destruct ps'; [constructor | discriminate].
  - destruct ps' as [|[k r] ps']; [discriminate|]. cbn in *. inversion E; subst.
    constructor; auto. repeat split; cbn; try congruence; intros v Hv.
    transitivity (p_type p); [apply V; congruence | congruence].
Qed.
Lemma formatted_update ps n p v : formatted ps -> lookup ps n = Some p ->
  (forall w, v = Some w -> vtype_of w = p_type p) -> formatted (update ps n (with_value p v)).
Proof.
  unfold formatted. intros H. induction H as [|[m q] [m' q'] l l' (E1 & T & Df & Tg & V) F IH]; cbn; [discriminate|].
  cbn in *. destruct (String.eqb m n) eqn:E.
  - intros L Hv. inversion L; subst. constructor; auto. repeat split; cbn; auto.
  - intros L Hv. constructor; auto. repeat split; cbn; auto.
Qed.

Lemma deqb_same a b : deqb a b = true <-> same_number a b.
Proof.
  destruct a as [m e|n|], b as [m' e'|n'|]; cbn; try (split; [discriminate|contradiction]).
  - rewrite Z.eqb_eq. split.
    + intros H. exists (Z.min e e'). lia.
    + intros (k & K & K' & H). pose proof (Z.le_min_l e e'). pose proof (Z.le_min_r e e'). assert (KM : (k <= Z.min e e')%Z) by lia. set (u := Z.min e e') in *.
      replace (e - k)%Z with ((e - u) + (u - k))%Z in H by ring. replace (e' - k)%Z with ((e' - u) + (u - k))%Z in H by ring.
      rewrite !Z.pow_add_r, !Z.mul_assoc in H by lia. apply Z.mul_reg_r in H; [exact H|]. apply Z.pow_nonzero; lia.
  - destruct n, n'; cbn; split; congruence.
Qed.
Lemma zlist_eqb_eq a : forall b, zlist_eqb a b = true <-> a = b.
Proof.
  induction a as [|x a IH]; intros [|y b]; cbn; try (split; congruence). rewrite andb_true_iff, Z.eqb_eq, IH. split; [intros [-> ->]; reflexivity|intros [= -> ->]; auto].
Qed.
Lemma equivalent_same v w : equivalent deqb v w = true <-> same_value v w.
Proof.
  split.
  - destruct v, w; cbn [equivalent]; try discriminate; rewrite ?andb_true_iff, ?deqb_same, ?Z.eqb_eq, ?zlist_eqb_eq, ?String.eqb_eq.
    all: try (intros ((? & ?) & ?); constructor; assumption). all: try (intros (? & ?); constructor; assumption). all: try (constructor; assumption).
    all: intros H; repeat match type of H with _ /\ _ => destruct H as [-> ->] end; subst.
    all: repeat match goal with x : bool |- _ => destruct x | x : rc_method |- _ => destruct x | x : nucleus |- _ => destruct x | x : lepton |- _ => destruct x | x : hadron |- _ => destruct x end; try discriminate H.
    all: constructor; cbn; intuition discriminate.
  - intros [x x' A|x y z x' y' z' A B C|x y x' y' A B|u N]; cbn [equivalent]; rewrite ?andb_true_iff, ?deqb_same; auto.
    destruct u; cbn in *; try (exfalso; apply N; tauto); rewrite ?andb_true_iff, ?Z.eqb_eq, ?zlist_eqb_eq, ?String.eqb_eq; auto.
    all: repeat match goal with x : bool |- _ => destruct x | x : rc_method |- _ => destruct x | x : nucleus |- _ => destruct x | x : lepton |- _ => destruct x | x : hadron |- _ => destruct x end; reflexivity.
Qed.
Lemma opt_equivalent_agree a b n : opt_equivalent deqb (value_of a n) (value_of b n) = true <-> agree a b n.
Proof.
  unfold agree, opt_equivalent. destruct (value_of a n), (value_of b n); rewrite ?equivalent_same; split; auto; try discriminate; try tauto.
Qed.

Lemma check_format_std ps : formatted ps -> check_format ps std_format = Ok tt.
Proof.
  intros H. apply check_format_iff. intros n p Hi.
  pose proof (in_lookup ps n p (formatted_nodup _ H) Hi) as L.
  pose proof (formatted_lookup ps H n) as F. destruct (lookup std_format n) as [q|]; [|congruence].
  destruct F as (p' & L' & T & Df & Tg & _). assert (p' = p) by congruence. subst.
  exists q. split; auto. unfold fmt_eqb. rewrite T, Df, Tg, vtype_eqb_refl, slist_eqb_refl, default_eqb_refl. auto.
Qed.

Lemma check_equivalent_filtered a b f : formatted a -> formatted b ->
  (check_equivalent deqb (pfilter a f) (pfilter b f) = Ok tt <->
   forall n q, lookup std_format n = Some q -> fcheck f (p_tags q) = true -> agree a b n).
Proof.
  intros Ha Hb. unfold check_equivalent.
  assert (Lk : forall n p, In (n, p) (pfilter a f) -> exists q r, lookup a n = Some p /\ lookup std_format n = Some q /\
     fcheck f (p_tags q) = true /\ lookup b n = Some r /\ lookup (pfilter b f) n = Some r /\ fmt_eqb p r = true).
  { intros n p Hi. pose proof (in_lookup _ _ _ (nodup_pfilter _ f (formatted_nodup _ Ha)) Hi) as L.
    rewrite lookup_pfilter in L by (apply formatted_nodup; auto).
    pose proof (formatted_lookup a Ha n) as Fa. pose proof (formatted_lookup b Hb n) as Fb.
    destruct (lookup a n) as [p'|] eqn:La; [|discriminate]. destruct (fcheck f (p_tags p')) eqn:C; [|discriminate].
    inversion L; subst p'. destruct (lookup std_format n) as [q|]; [|congruence].
    destruct Fa as (p' & E & T & Df & Tg & _). assert (p' = p) by congruence. subst p'.
    destruct Fb as (r & Lr & T' & Df' & Tg' & _). exists q, r.
    rewrite lookup_pfilter by (apply formatted_nodup; auto). rewrite Lr, Tg', <- Tg, C.
    repeat split; auto. unfold fmt_eqb. rewrite T, Df, Tg, T', Df', Tg', vtype_eqb_refl, slist_eqb_refl, default_eqb_refl. auto. }
  assert (Fm : check_format (pfilter a f) (pfilter b f) = Ok tt).
  { apply check_format_iff. intros n p Hi. destruct (Lk n p Hi) as (q & r & _ & _ & _ & _ & ? & ?). eauto. }
  rewrite Fm. cbn [bind]. rewrite check_equivalent_loop_iff.
  2:{ intros n p Hi. destruct (Lk n p Hi) as (q & r & _ & _ & _ & _ & ? & ?). congruence. }
  split.
  - intros H n q Lq C. rewrite <- opt_equivalent_agree. unfold value_of.
    pose proof (formatted_lookup a Ha n) as Fa. rewrite Lq in Fa. destruct Fa as (p & Lp & _ & _ & Tg & _).
    assert (Hi : In (n, p) (pfilter a f)).
    { apply lookup_in. rewrite lookup_pfilter by (apply formatted_nodup; auto). now rewrite Lp, Tg, C. }
    destruct (Lk n p Hi) as (q' & r & _ & _ & _ & Lr & Lr' & _). rewrite Lp, Lr. eapply H; eauto.
  - intros H n p r Hi Lr. destruct (Lk n p Hi) as (q & r' & Lp & Lq & C & Lr' & Lr'' & _).
    assert (r' = r) by congruence. subst. specialize (H n q Lq C). apply opt_equivalent_agree in H.
    unfold value_of in H. now rewrite Lp, Lr' in H.
Qed.

(** ** Event types *)
Lemma name_enable t : p_name_enable t = enable_name t. Proof. destruct t; reflexivity. Qed.
Lemma name_uid t : p_name_init_uid t = uid_name t. Proof. destruct t; reflexivity. Qed.

Lemma get_typed {A} (ps : pars) n (k : val -> option A) :
  match (do (v, ps') <- get ps n; match k v with Some x => Ok (x, ps') | None => Throw EBadCast end) with
  | Ok (x, ps') => exists v, reads ps n = Some v /\ k v = Some x /\ erase ps' = erase ps
  | Throw _ => forall v x, reads ps n = Some v -> k v <> Some x
  end.
Proof.
  destruct (get ps n) as [[v ps']|e] eqn:G; cbn.
  - apply get_ok in G as [R E]. destruct (k v) eqn:K; eauto. intros w x Hw. congruence.
  - intros v x R. apply get_total in R as (ps' & G' & _). congruence.
Qed.
Ltac typed_lemma k :=
  match goal with |- context [?f ?ps ?n] => pose proof (get_typed ps n k) as H end.

Lemma get_bool_ok ps n b ps' : get_bool ps n = Ok (b, ps') <-> exists v, get ps n = Ok (v, ps') /\ v = VBool b.
Proof.
  unfold get_bool. destruct (get ps n) as [[v q]|]; cbn.
  - destruct v; split; try discriminate; try (intros (? & H & ->); inversion H; auto; fail); try (intros H; inversion H; eauto).
  - split; [discriminate | intros (? & ? & _); discriminate].
Qed.
Lemma get_bool_spec ps n b : reads ps n = Some (VBool b) -> exists ps', get_bool ps n = Ok (b, ps') /\ erase ps' = erase ps.
Proof. intros R. apply get_total in R as (ps' & G & E). exists ps'. split; auto. apply get_bool_ok. eauto. Qed.
Lemma get_bool_inv ps n b ps' : get_bool ps n = Ok (b, ps') -> reads ps n = Some (VBool b) /\ erase ps' = erase ps.
Proof. intros H. apply get_bool_ok in H as (v & G & ->). now apply get_ok in G. Qed.
Lemma get_long_inv ps n b ps' : get_long ps n = Ok (b, ps') -> reads ps n = Some (VLong b) /\ erase ps' = erase ps.
Proof.
  unfold get_long. destruct (get ps n) as [[v q]|] eqn:G; cbn; [|discriminate].
  destruct v; try discriminate. intros H; inversion H; subst. now apply get_ok in G.
Qed.
Lemma get_long_spec ps n b : reads ps n = Some (VLong b) -> exists ps', get_long ps n = Ok (b, ps') /\ erase ps' = erase ps.
Proof. intros R. apply get_total in R as (ps' & G & E). exists ps'. unfold get_long. now rewrite G. Qed.
Lemma get_rc_inv ps n b ps' : get_rc ps n = Ok (b, ps') -> reads ps n = Some (VRcMethod b) /\ erase ps' = erase ps.
Proof.
  unfold get_rc. destruct (get ps n) as [[v q]|] eqn:G; cbn; [|discriminate].
  destruct v; try discriminate. intros H; inversion H; subst. now apply get_ok in G.
Qed.
Lemma get_rc_spec ps n b : reads ps n = Some (VRcMethod b) -> exists ps', get_rc ps n = Ok (b, ps') /\ erase ps' = erase ps.
Proof. intros R. apply get_total in R as (ps' & G & E). exists ps'. unfold get_rc. now rewrite G. Qed.
Lemma get_version_inv ps n b ps' : get_version ps n = Ok (b, ps') ->
  reads ps n = Some (VVersion (fst b) (snd b)) /\ erase ps' = erase ps.
Proof.
  unfold get_version. destruct (get ps n) as [[v q]|] eqn:G; cbn; [|discriminate].
  destruct v; try discriminate. intros H; inversion H; subst. now apply get_ok in G.
Qed.
Lemma get_version_spec ps n a b : reads ps n = Some (VVersion a b) ->
  exists ps', get_version ps n = Ok ((a, b), ps') /\ erase ps' = erase ps.
Proof. intros R. apply get_total in R as (ps' & G & E). exists ps'. unfold get_version. now rewrite G. Qed.
Lemma get_seeds_inv ps n b ps' : get_seeds ps n = Ok (b, ps') -> reads ps n = Some (VSeedGen b) /\ erase ps' = erase ps.
Proof.
  unfold get_seeds. destruct (get ps n) as [[v q]|] eqn:G; cbn; [|discriminate].
  destruct v; try discriminate. intros H; inversion H; subst. now apply get_ok in G.
Qed.
Lemma get_seeds_spec ps n b : reads ps n = Some (VSeedGen b) -> exists ps', get_seeds ps n = Ok (b, ps') /\ erase ps' = erase ps.
Proof. intros R. apply get_total in R as (ps' & G & E). exists ps'. unfold get_seeds. now rewrite G. Qed.

(** Typed reads of formatted parameter sets always have the declared type. *)
Lemma reads_typed ps n q v : formatted ps -> lookup std_format n = Some q ->
  (forall d, option_map snd (p_default q) = Some d -> vtype_of d = p_type q) ->
  reads ps n = Some v -> vtype_of v = p_type q.
Proof.
  intros H L Hd R. pose proof (formatted_lookup ps H n) as F. rewrite L in F. destruct F as (p & Lp & T & Df & _ & V).
  unfold reads, value_of, default_of in R. rewrite Lp in R. destruct (p_value p) eqn:E.
  - inversion R; subst. rewrite <- T. auto.
  - rewrite Df in R. auto.
Qed.
Lemma reads_default ps n q d : formatted ps -> lookup std_format n = Some q ->
  option_map snd (p_default q) = Some d -> exists v, reads ps n = Some v.
Proof.
  intros H L Hd. pose proof (formatted_lookup ps H n) as F. rewrite L in F. destruct F as (p & Lp & T & Df & _ & V).
  unfold reads, value_of, default_of. rewrite Lp. destruct (p_value p); eauto. rewrite Df. eauto.
Qed.
Lemma reads_enable ps t : formatted ps -> exists b, reads ps (enable_name t) = Some (VBool b).
Proof.
  intros H.
  assert (exists q, lookup std_format (enable_name t) = Some q /\ p_type q = TBool /\ option_map snd (p_default q) = Some (VBool true)) as (q & L & T & Df).
  { destruct t; vm_compute; eauto. }
  destruct (reads_default ps _ q _ H L Df) as [v R]. assert (Tv : vtype_of v = TBool).
  { rewrite <- T. eapply reads_typed; eauto. intros d Hd. rewrite Df in Hd. inversion Hd; subst. now rewrite T. }
  destruct v; try discriminate. eauto.
Qed.
Lemma reads_version ps : formatted ps -> exists a b, reads ps "version" = Some (VVersion a b).
Proof.
  intros H.
  assert (exists q, lookup std_format "version" = Some q /\ p_type q = TVersion /\ option_map snd (p_default q) = Some (VVersion 5 0)) as (q & L & T & Df).
  { vm_compute; eauto. }
  destruct (reads_default ps _ q _ H L Df) as [v R]. assert (Tv : vtype_of v = TVersion).
  { rewrite <- T. eapply reads_typed; eauto. intros d Hd. rewrite Df in Hd. inversion Hd; subst. now rewrite T. }
  destruct v; try discriminate. eauto.
Qed.

Lemma enabled_event_types_spec ps : formatted ps ->
  match enabled_event_types ps with
  | Ok (ts, ps') => (forall t, In t ts <-> enabled ps t) /\ NoDup ts /\ erase ps' = erase ps /\
      (exists m, reads ps "phys.rc_method" = Some (VRcMethod m))
  | Throw _ => forall m, reads ps "phys.rc_method" <> Some (VRcMethod m)
  end.
Proof.
  intros Hf. unfold enabled_event_types.
  destruct (get_rc ps "phys.rc_method") as [[m ps1]|] eqn:G; cbn [bind].
  2:{ intros m R. apply get_rc_spec in R as (q & E & _). congruence. }
  apply get_rc_inv in G as [Rm E1].
  assert (Run : forall t q, erase q = erase ps -> exists b q', get_bool q (p_name_enable t) = Ok (b, q') /\ erase q' = erase ps /\
      reads ps (enable_name t) = Some (VBool b)).
  { intros t q Eq. destruct (reads_enable ps t Hf) as [b R].
    assert (R' : reads q (p_name_enable t) = Some (VBool b)).
    { rewrite name_enable, <- R. now apply reads_same. }
    apply get_bool_spec in R' as (q' & G & E). exists b, q'. repeat split; auto. congruence. }
  destruct (Run NRAD ps1 E1) as (b & q1 & G1 & Eq1 & R1).
  destruct (Run RAD q1 Eq1) as (b' & q2 & G2 & Eq2 & R2).
  assert (K : forall t c, reads ps (enable_name t) = Some (VBool c) -> (switched_on ps t <-> c = true)).
  { intros t c R. unfold switched_on. rewrite R. split; intros X; congruence. }
  assert (ND : forall ts : list event_type, NoDup ts -> forall P : Prop, P -> NoDup ts /\ P) by auto.
  assert (En : forall t, enabled ps t <-> switched_on ps t /\ (m = RcNone -> t = NRAD)).
  { intros t. unfold enabled. rewrite Rm. split; intros [A B]; split; auto.
    - destruct B as (m' & E & B). inversion E; subst; auto.
    - eauto. }
  destruct m.
  - rewrite G1. cbn [bind]. split; [|split; [|split; eauto]].
    + intros t. rewrite En, (K t (match t with NRAD => b | RAD => b' end)) by (destruct t; auto).
      destruct b; cbn.
      * split; [intros [<-|[]]; auto | intros [H X]; left; symmetry; auto].
      * split; [tauto|]. intros [H X]. rewrite (X eq_refl) in H. discriminate.
    + destruct b; repeat constructor; auto.
  - cbn [enabled_loop event_types]. rewrite G1. cbn [bind]. rewrite G2. cbn [bind]. split; [|split; [|split; eauto]].
    + intros t. rewrite En, (K t (match t with NRAD => b | RAD => b' end)) by (destruct t; auto).
      destruct b, b', t; cbn; intuition discriminate.
    + destruct b, b'; repeat constructor; cbn; intuition discriminate.
  - cbn [enabled_loop event_types]. rewrite G1. cbn [bind]. rewrite G2. cbn [bind]. split; [|split; [|split; eauto]].
    + intros t. rewrite En, (K t (match t with NRAD => b | RAD => b' end)) by (destruct t; auto).
      destruct b, b', t; cbn; intuition discriminate.
    + destruct b, b'; repeat constructor; cbn; intuition discriminate.
Qed.

(** ** Which parameters a filter selects *)
Lemma filter_ev_iff ts tags : fcheck (filter_ev ts) tags = true <-> exists t, In t ts /\ In (short_name t) tags.
Proof.
  unfold filter_ev.
  assert (G : forall f, fcheck (fold_left (fun f t => f_or f (FTag (short_name t))) ts f) tags = true <->
    fcheck f tags = true \/ exists t, In t ts /\ In (short_name t) tags).
  { induction ts as [|t ts IH]; intros f; cbn [fold_left In].
    - split; auto. intros [?|(t & [] & _)]; auto.
    - rewrite IH, fcheck_or, orb_true_iff, fcheck_tag. split.
      + intros [[?|?]|(t' & ? & ?)]; eauto.
      + intros [?|(t' & [<-|?] & ?)]; eauto. }
  rewrite G, fcheck_reject. split; [intros [?|?]; auto; discriminate | auto].
Qed.

Definition strb (l : list string) (n : string) : bool := existsb (String.eqb n) l.
Lemma strb_spec l n : strb l n = true <-> In n l.
Proof.
  unfold strb. rewrite existsb_exists. split.
  - intros (x & ? & E). apply String.eqb_eq in E. now subst.
  - intros H. exists n. split; auto. apply String.eqb_refl.
Qed.
(** A fact about every entry of the standard format, decided by computation. *)
Lemma std_all (P : string -> list string -> bool) :
  forallb (fun np => P (fst np) (p_tags (snd np))) std_format = true ->
  forall n q, lookup std_format n = Some q -> P n (p_tags q) = true.
Proof.
  intros H n q L. apply lookup_in in L. rewrite forallb_forall in H. exact (H _ L).
Qed.
Lemma std_has l : forallb (fun n => match lookup std_format n with Some _ => true | None => false end) l = true ->
  forall n, In n l -> exists q, lookup std_format n = Some q.
Proof.
  intros H n Hi. rewrite forallb_forall in H. specialize (H n Hi). destruct (lookup std_format n); eauto. discriminate.
Qed.

Definition filter_init_dist := f_and (FTag "init") (f_or (f_or (FTag "xs") (FTag "cut")) (FTag "dist")).
Lemma select_shaping ts n : 
  (exists q, lookup std_format n = Some q /\ fcheck (f_and filter_init_dist (filter_ev ts)) (p_tags q) = true) <->
  exists t, In t ts /\ In n (shaping_names t).
Proof.
  assert (K : forall t n q, lookup std_format n = Some q ->
    (fcheck filter_init_dist (p_tags q) && strb (p_tags q) (short_name t) = strb (shaping_names t) n)).
  { intros t m q L. apply eqb_prop.
    apply (std_all (fun m tg => Bool.eqb (fcheck filter_init_dist tg && strb tg (short_name t)) (strb (shaping_names t) m))); auto.
    destruct t; vm_compute; reflexivity. }
  split.
  - intros (q & L & C). rewrite fcheck_and, andb_true_iff, filter_ev_iff in C. destruct C as (C & t & Ht & Hs).
    exists t. split; auto. apply strb_spec. rewrite <- (K t n q L), C. cbn. now apply strb_spec.
  - intros (t & Ht & Hn). destruct (std_has (shaping_names t)) with (n := n) as [q L]; auto.
    { destruct t; vm_compute; reflexivity. }
    exists q. split; auto. apply strb_spec in Hn. rewrite <- (K t n q L) in Hn. apply andb_true_iff in Hn as [C Hs].
    rewrite fcheck_and, C. cbn. apply filter_ev_iff. exists t. split; auto. now apply strb_spec.
Qed.


Lemma foam_enabled_loop_spec foam gen ts :
  (forall r, foam_enabled_loop foam gen ts = Ok r -> erase (fst r) = erase foam /\ snd r = gen /\ forall t, In t ts -> switched_on foam t) /\
  ((forall t, In t ts -> switched_on foam t) -> exists r, foam_enabled_loop foam gen ts = Ok r).
Proof.
  revert foam. induction ts as [|t ts IH]; intros foam; cbn [foam_enabled_loop In].
  { split; eauto. intros r H; inversion H; cbn. split; auto. split; auto. intros t []. }
  rewrite name_enable. split.
  - intros r. destruct (get_bool foam (enable_name t)) as [[b foam1]|] eqn:G; cbn; [|discriminate].
    apply get_bool_inv in G as [R E]. destruct b; [|discriminate].
    intros H. apply (proj1 (IH foam1)) in H as (E' & S & H). repeat split; auto; try congruence.
    intros t' [<-|Ht]; auto. unfold switched_on in *. rewrite <- (reads_same foam1) by auto. auto.
  - intros H. destruct (get_bool_spec foam (enable_name t) true) as (foam1 & G & E); [apply H; auto|].
    rewrite G. cbn. apply IH. intros t' Ht. unfold switched_on. rewrite (reads_same foam1 foam) by auto. apply H; auto.
Qed.
Lemma foam_uid_loop_spec foam gen ts : formatted gen ->
  (forall r, foam_uid_loop foam gen ts = Ok r -> forall t, In t ts -> foam_uid_ok foam gen t) /\
  ((forall t, In t ts -> foam_uid_ok foam gen t) -> exists r, foam_uid_loop foam gen ts = Ok r).
Proof.
  revert foam gen. induction ts as [|t ts IH]; intros foam gen Hg; cbn [foam_uid_loop In].
  { split; eauto. intros r _ t []. }
  rewrite name_uid.
  assert (Lg : lookup gen (uid_name t) <> None).
  { pose proof (formatted_lookup gen Hg (uid_name t)) as F.
    assert (exists q, lookup std_format (uid_name t) = Some q) as [q Lq] by (destruct t; vm_compute; eauto).
    rewrite Lq in F. destruct F as (p & -> & _); discriminate. }
  assert (Tr : forall foam' gen', erase foam' = erase foam -> erase gen' = erase gen -> forall t', foam_uid_ok foam' gen' t' <-> foam_uid_ok foam gen t').
  { intros foam' gen' E E' t'. unfold foam_uid_ok. rewrite (reads_same foam' foam), (value_of_same gen' gen) by auto. tauto. }
  rewrite is_set_ok by auto. split.
  - intros r. destruct (get_long foam (uid_name t)) as [[u foam1]|] eqn:G; cbn; [|discriminate].
    apply get_long_inv in G as [R E]. destruct (value_of gen (uid_name t)) as [v|] eqn:V.
    + destruct (get_long gen (uid_name t)) as [[u' gen1]|] eqn:G'; cbn; [|discriminate].
      apply get_long_inv in G' as [R' E']. destruct (Z.eqb_spec u u') as [->|]; [|discriminate].
      intros H t' [<-|Ht].
      * exists u'. split; auto. unfold reads in R'. rewrite V in *. congruence.
      * apply (proj1 (IH foam1 gen1 (formatted_erase _ _ E' Hg)) r H) in Ht. now apply (Tr foam1 gen1 E E') in Ht.
    + intros H t' [<-|Ht].
      * exists u. split; auto. congruence.
      * apply (proj1 (IH foam1 gen Hg) r H) in Ht. now apply (Tr foam1 gen E eq_refl) in Ht.
  - intros H. destruct (H t) as (u & R & Hu); auto.
    destruct (get_long_spec foam (uid_name t) u R) as (foam1 & G & E). rewrite G. cbn.
    destruct (value_of gen (uid_name t)) as [v|] eqn:V.
    + assert (R' : reads gen (uid_name t) = Some (VLong u)) by (unfold reads; rewrite V; f_equal; auto).
      destruct (get_long_spec _ _ _ R') as (gen1 & G' & E'). rewrite G'. cbn. rewrite Z.eqb_refl.
      apply (IH foam1 gen1 (formatted_erase _ _ E' Hg)). intros t' Ht. apply (Tr foam1 gen1 E E'). auto.
    + apply (IH foam1 gen Hg). intros t' Ht. apply (Tr foam1 gen E eq_refl). auto.
Qed.

Lemma foam_check_iff foam gen : formatted foam -> formatted gen ->
  ((exists r, check_can_provide_foam foam gen = Ok r) <->
   (exists maj minf ming, version_of foam maj minf /\ version_of gen maj ming /\ (minf <= ming)%Z) /\
   (exists m, reads gen "phys.rc_method" = Some (VRcMethod m)) /\
   forall t, enabled gen t -> switched_on foam t /\ (forall n, In n (shaping_names t) -> agree foam gen n) /\
     foam_uid_ok foam gen t).
Proof.
  intros Hf Hg. unfold check_can_provide_foam. rewrite !check_format_std by auto. cbn [bind].
  destruct (reads_version foam Hf) as (maj & minf & Rf). destruct (reads_version gen Hg) as (maj' & ming & Rg).
  destruct (get_version_spec _ _ _ _ Rf) as (foam1 & Gf & Ef). destruct (get_version_spec _ _ _ _ Rg) as (gen1 & Gg & Eg).
  rewrite Gf. cbn [bind]. rewrite Gg. cbn [bind].
  destruct ((maj =? maj') && (minf <=? ming))%Z eqn:Ev; cbn [negb].
  2:{ split; [intros [r H]; discriminate|]. intros ((a & b & c & H1 & H2 & H3) & _). unfold version_of in *.
      rewrite Rf in H1. rewrite Rg in H2. inversion H1; inversion H2; subst.
      rewrite Z.eqb_refl, (proj2 (Z.leb_le b c) H3) in Ev. discriminate. }
  apply andb_true_iff in Ev as [E1 E2]. apply Z.eqb_eq in E1. apply Z.leb_le in E2. subst maj'.
  assert (Fg1 : formatted gen1) by (eapply formatted_erase; eauto).
  assert (Ff1 : formatted foam1) by (eapply formatted_erase; eauto).
  pose proof (enabled_event_types_spec gen1 Fg1) as En.
  destruct (enabled_event_types gen1) as [[ts gen2]|]; cbn [bind].
  2:{ split; [intros [r H]; discriminate|]. intros (_ & (m & Hm) & _). rewrite (reads_same gen1 gen) in En by auto.
      exfalso. eapply En; eauto. }
  destruct En as (In_ts & _ & Eg2 & (m & Rm)).
  assert (En' : forall t, In t ts <-> enabled gen t).
  { intros t. rewrite In_ts. unfold enabled, switched_on. rewrite !(reads_same gen1 gen) by auto. tauto. }
  rewrite (reads_same gen1 gen) in Rm by auto.
  assert (Eg2' : erase gen2 = erase gen) by congruence.
  assert (Fg2 : formatted gen2) by (eapply formatted_erase; eauto).
  assert (Sw : forall t, switched_on foam1 t <-> switched_on foam t).
  { intros t. unfold switched_on. now rewrite (reads_same foam1 foam) by auto. }
  destruct (foam_enabled_loop_spec foam1 gen2 ts) as [L1 L2].
  destruct (foam_enabled_loop foam1 gen2 ts) as [[foam2 gen3]|] eqn:L; cbn [bind].
  2:{ split; [intros [r H]; discriminate|]. intros (_ & _ & H). destruct L2 as [r C]; [|discriminate].
      intros t Ht. apply Sw, H, En', Ht. }
  destruct (L1 _ eq_refl) as (Ef2 & Eg3 & Hsw). cbn [fst snd] in Ef2, Eg3. subst gen3.
  assert (Ef2' : erase foam2 = erase foam) by congruence.
  assert (Ff2 : formatted foam2) by (eapply formatted_erase; eauto).
  fold filter_init_dist.
  assert (Ag : forall n, agree foam2 gen2 n <-> agree foam gen n).
  { intros n. unfold agree. rewrite (value_of_same foam2 foam), (value_of_same gen2 gen) by auto. tauto. }
  pose proof (check_equivalent_filtered foam2 gen2 (f_and filter_init_dist (filter_ev ts)) Ff2 Fg2) as Ce.
  assert (Ce' : check_equivalent deqb (pfilter foam2 (f_and filter_init_dist (filter_ev ts))) (pfilter gen2 (f_and filter_init_dist (filter_ev ts))) = Ok tt
    <-> forall t n, In t ts -> In n (shaping_names t) -> agree foam gen n).
  { rewrite Ce. split.
    - intros H t n Ht Hn. destruct (proj2 (select_shaping ts n)) as (q & Lq & C); eauto. apply Ag. eauto.
    - intros H n q Lq C. destruct (proj1 (select_shaping ts n)) as (t & Ht & Hn); eauto. apply Ag. eauto. }
  destruct (foam_uid_loop_spec foam2 gen2 ts Fg2) as [U1 U2].
  assert (Uo : forall t, foam_uid_ok foam2 gen2 t <-> foam_uid_ok foam gen t).
  { intros t. unfold foam_uid_ok. rewrite (reads_same foam2 foam), (value_of_same gen2 gen) by auto. tauto. }
  destruct (check_equivalent deqb _ _) as [[]|] eqn:Cq; cbn [bind].
  - destruct Ce' as [Ce' _]. specialize (Ce' eq_refl). split.
    + intros [r H]. split; [exists maj, minf, ming; auto|]. split; [eauto|].
      intros t Ht. apply En' in Ht. split; [apply Sw; auto|]. split; [eauto|]. apply Uo. eapply U1; eauto.
    + intros (_ & _ & H). apply U2. intros t Ht. apply Uo, H, En', Ht.
  - split; [intros [r H]; discriminate|]. intros (_ & _ & H).
    assert (C : Throw e = Ok tt); [|discriminate]. apply Ce'. intros t n Ht Hn. apply (H t); auto. now apply En'.
Qed.
