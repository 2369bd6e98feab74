(** Proofs about merging two runs. *)
From Coq Require Import String List Bool ZArith Lia Permutation.
From Verif Require Import FilterModel FilterProofs ParamModel ParamSpec ParamProofs FormatModel FormatSpec FormatProofs.
Import ListNotations.
Local Open Scope string_scope.
Local Opaque std_format.

Lemma value_of_update (ps : pars) n p v m : lookup ps n = Some p ->
  value_of (update ps n (with_value p v)) m = if String.eqb n m then v else value_of ps m.
Proof.
  intros L. unfold value_of. rewrite lookup_update, L. destruct (String.eqb n m); auto.
Qed.
Lemma set_inv (out : pars) n (v : option val) b out' : set out n v = Ok (b, out') -> formatted out ->
  formatted out' /\ forall m, value_of out' m = if String.eqb n m then v else value_of out m.
Proof.
  unfold set, at_. destruct (lookup out n) as [p|] eqn:L; cbn; [|discriminate]. intros H Hf.
  assert (E : out' = update out n (with_value p v) /\ (forall w, v = Some w -> vtype_of w = p_type p)).
  { destruct v as [w|].
    - destruct (vtype_eqb (p_type p) (vtype_of w)) eqn:T; [|discriminate]. apply vtype_eqb_eq in T.
      inversion H. split; auto. intros w' Hw. inversion Hw. congruence.
    - inversion H. split; auto. discriminate. }
  destruct E as [-> T]. split.
  - now apply formatted_update.
  - intros m. now apply value_of_update.
Qed.
Lemma set_total (out : pars) n q (v : option val) : formatted out -> lookup std_format n = Some q ->
  (forall w, v = Some w -> vtype_of w = p_type q) -> exists b out', set out n v = Ok (b, out').
Proof.
  intros Hf L T. pose proof (formatted_lookup out Hf n) as F. rewrite L in F. destruct F as (p & Lp & Tp & _).
  unfold set, at_. rewrite Lp. cbn. destruct v as [w|]; [|eauto].
  rewrite (T w), Tp by auto. rewrite vtype_eqb_refl. eauto.
Qed.
Lemma formatted_known ps n q : formatted ps -> lookup std_format n = Some q -> lookup ps n <> None.
Proof. intros Hf L. pose proof (formatted_lookup ps Hf n) as F. rewrite L in F. destruct F as (p & -> & _). discriminate. Qed.

(** What [merge_value] leaves in the output. *)
Definition merged_value (p1 p2 : pars) n (op : val -> val -> result val) (r : option val) : Prop :=
  (value_of p1 n = None /\ value_of p2 n = None /\ r = None) \/
  ((value_of p1 n <> None \/ value_of p2 n <> None) /\
   exists v1 v2 v, reads p1 n = Some v1 /\ reads p2 n = Some v2 /\ op v1 v2 = Ok v /\ r = Some v).
Lemma merge_value_inv p1 p2 n op out out' : merge_value p1 p2 n op out = Ok out' -> formatted out ->
  formatted out' /\ (forall m, n <> m -> value_of out' m = value_of out m) /\ merged_value p1 p2 n op (value_of out' n).
Proof.
  unfold merge_value. intros H Hf.
  destruct (is_set p1 n) as [s1|] eqn:S1; cbn [bind] in H; [|discriminate].
  destruct (is_set p2 n) as [s2|] eqn:S2; cbn [bind] in H; [|discriminate].
  apply is_set_inv in S1 as [_ S1]. apply is_set_inv in S2 as [_ S2].
  assert (Oth : forall (v : option val) (m : string), n <> m -> (if String.eqb n m then v else value_of out m) = value_of out m).
  { intros v m N. apply String.eqb_neq in N. now rewrite N. }
  destruct (negb s1 && negb s2) eqn:E.
  - destruct (set out n None) as [[b o]|] eqn:G; cbn in H; [|discriminate]. inversion H; subst o.
    apply set_inv in G as [F V]; auto. split; auto. split.
    + intros m N. rewrite V. auto.
    + rewrite V, String.eqb_refl. left. destruct s1, s2; try discriminate.
      destruct (value_of p1 n) eqn:V1; [exfalso; destruct S1 as [_ S1]; discriminate S1; congruence|].
      destruct (value_of p2 n) eqn:V2; [exfalso; destruct S2 as [_ S2]; discriminate S2; congruence|]. auto.
  - destruct (get p1 n) as [[v1 q1]|] eqn:G1; cbn [bind] in H; [|discriminate].
    destruct (get p2 n) as [[v2 q2]|] eqn:G2; cbn [bind] in H; [|discriminate].
    destruct (op v1 v2) as [v|] eqn:O; cbn [bind] in H; [|discriminate].
    destruct (set out n (Some v)) as [[b o]|] eqn:G; cbn in H; [|discriminate]. inversion H; subst o.
    apply get_ok in G1 as [R1 _]. apply get_ok in G2 as [R2 _].
    apply set_inv in G as [F V]; auto. split; auto. split.
    + intros m N. rewrite V. auto.
    + rewrite V, String.eqb_refl. right. split; eauto 10.
      destruct s1, s2; try discriminate; intuition.
Qed.
Lemma merge_value_total p1 p2 n (op : val -> val -> result val) out q : formatted p1 -> formatted p2 -> formatted out -> lookup std_format n = Some q ->
  (value_of p1 n <> None \/ value_of p2 n <> None -> exists v1 v2 v, reads p1 n = Some v1 /\ reads p2 n = Some v2 /\
     op v1 v2 = Ok v /\ vtype_of v = p_type q) ->
  exists out', merge_value p1 p2 n op out = Ok out'.
Proof.
  intros H1 H2 Ho L H. unfold merge_value. rewrite !is_set_ok by (eapply formatted_known; eauto). cbn [bind].
  destruct (value_of p1 n) eqn:V1; [|destruct (value_of p2 n) eqn:V2].
  3:{ cbn. destruct (set_total out n q None Ho L) as (b & o & ->); [discriminate|]. cbn. eauto. }
  - destruct H as (v1 & v2 & v' & R1 & R2 & O & T); [left; discriminate|].
    cbn [negb andb]; rewrite ?andb_false_r; cbn [negb andb].
    apply get_total in R1 as (? & -> & _). apply get_total in R2 as (? & -> & _). cbn [bind]. rewrite O. cbn [bind].
    destruct (set_total out n q (Some v') Ho L) as (b & o & G); [congruence|]. rewrite G. cbn. eauto.
  - destruct H as (v1 & v2 & v' & R1 & R2 & O & T); [right; discriminate|].
    cbn [negb andb]; rewrite ?andb_false_r; cbn [negb andb].
    apply get_total in R1 as (? & -> & _). apply get_total in R2 as (? & -> & _). cbn [bind]. rewrite O. cbn [bind].
    destruct (set_total out n q (Some v') Ho L) as (b & o & G); [congruence|]. rewrite G. cbn. eauto.
Qed.

Lemma set_from_names_inv (q : pars) ns : forall out b out', set_from_names out q ns = Ok (b, out') -> formatted out ->
  (forall n p, lookup q n = Some p -> forall v, p_value p = Some v -> vtype_of v = p_type p) ->
  formatted out' /\ forall m, value_of out' m = if strb ns m then value_of q m else value_of out m.
Proof.
  induction ns as [|n ns IH]; intros out b out' H Hf Hq; cbn [set_from_names] in H.
  { inversion H; subst. split; auto. }
  destruct (set_from1 out q n) as [[o1 out1]|] eqn:E; cbn [bind] in H; [|discriminate].
  destruct (set_from_names out1 q ns) as [[o2 out2]|] eqn:E2; cbn [bind] in H; [|discriminate].
  inversion H; subst out2.
  assert (K : formatted out1 /\ forall m, value_of out1 m = if String.eqb n m then value_of q m else value_of out m).
  { unfold set_from1, at_ in E. destruct (lookup out n) as [p|] eqn:L; cbn in E; [|discriminate].
    destruct (lookup q n) as [w|] eqn:Lw; cbn in E; [|discriminate].
    destruct (vtype_eqb (p_type p) (p_type w)) eqn:T; cbn in E; [|discriminate].
    destruct (slist_eqb (p_tags p) (p_tags w)); cbn in E; [|discriminate].
    destruct (default_eqb (p_default p) (p_default w)); cbn in E; [|discriminate].
    inversion E; subst out1. apply vtype_eqb_eq in T. split.
    - apply formatted_update; auto. intros v Hv. rewrite T. eapply Hq; eauto.
    - intros m. rewrite (value_of_update out n p) by auto. destruct (String.eqb n m) eqn:K; auto.
      apply String.eqb_eq in K. subst. unfold value_of. now rewrite Lw. }
  destruct K as [F1 K]. apply IH in E2 as [F V]; auto. split; auto.
  intros m. rewrite V, K. unfold strb. cbn. rewrite (String.eqb_sym m n).
  destruct (String.eqb n m); cbn; auto. destruct (existsb (String.eqb m) ns); auto.
Qed.
Lemma set_from_names_total (q : pars) ns : forall out, formatted out ->
  (forall n, In n ns -> exists p w, lookup std_format n = Some p /\ lookup q n = Some w /\ p_type w = p_type p /\
     p_default w = p_default p /\ p_tags w = p_tags p) ->
  (forall n p, lookup q n = Some p -> forall v, p_value p = Some v -> vtype_of v = p_type p) ->
  exists r, set_from_names out q ns = Ok r.
Proof.
  induction ns as [|n ns IH]; intros out Ho H Hq; cbn [set_from_names]; [eauto|].
  destruct (H n) as (p & w & Lp & Lw & T & Df & Tg); [now left|].
  pose proof (formatted_lookup out Ho n) as F. rewrite Lp in F. destruct F as (r & Lr & T' & Df' & Tg' & _).
  assert (E : set_from1 out q n = Ok (match p_value r with Some _ => true | None => false end, update out n (with_value r (p_value w)))).
  { unfold set_from1, at_. rewrite Lr, Lw. cbn.
    rewrite T, Df, Tg, T', Df', Tg', vtype_eqb_refl, slist_eqb_refl, default_eqb_refl. auto. }
  rewrite E. cbn [bind].
  destruct (IH (update out n (with_value r (p_value w)))) as [[b o] G].
  - apply formatted_update; auto. intros v Hv. rewrite T', <- T. eapply Hq; eauto.
  - intros m Hm. apply H. now right.
  - auto.
  - rewrite G. cbn. eauto.
Qed.

Lemma names_pfilter_formatted p f : formatted p -> names (pfilter p f) = names (pfilter std_format f).
Proof.
  unfold formatted, names, pfilter. induction 1 as [|[m q] [m' q'] l l' (E1 & T & Df & Tg & V) F IH]; auto.
  cbn in E1, Tg. subst m'. cbn. rewrite Tg. destruct (fcheck f (p_tags q')); cbn; [f_equal|]; exact IH.
Qed.
Section Filtered.
Variable p : pars.
Hypothesis Hp : formatted p.
Lemma pfilter_typed f n w : lookup (pfilter p f) n = Some w -> forall v, p_value w = Some v -> vtype_of v = p_type w.
Proof.
  rewrite lookup_pfilter by (apply formatted_nodup; auto). destruct (lookup p n) as [r|] eqn:L; [|discriminate].
  destruct (fcheck f (p_tags r)); [|discriminate]. intros E; inversion E; subst.
  pose proof (formatted_lookup p Hp n) as F. destruct (lookup std_format n); [|congruence].
  destruct F as (r' & L' & _ & _ & _ & V). assert (r' = w) by congruence. now subst.
Qed.
Lemma value_of_pfilter f n : strb (names (pfilter p f)) n = true -> value_of (pfilter p f) n = value_of p n.
Proof.
  intros H. apply strb_spec, lookup_names in H. unfold value_of.
  rewrite lookup_pfilter in * by (apply formatted_nodup; auto). destruct (lookup p n) as [r|]; auto.
  destruct (fcheck f (p_tags r)); congruence.
Qed.
Lemma set_from_filtered out f b out' : set_from out (pfilter p f) = Ok (b, out') -> formatted out ->
  formatted out' /\ forall m, value_of out' m = if strb (names (pfilter std_format f)) m then value_of p m else value_of out m.
Proof.
  intros H Ho. unfold set_from in H. apply set_from_names_inv in H as [F V]; auto.
  - split; auto. intros m. rewrite V. destruct (strb (names (pfilter p f)) m) eqn:S.
    + rewrite value_of_pfilter by auto. rewrite names_pfilter_formatted in S by auto. now rewrite S.
    + rewrite names_pfilter_formatted in S by auto. now rewrite S.
  - apply pfilter_typed.
Qed.
Lemma set_from_filtered_total out f : formatted out -> exists r, set_from out (pfilter p f) = Ok r.
Proof.
  intros Ho. apply set_from_names_total; auto.
  - intros n Hn. apply lookup_names in Hn. rewrite lookup_pfilter in Hn by (apply formatted_nodup; auto).
    pose proof (formatted_lookup p Hp n) as F. destruct (lookup std_format n) as [q|].
    + destruct F as (r & Lr & T & Df & Tg & V). exists q, r. rewrite lookup_pfilter by (apply formatted_nodup; auto).
      rewrite Lr in *. destruct (fcheck f (p_tags r)); [auto 10|congruence].
    + rewrite F in Hn. congruence.
  - apply pfilter_typed.
Qed.
End Filtered.

(** ** Names selected by the filters of the merge *)
Definition filter_dist := f_or (f_or (FTag "xs") (FTag "cut")) (FTag "dist").
Definition filter_set := f_or (f_or filter_dist (FTag "uid")) (FTag "seed").
Lemma select_generic f (l : event_type -> list string) ts n :
  (forall t, forallb (fun np => Bool.eqb (fcheck f (p_tags (snd np)) && strb (p_tags (snd np)) (short_name t)) (strb (l t) (fst np))) std_format = true) ->
  (forall t, forallb (fun n => match lookup std_format n with Some _ => true | None => false end) (l t) = true) ->
  ((exists q, lookup std_format n = Some q /\ fcheck (f_and f (filter_ev ts)) (p_tags q) = true) <->
  exists t, In t ts /\ In n (l t)).
Proof.
  intros H1 H2.
  assert (K : forall t n q, lookup std_format n = Some q ->
    (fcheck f (p_tags q) && strb (p_tags q) (short_name t) = strb (l t) n)).
  { intros t m q L. apply eqb_prop.
    apply (std_all (fun m tg => Bool.eqb (fcheck f tg && strb tg (short_name t)) (strb (l t) m))); auto. }
  split.
  - intros (q & L & C). rewrite fcheck_and, andb_true_iff, filter_ev_iff in C. destruct C as (C & t & Ht & Hs).
    exists t. split; auto. apply strb_spec. rewrite <- (K t n q L), C. cbn. now apply strb_spec.
  - intros (t & Ht & Hn). destruct (std_has (l t)) with (n := n) as [q L]; auto.
    exists q. split; auto. apply strb_spec in Hn. rewrite <- (K t n q L) in Hn. apply andb_true_iff in Hn as [C Hs].
    rewrite fcheck_and, C. cbn. apply filter_ev_iff. exists t. split; auto. now apply strb_spec.
Qed.
Definition dist_names t := (shaping_names t ++ [rej_scale_name t])%list.
Lemma select_dist ts n :
  (exists q, lookup std_format n = Some q /\ fcheck (f_and filter_dist (filter_ev ts)) (p_tags q) = true) <->
  exists t, In t ts /\ In n (dist_names t).
Proof. apply select_generic; intros []; vm_compute; reflexivity. Qed.
Lemma select_carried ts n :
  (exists q, lookup std_format n = Some q /\ fcheck (f_and filter_set (filter_ev ts)) (p_tags q) = true) <->
  exists t, In t ts /\ In n (carried_names t).
Proof. apply select_generic; intros []; vm_compute; reflexivity. Qed.
Lemma in_names_pfilter f n : strb (names (pfilter std_format f)) n = true <->
  exists q, lookup std_format n = Some q /\ fcheck f (p_tags q) = true.
Proof.
  rewrite strb_spec, <- lookup_names, lookup_pfilter by apply std_nodup.
  destruct (lookup std_format n) as [q|].
  - destruct (fcheck f (p_tags q)) eqn:E; split; try congruence; eauto.
    intros (q' & K & C). inversion K; subst. congruence.
  - split; [congruence|]. intros (q' & K & _). discriminate.
Qed.
Lemma carried_iff ts n : strb (names (pfilter std_format (f_and filter_set (filter_ev ts)))) n = true <->
  exists t, In t ts /\ In n (carried_names t).
Proof. rewrite in_names_pfilter. apply select_carried. Qed.

(** ** The merge *)
Lemma ev_mem_iff t l : ev_mem t l = true <-> In t l.
Proof.
  unfold ev_mem. rewrite existsb_exists. split.
  - intros (t' & ? & E). destruct t, t'; cbn in E; try discriminate; auto.
  - intros H. exists t. split; auto. apply Z.eqb_refl.
Qed.
Lemma ev_inter_iff a b t : In t (ev_inter a b) <-> In t a /\ In t b.
Proof. unfold ev_inter. rewrite filter_In, ev_mem_iff. tauto. Qed.
Lemma ev_union_iff a b t : In t (ev_union a b) <-> In t a \/ In t b.
Proof. unfold ev_union. rewrite filter_In, orb_true_iff, !ev_mem_iff. split; [tauto|]. intros H. split; auto. destruct t; cbn; auto. Qed.

Lemma merge_uid_loop_spec p1 p2 ts :
  merge_uid_loop p1 p2 ts = Ok tt <-> forall t, In t ts -> exists u, reads p1 (uid_name t) = Some (VLong u) /\ reads p2 (uid_name t) = Some (VLong u).
Proof.
  induction ts as [|t ts IH]; cbn [merge_uid_loop In].
  { split; auto. intros _ t []. }
  rewrite name_uid. split.
  - destruct (get_long p1 (uid_name t)) as [[u1 q1]|] eqn:G1; cbn [bind]; [|discriminate].
    destruct (get_long p2 (uid_name t)) as [[u2 q2]|] eqn:G2; cbn [bind]; [|discriminate].
    apply get_long_inv in G1 as [R1 _]. apply get_long_inv in G2 as [R2 _].
    destruct (Z.eqb_spec u1 u2) as [->|]; [|discriminate]. intros H t' [<-|Ht]; eauto. now apply IH.
  - intros H. destruct (H t) as (u & R1 & R2); auto.
    apply get_long_spec in R1 as (? & -> & _). apply get_long_spec in R2 as (? & -> & _). cbn [bind].
    rewrite Z.eqb_refl. apply IH. auto.
Qed.

(** The operators used by the merge. *)
Definition op_and (a b : val) : result val := match a, b with VBool x, VBool y => Ok (VBool (x && y)) | _, _ => Throw EBadCast end.
Definition op_or (a b : val) : result val := match a, b with VBool x, VBool y => Ok (VBool (x || y)) | _, _ => Throw EBadCast end.
Definition op_file (a b : val) : result val := match a, b with
    | VString x, VString y => Ok (VString (if String.eqb x y then x else "<unknown>")) | _, _ => Throw EBadCast end.
Definition op_version (a b : val) : result val := match a, b with
    | VVersion x y, VVersion x' y' =>
      if (x =? x')%Z then Ok (if (y >? y')%Z then VVersion x y else VVersion x' y')
      else Ok (if (x >? x')%Z then VVersion x y else VVersion x' y')
    | _, _ => Throw EBadCast end.
Definition op_seed (a b : val) : result val := match a, b with
    | VSeedGen x, VSeedGen y => Ok (VSeedGen (seed_union x y)) | _, _ => Throw EBadCast end.
Definition op_count (a b : val) : result val := match a, b with
    | VLong x, VLong y => Ok (VLong (wrap64 (x + y))) | _, _ => Throw EBadCast end.

Lemma seq_merge_inv {A} p1 p2 (nm : A -> string) op l : forall out out',
  seq_result (fun a => merge_value p1 p2 (nm a) op) l out = Ok out' -> formatted out ->
  formatted out' /\ (forall m, (forall a, In a l -> nm a <> m) -> value_of out' m = value_of out m) /\
  (forall a, In a l -> merged_value p1 p2 (nm a) op (value_of out' (nm a))).
Proof.
  induction l as [|a l IH]; intros out out' H Ho; cbn [seq_result] in H.
  { inversion H; subst. split; auto. split; auto. intros a []. }
  destruct (merge_value p1 p2 (nm a) op out) as [o|] eqn:E; cbn [bind] in H; [|discriminate].
  apply merge_value_inv in E as (F & O & M); auto. apply IH in H as (F' & O' & M'); auto.
  split; auto. split.
  - intros m Hm. rewrite O' by (intros; apply Hm; now right). apply O, Hm. now left.
  - intros b [<-|Hb]; auto. 
    destruct (in_dec string_dec (nm a) (map nm l)) as [Hi|Hn].
    + apply in_map_iff in Hi as (c & E & Hc). rewrite <- E. auto.
    + rewrite O'; auto. intros c Hc E. apply Hn. rewrite <- E. now apply in_map.
Qed.
Lemma seq_merge_total {A} p1 p2 (nm : A -> string) op l : forall out, formatted p1 -> formatted p2 -> formatted out ->
  (forall a, In a l -> exists q, lookup std_format (nm a) = Some q /\
     (value_of p1 (nm a) <> None \/ value_of p2 (nm a) <> None -> exists v1 v2 v, reads p1 (nm a) = Some v1 /\
       reads p2 (nm a) = Some v2 /\ op v1 v2 = Ok v /\ vtype_of v = p_type q)) ->
  exists out', seq_result (fun a => merge_value p1 p2 (nm a) op) l out = Ok out'.
Proof.
  induction l as [|a l IH]; intros out H1 H2 Ho H; cbn [seq_result]; [eauto|].
  destruct (H a) as (q & Lq & Hq); [now left|].
  destruct (merge_value_total p1 p2 (nm a) op out q) as [o E]; auto. rewrite E. cbn [bind].
  apply merge_value_inv in E as (F & _); auto. apply IH; auto. intros b Hb. apply H. now right.
Qed.

Lemma merged_loop_iff p out ns : (forall n, In n ns -> lookup p n <> None) -> (forall n, In n ns -> lookup out n <> None) ->
  (merged_loop p out ns = Ok tt <-> forall n, In n ns -> value_of p n <> None -> value_of out n <> None).
Proof.
  induction ns as [|n ns IH]; intros Hp Ho; cbn [merged_loop In].
  { split; [intros _ n [] | auto]. }
  rewrite !is_set_ok by (first [apply Hp | apply Ho]; now left). cbn [bind].
  assert (IH' := IH (fun m Hm => Hp m (or_intror Hm)) (fun m Hm => Ho m (or_intror Hm))).
  destruct (value_of p n) eqn:V.
  - destruct (value_of out n) eqn:V'.
    + rewrite IH'. split; auto. intros H m [<-|Hm]; auto; congruence.
    + split; [discriminate|]. intros H. exfalso. apply (H n); auto. congruence.
  - rewrite IH'. split; auto. intros H m [<-|Hm]; auto; congruence.
Qed.
Lemma contaminated_loop_iff out p1 p2 ns : (forall n, In n ns -> lookup out n <> None) -> (forall n, In n ns -> lookup p1 n <> None) ->
  (forall n, In n ns -> lookup p2 n <> None) ->
  (contaminated_loop out p1 p2 ns = Ok tt <->
   forall n, In n ns -> value_of out n <> None -> value_of p1 n <> None \/ value_of p2 n <> None).
Proof.
  induction ns as [|n ns IH]; intros Ho H1 H2; cbn [contaminated_loop In].
  { split; [intros _ n [] | auto]. }
  rewrite !is_set_ok by (first [apply Ho | apply H1 | apply H2]; now left). cbn [bind].
  assert (IH' := IH (fun m Hm => Ho m (or_intror Hm)) (fun m Hm => H1 m (or_intror Hm)) (fun m Hm => H2 m (or_intror Hm))).
  destruct (value_of out n) eqn:V.
  - destruct (value_of p1 n) eqn:V1.
    + rewrite IH'. split; auto. intros H m [<-|Hm]; auto; left; congruence.
    + destruct (value_of p2 n) eqn:V2.
      * rewrite IH'. split; auto. intros H m [<-|Hm]; auto; right; congruence.
      * split; [discriminate|]. intros H. exfalso. destruct (H n); auto; congruence.
  - rewrite IH'. split; auto. intros H m [<-|Hm]; auto; congruence.
Qed.

Definition file_names := ["file.event"; "file.gen"].
Lemma names_file p : formatted p -> names (pfilter p (FTag "file")) = file_names.
Proof. intros H. rewrite names_pfilter_formatted by auto. vm_compute. reflexivity. Qed.
Definition write_names := ["file.write_momenta"; "file.write_photon"; "file.write_sf_set"; "file.write_mc_coords"].

(** Everything a successful merge establishes. *)
Record merge_facts (p1 p2 out : pars) : Prop := {
  mf_formatted : formatted out;
  mf_major : exists maj m1 m2, version_of p1 maj m1 /\ version_of p2 maj m2;
  mf_rc : (exists m, reads p1 "phys.rc_method" = Some (VRcMethod m)) /\ (exists m, reads p2 "phys.rc_method" = Some (VRcMethod m));
  mf_shared : forall t n, enabled p1 t -> enabled p2 t -> In n (dist_names t) -> agree p1 p2 n;
  mf_uid : forall t, enabled p1 t -> enabled p2 t -> exists u, reads p1 (uid_name t) = Some (VLong u) /\ reads p2 (uid_name t) = Some (VLong u);
  mf_seeds : disjoint_seeds p1 p2;
  mf_version : merged_value p1 p2 "version" op_version (value_of out "version");
  mf_strict : merged_value p1 p2 "strict" op_and (value_of out "strict");
  mf_file : forall n, In n file_names -> merged_value p1 p2 n op_file (value_of out n);
  mf_write : forall n, In n write_names -> merged_value p1 p2 n op_and (value_of out n);
  mf_enable : forall t, enabled p1 t \/ enabled p2 t -> merged_value p1 p2 (enable_name t) op_or (value_of out (enable_name t));
  mf_count : merged_value p1 p2 "mc.num_events" op_count (value_of out "mc.num_events");
  mf_second : forall t n, enabled p2 t -> In n (carried_names t) -> value_of out n = value_of p2 n;
  mf_first : forall t n, enabled p1 t -> In n (carried_names t) -> (forall t', enabled p2 t' -> ~ In n (carried_names t')) ->
    value_of out n = value_of p1 n;
  mf_seed_none : (forall t, ~ enabled p1 t) -> (forall t, ~ enabled p2 t) -> merged_value p1 p2 "mc.seed" op_seed (value_of out "mc.seed");
  mf_survive : forall n, value_of out n <> None -> survives p1 p2 n;
  mf_complete : forall n, value_of out n <> None <-> value_of p1 n <> None \/ value_of p2 n <> None
}.

Tactic Notation "bst" hyp(H) simple_intropattern(p) :=
  match type of H with bind ?r _ = Ok _ => destruct r as [p|] eqn:?E; cbn [bind] in H; [|discriminate H] end.
Ltac neq := vm_compute; discriminate.

Lemma not_carried n : forallb (fun t => negb (strb (carried_names t) n)) event_types = true ->
  forall ts, strb (names (pfilter std_format (f_and filter_set (filter_ev ts)))) n = false.
Proof.
  intros H ts. destruct (strb _ n) eqn:E; auto. apply carried_iff in E as (t & _ & Hn).
  rewrite forallb_forall in H. assert (K := H t). rewrite (proj2 (strb_spec _ _) Hn) in K.
  discriminate K. destruct t; cbn; auto.
Qed.
Lemma names_known (ps : pars) n : value_of ps n <> None -> In n (names ps).
Proof. unfold value_of. intros H. apply lookup_names. destruct (lookup ps n); congruence. Qed.

Lemma merge_sound p1 p2 out : formatted p1 -> formatted p2 -> merge_params p1 p2 = Ok out -> merge_facts p1 p2 out.
Proof.
  intros H1 H2 H. unfold merge_params in H. rewrite !check_format_std in H by auto. cbn [bind] in H.
  destruct (reads_version p1 H1) as (maj & min1 & R1). destruct (reads_version p2 H2) as (maj2 & min2 & R2).
  destruct (get_version_spec _ _ _ _ R1) as (? & G1 & _). destruct (get_version_spec _ _ _ _ R2) as (? & G2 & _).
  rewrite G1 in H. cbn [bind] in H. rewrite G2 in H. cbn [bind] in H.
  destruct (Z.eqb_spec maj maj2) as [<-|]; cbn [negb] in H; [|discriminate].
  pose proof (enabled_event_types_spec p1 H1) as En1. pose proof (enabled_event_types_spec p2 H2) as En2.
  destruct (enabled_event_types p1) as [[ts1 ?]|]; cbn [bind] in H; [|discriminate].
  destruct (enabled_event_types p2) as [[ts2 ?]|]; cbn [bind] in H; [|discriminate].
  destruct En1 as (En1 & _ & _ & Rc1). destruct En2 as (En2 & _ & _ & Rc2).
  fold filter_dist filter_set in H.
  bst H []. bst H [].
  pose proof (proj1 (check_equivalent_filtered p1 p2 _ H1 H2) E) as Ag. clear E.
  pose proof (proj1 (merge_uid_loop_spec p1 p2 _) E0) as Ui. clear E0.
  bst H b. bst H b0. bst H []. rename E into S1, E0 into S2, E1 into Sd.
  bst H w1. apply merge_value_inv in E as (F1 & O1 & M1); [|apply formatted_std].
  bst H w2. apply merge_value_inv in E as (F2 & O2 & M2); [|auto].
  rewrite names_file in H by auto.
  bst H w3. apply (seq_merge_inv p1 p2 (fun n => n)) in E as (F3 & O3 & M3); [|auto].
  bst H w4. apply merge_value_inv in E as (F4 & O4 & M4); [|auto].
  bst H w5. apply merge_value_inv in E as (F5 & O5 & M5); [|auto].
  bst H w6. apply merge_value_inv in E as (F6 & O6 & M6); [|auto].
  bst H w7. apply merge_value_inv in E as (F7 & O7 & M7); [|auto].
  bst H w8. apply (seq_merge_inv p1 p2 p_name_enable) in E as (F8 & O8 & M8); [|auto].
  bst H w9. apply merge_value_inv in E as (F9 & O9 & M9); [|auto].
  bst H w10. apply merge_value_inv in E as (F10 & O10 & M10); [|auto].
  bst H [? out1]. apply set_from_filtered in E as (F11 & V11); [|auto|auto].
  bst H [? out2]. apply set_from_filtered in E as (F12 & V12); [|auto|auto].
  bst H []. bst H []. bst H []. inversion H; subst out2. clear H.
  rename E into L1, E0 into L2, E1 into L3.
  assert (NE : forall t n, enable_name t <> n -> p_name_enable t <> n) by (intros t n; now rewrite name_enable).
  assert (Kn : forall ps n, formatted ps -> In n (names std_format) -> lookup ps n <> None).
  { intros ps n Hp Hn. apply lookup_names. now rewrite formatted_names. }
  constructor.
  - auto.
  - exists maj, min1, min2. auto.
  - auto.
  - intros t n T1 T2 Hn. apply En1 in T1. apply En2 in T2.
    destruct (proj2 (select_dist (ev_inter ts1 ts2) n)) as (q & Lq & C).
    { exists t. split; auto. apply ev_inter_iff. auto. }
    eapply Ag; eauto.
  - intros t T1 T2. apply Ui. apply ev_inter_iff. rewrite En1, En2. auto.
  - intros s1 s2 sx Vs1 Vs2 I1 I2.
    apply is_set_inv in S1 as [_ S1]. apply is_set_inv in S2 as [_ S2].
    destruct b; [|exfalso; assert (false = true) by (apply S1; congruence); discriminate].
    destruct b0; [|exfalso; assert (false = true) by (apply S2; congruence); discriminate].
    assert (R3 : reads p1 "mc.seed" = Some (VSeedGen s1)) by (unfold reads; now rewrite Vs1).
    assert (R4 : reads p2 "mc.seed" = Some (VSeedGen s2)) by (unfold reads; now rewrite Vs2).
    cbn [andb] in Sd. apply get_seeds_spec in R3 as (? & G3 & _). apply get_seeds_spec in R4 as (? & G4 & _).
    rewrite G3 in Sd. cbn [bind] in Sd. rewrite G4 in Sd. cbn [bind] in Sd.
    destruct (existsb (fun s => existsb (Z.eqb s) s2) s1) eqn:Ex; [discriminate|].
    assert (existsb (fun s => existsb (Z.eqb s) s2) s1 = true); [|congruence].
    apply existsb_exists. exists sx. split; auto. apply existsb_exists. exists sx. split; auto. apply Z.eqb_refl.
  - rewrite V12, not_carried, V11, not_carried by reflexivity.
    rewrite O10, O9, O8, O7, O6, O5, O4, O3, O2 by (first [neq | intros t Ht; destruct t; neq | intros a [<-|[<-|[]]]; neq]). auto.
  - rewrite V12, not_carried, V11, not_carried by reflexivity.
    rewrite O10, O9, O8, O7, O6, O5, O4, O3 by (first [neq | intros t Ht; destruct t; neq | intros a [<-|[<-|[]]]; neq]). auto.
  - intros n Hn. assert (M := M3 n Hn). cbn in Hn. destruct Hn as [<-|[<-|[]]].
    + rewrite V12, not_carried, V11, not_carried by reflexivity.
      rewrite O10, O9, O8, O7, O6, O5, O4 by (first [neq | intros t Ht; destruct t; neq]). auto.
    + rewrite V12, not_carried, V11, not_carried by reflexivity.
      rewrite O10, O9, O8, O7, O6, O5, O4 by (first [neq | intros t Ht; destruct t; neq]). auto.
  - intros n [<-|[<-|[<-|[<-|[]]]]]; rewrite V12, not_carried, V11, not_carried by reflexivity.
    + rewrite O10, O9, O8, O7, O6, O5 by (first [neq | intros t Ht; destruct t; neq]). auto.
    + rewrite O10, O9, O8, O7, O6 by (first [neq | intros t Ht; destruct t; neq]). auto.
    + rewrite O10, O9, O8, O7 by (first [neq | intros t Ht; destruct t; neq]). auto.
    + rewrite O10, O9, O8 by (first [neq | intros t Ht; destruct t; neq]). auto.
  - intros t Ht. assert (Hi : In t (ev_union ts1 ts2)) by (apply ev_union_iff; rewrite En1, En2; auto).
    apply M8 in Hi. rewrite name_enable in Hi.
    rewrite V12, not_carried, V11, not_carried by (destruct t; reflexivity).
    rewrite O10, O9 by (destruct t; neq). auto.
  - rewrite V12, not_carried, V11, not_carried by reflexivity. auto.
  - intros t n T Hn. rewrite V12. replace (strb _ n) with true; auto. symmetry. apply carried_iff. exists t. split; auto. now apply En2.
  - intros t n T Hn No. rewrite V12. replace (strb _ n) with false.
    + rewrite V11. replace (strb _ n) with true; auto. symmetry. apply carried_iff. exists t. split; auto. now apply En1.
    + symmetry. destruct (strb _ n) eqn:C; auto. apply carried_iff in C as (t' & T' & C). exfalso. eapply No; eauto. now apply En2.
  - intros N1 N2. assert (C : forall ts, (forall t, ~ In t ts) -> forall n, strb (names (pfilter std_format (f_and filter_set (filter_ev ts)))) n = false).
    { intros ts N n. destruct (strb _ n) eqn:C; auto. apply carried_iff in C as (t' & T' & C). exfalso. eapply N; eauto. }
    rewrite V12, C, V11, C by (intros t Ht; first [eapply N1, En1, Ht | eapply N2, En2, Ht]).
    rewrite O10 by neq. auto.
  - intros n. rewrite V12. unfold survives.
    destruct (strb (names (pfilter std_format (f_and filter_set (filter_ev ts2)))) n) eqn:C2.
    { intros V. apply carried_iff in C2 as (t & T & Hn). do 2 right. left. exists t. split; [now apply En2|]. auto. }
    assert (No2 : forall t, enabled p2 t -> ~ In n (carried_names t)).
    { intros t T Hn. apply En2 in T. rewrite (proj2 (carried_iff ts2 n)) in C2; [discriminate|eauto]. }
    rewrite V11.
    destruct (strb (names (pfilter std_format (f_and filter_set (filter_ev ts1)))) n) eqn:C1.
    { intros V. apply carried_iff in C1 as (t & T & Hn). do 3 right. left. split; auto. exists t. split; [now apply En1|]. auto. }
    assert (No1 : forall t, enabled p1 t -> ~ In n (carried_names t)).
    { intros t T Hn. apply En1 in T. rewrite (proj2 (carried_iff ts1 n)) in C1; [discriminate|eauto]. }
    unfold always_merged. intros V.
    destruct (string_dec "mc.num_events" n) as [<-|N1]; [left; cbn; tauto|]. rewrite O10 in V by auto.
    destruct (string_dec "mc.seed" n) as [<-|N2].
    { do 4 right. split; auto. intros t.
      assert (Cs : In "mc.seed" (carried_names t)) by (apply in_or_app; right; cbn; auto).
      split; intros T; [eapply No1 | eapply No2]; eauto. }
    rewrite O9 in V by auto.
    destruct (in_dec string_dec n (map p_name_enable (ev_union ts1 ts2))) as [Hi|N3].
    { right. left. apply in_map_iff in Hi as (t & <- & Ht). exists t. rewrite name_enable. split; auto.
      apply ev_union_iff in Ht. rewrite <- En1, <- En2. auto. }
    rewrite O8 in V by (intros t Ht E; apply N3; rewrite <- E; now apply in_map).
    destruct (string_dec "file.write_mc_coords" n) as [<-|N4]; [left; cbn; tauto|]. rewrite O7 in V by auto.
    destruct (string_dec "file.write_sf_set" n) as [<-|N5]; [left; cbn; tauto|]. rewrite O6 in V by auto.
    destruct (string_dec "file.write_photon" n) as [<-|N6]; [left; cbn; tauto|]. rewrite O5 in V by auto.
    destruct (string_dec "file.write_momenta" n) as [<-|N7]; [left; cbn; tauto|]. rewrite O4 in V by auto.
    destruct (in_dec string_dec n file_names) as [Hi|N8]; [left; destruct Hi as [<-|[<-|[]]]; cbn; tauto|].
    rewrite O3 in V by (intros a Ha E; apply N8; now rewrite <- E).
    destruct (string_dec "strict" n) as [<-|N9]; [left; cbn; tauto|]. rewrite O2 in V by auto.
    destruct (string_dec "version" n) as [<-|N10]; [left; cbn; tauto|]. rewrite O1 in V by auto.
    exfalso. apply V. unfold value_of. destruct (lookup std_format n) eqn:L; auto.
    apply lookup_in in L. eapply std_is_format; eauto.
  - intros n. split.
    + intros V. rewrite contaminated_loop_iff in L3; [| | |].
      * apply L3; auto. now apply names_known.
      * intros m Hm. now apply lookup_names.
      * intros m Hm. rewrite formatted_names in Hm by auto. auto.
      * intros m Hm. rewrite formatted_names in Hm by auto. auto.
    + intros [V|V].
      * rewrite merged_loop_iff in L1; [| |].
        -- apply L1; auto. now apply names_known.
        -- intros m Hm. now apply lookup_names.
        -- intros m Hm. rewrite formatted_names in Hm by auto. auto.
      * rewrite merged_loop_iff in L2; [| |].
        -- apply L2; auto. now apply names_known.
        -- intros m Hm. now apply lookup_names.
        -- intros m Hm. rewrite formatted_names in Hm by auto. auto.
Qed.

(** ** When the merge succeeds *)
Lemma std_type n q : lookup std_format n = Some q -> forall ps v, formatted ps -> value_of ps n = Some v -> vtype_of v = p_type q.
Proof.
  intros L ps v Hp V. pose proof (formatted_lookup ps Hp n) as F. rewrite L in F. destruct F as (p & Lp & T & _ & _ & Hv).
  unfold value_of in V. rewrite Lp in V. rewrite <- T. auto.
Qed.
(** A parameter with a default of the right type. *)
Definition has_default n ty := match lookup std_format n with
  | Some q => vtype_eqb (p_type q) ty && match p_default q with Some (_, d) => vtype_eqb (vtype_of d) ty | None => false end
  | None => false end.
Definition has_type n ty := match lookup std_format n with Some q => vtype_eqb (p_type q) ty | None => false end.
Lemma default_reads n ty : has_default n ty = true -> exists q, lookup std_format n = Some q /\ p_type q = ty /\
  forall ps, formatted ps -> exists v, reads ps n = Some v /\ vtype_of v = ty.
Proof.
  unfold has_default. destruct (lookup std_format n) as [q|] eqn:L; [|discriminate]. rewrite andb_true_iff. intros [T H].
  apply vtype_eqb_eq in T. destruct (p_default q) as [[i d]|] eqn:Df; [|discriminate]. apply vtype_eqb_eq in H.
  exists q. split; auto. split; auto. intros ps Hp.
  destruct (reads_default ps n q d Hp L) as [v R]; [now rewrite Df|]. exists v. split; auto. rewrite <- T.
  eapply reads_typed; eauto. intros d' E. rewrite Df in E. inversion E; subst. now rewrite H.
Qed.
Lemma type_reads n ty ps : has_type n ty = true -> formatted ps -> value_of ps n <> None ->
  exists q v, lookup std_format n = Some q /\ p_type q = ty /\ reads ps n = Some v /\ vtype_of v = ty.
Proof.
  unfold has_type. destruct (lookup std_format n) as [q|] eqn:L; [|discriminate]. intros T Hp V. apply vtype_eqb_eq in T.
  destruct (value_of ps n) as [v|] eqn:E; [|congruence]. exists q, v. unfold reads. rewrite E. repeat split; auto.
  rewrite <- T. eapply std_type; eauto.
Qed.
Lemma has_type_lookup n ty : has_type n ty = true -> exists q, lookup std_format n = Some q /\ p_type q = ty.
Proof.
  unfold has_type. destruct (lookup std_format n) as [q|]; [|discriminate]. intros T. apply vtype_eqb_eq in T. eauto.
Qed.

Lemma merge_total_default p1 p2 n ty op out : formatted p1 -> formatted p2 -> formatted out -> has_default n ty = true ->
  (forall v1 v2, vtype_of v1 = ty -> vtype_of v2 = ty -> exists v, op v1 v2 = Ok v /\ vtype_of v = ty) ->
  exists out', merge_value p1 p2 n op out = Ok out'.
Proof.
  intros H1 H2 Ho Hd Hop. destruct (default_reads n ty Hd) as (q & L & T & R).
  eapply merge_value_total; eauto. intros _. destruct (R p1 H1) as (v1 & R1 & T1). destruct (R p2 H2) as (v2 & R2 & T2).
  destruct (Hop v1 v2 T1 T2) as (v & O & Tv). exists v1, v2, v. rewrite T. auto.
Qed.
Lemma merge_total_both p1 p2 n ty op out : formatted p1 -> formatted p2 -> formatted out -> has_type n ty = true ->
  (provides p1 n <-> provides p2 n) ->
  (forall v1 v2, vtype_of v1 = ty -> vtype_of v2 = ty -> exists v, op v1 v2 = Ok v /\ vtype_of v = ty) ->
  exists out', merge_value p1 p2 n op out = Ok out'.
Proof.
  intros H1 H2 Ho Ht Hb Hop. destruct (has_type_lookup _ _ Ht) as (q & L & T).
  eapply merge_value_total; eauto. intros V. unfold provides in Hb.
  destruct (type_reads n ty p1 Ht H1) as (q1 & v1 & L1 & _ & R1 & T1); [tauto|].
  destruct (type_reads n ty p2 Ht H2) as (q2 & v2 & L2 & _ & R2 & T2); [tauto|].
  destruct (Hop v1 v2 T1 T2) as (v & O & Tv). exists v1, v2, v. rewrite T. auto.
Qed.
Ltac op_tac := intros v1 v2 T1 T2; destruct v1; try discriminate T1; destruct v2; try discriminate T2; cbn; eauto;
  repeat match goal with |- context [if ?b then _ else _] => destruct b end; eauto.
Lemma op_and_ok v1 v2 : vtype_of v1 = TBool -> vtype_of v2 = TBool -> exists v, op_and v1 v2 = Ok v /\ vtype_of v = TBool.
Proof. revert v1 v2. op_tac. Qed.
Lemma op_or_ok v1 v2 : vtype_of v1 = TBool -> vtype_of v2 = TBool -> exists v, op_or v1 v2 = Ok v /\ vtype_of v = TBool.
Proof. revert v1 v2. op_tac. Qed.
Lemma op_version_ok v1 v2 : vtype_of v1 = TVersion -> vtype_of v2 = TVersion -> exists v, op_version v1 v2 = Ok v /\ vtype_of v = TVersion.
Proof. revert v1 v2. op_tac. Qed.
Lemma op_seed_ok v1 v2 : vtype_of v1 = TSeedGen -> vtype_of v2 = TSeedGen -> exists v, op_seed v1 v2 = Ok v /\ vtype_of v = TSeedGen.
Proof. revert v1 v2. op_tac. Qed.
Lemma op_count_ok v1 v2 : vtype_of v1 = TLong -> vtype_of v2 = TLong -> exists v, op_count v1 v2 = Ok v /\ vtype_of v = TLong.
Proof. revert v1 v2. op_tac. Qed.
Lemma op_file_ok v1 v2 : vtype_of v1 = TString -> vtype_of v2 = TString -> exists v, op_file v1 v2 = Ok v /\ vtype_of v = TString.
Proof. revert v1 v2. op_tac. Qed.

Lemma seeds_check_total p1 p2 : formatted p1 -> formatted p2 -> disjoint_seeds p1 p2 ->
  (do s1 <- is_set p1 "mc.seed"; do s2 <- is_set p2 "mc.seed";
   (if s1 && s2 then
      do (sd1, _) <- get_seeds p1 "mc.seed";
      do (sd2, _) <- get_seeds p2 "mc.seed";
      if existsb (fun s => existsb (Z.eqb s) sd2) sd1 then Throw (EIncompatible "mc.seed") else Ok tt
    else Ok tt)) = Ok tt.
Proof.
  intros H1 H2 Hs. assert (exists q, lookup std_format "mc.seed" = Some q /\ p_type q = TSeedGen) as (q & L & T).
  { apply has_type_lookup. vm_compute. reflexivity. }
  rewrite !is_set_ok by (eapply formatted_known; eauto). cbn [bind].
  destruct (value_of p1 "mc.seed") as [v1|] eqn:V1; cbn [andb]; auto.
  destruct (value_of p2 "mc.seed") as [v2|] eqn:V2; cbn [andb]; auto.
  pose proof (std_type _ _ L p1 v1 H1 V1) as T1. pose proof (std_type _ _ L p2 v2 H2 V2) as T2. rewrite T in T1, T2.
  destruct v1; try discriminate T1. destruct v2; try discriminate T2.
  assert (R1 : reads p1 "mc.seed" = Some (VSeedGen seeds)) by (unfold reads; now rewrite V1).
  assert (R2 : reads p2 "mc.seed" = Some (VSeedGen seeds0)) by (unfold reads; now rewrite V2).
  apply get_seeds_spec in R1 as (? & G1 & _). apply get_seeds_spec in R2 as (? & G2 & _).
  rewrite G1. cbn [bind]. rewrite G2. cbn [bind].
  destruct (existsb (fun s => existsb (Z.eqb s) seeds0) seeds) eqn:Ex; auto.
  apply existsb_exists in Ex as (s & I1 & Ex). apply existsb_exists in Ex as (s' & I2 & E). apply Z.eqb_eq in E. subst s'.
  exfalso. eapply Hs; eauto.
Qed.

Lemma merged_value_set p1 p2 n op r : merged_value p1 p2 n op r -> (r <> None <-> provides p1 n \/ provides p2 n).
Proof.
  unfold provides. intros [(V1 & V2 & ->)|(V & v1 & v2 & v & _ & _ & _ & ->)].
  - rewrite V1, V2. tauto.
  - split; auto. discriminate.
Qed.

Lemma merge_complete p1 p2 : formatted p1 -> formatted p2 -> mergeable p1 p2 -> exists out, merge_params p1 p2 = Ok out.
Proof.
  intros H1 H2 ((maj & min1 & min2 & R1 & R2) & (rc1 & Rc1) & (rc2 & Rc2) & Ag & Ui & Sd & Bo & Sv).
  unfold merge_params. rewrite !check_format_std by auto. cbn [bind].
  destruct (get_version_spec _ _ _ _ R1) as (? & G1 & _). destruct (get_version_spec _ _ _ _ R2) as (? & G2 & _).
  rewrite G1. cbn [bind]. rewrite G2. cbn [bind]. rewrite Z.eqb_refl. cbn [negb].
  pose proof (enabled_event_types_spec p1 H1) as En1. pose proof (enabled_event_types_spec p2 H2) as En2.
  destruct (enabled_event_types p1) as [[ts1 ?]|]; cbn [bind]; [|exfalso; eapply En1; eauto].
  destruct (enabled_event_types p2) as [[ts2 ?]|]; cbn [bind]; [|exfalso; eapply En2; eauto].
  destruct En1 as (En1 & _ & _ & _). destruct En2 as (En2 & _ & _ & _).
  fold filter_dist. fold filter_set. cbv zeta.
  rewrite (proj2 (check_equivalent_filtered p1 p2 (f_and filter_dist (filter_ev (ev_inter ts1 ts2))) H1 H2)).
  2:{ intros n q L C. destruct (proj1 (select_dist (ev_inter ts1 ts2) n)) as (t & Ht & Hn); eauto.
      apply ev_inter_iff in Ht as [T1 T2]. apply (Ag t); auto; [now apply En1 | now apply En2]. }
  cbn [bind]. rewrite (proj2 (merge_uid_loop_spec p1 p2 (ev_inter ts1 ts2))).
  2:{ intros t Ht. apply ev_inter_iff in Ht as [T1 T2]. apply Ui; [now apply En1 | now apply En2]. }
  cbn [bind].
  pose proof (seeds_check_total p1 p2 H1 H2 Sd) as Sc.
  destruct (is_set p1 "mc.seed") as [s1|]; cbn [bind] in Sc |- *; [|discriminate].
  destruct (is_set p2 "mc.seed") as [s2|]; cbn [bind] in Sc |- *; [|discriminate].
  rewrite Sc. cbn [bind]. clear Sc.
  destruct (merge_total_default p1 p2 "version" TVersion op_version std_format) as [o1 E]; auto using formatted_std, op_version_ok.
  rewrite (E : merge_version p1 p2 "version" std_format = Ok o1). cbn [bind].
  apply merge_value_inv in E as (F1 & O1 & M1); [|apply formatted_std].
  destruct (merge_total_default p1 p2 "strict" TBool op_and o1) as [o2 E]; auto using op_and_ok.
  rewrite (E : merge_bool_and p1 p2 "strict" o1 = Ok o2). cbn [bind].
  apply merge_value_inv in E as (F2 & O2 & M2); [|auto].
  rewrite names_file by auto.
  destruct (seq_merge_total p1 p2 (fun n => n) op_file file_names o2) as [o3 E]; auto.
  { intros n Hn. assert (Ht : has_type n TString = true) by (destruct Hn as [<-|[<-|[]]]; vm_compute; reflexivity).
    destruct (has_type_lookup _ _ Ht) as (q & L & T). exists q. split; auto. intros V.
    assert (B : provides p1 n <-> provides p2 n) by (apply Bo; destruct Hn as [<-|[<-|[]]]; cbn; auto).
    unfold provides in B.
    destruct (type_reads n _ p1 Ht H1) as (q1 & v1 & L1 & _ & Rv1 & T1); [tauto|].
    destruct (type_reads n _ p2 Ht H2) as (q2 & v2 & L2 & _ & Rv2 & T2); [tauto|].
    destruct (op_file_ok v1 v2 T1 T2) as (v & O & Tv). exists v1, v2, v. rewrite T. auto. }
  rewrite (E : seq_result (merge_file p1 p2) file_names o2 = Ok o3). cbn [bind].
  apply (seq_merge_inv p1 p2 (fun n => n)) in E as (F3 & O3 & M3); [|auto].
  destruct (merge_total_default p1 p2 "file.write_momenta" TBool op_and o3) as [o4 E]; auto using op_and_ok.
  rewrite (E : merge_bool_and p1 p2 "file.write_momenta" o3 = Ok o4). cbn [bind].
  apply merge_value_inv in E as (F4 & O4 & M4); [|auto].
  destruct (merge_total_default p1 p2 "file.write_photon" TBool op_and o4) as [o5 E]; auto using op_and_ok.
  rewrite (E : merge_bool_and p1 p2 "file.write_photon" o4 = Ok o5). cbn [bind].
  apply merge_value_inv in E as (F5 & O5 & M5); [|auto].
  destruct (merge_total_default p1 p2 "file.write_sf_set" TBool op_and o5) as [o6 E]; auto using op_and_ok.
  rewrite (E : merge_bool_and p1 p2 "file.write_sf_set" o5 = Ok o6). cbn [bind].
  apply merge_value_inv in E as (F6 & O6 & M6); [|auto].
  destruct (merge_total_default p1 p2 "file.write_mc_coords" TBool op_and o6) as [o7 E]; auto using op_and_ok.
  rewrite (E : merge_bool_and p1 p2 "file.write_mc_coords" o6 = Ok o7). cbn [bind].
  apply merge_value_inv in E as (F7 & O7 & M7); [|auto].
  destruct (seq_merge_total p1 p2 p_name_enable op_or (ev_union ts1 ts2) o7) as [o8 E]; auto.
  { intros t Ht. rewrite name_enable. assert (Hd : has_default (enable_name t) TBool = true) by (destruct t; vm_compute; reflexivity).
    destruct (default_reads _ _ Hd) as (q & L & T & R). exists q. split; auto. intros _.
    destruct (R p1 H1) as (v1 & Rv1 & T1). destruct (R p2 H2) as (v2 & Rv2 & T2).
    destruct (op_or_ok v1 v2 T1 T2) as (v & O & Tv). exists v1, v2, v. rewrite T. auto. }
  rewrite (E : seq_result (fun t => merge_bool_or p1 p2 (p_name_enable t)) (ev_union ts1 ts2) o7 = Ok o8). cbn [bind].
  apply (seq_merge_inv p1 p2 p_name_enable) in E as (F8 & O8 & M8); [|auto].
  destruct (merge_total_default p1 p2 "mc.seed" TSeedGen op_seed o8) as [o9 E]; auto using op_seed_ok.
  rewrite (E : merge_seed_gen p1 p2 "mc.seed" o8 = Ok o9). cbn [bind].
  apply merge_value_inv in E as (F9 & O9 & M9); [|auto].
  destruct (merge_total_both p1 p2 "mc.num_events" TLong op_count o9) as [o10 E]; auto using op_count_ok.
  { apply Bo. cbn; auto. }
  rewrite (E : merge_count p1 p2 "mc.num_events" o9 = Ok o10). cbn [bind].
  apply merge_value_inv in E as (F10 & O10 & M10); [|auto].
  destruct (set_from_filtered_total p1 H1 o10 (f_and filter_set (filter_ev ts1)) F10) as [[b11 o11] E].
  rewrite E. cbn [bind]. apply set_from_filtered in E as (F11 & V11); [|auto|auto].
  destruct (set_from_filtered_total p2 H2 o11 (f_and filter_set (filter_ev ts2)) F11) as [[b12 o12] E].
  rewrite E. cbn [bind]. apply set_from_filtered in E as (F12 & V12); [|auto|auto].
  assert (Kn : forall ps n, formatted ps -> In n (names std_format) -> lookup ps n <> None).
  { intros ps n Hp Hn. apply lookup_names. now rewrite formatted_names. }
  (* what the result provides *)
  assert (Al : forall n, In n always_merged -> value_of o12 n <> None <-> provides p1 n \/ provides p2 n).
  { intros n Hn. cbn in Hn.
    destruct Hn as [<-|[<-|[<-|[<-|[<-|[<-|[<-|[<-|[<-|[]]]]]]]]]]; rewrite V12, not_carried, V11, not_carried by reflexivity;
      rewrite ?O10 by neq; rewrite ?O9 by neq; rewrite ?O8 by (intros t Ht; destruct t; neq);
      rewrite ?O7 by neq; rewrite ?O6 by neq; rewrite ?O5 by neq; rewrite ?O4 by neq;
      rewrite ?O3 by (intros a [<-|[<-|[]]]; neq); rewrite ?O2 by neq; eapply merged_value_set; eauto.
    - apply M3. cbn; auto.
    - apply M3. cbn; auto. }
  assert (El : forall t, In t (ev_union ts1 ts2) -> value_of o12 (enable_name t) <> None <-> provides p1 (enable_name t) \/ provides p2 (enable_name t)).
  { intros t Ht. apply M8 in Ht. rewrite name_enable in Ht. apply merged_value_set in Ht.
    rewrite V12, not_carried, V11, not_carried by (destruct t; reflexivity). rewrite O10, O9 by (destruct t; neq). auto. }
  assert (Sur : forall n, provides p1 n \/ provides p2 n -> value_of o12 n <> None).
  { intros n Pn. destruct (Sv n Pn) as [Hn|[(t & Ht & ->)|[(t & T & Hn & P)|[(No & t & T & Hn & P)|(-> & No)]]]].
    - now apply Al.
    - apply El; auto. apply ev_union_iff. rewrite En1, En2. auto.
    - rewrite V12. rewrite (proj2 (carried_iff ts2 n)); auto. exists t. split; auto. now apply En2.
    - rewrite V12. destruct (strb (names (pfilter std_format (f_and filter_set (filter_ev ts2)))) n) eqn:C.
      { apply carried_iff in C as (t' & T' & C). exfalso. eapply No; eauto. now apply En2. }
      rewrite V11, (proj2 (carried_iff ts1 n)); auto. exists t. split; auto. now apply En1.
    - assert (C : forall ts, (forall t, ~ In t ts) -> forall n, strb (names (pfilter std_format (f_and filter_set (filter_ev ts)))) n = false).
      { intros ts N n. destruct (strb _ n) eqn:C; auto. apply carried_iff in C as (t' & T' & C). exfalso. eapply N; eauto. }
      rewrite V12, C, V11, C by (intros t Ht; destruct (No t); first [apply En1 in Ht | apply En2 in Ht]; auto).
      rewrite O10 by neq. eapply merged_value_set; eauto. }
  assert (Con : forall n, value_of o12 n <> None -> provides p1 n \/ provides p2 n).
  { intros n. rewrite V12. destruct (strb _ n); [right; auto|]. rewrite V11. destruct (strb _ n); [left; auto|].
    unfold provides.
    destruct (string_dec "mc.num_events" n) as [<-|N1]; [apply (merged_value_set _ _ _ _ _ M10)|]. rewrite O10 by auto.
    destruct (string_dec "mc.seed" n) as [<-|N2]; [apply (merged_value_set _ _ _ _ _ M9)|]. rewrite O9 by auto.
    destruct (in_dec string_dec n (map p_name_enable (ev_union ts1 ts2))) as [Hi|N3].
    { apply in_map_iff in Hi as (t & <- & Ht). apply (merged_value_set _ _ _ _ _ (M8 t Ht)). }
    rewrite O8 by (intros t Ht E; apply N3; rewrite <- E; now apply in_map).
    destruct (string_dec "file.write_mc_coords" n) as [<-|N4]; [apply (merged_value_set _ _ _ _ _ M7)|]. rewrite O7 by auto.
    destruct (string_dec "file.write_sf_set" n) as [<-|N5]; [apply (merged_value_set _ _ _ _ _ M6)|]. rewrite O6 by auto.
    destruct (string_dec "file.write_photon" n) as [<-|N6]; [apply (merged_value_set _ _ _ _ _ M5)|]. rewrite O5 by auto.
    destruct (string_dec "file.write_momenta" n) as [<-|N7]; [apply (merged_value_set _ _ _ _ _ M4)|]. rewrite O4 by auto.
    destruct (in_dec string_dec n file_names) as [Hi|N8]; [apply (merged_value_set _ _ _ _ _ (M3 n Hi))|].
    rewrite O3 by (intros a Ha E; apply N8; now rewrite <- E).
    destruct (string_dec "strict" n) as [<-|N9]; [apply (merged_value_set _ _ _ _ _ M2)|]. rewrite O2 by auto.
    destruct (string_dec "version" n) as [<-|N10]; [apply (merged_value_set _ _ _ _ _ M1)|]. rewrite O1 by auto.
    intros C. exfalso. apply C. unfold value_of. destruct (lookup std_format n) eqn:L; auto.
    apply lookup_in in L. eapply std_is_format; eauto. }
  assert (LA : forall ps n, formatted ps -> In n (names ps) -> forall ps', formatted ps' -> lookup ps' n <> None).
  { intros ps n Hp Hn ps' Hp'. rewrite formatted_names in Hn by auto. auto. }
  rewrite (proj2 (merged_loop_iff p1 o12 (names p1) (fun n Hn => LA p1 n H1 Hn p1 H1) (fun n Hn => LA p1 n H1 Hn o12 F12))) by (intros n _ P; apply Sur; auto).
  cbn [bind].
  rewrite (proj2 (merged_loop_iff p2 o12 (names p2) (fun n Hn => LA p2 n H2 Hn p2 H2) (fun n Hn => LA p2 n H2 Hn o12 F12))) by (intros n _ P; apply Sur; auto).
  cbn [bind].
  rewrite (proj2 (contaminated_loop_iff o12 p1 p2 (names o12) (fun n Hn => LA o12 n F12 Hn o12 F12) (fun n Hn => LA o12 n F12 Hn p1 H1) (fun n Hn => LA o12 n F12 Hn p2 H2))) by (intros n _ P; apply Con; auto).
  cbn [bind]. eauto.
Qed.

(** Without a default, a merged value needs a value in both runs. *)
Lemma merged_value_both p1 p2 n op r : formatted p1 -> formatted p2 ->
  match lookup std_format n with Some q => match p_default q with None => true | _ => false end | None => false end = true ->
  merged_value p1 p2 n op r -> (provides p1 n <-> provides p2 n).
Proof.
  intros H1 H2 Nd M. destruct (lookup std_format n) as [q|] eqn:L; [|discriminate].
  destruct (p_default q) eqn:Df; [discriminate|].
  assert (R : forall ps, formatted ps -> reads ps n = value_of ps n).
  { intros ps Hp. unfold reads, default_of. pose proof (formatted_lookup ps Hp n) as F. rewrite L in F.
    destruct F as (p & Lp & _ & D & _). rewrite Lp, D, Df. cbn. destruct (value_of ps n); auto. }
  unfold provides. destruct M as [(V1 & V2 & _)|(V & v1 & v2 & v & R1 & R2 & _)].
  - rewrite V1, V2. tauto.
  - rewrite R in R1, R2 by auto. rewrite R1, R2. split; discriminate.
Qed.
Lemma merge_iff p1 p2 : formatted p1 -> formatted p2 -> ((exists out, merge_params p1 p2 = Ok out) <-> mergeable p1 p2).
Proof.
  intros H1 H2. split; [|now apply merge_complete]. intros [out H]. apply merge_sound in H; auto. destruct H.
  unfold mergeable. repeat (split; auto).
  - apply mf_rc0.
  - apply mf_rc0.
  - assert (M : exists op, merged_value p1 p2 n op (value_of out n)).
    { destruct H as [<-|[<-|[<-|[]]]]; eexists; first [apply mf_count0 | apply mf_file0; cbn; auto]. }
    destruct M as [op M]. refine (_ (merged_value_both p1 p2 n op _ H1 H2 _ M)); [tauto|].
    destruct H as [<-|[<-|[<-|[]]]]; vm_compute; reflexivity.
  - assert (M : exists op, merged_value p1 p2 n op (value_of out n)).
    { destruct H as [<-|[<-|[<-|[]]]]; eexists; first [apply mf_count0 | apply mf_file0; cbn; auto]. }
    destruct M as [op M]. refine (_ (merged_value_both p1 p2 n op _ H1 H2 _ M)); [tauto|].
    destruct H as [<-|[<-|[<-|[]]]]; vm_compute; reflexivity.
  - intros n Hn. apply mf_survive0, mf_complete0. auto.
Qed.

(** ** Runs with the same settings *)
Lemma name_groups : forallb (fun n => strb always_merged n || existsb (fun t => String.eqb n (enable_name t) || strb (own_names t) n && strb (carried_names t) n) event_types
    || forallb (fun t => strb (carried_names t) n) event_types) (names std_format) = true.
Proof. vm_compute. reflexivity. Qed.
Lemma value_known ps n : formatted ps -> value_of ps n <> None -> In n (names std_format).
Proof. intros Hp V. rewrite <- (formatted_names ps Hp). now apply names_known. Qed.
Lemma same_reads p1 p2 n : formatted p1 -> formatted p2 -> value_of p1 n = value_of p2 n -> reads p1 n = reads p2 n.
Proof.
  intros H1 H2 V. unfold reads. rewrite V. destruct (value_of p2 n); auto. unfold default_of.
  pose proof (formatted_lookup p1 H1 n) as F1. pose proof (formatted_lookup p2 H2 n) as F2.
  destruct (lookup std_format n).
  - destruct F1 as (q1 & -> & _ & -> & _), F2 as (q2 & -> & _ & -> & _). auto.
  - now rewrite F1, F2.
Qed.
Lemma same_enabled p1 p2 t : formatted p1 -> formatted p2 -> (forall n, n <> "mc.seed" -> value_of p1 n = value_of p2 n) ->
  enabled p1 t <-> enabled p2 t.
Proof.
  intros H1 H2 V. unfold enabled, switched_on.
  rewrite (same_reads p1 p2 (enable_name t)) by (auto; apply V; destruct t; discriminate).
  rewrite (same_reads p1 p2 "phys.rc_method") by (auto; apply V; discriminate). tauto.
Qed.
Lemma same_settings_merge p1 p2 : formatted p1 -> formatted p2 -> same_settings p1 p2 ->
  (exists out, merge_params p1 p2 = Ok out).
Proof.
  intros H1 H2 (V & Sd & Ss & Nn & (m & Rc) & (t0 & En0) & Ui & Own). apply merge_complete; auto.
  assert (En : forall t, enabled p1 t <-> enabled p2 t) by (intros; apply same_enabled; auto).
  destruct (reads_version p1 H1) as (maj & min & Rv).
  unfold mergeable. split; [|split; [|split; [|split; [|split; [|split; [|split]]]]]].
  - exists maj, min, min. split; auto. unfold version_of. rewrite <- (same_reads p1 p2); auto. apply V. discriminate.
  - eauto.
  - exists m. rewrite <- (same_reads p1 p2); auto. apply V. discriminate.
  - intros t n _ _ Hn. unfold agree. rewrite <- (V n).
    + destruct (value_of p1 n) as [v|] eqn:E; auto. eapply Nn; eauto.
    + intros ->. destruct t; apply (proj2 (strb_spec _ _)) in Hn; vm_compute in Hn; discriminate.
  - intros t T _. destruct (Ui t T) as (u & R). exists u. split; auto.
    rewrite <- (same_reads p1 p2); auto. apply V. destruct t; discriminate.
  - auto.
  - intros n Hn. unfold provides. rewrite (V n); [tauto|]. intros ->. destruct Hn as [E|[E|[E|[]]]]; discriminate E.
  - intros n P. assert (P' : provides p1 n /\ provides p2 n).
    { unfold provides in *. destruct (string_dec n "mc.seed") as [->|N]; [tauto|]. rewrite (V n) in * by auto. tauto. }
    destruct P' as [P1 P2]. pose proof (value_known p1 n H1 P1) as K.
    pose proof name_groups as G. rewrite forallb_forall in G. apply G in K. clear G.
    apply orb_true_iff in K as [K|K]; [apply orb_true_iff in K as [K|K]|].
    + left. now apply strb_spec.
    + apply existsb_exists in K as (t & _ & K).
      assert (T : enabled p2 t).
      { destruct (strb (own_names t) n) eqn:O.
        - apply strb_spec in O. apply En. eapply Own; eauto.
        - apply orb_true_iff in K as [K|K]; [|discriminate]. apply String.eqb_eq in K. subst n.
          exfalso. destruct t; vm_compute in O; discriminate. }
      apply orb_true_iff in K as [K|K].
      * apply String.eqb_eq in K. right. left. eauto.
      * apply andb_true_iff in K as [_ K]. do 2 right. left. exists t. split; [auto|]. split; auto. now apply strb_spec.
    + rewrite forallb_forall in K. do 2 right. left. exists t0. split; [now apply En|]. split; auto. apply strb_spec, K.
      destruct t0; cbn; auto.
Qed.

Lemma sets_formatted l : forall ps, formatted ps -> formatted (sets ps l).
Proof.
  induction l as [|[n v] l IH]; intros ps Hp; cbn [sets]; auto.
  destruct (set ps n (Some v)) as [[b ps']|] eqn:E; auto. apply IH. now apply (set_inv _ _ _ _ _ E).
Qed.
Lemma configured_formatted l : formatted (configured l).
Proof. apply sets_formatted, formatted_std. Qed.

(** ** Contents of the merged run *)
Lemma wrap64_small n : (- 2 ^ 63 <= n < 2 ^ 63)%Z -> wrap64 n = n.
Proof. intros H. unfold wrap64. rewrite Z.mod_small; lia. Qed.
Lemma merged_count p1 p2 out a b : formatted p1 -> formatted p2 -> merge_params p1 p2 = Ok out ->
  value_of p1 "mc.num_events" = Some (VLong a) -> value_of p2 "mc.num_events" = Some (VLong b) ->
  (- 2 ^ 63 <= a + b < 2 ^ 63)%Z -> value_of out "mc.num_events" = Some (VLong (a + b)).
Proof.
  intros H1 H2 H A B R. apply merge_sound in H; auto. destruct (mf_count _ _ _ H) as [(V & _)|(_ & v1 & v2 & v & R1 & R2 & O & E)]; [congruence|].
  unfold reads in R1, R2. rewrite A in R1. rewrite B in R2. inversion R1; inversion R2; subst. cbn in O. inversion O; subst.
  rewrite E, wrap64_small; auto.
Qed.
Lemma merged_version p1 p2 out maj1 m1 maj2 m2 : formatted p1 -> formatted p2 -> merge_params p1 p2 = Ok out ->
  version_of p1 maj1 m1 -> version_of p2 maj2 m2 ->
  maj1 = maj2 /\ (provides p1 "version" \/ provides p2 "version" -> value_of out "version" = Some (VVersion maj1 (Z.max m1 m2))).
Proof.
  intros H1 H2 H A B. apply merge_sound in H; auto. unfold version_of in *.
  destruct (mf_major _ _ _ H) as (maj & n1 & n2 & A' & B'). unfold version_of in *.
  assert (maj1 = maj /\ m1 = n1) as [-> ->] by (split; congruence).
  assert (maj2 = maj /\ m2 = n2) as [-> ->] by (split; congruence).
  split; auto. unfold provides.
  destruct (mf_version _ _ _ H) as [(V1 & V2 & _)|(_ & v1 & v2 & v & R1 & R2 & O & E)]; [rewrite V1, V2; tauto|].
  intros _. rewrite E. f_equal. rewrite A in R1. rewrite B in R2. inversion R1; inversion R2; subst. cbn in O.
  rewrite Z.eqb_refl in O. rewrite Z.gtb_ltb in O. destruct (Z.ltb_spec n2 n1); inversion O; f_equal; lia.
Qed.
Lemma merged_flags p1 p2 out n b1 b2 : formatted p1 -> formatted p2 -> merge_params p1 p2 = Ok out ->
  In n ("strict" :: write_names) -> reads p1 n = Some (VBool b1) -> reads p2 n = Some (VBool b2) ->
  provides p1 n \/ provides p2 n -> value_of out n = Some (VBool (b1 && b2)).
Proof.
  intros H1 H2 H Hn A B P. apply merge_sound in H; auto.
  assert (M : merged_value p1 p2 n op_and (value_of out n)).
  { destruct Hn as [<-|Hn]; [apply (mf_strict _ _ _ H) | now apply (mf_write _ _ _ H)]. }
  unfold provides in P. destruct M as [(V1 & V2 & _)|(_ & v1 & v2 & v & R1 & R2 & O & E)]; [tauto|].
  rewrite A in R1. rewrite B in R2. inversion R1; inversion R2; subst. cbn in O. inversion O; subst. auto.
Qed.
Lemma merged_enable p1 p2 out t : formatted p1 -> formatted p2 -> merge_params p1 p2 = Ok out ->
  enabled p1 t \/ enabled p2 t -> switched_on out t.
Proof.
  intros H1 H2 H En. apply merge_sound in H; auto. unfold switched_on.
  assert (Hd : has_default (enable_name t) TBool = true) by (destruct t; vm_compute; reflexivity).
  destruct (default_reads _ _ Hd) as (q & L & T & R). destruct (R p1 H1) as (w1 & W1 & T1). destruct (R p2 H2) as (w2 & W2 & T2).
  destruct (mf_enable _ _ _ H t En) as [(V1 & V2 & E)|(_ & v1 & v2 & v & R1 & R2 & O & E)].
  - destruct En as [[S _]|[S _]]; unfold switched_on in S; rewrite <- S; apply same_reads; auto using (mf_formatted _ _ _ H); congruence.
  - unfold reads at 1. rewrite E. destruct w1; try discriminate T1. destruct w2; try discriminate T2.
    rewrite W1 in R1. rewrite W2 in R2. inversion R1; inversion R2; subst. cbn in O. inversion O; subst. do 2 f_equal.
    unfold enabled, switched_on in En. destruct b, b0; auto. destruct En as [[S _]|[S _]]; congruence.
Qed.
Lemma merged_seed_second p1 p2 out t : formatted p1 -> formatted p2 -> merge_params p1 p2 = Ok out ->
  enabled p2 t -> value_of out "mc.seed" = value_of p2 "mc.seed".
Proof.
  intros H1 H2 H En. apply merge_sound in H; auto. eapply (mf_second _ _ _ H); eauto.
  apply in_or_app. right. cbn. auto.
Qed.
Lemma merge_agree p1 p2 out t n : formatted p1 -> formatted p2 -> merge_params p1 p2 = Ok out ->
  enabled p1 t -> enabled p2 t -> In n (shaping_names t) -> agree p1 p2 n.
Proof.
  intros H1 H2 H A B Hn. apply merge_sound in H; auto. eapply (mf_shared _ _ _ H); eauto.
  unfold dist_names. apply in_or_app. auto.
Qed.
Lemma enabled_types_listed ps : formatted ps ->
  match enabled_event_types ps with
  | Ok (ts, _) => NoDup ts /\ forall t, In t ts <->
      reads ps (enable_name t) = Some (VBool true) /\
      exists m, reads ps "phys.rc_method" = Some (VRcMethod m) /\ (m = RcNone -> t = NRAD)
  | Throw _ => forall m, reads ps "phys.rc_method" <> Some (VRcMethod m)
  end.
Proof.
  intros H. pose proof (enabled_event_types_spec ps H) as E.
  destruct (enabled_event_types ps) as [[ts p]|]; auto. destruct E as (E & N & _). split; auto.
Qed.

(** ** Witnesses *)
Definition w_base : list (string * val) :=
  [("phys.rc_method", VRcMethod RcExact); ("setup.beam_energy", VDouble (Dec 106 (-1))); ("setup.beam", VLepton LepE);
   ("mc.nrad.init.uid", VLong 17); ("mc.num_events", VLong 1000); ("file.event", VString "events.root")].
Definition w_both : list (string * val) := ("mc.rad.init.uid", VLong 19) :: w_base.
Definition w_seed1 := configured (("mc.seed", VSeedGen [3%Z]) :: w_both).
Definition w_seed2 := configured (("mc.seed", VSeedGen [4%Z]) :: w_both).
Lemma seeds_lost : exists out, merge_params w_seed1 w_seed2 = Ok out /\
  value_of w_seed1 "mc.seed" = Some (VSeedGen [3%Z]) /\ value_of w_seed2 "mc.seed" = Some (VSeedGen [4%Z]) /\
  value_of out "mc.seed" = Some (VSeedGen [4%Z]).
Proof. eexists. split; [vm_compute; reflexivity|]. repeat split; vm_compute; reflexivity. Qed.

(** One run without radiative events, one with only them, at different beam energies. *)
Definition w_nrad := configured [("phys.rc_method", VRcMethod RcNone); ("setup.beam_energy", VDouble (Dec 106 (-1)));
  ("mc.nrad.init.uid", VLong 17); ("mc.seed", VSeedGen [3%Z])].
Definition w_rad := configured [("phys.rc_method", VRcMethod RcExact); ("setup.beam_energy", VDouble (Dec 22 0));
  ("mc.nrad.enable", VBool false); ("mc.rad.init.uid", VLong 19); ("mc.seed", VSeedGen [4%Z])].
Lemma differing_merged : exists out, merge_params w_nrad w_rad = Ok out /\ ~ agree w_nrad w_rad "setup.beam_energy".
Proof. eexists. split; [vm_compute; reflexivity|]. intros H. apply opt_equivalent_agree in H. vm_compute in H. discriminate. Qed.

(** Radiative events explicitly switched off in both. *)
Definition w_off (s : Z) := configured (("mc.seed", VSeedGen [s]) :: ("mc.rad.enable", VBool false) :: w_base).
Definition w_offs (l : list Z) := configured (("mc.seed", VSeedGen l) :: ("mc.rad.enable", VBool false) :: w_base).
Lemma off_fails : merge_params (w_off 3) (w_off 4) = Throw (EFailedMerge "mc.rad.enable").
Proof. vm_compute. reflexivity. Qed.
Lemma set_values ps n v b ps' : formatted ps -> set ps n v = Ok (b, ps') -> forall m, value_of ps' m = if String.eqb n m then v else value_of ps m.
Proof. intros H E. now apply (set_inv _ _ _ _ _ E H). Qed.
Lemma sets_values l : forall p1 p2, formatted p1 -> formatted p2 -> (forall m, m <> "mc.seed" -> value_of p1 m = value_of p2 m) ->
  forall m, m <> "mc.seed" -> value_of (sets p1 l) m = value_of (sets p2 l) m.
Proof.
  induction l as [|[n v] l IH]; intros p1 p2 H1 H2 V m Hm; cbn [sets]; auto.
  assert (K : match set p1 n (Some v), set p2 n (Some v) with
    | Ok (_, a), Ok (_, b) => formatted a /\ formatted b /\ forall m, m <> "mc.seed" -> value_of a m = value_of b m
    | Throw _, Throw _ => True | _, _ => False end).
  { destruct (set p1 n (Some v)) as [[b1 a]|] eqn:E1, (set p2 n (Some v)) as [[b2 b]|] eqn:E2; auto.
    - destruct (set_inv _ _ _ _ _ E1 H1) as [F1 W1]. destruct (set_inv _ _ _ _ _ E2 H2) as [F2 W2]. repeat split; auto.
      intros k Hk. rewrite W1, W2. destruct (String.eqb n k); auto.
    - pose proof (formatted_lookup p1 H1 n) as K1. pose proof (formatted_lookup p2 H2 n) as K2.
      unfold set, at_ in E1, E2. destruct (lookup std_format n) as [q|].
      + destruct K1 as (q1 & L1 & T1 & _), K2 as (q2 & L2 & T2 & _). rewrite L1 in E1. rewrite L2 in E2. cbn [bind] in *.
        rewrite T1 in E1. rewrite T2 in E2. destruct (vtype_eqb (p_type q) (vtype_of v)); discriminate.
      + rewrite K1 in E1. discriminate.
    - pose proof (formatted_lookup p1 H1 n) as K1. pose proof (formatted_lookup p2 H2 n) as K2.
      unfold set, at_ in E1, E2. destruct (lookup std_format n) as [q|].
      + destruct K1 as (q1 & L1 & T1 & _), K2 as (q2 & L2 & T2 & _). rewrite L1 in E1. rewrite L2 in E2. cbn [bind] in *.
        rewrite T1 in E1. rewrite T2 in E2. destruct (vtype_eqb (p_type q) (vtype_of v)); discriminate.
      + rewrite K2 in E2. discriminate. }
  destruct (set p1 n (Some v)) as [[b1 a]|], (set p2 n (Some v)) as [[b2 b]|]; try contradiction.
  - destruct K as (F1 & F2 & K). now apply IH.
  - now apply IH.
Qed.
Lemma seeded_same l s1 s2 m : m <> "mc.seed" ->
  value_of (configured (("mc.seed", VSeedGen s1) :: l)) m = value_of (configured (("mc.seed", VSeedGen s2) :: l)) m.
Proof.
  intros Hm. unfold configured. cbn [sets].
  destruct (set std_format "mc.seed" (Some (VSeedGen s1))) as [[b1 a]|] eqn:E1; [|vm_compute in E1; discriminate].
  destruct (set std_format "mc.seed" (Some (VSeedGen s2))) as [[b2 b]|] eqn:E2; [|vm_compute in E2; discriminate].
  destruct (set_inv _ _ _ _ _ E1 formatted_std) as [F1 W1]. destruct (set_inv _ _ _ _ _ E2 formatted_std) as [F2 W2].
  apply sets_values; auto. intros k Hk. rewrite W1, W2. destruct (String.eqb_spec "mc.seed" k); auto. congruence.
Qed.
(** Reads of a concrete set of parameters. *)
Lemma values_listed (ps : pars) (P : string -> val -> Prop) :
  Forall (fun e => match p_value (snd e) with Some v => P (fst e) v | None => True end) ps ->
  forall n v, value_of ps n = Some v -> P n v.
Proof.
  intros H n v V. unfold value_of in V. destruct (lookup ps n) as [p|] eqn:L; [|discriminate].
  apply lookup_in in L. rewrite Forall_forall in H. apply H in L. cbn in L. now rewrite V in L.
Qed.
Lemma provided_listed (ps : pars) n : value_of ps n <> None -> In n (map fst (List.filter (fun e => match p_value (snd e) with Some _ => true | None => false end) ps)).
Proof.
  intros V. unfold value_of in V. destruct (lookup ps n) as [p|] eqn:L; [|congruence]. apply lookup_in in L.
  apply in_map_iff. exists (n, p). split; auto. apply filter_In. split; auto. cbn. destruct (p_value p); congruence.
Qed.
Lemma same_settings_seeds : same_settings w_seed1 w_seed2.
Proof.
  unfold same_settings. split; [intros n Hn; apply seeded_same; auto|].
  split; [|split; [|split; [|split; [|split; [|split]]]]].
  - intros s1 s2 x V1 V2 I1 I2. vm_compute in V1, V2. inversion V1; inversion V2; subst.
    cbn in I1, I2. destruct I1 as [<-|[]]. destruct I2 as [E|[]]. discriminate E.
  - unfold provides. split; intros _ E; vm_compute in E; discriminate.
  - intros n v Hv. apply equivalent_same. revert n v Hv. apply values_listed. vm_compute. repeat constructor.
  - exists RcExact. vm_compute. reflexivity.
  - exists NRAD. split; [vm_compute; reflexivity|]. exists RcExact. split; [vm_compute; reflexivity|auto].
  - intros t _. destruct t; eexists; vm_compute; reflexivity.
  - intros t n _ _. split; [destruct t; vm_compute; reflexivity|]. exists RcExact. split; [vm_compute; reflexivity|discriminate].
Qed.
Lemma common_seed_refused p1 p2 s1 s2 x : formatted p1 -> formatted p2 ->
  value_of p1 "mc.seed" = Some (VSeedGen s1) -> value_of p2 "mc.seed" = Some (VSeedGen s2) -> In x s1 -> In x s2 ->
  exists e, merge_params p1 p2 = Throw e.
Proof.
  intros H1 H2 V1 V2 I1 I2. destruct (merge_params p1 p2) as [out|e] eqn:E; [|eauto].
  apply merge_sound in E; auto. exfalso. exact (mf_seeds _ _ _ E s1 s2 x V1 V2 I1 I2).
Qed.
Lemma merged_provides p1 p2 out n : formatted p1 -> formatted p2 -> merge_params p1 p2 = Ok out ->
  (provides out n <-> provides p1 n \/ provides p2 n).
Proof. intros H1 H2 E. apply merge_sound in E; auto. apply (mf_complete _ _ _ E). Qed.
Lemma seeds_not_union :
  ~ (forall p1 p2 out s1 s2 s, formatted p1 -> formatted p2 -> merge_params p1 p2 = Ok out ->
     value_of p1 "mc.seed" = Some (VSeedGen s1) -> value_of p2 "mc.seed" = Some (VSeedGen s2) ->
     value_of out "mc.seed" = Some (VSeedGen s) -> forall x, In x s1 \/ In x s2 -> In x s).
Proof.
  intros H. destruct seeds_lost as (out & M & V1 & V2 & V3).
  destruct (H _ _ _ _ _ _ (configured_formatted _) (configured_formatted _) M V1 V2 V3 3%Z) as [E|[]]; [left; cbn; auto|discriminate E].
Qed.
Lemma reused_seed_accepted :
  exists p1 p2 p3 p12 out, formatted p1 /\ formatted p2 /\ formatted p3 /\
    merge_params p1 p2 = Ok p12 /\ merge_params p12 p3 = Ok out /\
    value_of p1 "mc.seed" = value_of p3 "mc.seed" /\ value_of p1 "mc.seed" = Some (VSeedGen [3%Z]).
Proof.
  exists w_seed1, w_seed2, w_seed1. do 2 eexists. split; [apply configured_formatted|]. split; [apply configured_formatted|].
  split; [apply configured_formatted|]. split; [vm_compute; reflexivity|]. split; [vm_compute; reflexivity|].
  split; vm_compute; reflexivity.
Qed.
Lemma differing_merged_refutes :
  ~ (forall p1 p2 out, formatted p1 -> formatted p2 -> merge_params p1 p2 = Ok out -> agree p1 p2 "setup.beam_energy").
Proof.
  intros H. destruct differing_merged as (out & M & N). apply N. eapply H; eauto; apply configured_formatted.
Qed.
Lemma off_refutes :
  ~ (forall p1 p2, formatted p1 -> formatted p2 ->
     (forall n, n <> "mc.seed" -> value_of p1 n = value_of p2 n) -> disjoint_seeds p1 p2 ->
     provides p1 "mc.seed" -> provides p2 "mc.seed" -> enabled p1 NRAD ->
     (exists u, reads p1 (uid_name NRAD) = Some (VLong u)) -> ~ enabled p1 RAD ->
     (forall n v, value_of p1 n = Some v -> same_value v v) ->
     exists out, merge_params p1 p2 = Ok out).
Proof.
  intros H. destruct (H (w_off 3) (w_off 4)) as [out E]; try apply configured_formatted.
  - intros n Hn. apply seeded_same. auto.
  - intros s1 s2 x V1 V2 I1 I2. vm_compute in V1, V2. inversion V1; inversion V2; subst.
    cbn in I1, I2. destruct I1 as [<-|[]]. destruct I2 as [E|[]]. discriminate E.
  - intros E; vm_compute in E; discriminate.
  - intros E; vm_compute in E; discriminate.
  - split; [vm_compute; reflexivity|]. exists RcExact. split; [vm_compute; reflexivity|discriminate].
  - eexists. vm_compute. reflexivity.
  - intros [E _]. vm_compute in E. discriminate.
  - intros n v Hv. apply equivalent_same. revert n v Hv. apply values_listed. vm_compute. repeat constructor.
  - rewrite off_fails in E. discriminate.
Qed.
(** The union of two sets of seeds. *)
Lemma mset_insert_perm x l : Permutation (mset_insert x l) (x :: l).
Proof.
  induction l as [|y l IH]; cbn; [reflexivity|]. destruct (x <? y)%Z; [reflexivity|]. rewrite IH. apply perm_swap.
Qed.
Lemma mset_fold_perm b : forall a, Permutation (fold_left (fun s x => mset_insert x s) b a) (a ++ b).
Proof.
  induction b as [|x b IH]; intros a; cbn [fold_left]; [rewrite app_nil_r; reflexivity|].
  rewrite IH, mset_insert_perm. cbn. apply Permutation_middle.
Qed.
Lemma seed_union_perm a b : Permutation (seed_union a b) (a ++ b).
Proof. unfold seed_union. rewrite mset_fold_perm. apply Permutation_app_tail. rewrite mset_fold_perm. reflexivity. Qed.
Lemma merge_seed_union p1 p2 n out out' s1 s2 : formatted out -> merge_seed_gen p1 p2 n out = Ok out' ->
  value_of p1 n = Some (VSeedGen s1) -> value_of p2 n = Some (VSeedGen s2) ->
  exists s, value_of out' n = Some (VSeedGen s) /\ Permutation s (s1 ++ s2).
Proof.
  intros F E V1 V2. apply merge_value_inv in E; [|exact F]. destruct E as (_ & _ & [(N & _)|(_ & v1 & v2 & v & R1 & R2 & O & R)]); [congruence|].
  unfold reads in R1, R2. rewrite V1 in R1. rewrite V2 in R2. injection R1 as <-. injection R2 as <-. injection O as <-.
  eexists. split; [exact R|]. apply seed_union_perm.
Qed.
Lemma not_enabled_set p : formatted p -> (exists m, reads p "phys.rc_method" = Some (VRcMethod m)) -> ~ enabled p NRAD -> value_of p "mc.nrad.enable" <> None.
Proof.
  intros F (m & M) N V. apply N. split; [|exists m; split; [exact M|reflexivity]]. unfold switched_on, reads. cbn [enable_name]. rewrite V. unfold default_of.
  pose proof (formatted_lookup p F "mc.nrad.enable") as L. destruct (lookup std_format "mc.nrad.enable") as [q|] eqn:LQ; [|vm_compute in LQ; discriminate].
  destruct L as (q1 & -> & _ & -> & _). vm_compute in LQ. injection LQ as <-. reflexivity.
Qed.
Lemma enabled_dec p t : (exists m, reads p "phys.rc_method" = Some (VRcMethod m)) -> enabled p t \/ ~ enabled p t.
Proof.
  intros (m & M). unfold enabled, switched_on. destruct (reads p (enable_name t)) as [[| | | |b| | | | | | | |]|]; try (right; intros [E _]; discriminate).
  destruct b; [|right; intros [E _]; discriminate]. destruct t; [left; split; [reflexivity|exists m; auto]|].
  destruct m; [|left; split; [reflexivity|]; eexists; split; [exact M|discriminate]..].
  right. intros (_ & m & M' & N). rewrite M in M'. injection M' as <-. discriminate (N eq_refl).
Qed.
Lemma merge_some_event p1 p2 out : formatted p1 -> formatted p2 -> merge_params p1 p2 = Ok out -> exists t, enabled p1 t \/ enabled p2 t.
Proof.
  intros H1 H2 E. pose proof (merge_sound p1 p2 out H1 H2 E) as M.
  destruct (mf_rc _ _ _ M) as (R1 & R2). destruct (enabled_dec p1 NRAD R1) as [Y|N]; [eauto|].
  assert (P : value_of out "mc.nrad.enable" <> None) by (apply (mf_complete _ _ _ M); left; apply not_enabled_set; assumption).
  destruct (mf_survive _ _ _ M "mc.nrad.enable" P) as [A|[(t & T & _)|[(t & T & _)|[(_ & t & T & _)|(A & _)]]]]; eauto; [|discriminate].
  exfalso. revert A. cbn. intuition discriminate.
Qed.
Lemma merged_seed_one p1 p2 out : formatted p1 -> formatted p2 -> merge_params p1 p2 = Ok out ->
  value_of out "mc.seed" = value_of p1 "mc.seed" \/ value_of out "mc.seed" = value_of p2 "mc.seed".
Proof.
  intros H1 H2 E. pose proof (merge_sound p1 p2 out H1 H2 E) as M. destruct (mf_rc _ _ _ M) as (_ & R2).
  assert (CS : forall t, In "mc.seed" (carried_names t)) by (intros t; apply in_or_app; right; cbn; auto).
  destruct (enabled_dec p2 NRAD R2) as [Y|N]; [right; exact (mf_second _ _ _ M NRAD _ Y (CS _))|].
  destruct (enabled_dec p2 RAD R2) as [Y|N']; [right; exact (mf_second _ _ _ M RAD _ Y (CS _))|].
  assert (D : forall t, ~ enabled p2 t) by (intros []; assumption).
  destruct (merge_some_event p1 p2 out H1 H2 E) as (t & [T|T]); [|destruct (D t T)].
  left. apply (mf_first _ _ _ M t _ T (CS t)). intros t' T'. destruct (D t' T').
Qed.
