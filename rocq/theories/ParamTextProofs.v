(** Proofs about reading and writing parameter files. *)
From Coq Require Import String Ascii Reals ZArith List Bool Lia Lra.
From Flocq Require Import Core.
From Verif Require Import ExtModel BoundProofs TextModel TextNum ParamModel ParamTextSpec TextProofs ParamTextModel.
Import ListNotations.
Local Open Scope list_scope.

(** Lines. *)
Lemma all_blank_rev a : all_blank a -> all_blank (rev a).
Proof. apply Forall_rev. Qed.
Lemma tidy_stops t : tidy t -> stops is_space t.
Proof. intros (_ & H & _). destruct t as [|c t]; [left; reflexivity|]. right. exists c, t. split; [reflexivity|]. apply is_space_false. exact (H c t eq_refl). Qed.
Lemma trim_ok a t b : all_blank a -> tidy t -> all_blank b -> trim (a ++ t ++ b) = t.
Proof.
  intros A T B. unfold trim. destruct t as [|c t].
  - cbn [app]. rewrite <- (app_nil_r (a ++ b)). rewrite drop_space_app; [reflexivity|apply Forall_app; split; assumption|left; reflexivity].
  - rewrite drop_space_app; [|exact A|]. 2:{ destruct (tidy_stops _ T) as [C|(c' & t' & C & C')]; [discriminate|]. right. exists c', (t' ++ b). rewrite C. split; [reflexivity|exact C']. }
    rewrite rev_app_distr. rewrite drop_space_app; [apply rev_involutive|apply all_blank_rev; exact B|]. destruct T as (_ & _ & T).
    destruct (rev (c :: t)) as [|d r] eqn:E; [left; reflexivity|]. right. exists d, r. split; [reflexivity|]. apply is_space_false. apply (T d (rev r)).
    rewrite <- (rev_involutive (c :: t)), E. reflexivity.
Qed.
Lemma trim_blank a : all_blank a -> trim a = [].
Proof.
  intros A. replace a with (a ++ [] ++ []) by (cbn [app]; apply app_nil_r). rewrite (trim_ok a [] []); [reflexivity|exact A| |constructor].
  split; [intros []|]. split; [intros; discriminate|]. intros c t' C. destruct t'; discriminate.
Qed.
Lemma trim_comment_ok u c : ~ In "#"%char u -> comment c -> trim_comment (u ++ c) = u.
Proof.
  intros U C. unfold trim_comment. rewrite span_app; [reflexivity| |].
  - apply Forall_forall. intros x X. destruct (Ascii.eqb_spec x "#") as [->|]; [contradiction|reflexivity].
  - destruct C as [->|(t & ->)]; [left; reflexivity|right]. eexists; eexists; split; [reflexivity|reflexivity].
Qed.
Lemma blank_no_hash a : all_blank a -> ~ In "#"%char a.
Proof. intros A H. unfold all_blank in A. rewrite Forall_forall in A. specialize (A _ H). apply is_space_spec in A. discriminate. Qed.
Lemma word_no_hash w : word w -> ~ In "#"%char w.
Proof. intros (_ & W) H. rewrite Forall_forall in W. destruct (W _ H) as (_ & N). apply N. reflexivity. Qed.
Lemma word_no_blank w : word w -> Forall (fun c => ~ blank c) w.
Proof. intros (_ & W). eapply Forall_impl; [|exact W]. intros c (H & _). exact H. Qed.
Lemma word_no_newline w : word w -> ~ In newline w.
Proof. intros W H. apply word_no_blank in W. rewrite Forall_forall in W. exact (W _ H newline_blank). Qed.
Lemma tidy_mid a m b : word a -> word b -> ~ In "#"%char m -> tidy (a ++ m ++ b).
Proof.
  intros A B M. pose proof (word_no_hash a A) as HA. pose proof (word_no_hash b B) as HB. destruct A as (NA & A). destruct B as (NB & B). rewrite Forall_forall in A, B. split; [|split].
  - rewrite !in_app_iff. intros [|[|]]; contradiction.
  - intros c t E. destruct a as [|x a]; [contradiction|]. injection E as <- _. apply A. left. reflexivity.
  - intros c t E. destruct (exists_last NB) as (b' & x & ->). rewrite !app_assoc in E. apply app_inj_tail in E. destruct E as (_ & <-). apply B. apply in_or_app. right. left. reflexivity.
Qed.
Lemma word_tidy w : word w -> tidy w.
Proof.
  intros W. pose proof (word_no_hash w W) as H. destruct W as (N & W). rewrite Forall_forall in W. split; [exact H|]. split.
  - intros c t ->. apply W. left. reflexivity.
  - intros c t ->. apply W. apply in_or_app. right. left. reflexivity.
Qed.
Lemma tidy_key_value k b v : word k -> all_blank b -> tidy v -> v <> [] -> tidy (k ++ b ++ v).
Proof.
  intros K B V N. pose proof (word_no_hash k K) as HK. pose proof (blank_no_hash b B) as HB. destruct V as (HV & _ & V). destruct K as (NK & K). rewrite Forall_forall in K. split; [|split].
  - rewrite !in_app_iff. intros [|[|]]; contradiction.
  - intros c t E. destruct k as [|x k]; [contradiction|]. injection E as <- _. apply K. left. reflexivity.
  - intros c t E. destruct (exists_last N) as (v' & x & VE). subst v. rewrite !app_assoc in E. apply app_inj_tail in E. destruct E as (_ & <-). exact (V x v' eq_refl).
Qed.
Lemma ends_blank b : all_blank b -> forall t, b <> [] -> ends (b ++ t).
Proof. intros B t N. destruct b as [|c b]; [contradiction|]. inversion B; subst. right. exists c, (b ++ t). split; [reflexivity|]. rewrite (proj2 (is_space_spec c)) by assumption. reflexivity. Qed.
Lemma at_end_app (b t : text) : b <> [] -> at_end (b ++ t) = false.
Proof. destruct b; [contradiction|reflexivity]. Qed.
Lemma entry_of_value l k v : line l -> says l (Some (k, v)) -> entry_of l = (k, v).
Proof.
  intros L S. inversion S as [|a k' b c A K B C E1 E2|a k' b v' b' c A K B NB V NV B' C E1 E2]; subst.
  - unfold entry_of. rewrite (app_assoc k b c), (app_assoc a (k ++ b) c). rewrite trim_comment_ok; [|rewrite !in_app_iff; intros [H|[H|H]]; [exact (blank_no_hash a A H)|exact (word_no_hash k K H)|exact (blank_no_hash b B H)]|exact C].
    rewrite trim_ok; [|exact A|apply word_tidy; exact K|exact B]. rewrite <- (app_nil_r k) at 1. change (k ++ []) with ([] ++ k ++ []). rewrite get_word_ok; [|constructor|apply K|apply word_no_blank; exact K|left; reflexivity].
    cbn. reflexivity.
  - unfold entry_of. replace (a ++ k ++ b ++ v ++ b' ++ c) with ((a ++ (k ++ b ++ v) ++ b') ++ c) in * by (rewrite !app_assoc; reflexivity).
    rewrite trim_comment_ok; [|rewrite !in_app_iff; intros [H|[[H|[H|H]]|H]]; [exact (blank_no_hash a A H)|exact (word_no_hash k K H)|exact (blank_no_hash b B H)|exact (proj1 V H)|exact (blank_no_hash b' B' H)]|exact C].
    rewrite trim_ok; [|exact A|apply tidy_key_value; assumption|exact B']. change (k ++ b ++ v) with ([] ++ k ++ (b ++ v)). rewrite get_word_ok; [|constructor|apply K|apply word_no_blank; exact K|apply ends_blank; assumption].
    rewrite at_end_app by exact NB. change (Stream (b ++ v) false false) with (open (b ++ v)). rewrite get_line_last.
    + rewrite <- (app_nil_r v) at 1. rewrite trim_ok; [reflexivity|exact B|exact V|constructor].
    + intros H. apply L. rewrite !in_app_iff in *. tauto.
Qed.
Lemma entry_of_nothing l : says l None -> fst (entry_of l) = [].
Proof.
  intros S. inversion S as [a c A C E1 E2| |]; subst. unfold entry_of. rewrite trim_comment_ok; [|apply blank_no_hash; exact A|exact C]. rewrite trim_blank by exact A. reflexivity.
Qed.
Lemma says_total l : exists o, says l o.
Proof.
  destruct (span_spec (fun c => negb (Ascii.eqb c "#")) l) as (u & c & _ & E & U & C). subst l.
  assert (CC : comment c). { destruct C as [->|(x & t & -> & X)]; [left; reflexivity|right]. destruct (Ascii.eqb_spec x "#") as [->|]; [exists t; reflexivity|discriminate]. }
  assert (UH : ~ In "#"%char u) by (intros H; rewrite Forall_forall in U; specialize (U _ H); discriminate). clear U C.
  destruct (drop_space_spec u) as (a & UE & A & ST). destruct ST as [ST|(x & u1 & ST & X)].
  { rewrite ST, app_nil_r in UE. subst u. exists None. constructor; assumption. }
  rewrite ST in UE. subst u. clear ST. destruct (span_spec (fun c => negb (is_space c)) (x :: u1)) as (k & u2 & _ & E & K & S2).
  assert (KW : word k). { split; [intros ->; cbn in E; destruct S2 as [S2|(y & t & S2 & Y)]; rewrite <- E in S2; [discriminate|]; injection S2 as <- _; rewrite X in Y; discriminate|].
    rewrite Forall_forall in *. intros y Y. split; [apply is_space_false; specialize (K y Y); destruct (is_space y); [discriminate|reflexivity]|]. intros ->. apply UH. rewrite E. rewrite !in_app_iff. tauto. }
  rewrite E in *. clear E x X u1. destruct (drop_space_spec u2) as (b & UE & B & ST). destruct ST as [ST|(x & u3 & ST & X)].
  { rewrite ST, app_nil_r in UE. subst u2. exists (Some (k, [])). rewrite <- !app_assoc. constructor; assumption. }
  rewrite ST in UE. clear ST. destruct (drop_space_spec (rev (x :: u3))) as (b' & VE & B' & ST).
  assert (VR : x :: u3 = rev (drop_space (rev (x :: u3))) ++ rev b'). { rewrite <- rev_app_distr, <- VE. symmetry. apply rev_involutive. }
  set (v := rev (drop_space (rev (x :: u3)))) in *. exists (Some (k, v)). rewrite UE, VR. rewrite <- !app_assoc.
  assert (NB : b <> []). { intros ->. cbn in UE. subst u2. destruct S2 as [S2|(y & t & S2 & Y)]; [discriminate|]. injection S2 as <- _. rewrite X in Y. discriminate. }
  assert (NV : v <> []). { intros EV. rewrite EV in VR. cbn in VR. assert (HB : all_blank (rev b')) by (apply all_blank_rev; exact B'). rewrite <- VR in HB. inversion HB; subst. apply is_space_false in X. contradiction. }
  apply says_value; try assumption; [|apply all_blank_rev; exact B']. split; [|split].
  - intros H. apply UH. rewrite UE, VR. rewrite !in_app_iff. tauto.
  - intros c' t E. rewrite E in VR. cbn in VR. injection VR as <- _. apply is_space_false. exact X.
  - intros c' t E. destruct ST as [ST|(y & r & ST & Y)]; [unfold v in NV; rewrite ST in NV; contradiction|]. unfold v in E. rewrite ST in E. cbn [rev] in E. apply app_inj_tail in E. destruct E as (_ & <-). apply is_space_false. exact Y.
Qed.
Lemma says_unique l o o' : line l -> says l o -> says l o' -> o = o'.
Proof.
  intros L S S'. assert (NK : forall k v, says l (Some (k, v)) -> k <> []). { intros k v H. inversion H; subst; match goal with K : word k |- _ => apply K end. }
  destruct o as [(k, v)|], o' as [(k', v')|]; [| | |reflexivity].
  - pose proof (entry_of_value l k v L S). pose proof (entry_of_value l k' v' L S'). congruence.
  - pose proof (entry_of_value l k v L S) as E. pose proof (entry_of_nothing l S') as E'. rewrite E in E'. cbn in E'. exfalso. exact (NK k v S E').
  - pose proof (entry_of_value l k' v' L S') as E. pose proof (entry_of_nothing l S) as E'. rewrite E in E'. cbn in E'. exfalso. exact (NK k' v' S' E').
Qed.
Lemma entries_total ls : Forall line ls -> exists es, entries ls es.
Proof.
  induction 1 as [|l ls L _ (es & IH)]; [exists []; constructor|]. destruct (says_total l) as ([kv|] & S); [exists (kv :: es)|exists es]; constructor; assumption.
Qed.
Lemma entries_unique ls es es' : entries ls es -> entries ls es' -> es = es'.
Proof.
  intros H. revert es'. induction H as [|l ls es L S H IH|l ls kv es L S H IH]; intros es' H'; inversion H' as [|? ? ? L' S' H''|? ? ? ? L' S' H'']; subst.
  - reflexivity.
  - apply IH; assumption.
  - pose proof (says_unique l _ _ L S S'). discriminate.
  - pose proof (says_unique l _ _ L S S'). discriminate.
  - pose proof (says_unique l _ _ L S S') as E. injection E as <-. f_equal. apply IH; assumption.
Qed.
Lemma split_text t : exists ls, ls <> [] /\ join ls = t /\ Forall line ls.
Proof.
  remember (length t) as n eqn:N. revert t N. induction n as [n IH] using lt_wf_ind. intros t N.
  destruct (span_spec (fun c => negb (Ascii.eqb c newline)) t) as (l & r & _ & E & L & S).
  assert (LL : line l). { intros H. rewrite Forall_forall in L. specialize (L _ H). rewrite Ascii.eqb_refl in L. discriminate. }
  destruct S as [->|(c & r' & -> & C)].
  - exists [l]. rewrite E, app_nil_r. split; [discriminate|]. split; [reflexivity|]. constructor; [exact LL|constructor].
  - destruct (Ascii.eqb_spec c newline) as [->|]; [|discriminate]. destruct (IH (length r')) with (t := r') as (ls & NL & J & F); [rewrite N, E, app_length; cbn; lia|reflexivity|].
    exists (l :: ls). split; [discriminate|]. split; [|constructor; assumption]. destruct ls as [|l2 ls]; [contradiction|]. cbn [join]. cbn [join] in J. rewrite E. rewrite <- J. reflexivity.
Qed.

(** The map of keys. *)
Lemma text_eqb_spec a b : reflect (a = b) (text_eqb a b).
Proof.
  revert b. induction a as [|x a IH]; destruct b as [|y b]; cbn; try (constructor; congruence). destruct (Ascii.eqb_spec x y) as [->|N]; cbn; [|constructor; congruence].
  destruct (IH b); constructor; congruence.
Qed.
Lemma find_key_in m k v : find_key m k = Some v -> In (k, v) m.
Proof. induction m as [|(k', v') m IH]; cbn; [discriminate|]. destruct (text_eqb_spec k' k) as [->|N]; [intros [= ->]; left; reflexivity|right; auto]. Qed.
Lemma find_key_none m k : find_key m k = None <-> ~ In k (map fst m).
Proof.
  induction m as [|(k', v') m IH]; cbn; [tauto|]. destruct (text_eqb_spec k' k) as [->|N].
  - split; [discriminate|intros H; exfalso; apply H; left; reflexivity].
  - rewrite IH. tauto.
Qed.
Lemma find_key_nodup m k v : NoDup (map fst m) -> In (k, v) m -> find_key m k = Some v.
Proof.
  induction m as [|(k', v') m IH]; cbn; [tauto|]. intros N. inversion N as [|? ? NI N']; subst. intros [[= -> ->]|H].
  - destruct (text_eqb_spec k k); [reflexivity|contradiction].
  - destruct (text_eqb_spec k' k) as [->|]; [exfalso; apply NI; exact (in_map fst _ _ H)|auto].
Qed.
Lemma remove_key_in m k q : In q (remove_key m k) <-> In q m /\ fst q <> k.
Proof.
  induction m as [|(k', v') m IH]; cbn; [tauto|]. destruct (text_eqb_spec k' k) as [->|N].
  - rewrite IH. split; [tauto|]. intros ([<-|H] & X); [contradiction|tauto].
  - cbn. rewrite IH. split; [intros [<-|H]; [split; [left; reflexivity|exact N]|tauto]|tauto].
Qed.
Lemma remove_key_find m k j : find_key (remove_key m k) j = if text_eqb k j then None else find_key m j.
Proof.
  destruct (text_eqb_spec k j) as [->|N].
  - apply find_key_none. intros H. apply in_map_iff in H. destruct H as (q & E & H). apply remove_key_in in H. tauto.
  - induction m as [|(k', v') m IH]; cbn; [reflexivity|]. destruct (text_eqb_spec k' k) as [->|N'].
    + rewrite IH. destruct (text_eqb_spec k j); [contradiction|reflexivity].
    + cbn. rewrite IH. reflexivity.
Qed.
Lemma rl_step f m s : read_lines (S f) m s =
  if negb (fail s) && negb (eof s) then
      let (line, s) := get_line s in
      let (key, value) := entry_of line in
      match key with
      | [] => read_lines f m s
      | _ => match find_key m key with Some _ => Throw (EDuplicate (unstr key)) | None => read_lines f ((key, value) :: m) s end
      end
    else Ok m.
Proof. reflexivity. Qed.
Lemma rl_eof f m fl : read_lines f m (Stream [] true fl) = Ok m.
Proof. destruct f; [reflexivity|]. rewrite rl_step. cbn. rewrite andb_false_r. reflexivity. Qed.
(** One line. *)
Definition add_entry (o : option (text * text)) (m : list (text * text)) (k : list (text * text) -> result (list (text * text))) :=
  match o with None => k m | Some (key, v) => match find_key m key with Some _ => Throw (EDuplicate (unstr key)) | None => k ((key, v) :: m) end end.
Lemma rl_line l o : line l -> says l o -> forall f m s s', good s = true -> get_line s = (l, s') -> read_lines (S f) m s = add_entry o m (fun m => read_lines f m s').
Proof.
  intros L S f m s s' G E. rewrite rl_step. unfold good in G. rewrite andb_comm, G, E. destruct o as [(k, v)|].
  - rewrite (entry_of_value l k v L S). destruct k as [|c k]; [exfalso; inversion S; subst; match goal with K : word [] |- _ => destruct K as (K & _); apply K; reflexivity end|]. reflexivity.
  - pose proof (entry_of_nothing l S) as N. destruct (entry_of l) as (k, v). cbn in N. subst k. reflexivity.
Qed.
Lemma read_lines_ok ls es : entries ls es -> ls <> [] -> forall f m, (length ls <= f)%nat -> NoDup (map fst (rev es ++ m)) -> read_lines f m (open (join ls)) = Ok (rev es ++ m).
Proof.
  intros H. induction H as [|l ls es L S H IH|l ls (k, v) es L S H IH]; intros NL f m FU ND; [contradiction| |].
  - destruct f as [|f]; [cbn in FU; lia|]. destruct ls as [|l2 ls].
    + inversion H; subst. cbn [join]. rewrite (rl_line l None L S f m (open _) _ eq_refl (get_line_last l L)). cbn. apply rl_eof.
    + change (join (l :: l2 :: ls)) with (l ++ newline :: join (l2 :: ls)). rewrite (rl_line l None L S f m (open _) _ eq_refl (get_line_ok l _ L)). cbn [add_entry]. apply IH; [discriminate|cbn in *; lia|exact ND].
  - destruct f as [|f]; [cbn in FU; lia|]. cbn [rev] in ND. rewrite <- app_assoc in ND. cbn [app] in ND.
    assert (FK : find_key m k = None). { apply find_key_none. intros C. rewrite map_app in ND. cbn in ND. apply NoDup_remove_2 in ND. apply ND. apply in_or_app. right. exact C. }
    destruct ls as [|l2 ls].
    + inversion H; subst. cbn [join]. rewrite (rl_line l _ L S f m (open _) _ eq_refl (get_line_last l L)). cbn [add_entry]. rewrite FK. apply rl_eof.
    + change (join (l :: l2 :: ls)) with (l ++ newline :: join (l2 :: ls)). rewrite (rl_line l _ L S f m (open _) _ eq_refl (get_line_ok l _ L)). cbn [add_entry]. rewrite FK. cbn [rev]. rewrite <- app_assoc. cbn [app]. apply IH; [discriminate|cbn in *; lia|exact ND].
Qed.
Lemma read_lines_dup ls es : entries ls es -> ls <> [] -> forall f m, (length ls <= f)%nat -> NoDup (map fst m) -> ~ NoDup (map fst (rev es ++ m)) -> exists k, In k (map fst es) /\ read_lines f m (open (join ls)) = Throw (EDuplicate (unstr k)).
Proof.
  intros H. induction H as [|l ls es L S H IH|l ls (k, v) es L S H IH]; intros NL f m FU NM ND; [contradiction| |].
  - destruct f as [|f]; [cbn in FU; lia|]. destruct ls as [|l2 ls].
    + inversion H; subst. contradiction.
    + change (join (l :: l2 :: ls)) with (l ++ newline :: join (l2 :: ls)). rewrite (rl_line l None L S f m (open _) _ eq_refl (get_line_ok l _ L)). cbn [add_entry]. apply IH; [discriminate|cbn in *; lia|exact NM|exact ND].
  - destruct f as [|f]; [cbn in FU; lia|]. cbn [rev] in ND. rewrite <- app_assoc in ND. cbn [app] in ND.
    destruct (find_key m k) as [v0|] eqn:FK.
    { exists k. split; [left; reflexivity|]. destruct ls as [|l2 ls].
      - cbn [join]. rewrite (rl_line l _ L S f m (open _) _ eq_refl (get_line_last l L)). cbn [add_entry]. rewrite FK. reflexivity.
      - change (join (l :: l2 :: ls)) with (l ++ newline :: join (l2 :: ls)). rewrite (rl_line l _ L S f m (open _) _ eq_refl (get_line_ok l _ L)). cbn [add_entry]. rewrite FK. reflexivity. }
    assert (NM' : NoDup (map fst ((k, v) :: m))) by (cbn; constructor; [apply find_key_none; exact FK|exact NM]).
    destruct ls as [|l2 ls].
    + inversion H; subst. contradiction.
    + change (join (l :: l2 :: ls)) with (l ++ newline :: join (l2 :: ls)). rewrite (rl_line l _ L S f m (open _) _ eq_refl (get_line_ok l _ L)). cbn [add_entry]. rewrite FK.
      destruct (IH ltac:(discriminate) f ((k, v) :: m)) as (k' & K' & E); [cbn in *; lia|exact NM'|exact ND|]. exists k'. split; [right; exact K'|exact E].
Qed.
Lemma join_length ls : (length ls <= Datatypes.S (length (join ls)))%nat.
Proof. induction ls as [|l ls IH]; [cbn; lia|]. destruct ls as [|l2 ls]; [cbn; lia|]. change (join (l :: l2 :: ls)) with (l ++ newline :: join (l2 :: ls)). rewrite app_length. cbn [length] in *. lia. Qed.

(** Assignment. *)
Lemma assign_ok ps : NoDup (map fst ps) -> forall m, (forall name p v, In (name, p) ps -> find_key m (str name) = Some v -> exists val, parse_value (p_type p) v = Some val) ->
  exists r m', assign ps m = Ok (r, m') /\ map fst r = map fst ps /\ (forall q, In q m' <-> In q m /\ ~ In (fst q) (map (fun n => str (fst n)) ps))
   /\ forall name, lookup r name = match lookup ps name with None => None | Some p => match find_key m (str name) with None => Some p | Some v => option_map (fun val => with_value p (Some val)) (parse_value (p_type p) v) end end.
Proof.
  induction ps as [|(n, p) ps IH]; intros ND m H; cbn [map fst] in *.
  - exists [], m. cbn. repeat split; tauto.
  - inversion ND as [|? ? NI ND']; subst. cbn [assign]. destruct (find_key m (str n)) as [v|] eqn:FK.
    + destruct (H n p v (or_introl eq_refl) FK) as (val & PV). rewrite PV.
      destruct (IH ND' (remove_key m (str n))) as (r & m' & E & MF & MI & LK).
      { intros name q w Q F. rewrite remove_key_find in F. destruct (text_eqb (str n) (str name)); [discriminate|]. apply (H name q w); [right; exact Q|exact F]. }
      rewrite E. cbn [bind]. eexists; eexists; split; [reflexivity|]. cbn [map fst]. rewrite MF. split; [reflexivity|]. split.
      * intros q. rewrite MI, remove_key_in. cbn [In]. split; [intros ((A & B) & C); split; [exact A|intros [X|X]; [apply B; symmetry; exact X|exact (C X)]]|].
        intros (A & B). split; [split; [exact A|intros X; apply B; left; symmetry; exact X]|intros X; apply B; right; exact X].
      * intros name. cbn [lookup]. destruct (String.eqb_spec n name) as [->|N]; [rewrite FK, PV; reflexivity|]. rewrite LK, remove_key_find.
        destruct (text_eqb_spec (str n) (str name)) as [C|]; [exfalso; apply N; apply str_inj; exact C|reflexivity].
    + destruct (IH ND' m) as (r & m' & E & MF & MI & LK). { intros name q w Q F. apply (H name q w); [right; exact Q|exact F]. }
      rewrite E. cbn [bind]. eexists; eexists; split; [reflexivity|]. cbn [map fst]. rewrite MF. split; [reflexivity|]. split.
      * intros q. rewrite MI. cbn [In]. split; [intros (A & B); split; [exact A|]|tauto]. intros [X|X]; [|exact (B X)]. apply find_key_none in FK. apply FK. rewrite X. apply in_map. exact A.
      * intros name. cbn [lookup]. destruct (String.eqb_spec n name) as [->|N]; [rewrite FK; reflexivity|]. apply LK.
Qed.
Lemma assign_fail ps : NoDup (map fst ps) -> forall m name p v, In (name, p) ps -> find_key m (str name) = Some v -> parse_value (p_type p) v = None -> exists n, assign ps m = Throw (EParse n).
Proof.
  induction ps as [|(n, q) ps IH]; intros ND m name p v I F PV; [contradiction|]. cbn [map fst] in ND. inversion ND as [|? ? NI ND']; subst. cbn [assign]. destruct I as [[= -> ->]|I].
  - rewrite F, PV. exists name. reflexivity.
  - assert (NE : n <> name) by (intros ->; apply NI; exact (in_map fst _ _ I)). destruct (find_key m (str n)) as [w|].
    + destruct (parse_value (p_type q) w); [|exists n; reflexivity]. destruct (IH ND' (remove_key m (str n)) name p v I) as (n' & E); [|exact PV|rewrite E; exists n'; reflexivity].
      rewrite remove_key_find. destruct (text_eqb_spec (str n) (str name)) as [C|]; [exfalso; apply NE, str_inj, C|exact F].
    + destruct (IH ND' m name p v I F PV) as (n' & E). rewrite E. exists n'. reflexivity.
Qed.
Lemma lookup_in (ps : eparams) name p : lookup ps name = Some p -> In (name, p) ps.
Proof. induction ps as [|(n, q) ps IH]; cbn; [discriminate|]. destruct (String.eqb_spec n name) as [->|]; [intros [= ->]; left; reflexivity|right; auto]. Qed.
Lemma lookup_nodup (ps : eparams) name p : NoDup (map fst ps) -> In (name, p) ps -> lookup ps name = Some p.
Proof.
  induction ps as [|(n, q) ps IH]; cbn; [tauto|]. intros N. inversion N as [|? ? NI N']; subst. intros [[= -> ->]|H].
  - rewrite String.eqb_refl. reflexivity.
  - destruct (String.eqb_spec n name) as [->|]; [exfalso; apply NI; exact (in_map fst _ _ H)|auto].
Qed.
Lemma lookup_none (ps : eparams) name : lookup ps name = None <-> ~ In name (map fst ps).
Proof.
  induction ps as [|(n, q) ps IH]; cbn; [tauto|]. destruct (String.eqb_spec n name) as [->|N]; [split; [discriminate|intros H; exfalso; apply H; left; reflexivity]|]. rewrite IH. tauto.
Qed.
Lemma read_stream_ok ps ls es : NoDup (map fst ps) -> ls <> [] -> entries ls es -> NoDup (map fst es) ->
  (forall k v, In (k, v) es -> exists p val, lookup ps (unstr k) = Some p /\ parse_value (p_type p) v = Some val) ->
  exists ps', read_stream ps (join ls) = Ok ps' /\ map fst ps' = map fst ps
   /\ (forall k v, In (k, v) es -> exists p val, lookup ps (unstr k) = Some p /\ parse_value (p_type p) v = Some val /\ lookup ps' (unstr k) = Some (with_value p (Some val)))
   /\ (forall name, ~ In (str name) (map fst es) -> lookup ps' name = lookup ps name).
Proof.
  intros ND NL EN NE H. unfold read_stream. assert (ND2 : NoDup (map fst (rev es ++ []))) by (rewrite app_nil_r, map_rev; apply NoDup_rev; exact NE).
  rewrite (read_lines_ok ls es EN NL _ [] (join_length ls) ND2). cbn [bind]. rewrite app_nil_r in *.
  assert (FK : forall k v, find_key (rev es) k = Some v -> In (k, v) es) by (intros k v F; apply find_key_in in F; apply in_rev; exact F).
  assert (KF : forall k v, In (k, v) es -> find_key (rev es) k = Some v) by (intros k v F; apply find_key_nodup; [exact ND2|apply in_rev; rewrite rev_involutive; exact F]).
  destruct (assign_ok ps ND (rev es)) as (r & m' & E & MF & MI & LK).
  { intros name p v I F. destruct (H _ _ (FK _ _ F)) as (p' & val & L & PV). rewrite unstr_str in L. rewrite (lookup_nodup ps name p ND I) in L. injection L as ->. exists val. exact PV. }
  rewrite E. cbn [bind]. destruct m' as [|q m'].
  - exists r. split; [reflexivity|]. split; [exact MF|]. split.
    + intros k v I. destruct (H k v I) as (p & val & L & PV). exists p, val. split; [exact L|]. split; [exact PV|]. rewrite LK, L, str_unstr, (KF k v I), PV. reflexivity.
    + intros name N. rewrite LK. destruct (lookup ps name) as [p|]; [|reflexivity]. destruct (find_key (rev es) (str name)) as [v|] eqn:F; [|reflexivity]. exfalso. apply N. exact (in_map fst _ _ (FK _ _ F)).
  - exfalso. assert (I : In q (q :: m')) by (left; reflexivity). apply MI in I. destruct I as (I & N). apply in_rev in I. destruct q as (k, v). destruct (H k v I) as (p & val & L & _). apply lookup_in in L. apply N. apply in_map_iff. exists (unstr k, p). split; [apply str_unstr|exact L].
Qed.
Lemma read_stream_reject ps ls es : NoDup (map fst ps) -> ls <> [] -> entries ls es ->
  (~ NoDup (map fst es) -> exists k, In k (map fst es) /\ read_stream ps (join ls) = Throw (EDuplicate (unstr k))) /\
  (NoDup (map fst es) -> (exists k v p, In (k, v) es /\ lookup ps (unstr k) = Some p /\ parse_value (p_type p) v = None) -> exists n, read_stream ps (join ls) = Throw (EParse n)) /\
  (NoDup (map fst es) -> (forall k v p, In (k, v) es -> lookup ps (unstr k) = Some p -> parse_value (p_type p) v <> None) -> (exists k, In k (map fst es) /\ lookup ps (unstr k) = None) -> read_stream ps (join ls) = Throw EUnrecognized).
Proof.
  intros ND NL EN. unfold read_stream.
  assert (RV : NoDup (map fst es) -> read_lines (S (length (join ls))) [] (open (join ls)) = Ok (rev es)).
  { intros NE. rewrite (read_lines_ok ls es EN NL _ [] (join_length ls)); [rewrite app_nil_r; reflexivity|]. rewrite app_nil_r, map_rev. apply NoDup_rev. exact NE. }
  assert (KF : NoDup (map fst es) -> forall k v, In (k, v) es -> find_key (rev es) k = Some v).
  { intros NE k v F. apply find_key_nodup; [rewrite map_rev; apply NoDup_rev; exact NE|apply in_rev; rewrite rev_involutive; exact F]. }
  split; [|split].
  - intros NE. destruct (read_lines_dup ls es EN NL (S (length (join ls))) [] (join_length ls)) as (k & K & E); [constructor| |exists k; split; [exact K|rewrite E; reflexivity]].
    rewrite app_nil_r, map_rev. intros C. apply NE. rewrite <- (rev_involutive (map fst es)). apply NoDup_rev. exact C.
  - intros NE (k & v & p & I & L & PV). rewrite (RV NE). cbn [bind]. destruct (assign_fail ps ND (rev es) (unstr k) p v) as (n & E); [apply lookup_in; exact L|rewrite str_unstr; apply KF; assumption|exact PV|]. rewrite E. exists n. reflexivity.
  - intros NE PV (k & K & L). rewrite (RV NE). cbn [bind]. destruct (assign_ok ps ND (rev es)) as (r & m' & E & MF & MI & LK).
    { intros name p v I F. apply find_key_in, in_rev in F. pose proof (PV (str name) v p F) as X. rewrite unstr_str in X. specialize (X (lookup_nodup ps name p ND I)). destruct (parse_value (p_type p) v) as [val|]; [exists val; reflexivity|congruence]. }
    rewrite E. cbn [bind]. destruct m' as [|q m']; [|reflexivity]. exfalso. apply in_map_iff in K. destruct K as ((k', v) & KE & K). cbn in KE. subst k'. apply (proj2 (MI (k, v))). split; [apply in_rev; rewrite rev_involutive; exact K|].
    cbn. intros C. apply in_map_iff in C. destruct C as ((n, p) & C1 & C2). cbn in C1. apply lookup_none in L. apply L. rewrite <- C1, unstr_str. exact (in_map fst _ _ C2).
Qed.
