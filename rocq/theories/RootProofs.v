From Coq Require Import String Ascii Reals Lra Psatz ZArith List Bool Sorting.Sorted.
From Flocq Require Import Core Relative.
From Verif Require Import ExtModel BoundProofs TextModel TextProofs ParamModel ParamTextModel ParamTextSpec ParamTextProofs ParamTextRound RootModel RootSpec.
Import ListNotations.
Local Open Scope list_scope.

(** * Single values *)
Lemma c_str_id s : nul_free s -> c_str s = s.
Proof.
  unfold nul_free. induction s as [|c s IH]; cbn [list_ascii_of_string c_str In]; [reflexivity|]. intros H.
  destruct (Ascii.eqb_spec c zero) as [->|N]; [exfalso; apply H; left; reflexivity|]. rewrite IH; [reflexivity|]. intros I. apply H. right. exact I.
Qed.
Lemma insert_top n l : (forall m, In m l -> (m <= n)%Z) -> insert n l = l ++ [n].
Proof.
  induction l as [|m l IH]; intros H; cbn [insert app]; [reflexivity|].
  rewrite (proj2 (Z.leb_le m n)) by (apply H; left; reflexivity). rewrite IH; [reflexivity|]. intros k K. apply H. right. exact K.
Qed.
Lemma insert_all l : forall s, StronglySorted Z.le (s ++ l) -> fold_left (fun s n => insert n s) l s = s ++ l.
Proof.
  induction l as [|n l IH]; intros s H; cbn [fold_left]; [rewrite app_nil_r; reflexivity|].
  rewrite insert_top.
  - rewrite IH; rewrite <- app_assoc; [reflexivity|exact H].
  - intros m M. clear IH. induction s as [|k s IHs]; [destruct M|]. cbn [app] in H. apply StronglySorted_inv in H. destruct H as [H F].
    destruct M as [->|M]; [|auto]. rewrite Forall_forall in F. apply F. apply in_or_app. right. left. reflexivity.
Qed.
Lemma sorted_strong l : Sorted Z.le l -> StronglySorted Z.le l.
Proof. apply Sorted_StronglySorted. intros x y z A B. exact (Z.le_trans x y z A B). Qed.
Lemma value_back v : storable v -> from_root (vtype_of v) (Some (to_root v)) = RValue v.
Proof.
  destruct v; cbn [storable vtype_of to_root from_root]; intros H; try reflexivity.
  - rewrite c_str_id; auto.
  - rewrite insert_all by (apply sorted_strong; exact H). reflexivity.
  - destruct m; reflexivity.
  - destruct n; reflexivity.
  - destruct l; reflexivity.
  - destruct h; reflexivity.
  - rewrite H. reflexivity.
Qed.

(** * Parameter sets *)
Lemma write_objects disk ps : (forall name, disk name = true) -> forall d, exists d', write_params disk ps d = (true, d') /\
  (NoDup (map fst ps) -> forall name, get_obj d' name = match lookup ps name with
     | Some p => match p_value p with Some v => Some (to_root v) | None => get_obj d name end | None => get_obj d name end).
Proof.
  intros D. induction ps as [|[n p] ps IH]; intros d; cbn [write_params].
  - exists d. split; [reflexivity|]. intros _ name. reflexivity.
  - destruct (p_value p) as [v|] eqn:V.
    + rewrite D. destruct (IH ((n, to_root v) :: d)) as (d' & W & G). exists d'. split; [exact W|]. intros N name. cbn [map fst] in N. inversion N as [|? ? N1 N2]; subst.
      rewrite (G N2 name). cbn [lookup get_obj]. destruct (String.eqb_spec n name) as [->|E]; [|reflexivity].
      rewrite (proj2 (lookup_none ps name) N1). rewrite V. reflexivity.
    + destruct (IH d) as (d' & W & G). exists d'. split; [exact W|]. intros N name. cbn [map fst] in N. inversion N as [|? ? N1 N2]; subst.
      rewrite (G N2 name). cbn [lookup]. destruct (String.eqb_spec n name) as [->|E]; [|reflexivity].
      rewrite (proj2 (lookup_none ps name) N1). rewrite V. reflexivity.
Qed.
Lemma from_absent t : from_root t None = RAbsent.
Proof. destruct t; reflexivity. Qed.
Lemma read_back d fmt (val : string -> option evalue) :
  (forall name f, In (name, f) fmt -> from_root (p_type f) (get_obj d name) = match val name with Some v => RValue v | None => RAbsent end) ->
  read_params fmt d = PRead (map (fun q => (fst q, with_value (snd q) (val (fst q)))) fmt).
Proof.
  induction fmt as [|[n p] fmt IH]; intros H; cbn [read_params map fst snd]; [reflexivity|].
  rewrite (H n p) by (left; reflexivity). rewrite IH by (intros; apply H; right; assumption). destruct (val n); reflexivity.
Qed.
Lemma lookup_map (fmt : eparams) (g : string -> param ext -> param ext) name :
  lookup (map (fun q => (fst q, g (fst q) (snd q))) fmt) name = option_map (g name) (lookup fmt name).
Proof. induction fmt as [|[n p] fmt IH]; cbn [map lookup fst snd]; [reflexivity|]. destruct (String.eqb_spec n name) as [->|E]; [reflexivity|exact IH]. Qed.
Lemma root_round disk ps fmt : (forall name, disk name = true) -> NoDup (map fst ps) -> same_shape fmt ps -> well_typed ps ->
  Forall (fun q => forall v, p_value (snd q) = Some v -> storable v) ps ->
  exists d r, write_params disk ps [] = (true, d) /\ read_params fmt d = PRead r /\ carries fmt ps r.
Proof.
  intros D N S T St. destruct (write_objects disk ps D []) as (d & W & G).
  set (val := fun name => match lookup ps name with Some p => p_value p | None => None end).
  exists d, (map (fun q => (fst q, with_value (snd q) (val (fst q)))) fmt). split; [exact W|].
  assert (NF : NoDup (map fst fmt)) by (rewrite (shape_names _ _ S); exact N).
  split.
  - apply read_back. intros name f I. apply lookup_nodup in I; [|exact NF]. destruct (shape_lookup fmt ps name f S I) as (p & L & TY).
    rewrite (G N name). unfold val. rewrite L. cbn [get_obj].
    apply lookup_in in L. unfold well_typed in T. rewrite Forall_forall in T, St. specialize (T _ L). specialize (St _ L). cbn [snd] in T, St.
    destruct (p_value p) as [v|]; [|apply from_absent].
    rewrite <- TY, <- (T v eq_refl). apply value_back. apply St. reflexivity.
  - split; [rewrite map_map; reflexivity|]. intros name f p LF LP.
    rewrite (lookup_map fmt (fun n q => with_value q (val n)) name). rewrite LF. cbn [option_map]. eexists. split; [reflexivity|].
    cbn. unfold val. rewrite LP. repeat split; reflexivity.
Qed.

(** * What parameter files can contain *)
Lemma span_part p t : forall a b, span p t = (a, b) -> t = a ++ b.
Proof. destruct (span_spec p t) as (a & b & E & H & _). intros a' b' E'. rewrite E in E'. congruence. Qed.
Lemma sentry_incl k s r s' : sentry k s = (r, s') -> incl (rest s') (rest s).
Proof.
  unfold sentry. destruct (good s); [|intros [= _ <-]; apply incl_refl]. destruct k; [|intros [= _ <-]; apply incl_refl].
  destruct (drop_space_spec (rest s)) as (a & E & _). intros H x I. rewrite E. apply in_or_app. right.
  destruct (drop_space (rest s)); injection H as _ <-; exact I.
Qed.
Lemma get_line_incl s l s' : get_line s = (l, s') -> incl l (rest s) /\ incl (rest s') (rest s).
Proof.
  unfold get_line. destruct (sentry false s) as [[|] s1] eqn:SE; apply sentry_incl in SE.
  - destruct (span _ (rest s1)) as [l0 r0] eqn:SP. apply span_part in SP. intros H.
    assert (L : l0 = l) by (destruct r0; congruence). assert (R : incl (rest s') r0) by (destruct r0; injection H as _ <-; cbn; [intros ? []|apply incl_tl, incl_refl]).
    subst l0. split; intros x I; apply SE; rewrite SP; apply in_or_app; auto.
  - intros [= <- <-]. split; [intros ? []|exact SE].
Qed.
Lemma get_word_incl s l s' : get_word s = (l, s') -> incl l (rest s) /\ incl (rest s') (rest s).
Proof.
  unfold get_word. destruct (sentry true s) as [[|] s1] eqn:SE; apply sentry_incl in SE.
  - destruct (span _ (rest s1)) as [l0 r0] eqn:SP. apply span_part in SP. intros [= <- <-]. cbn [rest].
    split; intros x I; apply SE; rewrite SP; apply in_or_app; auto.
  - intros [= <- <-]. split; [intros ? []|exact SE].
Qed.
Lemma get_seeds_sorted f : forall l s, Sorted Z.le l -> Sorted Z.le (fst (get_seeds f l s)).
Proof.
  induction f as [|f IH]; intros l s H; [exact H|]. rewrite gs_step. destruct (good s); [|exact H].
  destruct (get_int int_min int_max s) as [v s']. apply IH. apply insert_sorted. exact H.
Qed.
Lemma list_ascii_unstr t : list_ascii_of_string (unstr t) = t.
Proof. exact (str_unstr t). Qed.
Lemma parsed_ok t v x : parse_value t v = Some x -> vtype_of x = t /\ (~ In (ascii_of_nat 0) v -> storable x).
Proof.
  unfold parse_value. destruct (read_value t (open v)) as [val s] eqn:E. destruct (fail s) eqn:F; [discriminate|].
  destruct (get_line s) as [rem s']. destruct rem; [|discriminate]. intros [= <-].
  destruct t; cbn [read_value] in E; repeat match type of E with context [let (_, _) := ?g in _] => destruct g eqn:? end;
    injection E as E1 E2; subst; split; try reflexivity; intros N; cbn [storable]; try exact I.
  - unfold nul_free. rewrite list_ascii_unstr. intros I. apply N. exact (proj1 (get_line_incl _ _ _ Heqp) _ I).
  - pose proof (get_seeds_sorted (S (length (rest (open v)))) [] (open v) (Sorted_nil _)) as H. rewrite Heqp in H. exact H.
  - destruct (eleb e e0); [reflexivity|]. exfalso. destruct s1; cbn in F; discriminate.
Qed.
Lemma drop_space_incl t : incl (drop_space t) t.
Proof. destruct (drop_space_spec t) as (a & E & _). intros x I. rewrite E. apply in_or_app. right. exact I. Qed.
Lemma trim_incl t : incl (trim t) t.
Proof.
  unfold trim. intros x I. apply in_rev in I. apply drop_space_incl in I. apply in_rev in I. apply drop_space_incl in I. exact I.
Qed.
Lemma trim_comment_incl t : incl (trim_comment t) t.
Proof.
  unfold trim_comment. destruct (span _ t) as [a b] eqn:E. apply span_part in E. cbn [fst]. intros x I. rewrite E. apply in_or_app. left. exact I.
Qed.
Lemma entry_incl l k v : entry_of l = (k, v) -> incl v l.
Proof.
  unfold entry_of. destruct (get_word _) as [k' ss] eqn:W. destruct (get_line ss) as [v' s'] eqn:L. intros [= _ <-].
  apply get_word_incl in W. apply get_line_incl in L. cbn [rest open] in W. intros x I. apply trim_incl in I.
  apply trim_comment_incl, trim_incl. apply (proj2 W). apply (proj1 L). exact I.
Qed.
Lemma read_lines_incl f : forall m s r t, (forall k v, In (k, v) m -> incl v t) -> incl (rest s) t -> read_lines f m s = Ok r ->
  forall k v, In (k, v) r -> incl v t.
Proof.
  induction f as [|f IH]; intros m s r t M S E; [cbn in E; injection E as <-; exact M|].
  cbn [read_lines] in E. destruct (negb (fail s) && negb (eof s)); [|injection E as <-; exact M].
  destruct (get_line s) as [l s'] eqn:L. apply get_line_incl in L. destruct L as [L1 L2].
  destruct (entry_of l) as [key value] eqn:EN. apply entry_incl in EN.
  destruct key as [|c key].
  - eapply IH; [exact M| |exact E]. intros x I. apply S, L2, I.
  - destruct (find_key m (c :: key)); [discriminate|]. eapply IH; [| |exact E].
    + intros k v [H|H]; [|eauto]. injection H as <- <-. intros x I. apply S, L1, EN, I.
    + intros x I. apply S, L2, I.
Qed.
Lemma assign_values ps : forall m r m', assign ps m = Ok (r, m') ->
  Forall2 (fun q q' : string * param ext => fst q' = fst q /\ (snd q' = snd q \/ exists k v val, In (k, v) m /\ parse_value (p_type (snd q)) v = Some val /\ snd q' = with_value (snd q) (Some val))) ps r.
Proof.
  induction ps as [|[n p] ps IH]; intros m r m' E; cbn [assign] in E.
  - injection E as <- <-. constructor.
  - destruct (find_key m (str n)) as [v|] eqn:F.
    + destruct (parse_value (p_type p) v) as [val|] eqn:P; [|discriminate].
      destruct (assign ps (remove_key m (str n))) as [[r0 m0]|] eqn:A; cbn [bind] in E; [|discriminate]. injection E as <- <-.
      constructor.
      * split; [reflexivity|]. right. exists (str n), v, val. split; [apply find_key_in, F|]. split; [exact P|reflexivity].
      * apply IH in A. revert A. clear. intros A. induction A as [|q q' l l' [H1 H2] A IHA]; constructor; [|exact IHA]. split; [exact H1|].
        destruct H2 as [H2|(k & w & x & I & J)]; [left; exact H2|right]. exists k, w, x. split; [|exact J]. apply remove_key_in in I. exact (proj1 I).
    + destruct (assign ps m) as [[r0 m0]|] eqn:A; cbn [bind] in E; [|discriminate]. injection E as <- <-.
      constructor; [split; [reflexivity|left; reflexivity]|]. eapply IH. exact A.
Qed.
Lemma stored_text base t ps : read_stream base t = Ok ps -> ~ In (ascii_of_nat 0) t ->
  well_typed base -> Forall (fun q => forall v, p_value (snd q) = Some v -> storable v) base ->
  same_shape ps base /\ well_typed ps /\ Forall (fun q => forall v, p_value (snd q) = Some v -> storable v) ps.
Proof.
  unfold read_stream. intros E Z T S. destruct (read_lines _ [] (open t)) as [m|] eqn:RL; cbn [bind] in E; [|discriminate].
  destruct (assign base m) as [[r m']|] eqn:A; cbn [bind] in E; [|discriminate]. destruct m'; [|discriminate]. injection E as <-.
  assert (M : forall k v, In (k, v) m -> incl v t) by (eapply (read_lines_incl _ [] (open t)); [intros ? ? []|apply incl_refl|exact RL]).
  apply assign_values in A. unfold same_shape, well_typed in *.
  induction A as [|q q' l l' [H1 H2] A IH]; [repeat split; constructor|].
  inversion T as [|? ? T1 T2]; subst. inversion S as [|? ? S1 S2]; subst. destruct (IH T2 S2) as (I1 & I2 & I3).
  destruct H2 as [H2|(k & v & x & I & P & H2)].
  - cbn [map]. rewrite I1, H1, H2. split; [reflexivity|]. split; constructor; auto; rewrite H2; assumption.
  - apply parsed_ok in P. destruct P as [P1 P2]. cbn [map]. rewrite I1, H1, H2. split; [reflexivity|].
    split; constructor; auto; rewrite H2; cbn [with_value p_value p_type]; intros w [= <-]; [exact P1|]. apply P2. intros J. apply Z. exact (M _ _ I _ J).
Qed.
Lemma text_to_root disk base fmt t ps : (forall name, disk name = true) -> read_stream base t = Ok ps -> ~ In (ascii_of_nat 0) t ->
  NoDup (map fst base) -> well_typed base -> Forall (fun q => forall v, p_value (snd q) = Some v -> storable v) base -> same_shape fmt base ->
  exists d r, write_params disk ps [] = (true, d) /\ read_params fmt d = PRead r /\ carries fmt ps r.
Proof.
  intros D R Z N T S F. destruct (stored_text _ _ _ R Z T S) as (H1 & H2 & H3). apply root_round; auto.
  - rewrite (shape_names _ _ H1). exact N.
  - unfold same_shape in *. rewrite F, H1. reflexivity.
Qed.

(** * When writing and reading fail *)
Lemma writes_iff disk ps d : fst (write_params disk ps d) = true <-> forall name p, In (name, p) ps -> p_value p <> None -> disk name = true.
Proof.
  revert d. induction ps as [|[n p] ps IH]; intros d; cbn [write_params]; [split; [contradiction|reflexivity]|].
  assert (W : (forall d', fst (write_params disk ps d') = true <-> forall name p, In (name, p) ps -> p_value p <> None -> disk name = true)) by (intros d'; apply IH).
  destruct (p_value p) as [v|] eqn:V.
  - destruct (disk n) eqn:D.
    + rewrite W. split; intros H name q; [intros [[= <- <-]|I]; [auto|eauto]|]. intros I. apply (H name q). right; exact I.
    + split; [discriminate|]. intros H. exfalso. specialize (H n p (or_introl eq_refl)). rewrite V in H. rewrite H in D; discriminate.
  - rewrite W. split; intros H name q; [intros [[= <- <-]|I]; [congruence|eauto]|]. intros I. apply (H name q). right; exact I.
Qed.
Lemma rc_none n : rc_of n = None <-> ~ (0 <= n < 3)%Z.
Proof. destruct n as [|[[?|?|]|[?|?|]|]|?]; cbn; split; intros H; try discriminate; try lia; reflexivity. Qed.
Lemma nucleus_none n : nucleus_of n = None <-> ~ (0 <= n < 3)%Z.
Proof. destruct n as [|[[?|?|]|[?|?|]|]|?]; cbn; split; intros H; try discriminate; try lia; reflexivity. Qed.
Lemma lepton_none n : lepton_of n = None <-> ~ (0 <= n < 3)%Z.
Proof. destruct n as [|[[?|?|]|[?|?|]|]|?]; cbn; split; intros H; try discriminate; try lia; reflexivity. Qed.
Lemma hadron_none n : hadron_of n = None <-> ~ (0 <= n < 6)%Z.
Proof. destruct n as [|[[?|[?|?|]|]|[[?|?|]|[?|?|]|]|]|?]; cbn; split; intros H; try discriminate; try lia; reflexivity. Qed.
Lemma from_cases t o :
  match from_root t o with
  | RAbsent | RValue _ => forall x, o = Some x -> ~ malformed t x /\ ~ unknown_name t x
  | RThrow => exists x, o = Some x /\ malformed t x
  | RUnnamed => exists x, o = Some x /\ unknown_name t x
  end.
Proof.
  destruct o as [x|]; [|destruct t; cbn; discriminate].
  destruct t; destruct x as [|z|z| |l|l| |]; cbn [from_root]; try (intros y [= <-]; cbn; tauto).
  all: try (match goal with |- context [named _ (?g ?m)] => destruct (g m) eqn:G; cbn [named]; [intros y [= <-]|eexists; split; [reflexivity|]]; cbn [malformed unknown_name];
    first [rewrite <- rc_none, G|rewrite <- nucleus_none, G|rewrite <- lepton_none, G|rewrite <- hadron_none, G]; try reflexivity; split; [tauto|discriminate] end).
  - destruct l as [|a [|b [|c l]]]; try (eexists; split; [reflexivity|cbn; discriminate]). intros y [= <-]. cbn. split; [intros H; apply H; reflexivity|tauto].
  - destruct l as [|a [|b [|c [|e l]]]]; try (eexists; split; [reflexivity|cbn; discriminate]). intros y [= <-]. cbn. split; [intros H; apply H; reflexivity|tauto].
  - destruct l as [|a [|b [|c l]]]; try (eexists; split; [reflexivity|cbn; intros (lo & hi & E & _); discriminate]).
    destruct (eleb a b) eqn:E; [intros y [= <-]; cbn; split; [intros H; apply H; eauto|tauto]|].
    eexists. split; [reflexivity|]. cbn. intros (lo & hi & [= <- <-] & E'). congruence.
Qed.
Lemma reads_iff fmt d : (exists r, read_params fmt d = PRead r) <->
  forall name p o, In (name, p) fmt -> get_obj d name = Some o -> ~ malformed (p_type p) o /\ ~ unknown_name (p_type p) o.
Proof.
  induction fmt as [|[n p] fmt IH]; cbn [read_params]; [split; [contradiction|eauto]|].
  pose proof (from_cases (p_type p) (get_obj d n)) as C. destruct (from_root (p_type p) (get_obj d n)) as [|v| |].
  1,2: (split;
    [intros [r H]; destruct (read_params fmt d) as [r'| |]; try discriminate; intros name q o [[= <- <-]|I] G; [apply C; exact G|exact (proj1 IH (ex_intro _ r' eq_refl) name q o I G)]
    |intros H; destruct (proj2 IH) as [r ->]; [intros name q o I; apply (H name q o); right; exact I|eauto]]).
  - destruct C as (x & G & M). split; [intros [r H]; discriminate|]. intros H. destruct (H n p x (or_introl eq_refl) G). contradiction.
  - destruct C as (x & G & M). split; [intros [r H]; discriminate|]. intros H. destruct (H n p x (or_introl eq_refl) G). contradiction.
Qed.
Lemma throws fmt d : read_params fmt d = PThrow -> exists name p o, In (name, p) fmt /\ get_obj d name = Some o /\ malformed (p_type p) o.
Proof.
  induction fmt as [|[n p] fmt IH]; cbn [read_params]; [discriminate|].
  pose proof (from_cases (p_type p) (get_obj d n)) as C. destruct (from_root (p_type p) (get_obj d n)) as [|v| |].
  1,2: (destruct (read_params fmt d) as [r'| |]; try discriminate; intros _; destruct (IH eq_refl) as (name & q & o & I & G & M); exists name, q, o; cbn; auto).
  - intros _. destruct C as (x & G & M). exists n, p, x. cbn. auto.
  - discriminate.
Qed.

(** * Statistics *)
Lemma rnd_int n : (Z.abs n <= 2 ^ 53)%Z -> rnd (IZR n) = IZR n.
Proof.
  intros H. unfold rnd. apply round_generic; [apply valid_rnd_N|]. apply generic_format_FLT.
  destruct (Z.eq_dec (Z.abs n) (2 ^ 53)) as [E|E].
  - exists (Float radix2 (Z.sgn n) 53); cbn [Fnum Fexp].
    + unfold F2R. cbn [Fnum Fexp]. change (bpow radix2 53) with (IZR (2 ^ 53)). rewrite <- mult_IZR, <- E. f_equal. pose proof (Z.abs_sgn n). lia.
    + change (Zpower radix2 53) with (2 ^ 53)%Z. destruct n; cbn; lia.
    + lia.
  - exists (Float radix2 n 0); cbn [Fnum Fexp].
    + unfold F2R. cbn. ring.
    + change (Zpower radix2 53) with (2 ^ 53)%Z. lia.
    + lia.
Qed.
Lemma count_back n : exact_count n -> to_size (to_double n) = Some n.
Proof.
  intros [H1 H2]. unfold to_double, to_size. rewrite rnd_int by lia. rewrite Ztrunc_IZR.
  rewrite (proj2 (Z.leb_le 0 n)) by lia. rewrite (proj2 (Z.ltb_lt n (2 ^ 64))) by lia. reflexivity.
Qed.
Lemma rnd_rel x : (bpow radix2 (-1022) <= Rabs x)%R -> exists e, (Rabs e <= bpow radix2 (-53))%R /\ rnd x = (x * (1 + e))%R.
Proof.
  intros H. destruct (relative_error_N_FLT_ex radix2 (-1074) 53 ltac:(lia) (fun z => negb (Z.even z)) x H) as (e & E1 & E2).
  exists e. split; [|exact E2]. replace (bpow radix2 (-53)) with (/ 2 * bpow radix2 (-53 + 1))%R; [exact E1|].
  rewrite bpow_plus. change (bpow radix2 1) with 2%R. lra.
Qed.
Lemma recip_near r : (powerRZ 2 (-1000) <= Rabs r <= powerRZ 2 1000)%R ->
  exists p r', recip (Fin r) = Fin p /\ recip (Fin p) = Fin r' /\ (Rabs (r' - r) <= powerRZ 2 (-51) * Rabs r)%R.
Proof.
  rewrite <- !bpow2. intros [L U].
  assert (P : (0 < Rabs r)%R) by (eapply Rlt_le_trans; [apply (bpow_gt_0 radix2 (-1000))|exact L]).
  assert (R0 : r <> 0%R) by (intros ->; rewrite Rabs_R0 in P; lra).
  assert (I1 : (bpow radix2 (-1000) <= Rabs (1 / r) <= bpow radix2 1000)%R).
  { unfold Rdiv. rewrite Rmult_1_l, Rabs_inv. change (-1000)%Z with (- (1000))%Z at 1. rewrite bpow_opp.
    replace (bpow radix2 1000) with (/ bpow radix2 (-1000))%R at 2 by (rewrite <- bpow_opp; reflexivity).
    split; apply Rinv_le; auto. apply bpow_gt_0. }
  assert (B : (0 < bpow radix2 (-53) <= / 1024)%R).
  { split; [apply bpow_gt_0|]. change (/ 1024)%R with (bpow radix2 (-10)). apply bpow_le. lia. }
  destruct (rnd_rel (1 / r)) as (e & E1 & E2).
  { apply Rle_trans with (2 := proj1 I1). apply bpow_le. lia. }
  assert (NE : (- / 1024 <= e <= / 1024)%R) by (apply Rabs_le_inv; lra).
  set (p := rnd (1 / r)) in *.
  assert (P0 : p <> 0%R).
  { rewrite E2. apply Rmult_integral_contrapositive_currified; [|lra]. unfold Rdiv. rewrite Rmult_1_l. apply Rinv_neq_0_compat. exact R0. }
  assert (AP : (bpow radix2 (-1001) <= Rabs p <= bpow radix2 1001)%R).
  { rewrite E2, Rabs_mult. rewrite (Rabs_pos_eq (1 + e)) by lra.
    assert (T1 : (bpow radix2 (-1000) = 2 * bpow radix2 (-1001))%R) by (change (-1000)%Z with (1 + -1001)%Z; rewrite bpow_plus; reflexivity).
    assert (T2 : (bpow radix2 1001 = 2 * bpow radix2 1000)%R) by (change 1001%Z with (1 + 1000)%Z; rewrite bpow_plus; reflexivity).
    pose proof (bpow_gt_0 radix2 (-1001)). pose proof (bpow_gt_0 radix2 1000). pose proof (Rabs_pos (1 / r)).
    rewrite T1 in I1. rewrite T2. split; nra. }
  assert (I2 : (bpow radix2 (-1001) <= Rabs (1 / p) <= bpow radix2 1001)%R).
  { assert (0 < Rabs p)%R by (apply Rabs_pos_lt, P0).
    unfold Rdiv. rewrite Rmult_1_l, Rabs_inv. change (-1001)%Z with (- (1001))%Z at 1. rewrite bpow_opp.
    replace (bpow radix2 1001) with (/ bpow radix2 (-1001))%R at 2 by (rewrite <- bpow_opp; reflexivity).
    split; apply Rinv_le; try tauto. apply bpow_gt_0. }
  destruct (rnd_rel (1 / p)) as (f & F1 & F2).
  { apply Rle_trans with (2 := proj1 I2). apply bpow_le. lia. }
  assert (NF : (- / 1024 <= f <= / 1024)%R) by (apply Rabs_le_inv; lra).
  set (q := rnd (1 / p)) in *.
  assert (Q : q = (r * ((1 + f) / (1 + e)))%R).
  { rewrite F2, E2. field. split; [lra|exact R0]. }
  assert (W : forall x, (Rabs x <= bpow radix2 1023)%R -> rltb (Rabs x) (bpow radix2 1024) = true).
  { intros x X. apply rltb_spec. apply Rle_lt_trans with (1 := X). apply bpow_lt. lia. }
  exists p, q. cbn [recip]. fold p q.
  rewrite (proj2 (reqb_false r 0) R0), (proj2 (reqb_false p 0) P0). rewrite !W; [split; [reflexivity|]; split; [reflexivity|]|..].
  - rewrite Q. replace (r * ((1 + f) / (1 + e)) - r)%R with (r * ((f - e) / (1 + e)))%R by (field; lra). rewrite Rabs_mult, Rmult_comm.
    apply Rmult_le_compat_r; [lra|]. unfold Rdiv. rewrite Rabs_mult, Rabs_inv. rewrite (Rabs_pos_eq (1 + e)) by lra.
    assert (T : (bpow radix2 (-51) = 4 * bpow radix2 (-53))%R) by (change (-51)%Z with (2 + -53)%Z; rewrite bpow_plus; reflexivity).
    assert (D : (Rabs (f - e) <= 2 * bpow radix2 (-53))%R).
    { apply Rabs_le. apply Rabs_le_inv in E1, F1. lra. }
    apply Rmult_le_reg_r with (1 + e)%R; [lra|]. rewrite Rmult_assoc, Rinv_l, Rmult_1_r by lra. rewrite T. nra.
  - rewrite F2, Rabs_mult, (Rabs_pos_eq (1 + f)) by lra. assert (T : (bpow radix2 1023 = 4 * bpow radix2 1001 * bpow radix2 20)%R).
    { change 4%R with (bpow radix2 2). rewrite <- !bpow_plus. reflexivity. }
    rewrite T. assert (1 <= bpow radix2 20)%R by (change 1%R with (bpow radix2 0); apply bpow_le; lia). pose proof (bpow_gt_0 radix2 1001). pose proof (Rabs_pos (1 / p)). nra.
  - apply Rle_trans with (1 := proj2 AP). apply bpow_le. lia.
Qed.
Lemma prime_back x : ordinary x -> near (powerRZ 2 (-51)) x (recip (recip x)).
Proof.
  intros [->|(r & -> & H)]; [exact I|]. destruct (recip_near r H) as (p & q & E1 & E2 & E3). rewrite E1, E2. exact E3.
Qed.
Lemma integs_back total a b : ordinary_integ a -> ordinary_integ b ->
  exists a' b', read_integs (write_integs total [a; b]) = SRead [a'; b'] /\ same_integ a a' /\ same_integ b b'.
Proof.
  intros (A1 & A2 & A3 & A4) (B1 & B2 & B3 & B4).
  assert (E : forall x y, exact_count x -> exact_count y -> forall p m1 m2 m3 m4 mx,
    match to_size (to_double x), to_size (to_double y) with Some n, Some c => Some (ginteg_of (recip p) c (WStats m1 m2 m3 m4 mx n)) | _, _ => None end = Some (ginteg_of (recip p) y (WStats m1 m2 m3 m4 mx x))).
  { intros. rewrite !count_back by assumption. reflexivity. }
  exists (ginteg_of (recip (g_prime a)) (g_count_acc a) (WStats (w_m1 (g_weights a)) (w_m2 (g_weights a)) (w_m3 (g_weights a)) (w_m4 (g_weights a)) (w_max (g_weights a)) (g_count a))),
    (ginteg_of (recip (g_prime b)) (g_count_acc b) (WStats (w_m1 (g_weights b)) (w_m2 (g_weights b)) (w_m3 (g_weights b)) (w_m4 (g_weights b)) (w_max (g_weights b)) (g_count b))).
  split.
  - unfold read_integs, write_integs, get_array. cbn [get_obj String.eqb Ascii.eqb Bool.eqb map flat_map moments app length Nat.eqb num_event_types Nat.mul Nat.add seq all_some].
    unfold read_integ. cbn [nth_error Nat.mul Nat.add]. rewrite !E by assumption. reflexivity.
  - unfold same_integ, g_prime. cbn [ginteg_of g_count g_count_acc g_weights g_prime_inv w_count].
    split; (split; [reflexivity|]; split; [reflexivity|]; split; [|apply prime_back; assumption]).
    + rewrite A4. destruct (g_weights a); reflexivity.
    + rewrite B4. destruct (g_weights b); reflexivity.
Qed.
Lemma get_array_some d name n l : get_array d name n = Some l <-> get_obj d name = Some (OArrayD l) /\ length l = n.
Proof.
  unfold get_array. destruct (get_obj d name) as [[]|]; try (split; [discriminate|intros [[=] _]]).
  destruct (Nat.eqb_spec (length l0) n) as [E|E].
  - split; [intros [= <-]; auto|]. intros [[= <-] _]. reflexivity.
  - split; [discriminate|]. intros [[= <-] H]. contradiction.
Qed.
Lemma nth_some {A} (l : list A) i : (i < length l)%nat -> exists x, nth_error l i = Some x.
Proof. intros H. destruct (nth_error l i) eqn:E; [eauto|]. apply nth_error_None in E. lia. Qed.
Lemma complete_iff d : stats_complete d <-> read_integs d <> SThrow.
Proof.
  unfold stats_complete, read_integs, stats_arrays. cbv zeta. change (S num_event_types) with 3%nat. change (4 * 3)%nat with 12%nat. split.
  - intros H.
    assert (G : forall name n, In (name, n) stats_arrays -> exists l, get_array d name n = Some l).
    { intros name n I. destruct (H name n I) as (l & E & L). exists l. apply get_array_some. auto. }
    destruct (G "prime"%string 3%nat ltac:(unfold stats_arrays; cbn; tauto)) as (l1 & ->).
    destruct (G "weight_mom"%string 12%nat ltac:(unfold stats_arrays; cbn; tauto)) as (l2 & ->).
    destruct (G "weight_max"%string 3%nat ltac:(unfold stats_arrays; cbn; tauto)) as (l3 & ->).
    destruct (G "num_events"%string 3%nat ltac:(unfold stats_arrays; cbn; tauto)) as (l4 & ->).
    destruct (G "num_events_acc"%string 3%nat ltac:(unfold stats_arrays; cbn; tauto)) as (l5 & ->).
    destruct (G "norm"%string 3%nat ltac:(unfold stats_arrays; cbn; tauto)) as (l6 & ->).
    destruct (all_some _); discriminate.
  - intros H name size I.
    destruct (get_array d "prime" 3) as [l1|] eqn:E1; [|contradiction]. destruct (get_array d "weight_mom" 12) as [l2|] eqn:E2; [|contradiction].
    destruct (get_array d "weight_max" 3) as [l3|] eqn:E3; [|contradiction]. destruct (get_array d "num_events" 3) as [l4|] eqn:E4; [|contradiction].
    destruct (get_array d "num_events_acc" 3) as [l5|] eqn:E5; [|contradiction]. destruct (get_array d "norm" 3) as [l6|] eqn:E6; [|contradiction].
    clear H. apply get_array_some in E1, E2, E3, E4, E5, E6.
    repeat (destruct I as [I|I]; [injection I as <- <-; eauto|]). destruct I.
Qed.
(** In a complete file only a count that is no std::size_t can go wrong: every index is in range. *)
Lemma complete_counts d : stats_complete d -> (forall name l x, In name ["num_events"; "num_events_acc"]%string -> get_obj d name = Some (OArrayD l) -> In x l -> to_size x <> None) ->
  exists a b, read_integs d = SRead [a; b].
Proof.
  intros C H. assert (G : forall name n, In (name, n) stats_arrays -> exists l, get_array d name n = Some l).
  { intros name n I. destruct (C name n I) as (l & E & L). exists l. apply get_array_some. auto. }
  unfold read_integs. cbv zeta. change (S num_event_types) with 3%nat. change (4 * 3)%nat with 12%nat.
  destruct (G "prime"%string 3%nat ltac:(unfold stats_arrays; cbn; tauto)) as (l1 & E1).
  destruct (G "weight_mom"%string 12%nat ltac:(unfold stats_arrays; cbn; tauto)) as (l2 & E2).
  destruct (G "weight_max"%string 3%nat ltac:(unfold stats_arrays; cbn; tauto)) as (l3 & E3).
  destruct (G "num_events"%string 3%nat ltac:(unfold stats_arrays; cbn; tauto)) as (l4 & E4).
  destruct (G "num_events_acc"%string 3%nat ltac:(unfold stats_arrays; cbn; tauto)) as (l5 & E5).
  destruct (G "norm"%string 3%nat ltac:(unfold stats_arrays; cbn; tauto)) as (l6 & E6).
  rewrite E1, E2, E3, E4, E5, E6. apply get_array_some in E1, E2, E3, E4, E5, E6.
  assert (R : forall i, (1 <= i <= 2)%nat -> exists g, read_integ l1 l2 l3 l4 l5 i = Some g).
  { intros i I. unfold read_integ.
    destruct (nth_some l2 (4 * i + 0) ltac:(lia)) as (? & ->). destruct (nth_some l2 (4 * i + 1) ltac:(lia)) as (? & ->).
    destruct (nth_some l2 (4 * i + 2) ltac:(lia)) as (? & ->). destruct (nth_some l2 (4 * i + 3) ltac:(lia)) as (? & ->).
    destruct (nth_some l3 i ltac:(lia)) as (? & ->). destruct (nth_some l4 i ltac:(lia)) as (n & N). destruct (nth_some l1 i ltac:(lia)) as (? & ->).
    destruct (nth_some l5 i ltac:(lia)) as (c & A). rewrite N, A. apply nth_error_In in N, A.
    pose proof (H "num_events"%string l4 n ltac:(cbn; tauto) (proj1 E4) N) as H1. pose proof (H "num_events_acc"%string l5 c ltac:(cbn; tauto) (proj1 E5) A) as H2.
    destruct (to_size n); [|contradiction]. destruct (to_size c); [|contradiction]. eauto. }
  destruct (R 1%nat ltac:(lia)) as (a & A). destruct (R 2%nat ltac:(lia)) as (b & B). exists a, b.
  change (seq 1 num_event_types) with [1; 2]%nat. cbn [map all_some]. rewrite A, B. reflexivity.
Qed.
Lemma big_count : to_size (to_double (2 ^ 53 + 1)) = Some (2 ^ 53)%Z.
Proof.
  unfold to_double. replace (rnd (IZR (2 ^ 53 + 1))) with (IZR (2 ^ 53)).
  - unfold to_size. rewrite Ztrunc_IZR. reflexivity.
  - symmetry. unfold rnd. rewrite round_FLT_FLX.
    2: { rewrite Rabs_pos_eq by (apply IZR_le; lia). change (bpow radix2 (-1074 + 53 - 1)) with (bpow radix2 (-1022)). apply Rle_trans with (bpow radix2 0); [apply bpow_le; lia|]. change (bpow radix2 0) with (IZR 1). apply IZR_le. lia. }
    unfold round, scaled_mantissa, cexp.
    assert (M : mag radix2 (IZR (2 ^ 53 + 1)) = 54%Z :> Z).
    { apply mag_unique. rewrite Rabs_pos_eq by (apply IZR_le; lia). change (bpow radix2 (54 - 1)) with (IZR (2 ^ 53)). change (bpow radix2 54) with (IZR (2 ^ 54)).
      split; [apply IZR_le|apply IZR_lt]; lia. }
    rewrite M. change (FLX_exp 53 54) with 1%Z. change (bpow radix2 (- (1))) with (/ 2)%R. unfold F2R. cbn [Fnum Fexp]. change (bpow radix2 1) with 2%R.
    assert (V : IZR (2 ^ 53 + 1) = (2 * IZR (2 ^ 52) + 1)%R) by (change (2 ^ 53 + 1)%Z with (2 * 2 ^ 52 + 1)%Z; rewrite plus_IZR, mult_IZR; reflexivity).
    assert (Z : ZnearestE (IZR (2 ^ 53 + 1) * / 2) = (2 ^ 52)%Z).
    { assert (FL : Zfloor (IZR (2 ^ 53 + 1) * / 2) = (2 ^ 52)%Z) by (apply Zfloor_imp; rewrite V, plus_IZR; split; lra).
      unfold Znearest. rewrite FL. rewrite Rcompare_Eq; [reflexivity|]. rewrite V. lra. }
    rewrite Z. change (2 ^ 53)%Z with (2 ^ 52 * 2)%Z. rewrite mult_IZR. reflexivity.
Qed.
