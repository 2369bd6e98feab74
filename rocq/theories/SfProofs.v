(** Proofs for C42-C45. *)
From Coq Require Import Reals String Ascii List Bool PeanoNat Lia DecimalString.
From Verif Require Import SfModel SfSpec.
Import ListNotations.
Local Open Scope string_scope.

Ltac nodup := repeat constructor; cbn; intuition discriminate.
Ltac exact_fields :=
  unfold holds_exactly; split; [cbn; nodup|split];
  [intros n; destruct n; cbn; intuition (try discriminate; auto 30)
  |intros n v H; cbn in H;
   repeat match goal with H : _ \/ _ |- _ => destruct H as [H|H] end;
   try contradiction; inversion H; reflexivity].

Section Get.
Context {Pt : Type} (s : sf_set Pt) (p : Pt).
Lemma base_uu_ok : holds_exactly s p (pol bu tu) (fields_base_uu (sf_base_uu s p)). Proof. exact_fields. Qed.
Lemma base_ul_ok : holds_exactly s p (pol bu tl) (fields_base_ul (sf_base_ul s p)). Proof. exact_fields. Qed.
Lemma base_ut_ok : holds_exactly s p (pol bu tt') (fields_base_ut (sf_base_ut s p)). Proof. exact_fields. Qed.
Lemma base_up_ok : holds_exactly s p (pol bu tlt) (fields_base_up (sf_base_up s p)). Proof. exact_fields. Qed.
Lemma base_lu_ok : holds_exactly s p (pol bl tu) (fields_base_lu (sf_base_lu s p)). Proof. exact_fields. Qed.
Lemma base_ll_ok : holds_exactly s p (pol bl tl) (fields_base_ll (sf_base_ll s p)). Proof. exact_fields. Qed.
Lemma base_lt_ok : holds_exactly s p (pol bl tt') (fields_base_lt (sf_base_lt s p)). Proof. exact_fields. Qed.
Lemma base_lp_ok : holds_exactly s p (pol bl tlt) (fields_base_lp (sf_base_lp s p)). Proof. exact_fields. Qed.
Lemma sf_uu_ok : holds_exactly s p (pol bu tu) (fields_uu (sf_uu s p)). Proof. exact_fields. Qed.
Lemma sf_ul_ok : holds_exactly s p (pol bu tul) (fields_ul (sf_ul s p)). Proof. exact_fields. Qed.
Lemma sf_ut_ok : holds_exactly s p (pol bu tut) (fields_ut (sf_ut s p)). Proof. exact_fields. Qed.
Lemma sf_up_ok : holds_exactly s p (pol bu tany) (fields_up (sf_up s p)). Proof. exact_fields. Qed.
Lemma sf_lu_ok : holds_exactly s p (pol bany tu) (fields_lu (sf_lu s p)). Proof. exact_fields. Qed.
Lemma sf_ll_ok : holds_exactly s p (pol bany tul) (fields_ll (sf_ll s p)). Proof. exact_fields. Qed.
Lemma sf_lt_ok : holds_exactly s p (pol bany tut) (fields_lt (sf_lt s p)). Proof. exact_fields. Qed.
Lemma sf_lp_ok : holds_exactly s p (pol bany tany) (fields_lp (sf_lp s p)). Proof. exact_fields. Qed.
End Get.

(** * Filter words *)
Lemma mask_idx_lt n : (mask_idx n < NUM_SF)%nat.
Proof. unfold NUM_SF; destruct n; cbn; lia. Qed.

Definition mask_means (m : list bool) (f : sf_name -> bool) : Prop :=
  length m = NUM_SF /\ forall n, nth (mask_idx n) m false = f n.

Lemma zip_and_length a b : length a = length b -> length (zip_and a b) = length a.
Proof. revert b; induction a; destruct b; cbn; intros; auto; try discriminate. Qed.
Lemma zip_and_nth a b i : length a = length b -> nth i (zip_and a b) false = nth i a false && nth i b false.
Proof.
  revert b i; induction a; destruct b; cbn; intros i H; try discriminate; destruct i; auto.
Qed.
Lemma zip_and_means a b f g : mask_means a f -> mask_means b g -> mask_means (zip_and a b) (fun n => f n && g n).
Proof.
  intros [La Ha] [Lb Hb]. split.
  - rewrite zip_and_length; congruence.
  - intros n. rewrite zip_and_nth by congruence. now rewrite Ha, Hb.
Qed.

Ltac means := split; [reflexivity|intros n; destruct n; reflexivity].

Lemma eqb_subst w v : String.eqb w v = true -> w = v.
Proof. apply String.eqb_eq. Qed.

(** The chain of string tests agrees with the letters. *)
Lemma filter_word_mask w m : filter_word w = WMask m -> exists f, word_keeps w = Some f /\ mask_means m f.
Proof.
  unfold filter_word.
  repeat match goal with
  | |- (if String.eqb w ?v then _ else _) = _ -> _ =>
      destruct (String.eqb w v) eqn:?E;
      [apply eqb_subst in E; subst w; intros HH; inversion HH; subst m; eexists; split; [reflexivity|means]|clear E]
  end.
  destruct (basic_select_match w); discriminate.
Qed.

(** Words of two letters. *)
Lemma letter_b c f : beam_letter c = Some f -> c = "u"%char \/ c = "l"%char \/ c = "x"%char.
Proof.
  unfold beam_letter.
  destruct (Ascii.eqb c "u") eqn:E1; [apply Ascii.eqb_eq in E1; auto|].
  destruct (Ascii.eqb c "l") eqn:E2; [apply Ascii.eqb_eq in E2; auto|].
  destruct (Ascii.eqb c "x") eqn:E3; [apply Ascii.eqb_eq in E3; auto|]. discriminate.
Qed.
Lemma letter_t c f : tgt_letter c = Some f ->
  c = "u"%char \/ c = "l"%char \/ c = "t"%char \/ c = "p"%char \/ c = "x"%char.
Proof.
  unfold tgt_letter.
  destruct (Ascii.eqb c "u") eqn:E1; [apply Ascii.eqb_eq in E1; auto|].
  destruct (Ascii.eqb c "l") eqn:E2; [apply Ascii.eqb_eq in E2; auto|].
  destruct (Ascii.eqb c "t") eqn:E3; [apply Ascii.eqb_eq in E3; auto|].
  destruct (Ascii.eqb c "p") eqn:E4; [apply Ascii.eqb_eq in E4; auto 6|].
  destruct (Ascii.eqb c "x") eqn:E5; [apply Ascii.eqb_eq in E5; auto 6|]. discriminate.
Qed.
Lemma word_keeps_mask w f : word_keeps w = Some f -> exists m, filter_word w = WMask m.
Proof.
  intros H.
  assert (K : w = "leading" \/ w = "subleading" \/
    exists b t, w = String b (String t "") /\ exists fb ft, beam_letter b = Some fb /\ tgt_letter t = Some ft).
  { unfold word_keeps in H.
    destruct w as [|b [|t [|c w]]].
    - discriminate.
    - assert (E : (String b "" =? "leading") = false /\ (String b "" =? "subleading") = false).
      { split; cbn; destruct (Ascii.eqb _ _); reflexivity. }
      destruct E as [E1 E2]; rewrite E1, E2 in H; discriminate.
    - right; right. exists b, t; split; [reflexivity|].
      destruct (beam_letter b) as [fb|]; [|discriminate].
      destruct (tgt_letter t) as [ft|]; [|discriminate]. eauto.
    - destruct (String.eqb _ "leading") eqn:E; [apply eqb_subst in E; auto|].
      destruct (String.eqb _ "subleading") eqn:E2; [apply eqb_subst in E2; auto|discriminate]. }
  destruct K as [->|[->|(b & t & -> & fb & ft & Hb & Ht)]]; [eexists; reflexivity..|].
  apply letter_b in Hb. apply letter_t in Ht.
  destruct Hb as [->|[->| ->]]; destruct Ht as [->|[->|[->|[->| ->]]]]; eexists; reflexivity.
Qed.

Lemma loop_ok ws mask g : mask_means mask g -> Forall meaningful ws ->
  exists m f, filter_loop ws mask = AOk m /\ mask_means m f /\
    forall n, f n = true <-> (g n = true /\ kept_by ws n).
Proof.
  revert mask g; induction ws as [|w ws IH]; intros mask g Hm Hw.
  - exists mask, g; split; [reflexivity|split; [exact Hm|]]. intros n; split; [|tauto].
    intros H; split; [exact H|]. intros ? ? [].
  - inversion Hw as [|? ? H1 H2]; subst. unfold meaningful in H1.
    destruct (word_keeps w) as [fw|] eqn:E; [|congruence].
    destruct (word_keeps_mask _ _ E) as [m0 Em]. cbn [filter_loop]. rewrite Em.
    destruct (filter_word_mask _ _ Em) as (f' & Ef' & Mm). rewrite E in Ef'; injection Ef' as <-.
    destruct (IH _ _ (zip_and_means _ _ _ _ Hm Mm) H2) as (m & f & A & B & C).
    exists m, f; split; [exact A|split; [exact B|]]. intros n. rewrite C, andb_true_iff. unfold kept_by. split.
    + intros [[G F] K]; split; [exact G|]. intros v h [<-|Hv] Ev; [congruence|eauto].
    + intros [G K]; split; [split; [exact G|]|].
      * apply (K w fw); [now left|exact E].
      * intros v h Hv; apply K; now right.
Qed.
Lemma full_means : mask_means (repeat true NUM_SF) (fun _ => true).
Proof. means. Qed.
Lemma kept_rev ws n : kept_by (rev ws) n <-> kept_by ws n.
Proof.
  unfold kept_by; split; intros H w f Hw; apply H.
  - rewrite <- in_rev; exact Hw.
  - rewrite in_rev; exact Hw.
Qed.

Lemma all_kept_mask m f : mask_means m f -> forallb (fun b => b) m = true -> forall n, f n = true.
Proof.
  intros [L H] A n. rewrite <- H. rewrite forallb_forall in A. apply A, nth_In. rewrite L. apply mask_idx_lt.
Qed.

Lemma apply_filters_ok {Pt} ws (base : sf_set Pt) : Forall meaningful ws ->
  exists r, apply_filters ws base = AOk r /\ restricts ws base r.
Proof.
  intros Hw. unfold apply_filters.
  destruct (loop_ok (rev ws) _ _ full_means) as (m & f & -> & M & K).
  { apply Forall_rev; exact Hw. }
  assert (K' : forall n, f n = true <-> kept_by ws n).
  { intros n. rewrite K, kept_rev. tauto. }
  destruct (forallb _ m) eqn:E.
  - eexists; split; [reflexivity|]. intros n p. split; [auto|].
    intros H; exfalso; apply H. apply K'. eapply all_kept_mask; eauto.
  - eexists; split; [reflexivity|]. intros n p. destruct M as [_ M]. unfold mask_sf_set. rewrite M. split; intros H.
    + apply K' in H. now rewrite H.
    + destruct (f n) eqn:F; [|reflexivity]. exfalso; apply H, K', F.
Qed.

Lemma restricts_unique {Pt} ws vs (base r r' : sf_set Pt) :
  (forall w, In w ws <-> In w vs) -> restricts ws base r -> restricts vs base r' -> forall n p, r n p = r' n p.
Proof.
  intros Hs H1 H2 n p.
  assert (E : kept_by ws n <-> kept_by vs n).
  { unfold kept_by; split; intros H w f Hw; apply H; apply Hs; exact Hw. }
  destruct (H1 n p) as [A B], (H2 n p) as [C D].
  destruct (Classical_Prop.classic (kept_by ws n)) as [K|K].
  - rewrite A, C; tauto.
  - rewrite B, D; tauto.
Qed.

Lemma filter_loop_bad ws mask : ~ Forall meaningful ws ->
  filter_loop ws mask = AForeign \/ exists w, In w ws /\ ~ meaningful w /\
    filter_loop ws mask = AThrow "unrecognized filter" w.
Proof.
  revert mask; induction ws as [|w ws IH]; intros mask H; [exfalso; apply H; constructor|].
  cbn [filter_loop]. destruct (filter_word w) as [m| | |] eqn:E.
  - destruct (filter_word_mask _ _ E) as (f & Ef & _).
    assert (Hm : meaningful w) by (unfold meaningful; rewrite Ef; discriminate).
    destruct (IH (zip_and mask m)) as [A|(v & Hv & Nv & A)].
    + intros K; apply H; now constructor.
    + now left.
    + right; exists v; split; [now right|auto].
  - exfalso. revert E. unfold filter_word.
    repeat match goal with |- (if ?b then _ else _) = _ -> _ => destruct b; [discriminate|] end. discriminate.
  - right. exists w; split; [now left|split; [|reflexivity]]. unfold meaningful. intros Hk.
    destruct (word_keeps w) as [f|] eqn:Ek; [|congruence].
    destruct (word_keeps_mask _ _ Ek) as [m Em]; congruence.
  - now left.
Qed.
Lemma apply_filters_bad {Pt} ws (base : sf_set Pt) : ~ Forall meaningful ws ->
  apply_filters ws base = AForeign \/ exists w, In w ws /\ ~ meaningful w /\
    apply_filters ws base = AThrow "unrecognized filter" w.
Proof.
  intros H. unfold apply_filters.
  destruct (filter_loop_bad (rev ws) (repeat true NUM_SF)) as [E|(w & Hw & Nw & E)].
  - intros K; apply H. rewrite <- (rev_involutive ws). apply Forall_rev; exact K.
  - left. now rewrite E.
  - right. exists w. rewrite E. split; [apply in_rev; exact Hw|auto].
Qed.

Lemma leading_partition n :
  nth (mask_idx n) MASK_LEADING false = negb (nth (mask_idx n) MASK_SUBLEADING false).
Proof. destruct n; reflexivity. Qed.

(** Getters of a masked set. *)
Lemma alloc_words {Pt} (prok test : sf_set Pt) load ws b base :
  (b = "prokudin" /\ base = prok \/ b = "test" /\ base = test) ->
  Forall meaningful ws ->
  exists r, alloc_sf prok test load (ws ++ [b]) = AOk r /\ restricts ws base r.
Proof.
  intros Hb Hw. unfold alloc_sf. rewrite rev_app_distr. cbn [rev app]. rewrite rev_involutive.
  destruct (apply_filters_ok ws base Hw) as (r & E & Hr).
  exists r; split; [|exact Hr]. destruct Hb as [[-> ->]|[-> ->]]; cbn; exact E.
Qed.

(** * selectN *)
Lemma decimal_head d : forall c s, NilEmpty.string_of_uint d = String c s -> c <> "("%char.
Proof. destruct d; cbn; intros c s H; inversion H; discriminate. Qed.
Lemma select_unrecognized n : filter_word (select_word n) = WUnrecognized.
Proof.
  unfold select_word, decimal. pose proof (decimal_head (Nat.to_uint n)) as H.
  destruct (NilEmpty.string_of_uint (Nat.to_uint n)) as [|c s]; [reflexivity|].
  specialize (H c s eq_refl).
  assert (B : basic_select_match ("select" ++ String c s) = false).
  { cbn. destruct s as [|s1 [|s2 [|s3 [|s4 s]]]]; try reflexivity.
    cbn. destruct (Ascii.eqb c "(") eqn:E; [apply Ascii.eqb_eq in E; congruence|]. reflexivity. }
  unfold filter_word. rewrite B. reflexivity.
Qed.
Lemma select_rejected {Pt} (base : sf_set Pt) pre post n : Forall meaningful post ->
  apply_filters (pre ++ select_word n :: post)%list base = AThrow "unrecognized filter" (select_word n).
Proof.
  intros Hp. unfold apply_filters. rewrite rev_app_distr. cbn [rev]. rewrite <- app_assoc. cbn [app].
  assert (G : forall ws mask rest, Forall meaningful ws ->
    filter_loop (ws ++ select_word n :: rest)%list mask = AThrow "unrecognized filter" (select_word n)).
  { induction ws as [|w ws IH]; intros mask rest Hw.
    - cbn [app filter_loop]. now rewrite select_unrecognized.
    - inversion Hw as [|? ? H1 H2]; subst. unfold meaningful in H1.
      destruct (word_keeps w) as [f|] eqn:E; [|congruence].
      destruct (word_keeps_mask _ _ E) as [m Em]. cbn [app filter_loop]. rewrite Em. apply IH; exact H2. }
  rewrite (G (rev post)); [reflexivity|]. apply Forall_rev; exact Hp.
Qed.

(** * Plugin classes *)
Lemma lib_eqb_ok a b : lib_eqb a b = true -> a = b.
Proof. destruct a, b; cbn; congruence. Qed.
Lemma inherits_derives c b : (forall d, b <> CUser d) -> b <> COther -> inherits_from c b = true <-> derives c b.
Proof.
  intros Hb Ho. split.
  - induction c; cbn; intros H;
      try (destruct b; cbn in H; try discriminate; first
           [apply der_refl
           |eapply der_step; [reflexivity|apply der_refl]
           |eapply der_step; [reflexivity|eapply der_step; [reflexivity|apply der_refl]]]; fail).
    eapply der_step; [reflexivity|auto].
  - induction 1 as [c|c b0 d E H IH].
    + destruct c; cbn; auto; try congruence.
    + destruct c; cbn in E; inversion E; subst b0; specialize (IH Hb Ho); cbn in IH |- *;
        try (rewrite IH; rewrite ?orb_true_r; reflexivity); auto.
      destruct d; cbn in *; auto.
Qed.

Lemma dispatch_tmd c : derives c CTmdSet -> plugin_dispatch (Some c) = AOk UseTmdSfSet.
Proof.
  intros H. apply inherits_derives in H; try discriminate.
  unfold plugin_dispatch.
  assert (N : inherits_from c CSfSet = false).
  { clear - H. induction c; cbn in *; auto. }
  rewrite N, H. reflexivity.
Qed.
Lemma derives_gauss_tmd c : derives c CGaussianTmdSet -> derives c CTmdSet.
Proof.
  intros H. remember CGaussianTmdSet as g eqn:E. induction H; subst.
  - eapply der_step; [reflexivity|apply der_refl].
  - eapply der_step; eauto.
Qed.
Lemma dispatch_never_special c w : plugin_dispatch c = AOk w -> w = UseSfSet \/ w = UseTmdSfSet.
Proof.
  destruct c as [c|]; [|discriminate]. unfold plugin_dispatch.
  destruct (inherits_from c CSfSet) eqn:E1; [intros H; inversion H; auto|].
  destruct (inherits_from c CTmdSet) eqn:E2; [intros H; inversion H; auto|].
  assert (N : inherits_from c CGaussianTmdSet = false /\ inherits_from c CWwTmdSet = false /\
    inherits_from c CGaussianWwTmdSet = false).
  { clear - E1 E2. induction c; cbn in *; auto; try discriminate. }
  destruct N as (-> & -> & ->). discriminate.
Qed.
Lemma dispatch_plain c : derives c CSfSet \/ (derives c CTmdSet /\ ~ derives c CGaussianTmdSet /\ ~ derives c CWwTmdSet) ->
  exists w, plugin_dispatch (Some c) = AOk w /\ matching c w.
Proof.
  intros [H|(H & G)].
  - exists UseSfSet; split; [|exact H]. unfold plugin_dispatch.
    apply inherits_derives in H; try discriminate. now rewrite H.
  - exists UseTmdSfSet; split; [now apply dispatch_tmd|]. split; [exact H|exact G].
Qed.
Lemma dispatch_gauss_wrong c w : derives c CGaussianTmdSet \/ derives c CWwTmdSet ->
  plugin_dispatch (Some c) = AOk w -> ~ matching c w.
Proof.
  intros H E M. assert (T : derives c CTmdSet).
  { destruct H as [H|H]; [now apply derives_gauss_tmd|].
    clear - H. remember CWwTmdSet as g eqn:Eg. induction H; subst.
    - eapply der_step; [reflexivity|apply der_refl].
    - eapply der_step; eauto. }
  rewrite (dispatch_tmd c T) in E. inversion E; subst w. cbn in M. tauto.
Qed.
