(** C42-C45: group getters, masks, filter words, plugin classes. *)
From Coq Require Import Reals String List Bool.
From Verif Require Import SfModel SfSpec SfProofs.
Import ListNotations.
Local Open Scope string_scope.

(** C42: each getter returns exactly the functions of its polarizations, under their own names. *)
Theorem C42_base_getters {Pt} (s : sf_set Pt) (p : Pt) :
  holds_exactly s p (pol bu tu) (fields_base_uu (sf_base_uu s p)) /\
  holds_exactly s p (pol bu tl) (fields_base_ul (sf_base_ul s p)) /\
  holds_exactly s p (pol bu tt') (fields_base_ut (sf_base_ut s p)) /\
  holds_exactly s p (pol bu tlt) (fields_base_up (sf_base_up s p)) /\
  holds_exactly s p (pol bl tu) (fields_base_lu (sf_base_lu s p)) /\
  holds_exactly s p (pol bl tl) (fields_base_ll (sf_base_ll s p)) /\
  holds_exactly s p (pol bl tt') (fields_base_lt (sf_base_lt s p)) /\
  holds_exactly s p (pol bl tlt) (fields_base_lp (sf_base_lp s p)).
Proof.
  exact (conj (base_uu_ok s p) (conj (base_ul_ok s p) (conj (base_ut_ok s p) (conj (base_up_ok s p)
    (conj (base_lu_ok s p) (conj (base_ll_ok s p) (conj (base_lt_ok s p) (base_lp_ok s p)))))))).
Qed.
(** The combined getters add everything an experiment with those polarizations is sensitive to. *)
Theorem C42_combined_getters {Pt} (s : sf_set Pt) (p : Pt) :
  holds_exactly s p (pol bu tu) (fields_uu (sf_uu s p)) /\
  holds_exactly s p (pol bu tul) (fields_ul (sf_ul s p)) /\
  holds_exactly s p (pol bu tut) (fields_ut (sf_ut s p)) /\
  holds_exactly s p (pol bu tany) (fields_up (sf_up s p)) /\
  holds_exactly s p (pol bany tu) (fields_lu (sf_lu s p)) /\
  holds_exactly s p (pol bany tul) (fields_ll (sf_ll s p)) /\
  holds_exactly s p (pol bany tut) (fields_lt (sf_lt s p)) /\
  holds_exactly s p (pol bany tany) (fields_lp (sf_lp s p)).
Proof.
  exact (conj (sf_uu_ok s p) (conj (sf_ul_ok s p) (conj (sf_ut_ok s p) (conj (sf_up_ok s p)
    (conj (sf_lu_ok s p) (conj (sf_ll_ok s p) (conj (sf_lt_ok s p) (sf_lp_ok s p)))))))).
Qed.
Example C42_example : let s : sf_set R := fun n x => match n with F_LL => (2 * x)%R | F_LT_cos_phis => 7%R | _ => 0%R end in
  ll_F_LL (sflp_ll (sf_lp s 3%R)) = (2 * 3)%R /\ lt_F_LT_cos_phis (sflp_lt (sf_lp s 3%R)) = 7%R.
Proof. split; reflexivity. Qed.

(** C43: any list of meaningful words keeps the intersection; anything else is refused. *)
Theorem C43_filters {Pt} (ws : list string) (base : sf_set Pt) : Forall meaningful ws ->
  exists r, apply_filters ws base = AOk r /\ restricts ws base r.
Proof. exact (apply_filters_ok ws base). Qed.
Theorem C43_order_and_repetition {Pt} (ws vs : list string) (base r r' : sf_set Pt) :
  (forall w, In w ws <-> In w vs) -> restricts ws base r -> restricts vs base r' -> forall n p, r n p = r' n p.
Proof. exact (restricts_unique ws vs base r r'). Qed.
Theorem C43_unknown_word {Pt} (ws : list string) (base : sf_set Pt) : ~ Forall meaningful ws ->
  apply_filters ws base = AForeign \/
  exists w, In w ws /\ ~ meaningful w /\ apply_filters ws base = AThrow "unrecognized filter" w.
Proof. exact (apply_filters_bad ws base). Qed.
Theorem C43_leading_partition n : nth (mask_idx n) MASK_LEADING false = negb (nth (mask_idx n) MASK_SUBLEADING false).
Proof. exact (leading_partition n). Qed.
(** From the whole option value. *)
Theorem C43_option {Pt} (prok test : sf_set Pt) load ws b base :
  (b = "prokudin" /\ base = prok \/ b = "test" /\ base = test) -> Forall meaningful ws ->
  exists r, alloc_sf prok test load (ws ++ [b]) = AOk r /\ restricts ws base r.
Proof. exact (alloc_words prok test load ws b base). Qed.
Example C43_example : Forall meaningful ["leading"; "xp"; "leading"] /\
  kept_by ["leading"; "xp"; "leading"] F_UT_sin_phih_p_phis /\ ~ kept_by ["leading"; "xp"; "leading"] F_UUT.
Proof.
  repeat split.
  - repeat constructor; discriminate.
  - intros w f [<-|[<-|[<-|[]]]] H; inversion H; reflexivity.
  - intros H. specialize (H "xp" _ (or_intror (or_introl eq_refl)) eq_refl). discriminate.
Qed.

(** C44 is violated: no word select<N> is accepted, for any N, wherever it stands. *)
Theorem C44_select_refuted {Pt} (base : sf_set Pt) (n : nat) :
  apply_filters [select_word n] base = AThrow "unrecognized filter" (select_word n).
Proof. exact (select_rejected base [] [] n (Forall_nil _)). Qed.
Theorem C44_select_among_words_refuted {Pt} (base : sf_set Pt) pre post n : Forall meaningful post ->
  apply_filters (pre ++ select_word n :: post)%list base = AThrow "unrecognized filter" (select_word n).
Proof. exact (select_rejected base pre post n). Qed.
(** The only texts the pattern matches lead to an exception that sidisgen does not know. *)
Theorem C44_literal_pattern_refuted {Pt} (base : sf_set Pt) : apply_filters ["select(5+)"] base = AForeign.
Proof. exact eq_refl. Qed.
Example C44_example : select_word 15 = "select15" /\
  apply_filters ["leading"; select_word 15; "lt"] (@SfSet_default R) = AThrow "unrecognized filter" "select15".
Proof. split; reflexivity. Qed.

(** C45 is violated for every class derived from a Gaussian or a WW base. *)
Theorem C45_dispatch_refuted c w : derives c CGaussianTmdSet \/ derives c CWwTmdSet ->
  plugin_dispatch (Some c) = AOk w -> ~ matching c w.
Proof. exact (dispatch_gauss_wrong c w). Qed.
Theorem C45_special_sets_unreachable_refuted c w : plugin_dispatch c = AOk w -> w = UseSfSet \/ w = UseTmdSfSet.
Proof. exact (dispatch_never_special c w). Qed.
(** The two remaining kinds of classes are treated as intended. *)
Theorem C45_dispatch_partial c :
  derives c CSfSet \/ (derives c CTmdSet /\ ~ derives c CGaussianTmdSet /\ ~ derives c CWwTmdSet) ->
  exists w, plugin_dispatch (Some c) = AOk w /\ matching c w.
Proof. exact (dispatch_plain c). Qed.
(** A library without a class of its own name is not reported: a null pointer is used. *)
Theorem C45_missing_class_refuted : plugin_dispatch None = ANullDeref.
Proof. exact eq_refl. Qed.
Example C45_example : derives (CUser CGaussianWwTmdSet) CGaussianTmdSet /\
  plugin_dispatch (Some (CUser CGaussianWwTmdSet)) = AOk UseTmdSfSet.
Proof.
  split; [|reflexivity]. eapply der_step; [reflexivity|]. eapply der_step; [reflexivity|apply der_refl].
Qed.
Print Assumptions C42_base_getters.
Print Assumptions C42_combined_getters.
Print Assumptions C43_filters.
Print Assumptions C43_order_and_repetition.
Print Assumptions C43_unknown_word.
Print Assumptions C43_leading_partition.
Print Assumptions C43_option.
Print Assumptions C44_select_refuted.
Print Assumptions C44_select_among_words_refuted.
Print Assumptions C44_literal_pattern_refuted.
Print Assumptions C45_dispatch_refuted.
Print Assumptions C45_special_sets_unreachable_refuted.
Print Assumptions C45_dispatch_partial.
Print Assumptions C45_missing_class_refuted.
