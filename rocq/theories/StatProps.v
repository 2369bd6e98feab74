(** C57, C58, C59, C64, C73, C74: weights and statistics of the generator. *)
From Coq Require Import Reals List Bool Lra Lia Permutation ZArith.
From Coquelicot Require Import Coquelicot.
From Verif Require Import ExtModel StatModel StatSpec StatProofs.
Import ListNotations.
Set Bullet Behavior "Strict Subproofs".
Local Open Scope R_scope.

(** ** C57: rejection *)
(** Averaged over the random number the weight is unchanged, for every scale (zero switches the step off). *)
Theorem C57_rejection_keeps_mean scale w : 0 <= w -> is_RInt (fun r => reject scale r w) 0 1 w.
Proof. exact (reject_mean scale w). Qed.
(** A weight below the scale becomes the scale or zero; any other weight stays. *)
Theorem C57_rejection_outcomes scale r w : 0 <= w -> 0 <= r <= 1 ->
  reject scale r w = w /\ (scale = 0 \/ scale <= w) \/
  (w < scale /\ (reject scale r w = scale /\ r * scale <= w \/ reject scale r w = 0 /\ w < r * scale)).
Proof. exact (reject_outcomes scale r w). Qed.
Example C57_example : reject 4 (1 / 2) 1 = 0 /\ reject 4 (1 / 8) 1 = 4 /\ reject 4 (1 / 2) 7 = 7 /\ is_RInt (fun r => reject 4 r 1) 0 1 1.
Proof.
  split; [rewrite reject_pos by lra; destruct (Rlt_dec (1 / 4) (1 / 2)); [reflexivity|lra]|].
  split; [rewrite reject_pos by lra; destruct (Rlt_dec (1 / 4) (1 / 8)); [lra|reflexivity]|].
  split; [apply reject_above; lra|]. apply reject_mean. lra.
Qed.
(** An event of weight zero, for example one outside the cuts, is rejected by every random number but one: for the
    number 0, which the generator can return, it is accepted with the full scale as its weight. *)
Theorem C57_zero_weight_rejected scale r : 0 < scale -> 0 < r -> reject scale r 0 = 0.
Proof. exact (reject_zero scale r). Qed.
Theorem C57_zero_weight_accepted_refuted scale : 0 < scale -> reject scale 0 0 = scale /\ reject scale 0 0 <> 0.
Proof. intros H. rewrite reject_zero_at_zero by exact H. split; lra. Qed.
Print Assumptions C57_rejection_keeps_mean.
Print Assumptions C57_rejection_outcomes.
Print Assumptions C57_zero_weight_rejected.
Print Assumptions C57_zero_weight_accepted_refuted.

(** ** C58: combining integrators *)
(** Two samples: the weights are pooled, the normalisations add, the cross-section is the average of the two weighted
    with the normalisations. *)
Theorem C58_combine a b p q ws vs : sample_of a p ws -> sample_of b q vs ->
  let n := INR (length ws) * p in let m := INR (length vs) * q in
  i_norm a = Fin n /\ i_norm b = Fin m /\ i_norm (iadd a b) = Fin (n + m) /\
  (exists r, sample_of (iadd a b) r (ws ++ vs)) /\
  exists x y, i_integ a = Fin x /\ i_integ b = Fin y /\ i_integ (iadd a b) = Fin ((n * x + m * y) / (n + m)).
Proof.
  intros A B n m. split; [exact (sample_norm a p ws A)|]. split; [exact (sample_norm b q vs B)|].
  split; [exact (iadd_norm a b p q ws vs A B)|]. split; [eexists; exact (iadd_sample a b p q ws vs A B)|].
  exists (sum ws / n), (sum vs / m). split; [exact (sample_integ a p ws A)|]. split; [exact (sample_integ b q vs B)|].
  rewrite (iadd_integ a b p q ws vs A B). f_equal.
  destruct A as (_ & Pp & _ & A4 & _), B as (_ & Pq & _ & B4 & _).
  assert (0 < n) by (apply Rmult_lt_0_compat; [now apply INR_pos_len|exact Pp]).
  assert (0 < m) by (apply Rmult_lt_0_compat; [now apply INR_pos_len|exact Pq]).
  fold n m. field. repeat split; lra.
Qed.
(** The order and the grouping do not matter. *)
Theorem C58_commutative a b : proper a -> proper b -> i_count a <> 0%nat \/ i_count b <> 0%nat -> same_state (iadd a b) (iadd b a).
Proof. exact (iadd_comm a b). Qed.
Theorem C58_associative a b c : proper a -> proper b -> proper c -> same_state (iadd (iadd a b) c) (iadd a (iadd b c)).
Proof. exact (iadd_assoc a b c). Qed.
Theorem C58_empty_is_neutral a : i_count a <> 0%nat -> iadd a integ_empty = a /\ iadd integ_empty a = a.
Proof. intros H. split; [apply iadd_empty_r; [exact H|reflexivity] | apply iadd_empty_l; reflexivity]. Qed.
(** Any number of samples merged from files: per event type, normalisations add and the merged cross-section is the sum of
    all weights over the sum of all normalisations. *)
Theorem C58_merge_files n first files none i : length first = n -> List.Forall (fun f => length f = n) files -> (i < n)%nat ->
  forall p ws parts, sample_of (nth i first integ_empty) p ws ->
    map (fun f => nth i f integ_empty) files = map (fun t => fst (fst t)) parts -> List.Forall (fun t => sample_of (fst (fst t)) (snd (fst t)) (snd t)) parts ->
    let all := (nth i first integ_empty, p, ws) :: parts in
    i_norm (nth i (merge_stats (first :: files) none) integ_empty) = Fin (sum_of (fun t => INR (length (snd t)) * snd (fst t)) all) /\
    i_integ (nth i (merge_stats (first :: files) none) integ_empty) =
      Fin (sum_of (fun t => sum (snd t)) all / sum_of (fun t => INR (length (snd t)) * snd (fst t)) all).
Proof.
  intros L F Hi p ws parts A E P all. rewrite (merge_columns n files first none i L F Hi), E.
  apply fold_iadd_result; [exact A|]. revert P. apply List.Forall_impl. intros [[b q] vs] H. exact H.
Qed.
(** The accumulator of the event loop produces such a sample. *)
Theorem C58_accumulator p ws : 0 < p -> ws <> [] -> sample_of (accum_total (fold_left accum_add ws (accum_new (Fin p)))) p ws.
Proof. exact (accum_sample p ws). Qed.
Example C58_example : exists a b, sample_of a 2 [3; 0; 1] /\ sample_of b 1 [5] /\ i_integ a = Fin (2 / 3) /\ i_integ b = Fin 5 /\
  i_integ (iadd a b) = Fin (9 / 7).
Proof.
  exists (accum_total (fold_left accum_add [3; 0; 1] (accum_new (Fin 2)))), (accum_total (fold_left accum_add [5] (accum_new (Fin 1)))).
  assert (A : sample_of (accum_total (fold_left accum_add [3; 0; 1] (accum_new (Fin 2)))) 2 [3; 0; 1]) by (apply accum_sample; [lra|discriminate]).
  assert (B : sample_of (accum_total (fold_left accum_add [5] (accum_new (Fin 1)))) 1 [5]) by (apply accum_sample; [lra|discriminate]).
  split; [exact A|]. split; [exact B|].
  rewrite (sample_integ _ _ _ A), (sample_integ _ _ _ B), (iadd_integ _ _ _ _ _ _ A B). cbn [length sum].
  rewrite !S_INR. cbn [INR]. split; [|split]; f_equal; field.
Qed.
Print Assumptions C58_combine.
Print Assumptions C58_commutative.
Print Assumptions C58_associative.
Print Assumptions C58_empty_is_neutral.
Print Assumptions C58_merge_files.
Print Assumptions C58_accumulator.

(** ** C59: the total *)
(** For two event types with events, the reported total is the sum of the two cross-sections exactly when the mean weights
    agree or the normalisations agree. *)
Theorem C59_total_exact_iff a b p q ws vs : sample_of a p ws -> sample_of b q vs ->
  (i_integ (total [a; b]) = eadd (i_integ a) (i_integ b) <->
   sum ws / INR (length ws) = sum vs / INR (length vs) \/ INR (length ws) * p = INR (length vs) * q).
Proof. exact (total_exact_iff a b p q ws vs). Qed.
Theorem C59_total_refuted : exists a b, sample_of a 1 [1] /\ sample_of b 1 [2; 2] /\
  i_integ a = Fin 1 /\ i_integ b = Fin 2 /\ i_integ (total [a; b]) = Fin (10 / 3).
Proof.
  exists (accum_total (fold_left accum_add [1] (accum_new (Fin 1)))), (accum_total (fold_left accum_add [2; 2] (accum_new (Fin 1)))).
  assert (A : sample_of (accum_total (fold_left accum_add [1] (accum_new (Fin 1)))) 1 [1]) by (apply accum_sample; [lra|discriminate]).
  assert (B : sample_of (accum_total (fold_left accum_add [2; 2] (accum_new (Fin 1)))) 1 [2; 2]) by (apply accum_sample; [lra|discriminate]).
  split; [exact A|]. split; [exact B|].
  rewrite (sample_integ _ _ _ A), (sample_integ _ _ _ B), (total_two _ _ _ _ _ _ A B). cbn [length sum Nat.add].
  rewrite !S_INR. cbn [INR]. split; [|split]; f_equal; field.
Qed.
(** With an event type that was not generated, the total written to the file is not a number. *)
Theorem C59_total_absent_refuted a : i_integ (total [a; integ_empty]) = NaN /\ i_norm (total [a; integ_empty]) = NaN /\
  i_integ (total [integ_empty; a]) = NaN.
Proof.
  destruct (total_absent a integ_empty (or_intror eq_refl)) as (H1 & H2 & _).
  destruct (total_absent integ_empty a (or_introl eq_refl)) as (H3 & _). now split.
Qed.
Print Assumptions C59_total_exact_iff.
Print Assumptions C59_total_refuted.
Print Assumptions C59_total_absent_refuted.

(** ** C64: efficiency *)
Theorem C64_efficiency_roundtrip e : 0 < e -> shown_eff (target_rel_var e) = e.
Proof. exact (eff_roundtrip e). Qed.
Theorem C64_variance_roundtrip v : - 1 < v -> target_rel_var (shown_eff v) = v.
Proof. exact (rel_var_roundtrip v). Qed.
(** In closed form; an efficiency of at most one asks for a nonnegative variance, and less variance for more efficiency. *)
Theorem C64_closed_forms : (forall e, 0 < e -> target_rel_var e = 1 / (e * e) - 1) /\ (forall v, - 1 < v -> shown_eff v = 1 / sqrt (1 + v)) /\
  (forall e, 0 < e <= 1 -> 0 <= target_rel_var e) /\ (forall e e', 0 < e < e' -> target_rel_var e' < target_rel_var e).
Proof.
  split; [exact rel_var_formula|]. split; [exact shown_eff_formula|]. split.
  - intros e H. rewrite rel_var_formula by lra.
    assert (e * e <= 1 * 1) by (apply Rmult_le_compat; lra). assert (0 < e * e) by (apply Rmult_lt_0_compat; lra).
    assert (1 <= 1 / (e * e)); [|lra]. apply (Rmult_le_reg_r (e * e)); [assumption|]. unfold Rdiv. rewrite Rmult_assoc, Rinv_l by lra. lra.
  - intros e e' H. rewrite !rel_var_formula by lra. apply Rplus_lt_compat_r. unfold Rdiv. rewrite !Rmult_1_l.
    apply Rinv_lt_contravar; [repeat apply Rmult_lt_0_compat; lra|]. apply Rmult_gt_0_lt_compat; lra.
Qed.
Theorem C64_cells_positive n : (1 <= clamp_cells n)%Z /\ ((1 <= n)%Z -> clamp_cells n = n).
Proof. unfold clamp_cells. destruct (Z.leb_spec n 0); lia. Qed.
Example C64_example : target_rel_var (1 / 2) = 3 /\ shown_eff 3 = 1 / 2.
Proof.
  split; [rewrite rel_var_formula by lra; field|]. rewrite <- (eff_roundtrip (1 / 2)) by lra. f_equal.
  rewrite rel_var_formula by lra. field.
Qed.
Print Assumptions C64_efficiency_roundtrip.
Print Assumptions C64_variance_roundtrip.
Print Assumptions C64_closed_forms.
Print Assumptions C64_cells_positive.

(** ** C73: which type of event is generated next *)
(** After the first event: the first of the types that are wanted most; no type is chosen only if none is wanted. *)
Theorem C73_choice n gens : n <> 0%nat ->
  (choose n gens = None /\ forall a, In a gens -> eltb (Fin 0) (wanted a) = false) \/
  (exists i a, choose n gens = Some i /\ nth_error gens i = Some a /\ eltb (Fin 0) (wanted a) = true /\
    (forall b, In b gens -> eleb (wanted b) (wanted a) = true) /\
    (forall l b, (l < i)%nat -> nth_error gens l = Some b -> eltb (wanted b) (wanted a) = true)).
Proof. exact (choose_spec n gens). Qed.
(** The index is always assigned once an event was accepted. *)
Theorem C73_choice_defined n gens a p ws w : In a gens -> sample_of a p ws -> In w ws -> w <> 0 -> choose n gens <> None.
Proof.
  intros I A Iw Nw. destruct n as [|n]; [discriminate|].
  destruct (choose_spec (S n) gens ltac:(discriminate)) as [[_ H]|(i & b & -> & _)]; [|discriminate].
  specialize (H a I). rewrite (wanted_positive a p ws w A Iw Nw) in H. discriminate.
Qed.
(** A type without draws is wanted more than any type with a finite statistic, so no type is left out. *)
Theorem C73_no_type_starves n gens a : n <> 0%nat -> In a gens -> i_count a = 0%nat -> i_weights a = [] ->
  exists i b, choose n gens = Some i /\ nth_error gens i = Some b /\ wanted b = PInf.
Proof.
  intros N I H1 H2. pose proof (wanted_no_draws a H1 H2) as W.
  destruct (choose_spec n gens N) as [[_ H]|(i & b & E & Eb & _ & Hb & _)].
  - specialize (H a I). rewrite W in H. discriminate.
  - exists i, b. split; [exact E|]. split; [exact Eb|]. specialize (Hb a I). rewrite W in Hb.
    pose proof (wanted_not_nan b). destruct (wanted b); cbn in Hb; congruence.
Qed.
Example C73_example : exists a, sample_of a 1 [2] /\ choose 5 [a; accum_new (Fin 1)] = Some 1%nat /\ choose 0 [a; accum_new (Fin 1)] = Some 0%nat.
Proof.
  exists (accum_total (fold_left accum_add [2] (accum_new (Fin 1)))).
  assert (A : sample_of (accum_total (fold_left accum_add [2] (accum_new (Fin 1)))) 1 [2]) by (apply accum_sample; [lra|discriminate]).
  split; [exact A|]. split; [|reflexivity].
  destruct (C73_no_type_starves 5 [accum_total (fold_left accum_add [2] (accum_new (Fin 1))); accum_new (Fin 1)] (accum_new (Fin 1))) as (i & b & E & Eb & W);
    [discriminate|right; now left|reflexivity|reflexivity|].
  rewrite E. f_equal. destruct i as [|[|i]]; [|reflexivity|destruct i; discriminate]. exfalso.
  set (a := accum_total (fold_left accum_add [2] (accum_new (Fin 1)))) in *. clearbody a.
  assert (b = a) by (cbn [nth_error] in Eb; congruence). subst b. destruct A as (A1 & A2 & A3 & A4 & A5 & A6).
  unfold wanted, i_norm, i_weights_acc in W. rewrite A1, A3, A5 in W.
  cbn [filter] in W. replace (reqb 2 0) with false in W by (symmetry; apply reqb_false; lra).
  cbn [negb st_sqrt_m2 map sum length emul ediv INR] in W. replace (reqb (1 * 1) 0) with false in W by (symmetry; apply reqb_false; lra).
  discriminate.
Qed.
Print Assumptions C73_choice.
Print Assumptions C73_choice_defined.
Print Assumptions C73_no_type_starves.

(** ** C74: the weights in the file *)
(** For every run of the event loop of one type, whatever the draws and the rejection scale: every weight written is
    nonzero, as many are written as requested and counted as accepted, and the sum of the written weights over the
    reported normalisation is the reported cross-section. *)
Theorem C74_file_reproduces_cross_section n scale draws p ws acc rest : 0 < p -> (0 < n)%nat ->
  draw_events n scale draws (accum_new (Fin p)) = Some (ws, acc, rest) ->
  length ws = n /\ List.Forall (fun w => w <> 0) ws /\ i_count_acc (accum_total acc) = n /\
  exists m, i_norm (accum_total acc) = Fin m /\ 0 < m /\ i_integ (accum_total acc) = Fin (sum ws / m).
Proof.
  intros Hp Hn H. destruct (draw_events_spec _ _ _ _ _ _ _ H) as (L & F & _).
  destruct (written_total n scale draws p ws acc rest Hp Hn H) as (m & H1 & H2 & H3 & H4).
  split; [exact L|]. split; [exact F|]. split; [exact H4|]. exists m. now split.
Qed.
Example C74_example : exists acc, draw_events 1 0 [(0, 0); (3, 0)] (accum_new (Fin 2)) = Some ([3], acc, []) /\ i_norm (accum_total acc) = Fin 4.
Proof.
  eexists. unfold draw_events, draw_event. rewrite !reject_zero_scale.
  replace (reqb 0 0) with true by (symmetry; now apply reqb_true).
  replace (reqb 3 0) with false by (symmetry; apply reqb_false; lra). split; [reflexivity|].
  unfold i_norm. cbn. apply f_equal. ring.
Qed.
Print Assumptions C74_file_reproduces_cross_section.
