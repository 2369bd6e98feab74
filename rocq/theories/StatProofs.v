(** Proofs about weights and statistics. *)
From Coq Require Import Reals List Bool Arith Lra Lia Permutation.
From Coquelicot Require Import Coquelicot.
From Verif Require Import ExtModel StatModel StatSpec.
Import ListNotations.
Set Bullet Behavior "Strict Subproofs".
Local Open Scope R_scope.

Lemma rltb_true x y : rltb x y = true <-> x < y.
Proof. unfold rltb. destruct (Rlt_dec x y); split; auto; try discriminate; contradiction. Qed.
Lemma rltb_false x y : rltb x y = false <-> y <= x.
Proof. unfold rltb. destruct (Rlt_dec x y); split; auto; try discriminate; lra. Qed.
Lemma reqb_true x y : reqb x y = true <-> x = y.
Proof. unfold reqb. destruct (Req_EM_T x y); split; auto; try discriminate; contradiction. Qed.
Lemma reqb_false x y : reqb x y = false <-> x <> y.
Proof. unfold reqb. destruct (Req_EM_T x y); split; auto; try discriminate; contradiction. Qed.

(** * Rejection *)
Lemma reject_zero_scale r w : reject 0 r w = w.
Proof. unfold reject. replace (reqb 0 0) with true by (symmetry; now apply reqb_true). reflexivity. Qed.
Lemma reject_pos s r w : 0 < s -> 0 <= w < s -> reject s r w = if Rlt_dec (w / s) r then 0 else s.
Proof.
  intros Hs Hw. unfold reject. replace (reqb s 0) with false by (symmetry; apply reqb_false; lra). cbn [negb].
  destruct (Rlt_dec (w / s) r) as [L|L].
  - replace (rltb w (r * s)) with true; [reflexivity|]. symmetry. apply rltb_true.
    apply (Rmult_lt_compat_r s) in L; [|exact Hs]. unfold Rdiv in L. rewrite Rmult_assoc, Rinv_l in L by lra. lra.
  - replace (rltb w (r * s)) with false.
    + replace (rltb w s) with true by (symmetry; now apply rltb_true). reflexivity.
    + symmetry. apply rltb_false. apply Rnot_lt_le in L.
      apply (Rmult_le_compat_r s) in L; [|lra]. unfold Rdiv in L. rewrite Rmult_assoc, Rinv_l in L by lra. lra.
Qed.
Lemma reject_above s r w : 0 <= r <= 1 -> 0 <= w -> s <= w -> reject s r w = w.
Proof.
  intros Hr Hw H. unfold reject. destruct (reqb s 0); cbn [negb]; [reflexivity|].
  replace (rltb w (r * s)) with false.
  - replace (rltb w s) with false by (symmetry; now apply rltb_false). reflexivity.
  - symmetry. apply rltb_false. destruct (Rle_dec 0 s) as [P|N].
    + apply Rle_trans with (1 * s); [apply Rmult_le_compat_r; lra | lra].
    + apply Rle_trans with 0; [|exact Hw]. replace 0 with (r * 0) by ring. apply Rmult_le_compat_l; lra.
Qed.
Lemma int_const (a b c v : R) : v = (b - a) * c -> is_RInt (fun _ : R => c) a b v.
Proof. intros ->. apply (is_RInt_const a b c). Qed.
Lemma reject_mean s w : 0 <= w -> is_RInt (fun r => reject s r w) 0 1 w.
Proof.
  intros Hw. destruct (Rle_dec s w) as [H|H].
  - apply (is_RInt_ext (fun _ => w)).
    + intros r. rewrite Rmin_left, Rmax_right by lra. intros Hr. symmetry. apply reject_above; lra.
    + apply int_const. ring.
  - assert (Hs : w < s) by lra. assert (P : 0 < s) by lra. set (t := w / s).
    assert (T : 0 <= t < 1).
    { unfold t. split; [apply Rdiv_le_0_compat; lra|]. apply (Rmult_lt_reg_r s); [exact P|].
      unfold Rdiv. rewrite Rmult_assoc, Rinv_l by lra. lra. }
    assert (G : is_RInt (fun r => reject s r w) 0 1 (t * s + 0)); [|replace (t * s + 0) with w in G; [exact G|unfold t; field; lra]].
    apply (is_RInt_Chasles (fun r => reject s r w) 0 t 1 (t * s) 0).
    + apply (is_RInt_ext (fun _ => s)); [|apply int_const; ring].
      intros r. rewrite Rmin_left, Rmax_right by lra. intros Hr. rewrite reject_pos by lra. fold t.
      destruct (Rlt_dec t r); [lra|reflexivity].
    + apply (is_RInt_ext (fun _ => 0)); [|apply int_const; ring].
      intros r. rewrite Rmin_left, Rmax_right by lra. intros Hr. rewrite reject_pos by lra. fold t.
      destruct (Rlt_dec t r); [reflexivity|lra].
Qed.
(** The possible outcomes. *)
Lemma reject_outcomes s r w : 0 <= w -> 0 <= r <= 1 ->
  reject s r w = w /\ (s = 0 \/ s <= w) \/
  (w < s /\ (reject s r w = s /\ r * s <= w \/ reject s r w = 0 /\ w < r * s)).
Proof.
  intros Hw Hr. destruct (Rle_dec s w) as [H|H].
  - left. split; [now apply reject_above | now right].
  - destruct (Req_dec s 0) as [->|N]; [lra|]. right. split; [lra|].
    unfold reject. replace (reqb s 0) with false by (symmetry; now apply reqb_false). cbn [negb].
    destruct (rltb w (r * s)) eqn:E.
    + right. split; [reflexivity|]. now apply rltb_true.
    + left. replace (rltb w s) with true by (symmetry; apply rltb_true; lra). split; [reflexivity|]. now apply rltb_false.
Qed.
Lemma reject_zero s r : 0 < s -> 0 < r -> reject s r 0 = 0.
Proof.
  intros Hs Hr. unfold reject. replace (reqb s 0) with false by (symmetry; apply reqb_false; lra). cbn [negb].
  replace (rltb 0 (r * s)) with true; [reflexivity|]. symmetry. apply rltb_true. now apply Rmult_lt_0_compat.
Qed.
Lemma reject_zero_at_zero s : 0 < s -> reject s 0 0 = s.
Proof.
  intros Hs. unfold reject. replace (reqb s 0) with false by (symmetry; apply reqb_false; lra). cbn [negb].
  replace (rltb 0 (0 * s)) with false by (symmetry; apply rltb_false; lra).
  replace (rltb 0 s) with true by (symmetry; now apply rltb_true). reflexivity.
Qed.

(** * Sums *)
Lemma sum_app a b : sum (a ++ b) = sum a + sum b.
Proof. induction a as [|w a IH]; cbn; [ring|rewrite IH; ring]. Qed.
Lemma sum_perm a b : Permutation a b -> sum a = sum b.
Proof. induction 1; cbn; lra. Qed.
Lemma filter_ext_eq l : filter (fun w => negb (reqb w 0)) l = filter (fun w => if Req_EM_T w 0 then false else true) l.
Proof. apply filter_ext. intros w. unfold reqb. destruct (Req_EM_T w 0); reflexivity. Qed.
Lemma INR_pos_len (l : list R) : l <> [] -> 0 < INR (length l).
Proof. destruct l; [congruence|]. intros _. apply lt_0_INR. cbn. lia. Qed.

(** * Combining *)
Lemma iadd_sample a b p q ws vs : sample_of a p ws -> sample_of b q vs ->
  sample_of (iadd a b) ((INR (length ws) * p + INR (length vs) * q) / INR (length ws + length vs)) (ws ++ vs).
Proof.
  intros (A1 & A2 & A3 & A4 & A5 & A6) (B1 & B2 & B3 & B4 & B5 & B6).
  pose proof (INR_pos_len ws A4) as Pw. pose proof (INR_pos_len vs B4) as Pv.
  unfold iadd. rewrite A5, B5.
  destruct (Nat.eqb_spec (length ws) 0) as [E|_]; [rewrite E in Pw; cbn in Pw; lra|].
  destruct (Nat.eqb_spec (length vs) 0) as [E|_]; [rewrite E in Pv; cbn in Pv; lra|].
  rewrite A1, B1. cbn [esub eneg eadd emul]. rewrite plus_INR.
  split; [|split; [|split; [|split; [|split]]]]; cbn [i_prime_inv i_count i_count_acc i_weights].
  - f_equal. field. lra.
  - apply Rdiv_lt_0_compat; [|lra]. apply Rplus_lt_0_compat; apply Rmult_lt_0_compat; lra.
  - rewrite A3, B3. reflexivity.
  - destruct ws; [congruence|discriminate].
  - now rewrite app_length.
  - rewrite A6, B6, filter_app, app_length. reflexivity.
Qed.
Lemma sample_norm a p ws : sample_of a p ws -> i_norm a = Fin (INR (length ws) * p).
Proof. intros (A1 & _ & _ & _ & A5 & _). unfold i_norm. rewrite A1, A5. reflexivity. Qed.
Lemma sample_integ a p ws : sample_of a p ws -> i_integ a = Fin (sum ws / (INR (length ws) * p)).
Proof.
  intros (A1 & A2 & A3 & A4 & _). pose proof (INR_pos_len ws A4) as P. unfold i_integ, st_mean. rewrite A1, A3.
  destruct ws as [|w ws]; [congruence|]. cbn [ediv]. replace (reqb p 0) with false by (symmetry; apply reqb_false; lra).
  f_equal. field. split; lra.
Qed.
Lemma iadd_norm a b p q ws vs : sample_of a p ws -> sample_of b q vs ->
  i_norm (iadd a b) = Fin (INR (length ws) * p + INR (length vs) * q).
Proof.
  intros A B. rewrite (sample_norm _ _ _ (iadd_sample a b p q ws vs A B)). f_equal.
  destruct A as (_ & _ & _ & A4 & _), B as (_ & _ & _ & B4 & _).
  pose proof (INR_pos_len ws A4) as Pw. pose proof (INR_pos_len vs B4) as Pv.
  rewrite app_length, plus_INR. field. lra.
Qed.
Lemma iadd_integ a b p q ws vs : sample_of a p ws -> sample_of b q vs ->
  i_integ (iadd a b) = Fin ((sum ws + sum vs) / (INR (length ws) * p + INR (length vs) * q)).
Proof.
  intros A B. rewrite (sample_integ _ _ _ (iadd_sample a b p q ws vs A B)). f_equal.
  destruct A as (_ & Pp & _ & A4 & _), B as (_ & Pq & _ & B4 & _).
  pose proof (INR_pos_len ws A4) as Pw. pose proof (INR_pos_len vs B4) as Pv.
  assert (0 < INR (length ws) * p) by now apply Rmult_lt_0_compat.
  assert (0 < INR (length vs) * q) by now apply Rmult_lt_0_compat.
  rewrite sum_app, app_length, plus_INR. field. split; lra.
Qed.
Lemma iadd_empty_l a b : i_count a = 0%nat -> iadd a b = b.
Proof. intros H. unfold iadd. now rewrite H. Qed.
Lemma iadd_empty_r a b : i_count a <> 0%nat -> i_count b = 0%nat -> iadd a b = a.
Proof.
  intros Ha H. unfold iadd. destruct (Nat.eqb_spec (i_count a) 0); [contradiction|]. now rewrite H.
Qed.
Lemma sample_count a p ws : sample_of a p ws -> i_count a <> 0%nat.
Proof. intros (_ & _ & _ & A4 & A5 & _). rewrite A5. destruct ws; [congruence|discriminate]. Qed.
Lemma sample_unique a p q ws vs : sample_of a p ws -> sample_of a q vs -> p = q /\ ws = vs.
Proof. intros (A1 & _ & A3 & _) (B1 & _ & B3 & _). split; congruence. Qed.
Lemma same_refl a : same_state a a. Proof. repeat split. apply Permutation_refl. Qed.
Lemma sample_same a b p q ws vs : sample_of a p ws -> sample_of b q vs -> p = q -> Permutation ws vs -> same_state a b.
Proof.
  intros (A1 & _ & A3 & _ & A5 & A6) (B1 & _ & B3 & _ & B5 & B6) -> P. unfold same_state.
  rewrite A1, B1, A3, B3, A5, B5, A6, B6. split; [reflexivity|]. split; [now apply Permutation_length|].
  split; [|exact P]. clear - P. induction P; cbn.
  - reflexivity.
  - destruct (Req_EM_T x 0); cbn; congruence.
  - destruct (Req_EM_T x 0), (Req_EM_T y 0); cbn; congruence.
  - congruence.
Qed.
Lemma iadd_comm a b : proper a -> proper b -> i_count a <> 0%nat \/ i_count b <> 0%nat -> same_state (iadd a b) (iadd b a).
Proof.
  intros [A|(p & ws & A)] [B|(q & vs & B)] N.
  - lia.
  - rewrite iadd_empty_l by exact A. rewrite iadd_empty_r; [apply same_refl| |exact A]. lia.
  - rewrite (iadd_empty_l b) by exact B. rewrite iadd_empty_r; [apply same_refl| |exact B]. lia.
  - eapply sample_same; [apply (iadd_sample a b p q ws vs A B) | apply (iadd_sample b a q p vs ws B A) | | apply Permutation_app_comm].
    destruct A as (_ & _ & _ & A4 & _), B as (_ & _ & _ & B4 & _).
    pose proof (INR_pos_len ws A4) as Pw. pose proof (INR_pos_len vs B4) as Pv.
    rewrite !plus_INR. field. lra.
Qed.
Lemma iadd_assoc a b c : proper a -> proper b -> proper c -> same_state (iadd (iadd a b) c) (iadd a (iadd b c)).
Proof.
  intros [A|(p & ws & A)] HB HC.
  { rewrite !(iadd_empty_l a) by exact A. apply same_refl. }
  destruct HB as [B|(q & vs & B)].
  { rewrite (iadd_empty_r a b) by (try exact B; exact (sample_count _ _ _ A)). rewrite (iadd_empty_l b) by exact B. apply same_refl. }
  destruct HC as [C|(r & us & C)].
  { rewrite (iadd_empty_r b c) by (try exact C; exact (sample_count _ _ _ B)).
    rewrite (iadd_empty_r (iadd a b) c); [apply same_refl| |exact C].
    exact (sample_count _ _ _ (iadd_sample a b p q ws vs A B)). }
  pose proof (iadd_sample a b p q ws vs A B) as AB. pose proof (iadd_sample b c q r vs us B C) as BC.
  eapply sample_same; [exact (iadd_sample _ c _ r _ us AB C) | exact (iadd_sample a _ p _ ws _ A BC) | | rewrite app_assoc; apply Permutation_refl].
  destruct A as (_ & _ & _ & A4 & _), B as (_ & _ & _ & B4 & _), C as (_ & _ & _ & C4 & _).
  pose proof (INR_pos_len ws A4) as Pw. pose proof (INR_pos_len vs B4) as Pv. pose proof (INR_pos_len us C4) as Pu.
  rewrite !app_length, !plus_INR. field. lra.
Qed.
Lemma iadd_proper a b : proper a -> proper b -> proper (iadd a b).
Proof.
  intros [A|(p & ws & A)] HB.
  - rewrite iadd_empty_l by exact A. exact HB.
  - destruct HB as [B|(q & vs & B)].
    + rewrite (iadd_empty_r a b) by (try exact B; exact (sample_count _ _ _ A)). right. now exists p, ws.
    + right. eexists _, _. exact (iadd_sample a b p q ws vs A B).
Qed.

(** Any number of samples. *)
Notation part := (integrator * R * list R)%type.
Definition is_part (t : part) : Prop := let '(a, p, ws) := t in sample_of a p ws.
Lemma fold_iadd : forall (parts : list part) a p ws, sample_of a p ws -> List.Forall is_part parts ->
  exists q, sample_of (fold_left iadd (map (fun t => fst (fst t)) parts) a) q (ws ++ List.concat (map snd parts)) /\
    q * INR (length (ws ++ List.concat (map snd parts))) =
    INR (length ws) * p + sum_of (fun t => INR (length (snd t)) * snd (fst t)) parts.
Proof.
  induction parts as [|[[b q] vs] parts IH]; intros a p ws A H.
  - exists p. cbn. rewrite app_nil_r. split; [exact A|]. ring.
  - pose proof (Forall_inv H) as B. apply Forall_inv_tail in H. cbn in B.
    pose proof (iadd_sample a b p q ws vs A B) as AB. destruct (IH _ _ _ AB H) as (r & R1 & R2).
    exists r. cbn [map fold_left fst snd List.concat]. rewrite app_assoc. split; [exact R1|]. rewrite R2.
    unfold sum_of. cbn [fold_right fst snd].
    match goal with |- context [fold_right ?f ?z ?l] => generalize (fold_right f z l); intros Z end.
    destruct A as (_ & _ & _ & A4 & _), B as (_ & _ & _ & B4 & _).
    pose proof (INR_pos_len ws A4) as Pw. pose proof (INR_pos_len vs B4) as Pv.
    rewrite app_length, plus_INR. field. lra.
Qed.
Lemma sum_concat (parts : list part) : sum (List.concat (map snd parts)) = sum_of (fun t => sum (snd t)) parts.
Proof. induction parts as [|t parts IH]; [reflexivity|]. cbn. rewrite sum_app, IH. reflexivity. Qed.
Lemma fold_iadd_result (parts : list part) a p ws : sample_of a p ws -> List.Forall is_part parts ->
  i_norm (fold_left iadd (map (fun t => fst (fst t)) parts) a) =
    Fin (sum_of (fun t => INR (length (snd t)) * snd (fst t)) ((a, p, ws) :: parts)) /\
  i_integ (fold_left iadd (map (fun t => fst (fst t)) parts) a) =
    Fin (sum_of (fun t => sum (snd t)) ((a, p, ws) :: parts) /
         sum_of (fun t => INR (length (snd t)) * snd (fst t)) ((a, p, ws) :: parts)).
Proof.
  intros A H. destruct (fold_iadd parts a p ws A H) as (q & Q1 & Q2).
  rewrite (sample_norm _ _ _ Q1), (sample_integ _ _ _ Q1).
  change (sum_of (fun t => INR (length (snd t)) * snd (fst t)) ((a, p, ws) :: parts)) with
    (INR (length ws) * p + sum_of (fun t : part => INR (length (snd t)) * snd (fst t)) parts).
  change (sum_of (fun t => sum (snd t)) ((a, p, ws) :: parts)) with (sum ws + sum_of (fun t : part => sum (snd t)) parts).
  rewrite <- Q2, Rmult_comm, sum_app, sum_concat. split; reflexivity.
Qed.

(** * The accumulator *)
Lemma accum_list ws : forall p vs n, let a := fold_left accum_add ws (Integ p (length vs) n vs) in
  i_prime_inv a = p /\ i_count a = length (vs ++ ws) /\ i_weights a = vs ++ ws /\
  i_count_acc a = (n + length (filter (fun w => if Req_EM_T w 0 then false else true) ws))%nat.
Proof.
  induction ws as [|w ws IH]; intros p vs n.
  - cbn. rewrite app_nil_r, Nat.add_0_r. auto.
  - cbn [fold_left]. set (m := if negb (reqb w 0) then S n else n).
    assert (EA : accum_add (Integ p (length vs) n vs) w = Integ p (length (vs ++ [w])) m (vs ++ [w])).
    { unfold accum_add. cbn [i_prime_inv i_count i_count_acc i_weights]. fold m. f_equal. rewrite app_length. cbn. lia. }
    rewrite EA.
    specialize (IH p (vs ++ [w]) m). cbv zeta in IH. destruct IH as (H1 & H2 & H3 & H4).
    rewrite <- app_assoc in H2, H3. cbn [app] in H2, H3.
    split; [exact H1|]. split; [exact H2|]. split; [exact H3|]. rewrite H4. unfold m, reqb. cbn [filter].
    destruct (Req_EM_T w 0); cbn; lia.
Qed.
Lemma accum_sample p ws : 0 < p -> ws <> [] -> sample_of (accum_total (fold_left accum_add ws (accum_new (Fin p)))) p ws.
Proof.
  intros Hp N. pose proof (accum_list ws (Fin p) [] 0) as H. cbv zeta in H. change (Integ (Fin p) (length []) 0 []) with (accum_new (Fin p)) in H.
  set (a := fold_left accum_add ws (accum_new (Fin p))) in *. clearbody a. cbn [app] in H. destruct H as (H1 & H2 & H3 & H4).
  unfold accum_total, integ_of. split; [exact H1|]. split; [exact Hp|]. split; [exact H3|]. split; [exact N|].
  cbn [i_count i_count_acc]. rewrite H3. split; [reflexivity|]. rewrite H4. reflexivity.
Qed.

(** * The events written to the file *)
Lemma draw_event_spec s : forall draws acc w acc' rest, draw_event s draws acc = Some (w, acc', rest) ->
  w <> 0 /\ exists used, draws = used ++ rest /\ used <> [] /\
    acc' = fold_left accum_add (map (fun d => reject s (snd d) (fst d)) used) acc /\
    sum (map (fun d => reject s (snd d) (fst d)) used) = w.
Proof.
  induction draws as [|[v r] draws IH]; intros acc w acc' rest H; [discriminate|].
  cbn [draw_event] in H. destruct (reqb (reject s r v) 0) eqn:E.
  - destruct (IH _ _ _ _ H) as (N & used & E1 & E2 & E3 & E4). split; [exact N|].
    exists ((v, r) :: used). cbn [map fst snd fold_left app sum]. rewrite E1, E3, E4.
    apply reqb_true in E. rewrite E. split; [reflexivity|]. split; [discriminate|]. split; [reflexivity|ring].
  - injection H as <- <- <-. apply reqb_false in E. split; [exact E|]. exists [(v, r)].
    cbn. split; [reflexivity|]. split; [discriminate|]. split; [reflexivity|ring].
Qed.
Lemma draw_events_spec s : forall n draws acc ws acc' rest, draw_events n s draws acc = Some (ws, acc', rest) ->
  length ws = n /\ List.Forall (fun w => w <> 0) ws /\ exists used, draws = used ++ rest /\ (n <= length used)%nat /\
    acc' = fold_left accum_add (map (fun d => reject s (snd d) (fst d)) used) acc /\
    sum ws = sum (map (fun d => reject s (snd d) (fst d)) used).
Proof.
  induction n as [|n IH]; intros draws acc ws acc' rest H.
  - injection H as <- <- <-. split; [reflexivity|]. split; [constructor|]. exists []. cbn. auto.
  - cbn [draw_events] in H. destruct (draw_event s draws acc) as [[[w a] d]|] eqn:E; [|discriminate].
    destruct (draw_events n s d a) as [[[us a'] d']|] eqn:E'; [|discriminate]. injection H as <- <- <-.
    destruct (draw_event_spec _ _ _ _ _ _ E) as (N & used & U1 & U2 & U3 & U4).
    destruct (IH _ _ _ _ _ E') as (L & F & used' & V1 & V2 & V3 & V4).
    split; [cbn; now rewrite L|]. split; [now constructor|]. exists (used ++ used').
    rewrite V1, app_assoc in U1. split; [exact U1|]. split.
    { rewrite app_length. destruct used; [congruence|]. cbn. lia. }
    rewrite map_app, fold_left_app, <- U3. split; [exact V3|]. cbn [sum]. rewrite sum_app, U4, V4. reflexivity.
Qed.
Lemma written_total n s draws p ws acc rest : 0 < p -> (0 < n)%nat ->
  draw_events n s draws (accum_new (Fin p)) = Some (ws, acc, rest) ->
  exists m, i_norm (accum_total acc) = Fin m /\ 0 < m /\ i_integ (accum_total acc) = Fin (sum ws / m) /\
    i_count_acc (accum_total acc) = n.
Proof.
  intros Hp Hn H. destruct (draw_events_spec _ _ _ _ _ _ _ H) as (L & F & used & U1 & U2 & U3 & U4).
  set (vs := map (fun d => reject s (snd d) (fst d)) used) in *.
  assert (Nv : vs <> []).
  { unfold vs. destruct used; [cbn in U2; lia|discriminate]. }
  pose proof (accum_sample p vs Hp Nv) as S. rewrite <- U3 in S.
  exists (INR (length vs) * p). split; [exact (sample_norm _ _ _ S)|].
  split; [apply Rmult_lt_0_compat; [now apply INR_pos_len|exact Hp]|].
  split; [rewrite U4; exact (sample_integ _ _ _ S)|].
  (* the accepted events are those written *)
  clear - H. unfold accum_total, integ_of. cbn [i_count_acc].
  assert (G : forall n draws acc ws acc' rest, draw_events n s draws acc = Some (ws, acc', rest) ->
    i_count_acc acc' = (i_count_acc acc + n)%nat).
  { clear. assert (G1 : forall draws acc w acc' rest, draw_event s draws acc = Some (w, acc', rest) -> i_count_acc acc' = S (i_count_acc acc)).
    { induction draws as [|[v r] draws IH]; intros acc w acc' rest H; [discriminate|]. cbn [draw_event] in H.
      destruct (reqb (reject s r v) 0) eqn:E.
      - rewrite (IH _ _ _ _ H). cbn. rewrite E. reflexivity.
      - injection H as <- <- <-. cbn. rewrite E. reflexivity. }
    induction n as [|n IH]; intros draws acc ws acc' rest H.
    - injection H as <- <- <-. lia.
    - cbn [draw_events] in H. destruct (draw_event s draws acc) as [[[w a] d]|] eqn:E; [|discriminate].
      destruct (draw_events n s d a) as [[[us a'] d']|] eqn:E'; [|discriminate]. injection H as <- <- <-.
      rewrite (IH _ _ _ _ _ E'), (G1 _ _ _ _ _ E). lia. }
  exact (G _ _ _ _ _ _ H).
Qed.

(** * The choice of the event type *)
Lemma wanted_not_nan a : wanted a <> NaN.
Proof. unfold wanted. destruct (ediv _ _); cbn; discriminate. Qed.
Lemma sinf_nonneg x : 0 <= x -> sinf x <> NInf.
Proof. intros H. unfold sinf. destruct (rltb 0 x); [discriminate|]. destruct (rltb x 0) eqn:E; [apply rltb_true in E; lra|discriminate]. Qed.
Lemma eltb_lt_total a b : a <> NaN -> b <> NaN -> eltb a b = true \/ eleb b a = true.
Proof.
  destruct a as [x| | |], b as [y| | |]; intros Ha Hb; cbn; auto; try congruence.
  unfold rltb, rleb. destruct (Rlt_dec x y); [now left|]. destruct (Rle_dec y x); [now right|lra].
Qed.
Lemma eltb_false a b : a <> NaN -> b <> NaN -> eltb a b = false -> eleb b a = true.
Proof. intros Ha Hb H. destruct (eltb_lt_total a b Ha Hb); [congruence|assumption]. Qed.
Lemma eltb_eleb a b : eltb a b = true -> eleb a b = true.
Proof.
  destruct a as [x| | |], b as [y| | |]; cbn; auto; try congruence.
  unfold rltb, rleb. destruct (Rlt_dec x y), (Rle_dec x y); auto; try lra; discriminate.
Qed.
Lemma eleb_trans a b c : eleb a b = true -> eleb b c = true -> eleb a c = true.
Proof.
  destruct a as [x| | |], b as [y| | |], c as [z| | |]; cbn; auto; try congruence.
  unfold rleb. destruct (Rle_dec x y), (Rle_dec y z), (Rle_dec x z); auto; try lra; discriminate.
Qed.
Lemma eltb_le_trans a b c : eltb a b = true -> eleb b c = true -> eltb a c = true.
Proof.
  destruct a as [x| | |], b as [y| | |], c as [z| | |]; cbn; auto; try congruence.
  unfold rltb, rleb. destruct (Rlt_dec x y), (Rle_dec y z), (Rlt_dec x z); auto; try lra; discriminate.
Qed.
Lemma ele_lt_trans a b c : eleb a b = true -> eltb b c = true -> eltb a c = true.
Proof.
  destruct a as [x| | |], b as [y| | |], c as [z| | |]; cbn; auto; try congruence.
  unfold rltb, rleb. destruct (Rle_dec x y), (Rlt_dec y z), (Rlt_dec x z); auto; try lra; discriminate.
Qed.
Lemma eltb_not_le a b : eltb a b = true -> eleb b a = false.
Proof.
  destruct a as [x| | |], b as [y| | |]; cbn; auto; try congruence.
  unfold rltb, rleb. destruct (Rlt_dec x y), (Rle_dec y x); auto; try lra; discriminate.
Qed.
Lemma choose_loop_spec : forall gens idx m chosen, m <> NaN ->
  let r := choose_loop idx m chosen gens in
  (r = chosen /\ forall a, In a gens -> eleb (wanted a) m = true) \/
  (exists i a, r = Some (idx + i)%nat /\ nth_error gens i = Some a /\ eltb m (wanted a) = true /\
    (forall b, In b gens -> eleb (wanted b) (wanted a) = true) /\
    (forall l b, (l < i)%nat -> nth_error gens l = Some b -> eltb (wanted b) (wanted a) = true)).
Proof.
  induction gens as [|a gens IH]; intros idx m chosen Hm; cbn [choose_loop].
  - left. split; [reflexivity|]. intros a [].
  - pose proof (wanted_not_nan a) as Na. destruct (eltb m (wanted a)) eqn:E.
    + destruct (IH (S idx) (wanted a) (Some idx) Na) as [[H1 H2]|(i & b & H1 & H2 & H3 & H4 & H5)]; cbv zeta in *.
      * right. exists 0%nat, a. rewrite H1. split; [f_equal; lia|]. split; [reflexivity|]. split; [exact E|]. split.
        { intros b [<-|Hb]; [|now apply H2]. destruct (wanted a) as [x| | |]; cbn; try reflexivity; [|congruence].
          unfold rleb. destruct (Rle_dec x x); [reflexivity|lra]. }
        { intros l b Hl. lia. }
      * right. exists (S i), b. rewrite H1. split; [f_equal; lia|]. split; [exact H2|]. split.
        { apply (eltb_le_trans _ (wanted a)); [exact E|]. now apply eltb_eleb. }
        split.
        { intros c [<-|Hc]; [now apply eltb_eleb|now apply H4]. }
        { intros [|l] c Hl Hc; [cbn in Hc; injection Hc as <-; exact H3|]. apply (H5 l); [lia|exact Hc]. }
    + apply eltb_false in E; [|exact Hm|exact Na].
      destruct (IH (S idx) m chosen Hm) as [[H1 H2]|(i & b & H1 & H2 & H3 & H4 & H5)]; cbv zeta in *.
      * left. split; [exact H1|]. intros b [<-|Hb]; [exact E|now apply H2].
      * right. exists (S i), b. rewrite H1. split; [f_equal; lia|]. split; [exact H2|]. split; [exact H3|]. split.
        { intros c [<-|Hc]; [apply (eleb_trans _ m); [exact E|now apply eltb_eleb]|now apply H4]. }
        { intros [|l] c Hl Hc; [cbn in Hc; injection Hc as <-; exact (ele_lt_trans _ m _ E H3)|]. apply (H5 l); [lia|exact Hc]. }
Qed.
Lemma choose_spec n gens : n <> 0%nat ->
  (choose n gens = None /\ forall a, In a gens -> eltb (Fin 0) (wanted a) = false) \/
  (exists i a, choose n gens = Some i /\ nth_error gens i = Some a /\ eltb (Fin 0) (wanted a) = true /\
    (forall b, In b gens -> eleb (wanted b) (wanted a) = true) /\
    (forall l b, (l < i)%nat -> nth_error gens l = Some b -> eltb (wanted b) (wanted a) = true)).
Proof.
  intros H. unfold choose. destruct (Nat.eqb_spec n 0); [contradiction|].
  destruct (choose_loop_spec gens 0 (Fin 0) None ltac:(discriminate)) as [[H1 H2]|(i & a & H1 & H2)].
  - left. split; [exact H1|]. intros a Ha. specialize (H2 a Ha).
    destruct (eltb (Fin 0) (wanted a)) eqn:E; [|reflexivity]. apply eltb_not_le in E. congruence.
  - right. exists i, a. split; [exact H1|exact H2].
Qed.
Lemma wanted_no_draws a : i_count a = 0%nat -> i_weights a = [] -> wanted a = PInf.
Proof. intros H1 H2. unfold wanted, i_weights_acc. rewrite H2. reflexivity. Qed.
Lemma sum_sq_pos ws : ws <> [] -> List.Forall (fun w => w <> 0) ws -> 0 < sum (map (fun w => w * w) ws).
Proof.
  intros N H. assert (G : forall l, List.Forall (fun w => w <> 0) l -> 0 <= sum (map (fun w => w * w) l)).
  { induction 1 as [|w l Hw Hl IH]; cbn; [lra|]. pose proof (Rle_0_sqr w) as Q. unfold Rsqr in Q. lra. }
  destruct ws as [|w ws]; [congruence|]. pose proof (Forall_inv H) as Hw. apply Forall_inv_tail in H. cbn.
  specialize (G ws H). pose proof (Rsqr_pos_lt w Hw) as Q. unfold Rsqr in Q. lra.
Qed.
Lemma wanted_positive a p ws w : sample_of a p ws -> In w ws -> w <> 0 -> eltb (Fin 0) (wanted a) = true.
Proof.
  intros A Iw Nw. destruct A as (A1 & A2 & A3 & A4 & A5 & A6). pose proof (INR_pos_len ws A4) as P.
  unfold wanted, i_norm, i_weights_acc. rewrite A1, A3, A5.
  set (vs := filter (fun w => negb (reqb w 0)) ws).
  assert (Nv : vs <> []).
  { assert (I : In w vs) by (unfold vs; apply filter_In; split; [exact Iw|]; apply negb_true_iff; now apply reqb_false).
    intros E. rewrite E in I. destruct I. }
  assert (Fv : List.Forall (fun w => w <> 0) vs).
  { apply List.Forall_forall. intros v Iv. unfold vs in Iv. apply filter_In in Iv as [_ E]. apply negb_true_iff in E. now apply reqb_false. }
  pose proof (sum_sq_pos vs Nv Fv) as Q. pose proof (INR_pos_len vs Nv) as Pv.
  unfold st_sqrt_m2. destruct vs as [|v vs'] eqn:EV; [congruence|]. rewrite <- EV in *. cbn [emul ediv].
  assert (0 < INR (length ws) * p) by now apply Rmult_lt_0_compat.
  replace (reqb (INR (length ws) * p) 0) with false by (symmetry; apply reqb_false; lra).
  cbn [eisfinite negb eltb]. apply rltb_true. apply Rdiv_lt_0_compat; [|assumption].
  apply sqrt_lt_R0. now apply Rdiv_lt_0_compat.
Qed.

(** * The total over the event types *)
Lemma total_two a b p q ws vs : sample_of a p ws -> sample_of b q vs ->
  i_integ (total [a; b]) = Fin ((sum ws + sum vs) / INR (length ws + length vs) * (1 / p + 1 / q)).
Proof.
  intros A B. pose proof A as (A1 & A2 & A3 & A4 & A5 & A6). pose proof B as (B1 & B2 & B3 & B4 & B5 & B6).
  pose proof (INR_pos_len ws A4) as Pw. pose proof (INR_pos_len vs B4) as Pv.
  unfold i_integ, total. cbn [fold_left]. unfold i_prime. rewrite A1, B1, A3, B3. cbn [ediv eadd].
  replace (reqb p 0) with false by (symmetry; apply reqb_false; lra).
  replace (reqb q 0) with false by (symmetry; apply reqb_false; lra). cbn [ediv eadd].
  assert (0 < / p) by now apply Rinv_0_lt_compat. assert (0 < / q) by now apply Rinv_0_lt_compat.
  assert (Q : 0 < 0 + 1 / p + 1 / q) by (unfold Rdiv; lra).
  replace (reqb (0 + 1 / p + 1 / q) 0) with false by (symmetry; apply reqb_false; lra).
  cbn [integ_of i_weights i_prime_inv app]. unfold st_mean.
  destruct (ws ++ vs) as [|x l] eqn:E; [destruct ws; [congruence|discriminate]|]. rewrite <- E. clear x l E.
  cbn [ediv]. assert (0 < 1 / (0 + 1 / p + 1 / q)) by (apply Rdiv_lt_0_compat; lra).
  replace (reqb (1 / (0 + 1 / p + 1 / q)) 0) with false by (symmetry; apply reqb_false; lra).
  rewrite sum_app, app_length. f_equal. rewrite plus_INR. set (u := 1 / p) in *. set (v := 1 / q) in *. field. split; lra.
Qed.
Lemma total_exact_iff a b p q ws vs : sample_of a p ws -> sample_of b q vs ->
  (i_integ (total [a; b]) = eadd (i_integ a) (i_integ b) <->
   sum ws / INR (length ws) = sum vs / INR (length vs) \/ INR (length ws) * p = INR (length vs) * q).
Proof.
  intros A B. rewrite (total_two a b p q ws vs A B), (sample_integ a p ws A), (sample_integ b q vs B). cbn [eadd].
  destruct A as (_ & A2 & _ & A4 & _), B as (_ & B2 & _ & B4 & _).
  pose proof (INR_pos_len ws A4) as Pw. pose proof (INR_pos_len vs B4) as Pv. rewrite plus_INR.
  set (W := sum ws). set (V := sum vs). set (n := INR (length ws)) in *. set (m := INR (length vs)) in *.
  clearbody W V n m.
  assert (K : (W + V) / (n + m) * (1 / p + 1 / q) - (W / (n * p) + V / (m * q)) =
     (W / n - V / m) * (n * p - m * q) / ((n + m) * (p * q))).
  { field. repeat split; lra. }
  assert (D : 0 < (n + m) * (p * q)) by (apply Rmult_lt_0_compat; [lra|now apply Rmult_lt_0_compat]).
  split.
  - intros E. injection E as E. assert (Z : (W / n - V / m) * (n * p - m * q) / ((n + m) * (p * q)) = 0) by (rewrite <- K; lra).
    apply (f_equal (fun t => t * ((n + m) * (p * q)))) in Z. unfold Rdiv at 1 in Z.
    rewrite Rmult_assoc, Rinv_l, Rmult_1_r, Rmult_0_l in Z by lra.
    apply Rmult_integral in Z as [Z|Z]; [left|right]; lra.
  - intros E. f_equal. assert (Z : (W / n - V / m) * (n * p - m * q) = 0).
    { destruct E as [E|E]; [rewrite E|rewrite E]; ring. }
    rewrite Z in K. unfold Rdiv at 6 in K. rewrite Rmult_0_l in K. lra.
Qed.
Lemma total_absent a b : i_prime_inv a = NaN \/ i_prime_inv b = NaN ->
  i_integ (total [a; b]) = NaN /\ i_norm (total [a; b]) = NaN /\ i_prime (total [a; b]) = NaN.
Proof.
  intros H. assert (E : i_prime_inv (total [a; b]) = NaN).
  { unfold total. cbn [fold_left integ_of i_prime_inv]. unfold i_prime. destruct H as [-> | ->].
    - cbn [ediv]. reflexivity.
    - cbn [ediv]. destruct (eadd (Fin 0) _); reflexivity. }
  unfold i_integ, i_norm, i_prime. rewrite E. cbn. split; [|split]; try reflexivity.
  destruct (st_mean _); reflexivity.
Qed.

(** * Efficiency *)
Lemma eff_roundtrip e : 0 < e -> shown_eff (target_rel_var e) = e.
Proof.
  intros H. unfold shown_eff, log1p, target_rel_var, expm1.
  replace (1 + (exp (-2 * ln e) - 1)) with (exp (-2 * ln e)) by ring. rewrite ln_exp.
  replace (- (1 / 2) * (-2 * ln e)) with (ln e) by field. now apply exp_ln.
Qed.
Lemma rel_var_roundtrip v : - 1 < v -> target_rel_var (shown_eff v) = v.
Proof.
  intros H. unfold target_rel_var, expm1, shown_eff, log1p. rewrite ln_exp.
  replace (-2 * (- (1 / 2) * ln (1 + v))) with (ln (1 + v)) by field. rewrite exp_ln by lra. ring.
Qed.
Lemma rel_var_formula e : 0 < e -> target_rel_var e = 1 / (e * e) - 1.
Proof.
  intros H. unfold target_rel_var, expm1. f_equal. replace (-2 * ln e) with (- ln e + - ln e) by ring.
  rewrite exp_plus, !exp_Ropp, exp_ln by exact H. field. lra.
Qed.
Lemma shown_eff_formula v : - 1 < v -> shown_eff v = 1 / sqrt (1 + v).
Proof.
  intros H. unfold shown_eff, log1p. assert (S := sqrt_lt_R0 (1 + v) ltac:(lra)).
  rewrite <- (sqrt_sqrt (1 + v)) at 1 by lra. rewrite ln_mult by exact S.
  replace (- (1 / 2) * (ln (sqrt (1 + v)) + ln (sqrt (1 + v)))) with (- ln (sqrt (1 + v))) by field.
  rewrite exp_Ropp, exp_ln by exact S. field. lra.
Qed.

(** * Merging files *)
Lemma array_add_nth : forall a b i, length a = length b -> (i < length a)%nat ->
  nth i (array_add a b) integ_empty = iadd (nth i a integ_empty) (nth i b integ_empty) /\ length (array_add a b) = length a.
Proof.
  induction a as [|x a IH]; intros b i E L; [cbn in L; lia|]. destruct b as [|y b]; [discriminate|].
  cbn in E. injection E as E. destruct i as [|i].
  - split; [reflexivity|]. cbn. f_equal. destruct a as [|x' a]; [destruct b; reflexivity|].
    apply (IH b 0%nat E). cbn. lia.
  - cbn [nth array_add length]. cbn in L. destruct (IH b i E ltac:(lia)) as [H1 H2]. split; [exact H1|now rewrite H2].
Qed.
Lemma merge_columns n : forall files first none i, length first = n -> List.Forall (fun f => length f = n) files -> (i < n)%nat ->
  nth i (merge_stats (first :: files) none) integ_empty =
  fold_left iadd (map (fun f => nth i f integ_empty) files) (nth i first integ_empty).
Proof.
  unfold merge_stats. induction files as [|g files IH]; intros first none i L F Hi; [reflexivity|].
  pose proof (Forall_inv F) as Lg. apply Forall_inv_tail in F. cbn [fold_left map].
  destruct (array_add_nth first g i ltac:(congruence) ltac:(lia)) as [H1 H2].
  rewrite (IH (array_add first g) none i); [now rewrite H1 | congruence | exact F | exact Hi].
Qed.
