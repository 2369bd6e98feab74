(** Tables that make [read_grids] read past their end, and tables with a ragged end. *)
From Coq Require Import Reals ZArith Bool List Lia Lra Permutation.
From Verif Require Import ExtModel BoundModel BoundSpec BoundProofs CutProofs GridModel GridSpec GridProofs ReadGridModel ReadGridSpec ReadGridProofs ReadGridFull.
Import ListNotations.
Local Open Scope nat_scope.
Set Bullet Behavior "Strict Subproofs".

(** * When can it happen *)
Lemma rbind_bad {A B} (x : rd A) (f : A -> rd B) : rbind x f = BadRow -> x = BadRow \/ exists a, x = Ok a /\ f a = BadRow.
Proof. destruct x; cbn; intros H; try discriminate; eauto. Qed.
Section Bad.
Variables (rows : list row) (N K : nat).
Hypothesis WF : table N K rows.
Lemma entry_bad r c : c < N -> entry rows r c = BadRow -> length rows <= r.
Proof. intros C H. destruct (Nat.le_gt_cases (length rows) r) as [|L]; auto. destruct (entry_in rows N K WF r c L ltac:(lia)). congruence. Qed.
Lemma same_bad c v r n : c < N -> same_from rows c v r n = BadRow -> length rows < r + n.
Proof.
  intros C. revert r. induction n as [|n IH]; cbn; intros r H; [discriminate|]. apply rbind_bad in H as [H|(w & _ & H)]; [apply entry_bad in H; auto; lia|].
  destruct (eneqb w v); [discriminate|]. apply IH in H. lia.
Qed.
Lemma find_bad ct filled step rem : step + rem <= N -> 0 < length rows -> find_col rows ct filled step rem = BadRow -> length rows <= ct.
Proof.
  intros Q NE. revert step Q. induction rem as [|rem IH]; cbn [find_col]; intros step Q H; [discriminate|].
  destruct (existsb _ _); [apply (IH (S step)); auto; lia|]. apply rbind_bad in H as [H|(a & _ & H)]; [apply entry_bad in H; lia|].
  apply rbind_bad in H as [H|(b & _ & H)]; [apply entry_bad in H; lia|]. destruct (eeqb a b); [apply (IH (S step)); auto; lia|].
  apply rbind_bad in H as [H|(s & _ & H)]; [apply same_bad in H; lia|]. destruct s; [discriminate|]. apply (IH (S step)); auto; lia.
Qed.
Lemma planes_from_bad ct c first g rem : c < N -> planes_from rows ct c first g rem = BadRow -> exists h, g <= h < g + rem /\ length rows <= h * ct.
Proof.
  intros C. revert g. induction rem as [|rem IH]; cbn [planes_from]; intros g H; [discriminate|]. apply rbind_bad in H as [H|(v & _ & H)]; [exists g; apply entry_bad in H; auto; split; lia|].
  destruct (eneqb v first); [|discriminate]. apply rbind_bad in H as [H|(ps & _ & H)]; [|discriminate]. apply IH in H as (h & H1 & H2). exists h. split; lia.
Qed.
Lemma check_rows_bad ct c ps r n : c < N -> 0 < length ps -> check_rows rows ct c ps r n = BadRow -> length rows < r + n.
Proof.
  intros C P. revert r. induction n as [|n IH]; cbn [check_rows]; intros r H; [discriminate|]. apply rbind_bad in H as [H|(v & _ & H)]; [apply entry_bad in H; lia|].
  apply rbind_bad in H as [H|(w & _ & H)].
  - destruct (nth_error ps _) eqn:E; [discriminate|]. apply nth_error_None in E. pose proof (Nat.mod_upper_bound (r / ct) (length ps)). lia.
  - destruct (eneqb v w); [discriminate|]. apply IH in H. lia.
Qed.
Lemma check_spacing_bad tol lo sp ps pl : check_spacing tol lo sp ps pl <> BadRow.
Proof. revert pl. induction ps as [|p ps IH]; cbn [check_spacing]; intros pl; [discriminate|]. destruct (egtb _ _); [discriminate|apply IH]. Qed.
Lemma read_dim_bad tol ct filled : 0 < ct -> 0 < length rows -> read_dim rows N tol ct filled = BadRow -> length rows <= ct.
Proof.
  intros P NE H. unfold read_dim in H. destruct (length rows / ct * ct =? length rows) eqn:D; [|discriminate]. apply Nat.eqb_eq in D. cbn [negb] in H.
  apply rbind_bad in H as [H|(c & EC & H)]; [apply find_bad in H; auto|]. apply find_col_ok in EC as (C1 & _ & _). cbn in C1.
  apply rbind_bad in H as [H|(ps & EP & H)].
  - exfalso. unfold planes in H. destruct (length rows / ct) as [|n] eqn:EQ; [discriminate|]. apply rbind_bad in H as [H|(v & _ & H)]; [apply entry_bad in H; lia|].
    apply rbind_bad in H as [H|(v' & _ & H)]; [|discriminate]. apply planes_from_bad in H as (h & H1 & H2); [|lia]. nia.
  - exfalso. destruct (length ps <=? 1) eqn:L; [discriminate|]. apply Nat.leb_gt in L. apply rbind_bad in H as [H|(u & EU & H)]; [apply check_rows_bad in H; lia|].
    cbv zeta in H. destruct (_ || _)%bool; [discriminate|]. destruct (egeb _ _); [discriminate|]. apply rbind_bad in H as [H|(u' & _ & H)]; [|discriminate]. apply check_spacing_bad in H. exact H.
Qed.
Lemma read_dims_bad tol rem ct fs : read_dims rows N tol rem ct fs = BadRow ->
  0 < length rows -> layout rows N tol 1 fs -> NoDup (map fd_col fs) -> ct = size_of (map fd_count fs) -> ct <= length rows -> 0 < ct ->
  exists gs, layout rows N tol 1 gs /\ NoDup (map fd_col gs) /\ size_of (map fd_count gs) = length rows /\ length gs < length fs + rem.
Proof.
  intros H NE. revert ct fs H. induction rem as [|rem IH]; cbn [read_dims]; intros ct fs H L D E LE P; [discriminate|].
  apply rbind_bad in H as [H|(f & EF & H)].
  - apply read_dim_bad in H; auto. exists fs. split; auto. split; auto. split; lia.
  - apply read_dim_ok in EF as [G NI]; auto. assert (2 <= fd_count f) by apply G. apply IH in H.
    + destruct H as (gs & A & B & C & Q). exists gs. rewrite app_length in Q. cbn in Q. intuition lia.
    + apply layout_app; auto. rewrite Nat.mul_1_l, <- E. exact G.
    + rewrite map_app. cbn. apply (Permutation_NoDup (l := fd_col f :: map fd_col fs)); [apply Permutation_cons_append|constructor; auto].
    + rewrite map_app, size_app. cbn [map]. rewrite size_one, <- E. reflexivity.
    + apply G.
    + nia.
Qed.
(** Only when fewer than [N] of the columns already have as many combinations of planes as there are rows. *)
Lemma bad_when tol : read_grids N K tol rows = BadRow ->
  exists fs, length fs < N /\ layout rows N tol 1 fs /\ NoDup (map fd_col fs) /\ size_of (map fd_count fs) = length rows.
Proof.
  unfold read_grids. destruct (length rows <? 2 ^ N) eqn:Q; [discriminate|]. apply Nat.ltb_ge in Q. assert (2 ^ N <> 0) by (apply Nat.pow_nonzero; lia). intros H'.
  apply rbind_bad in H' as [H'|([ct fs] & ER & H')].
  - apply read_dims_bad in H'; try (cbn; lia || constructor). destruct H' as (gs & A & B & C & D). exists gs. cbn in D. auto.
  - exfalso. destruct (core rows N K tol ct fs WF ltac:(lia) ER) as (dims & ED & _ & _ & _ & _ & _ & _ & pos & _ & _ & H3). rewrite ED in H'. cbn [rbind] in H'. revert H'.
    assert (G : forall l, (forall k, In k l -> k < K) -> rmap (fun k => rbind (reorder rows (N + k) (strides ct (map fd_count dims)) fs 0 (length rows) (repeat (Fin 0) (length rows))) (fun data => Ok (map dim_found dims, firstn ct data))) l <> BadRow).
    { induction l as [|k l IH]; cbn [rmap]; intros HL; [discriminate|]. destruct (H3 (N + k)) as (data & -> & _); [specialize (HL k (or_introl eq_refl)); lia|]. cbn [rbind]. intros Z. apply rbind_bad in Z as [Z|(b & _ & Z)]; [|discriminate]. revert Z. apply IH. intros; apply HL; cbn; auto. }
    apply G. intros k I. apply in_seq in I. lia.
Qed.
(** Never with one column. *)
Lemma bad_one tol : N = 1 -> read_grids N K tol rows <> BadRow.
Proof.
  intros E1 H. assert (2 ^ N <= length rows). { unfold read_grids in H. destruct (length rows <? 2 ^ N) eqn:Q; [discriminate|]. apply Nat.ltb_ge in Q. auto. }
  apply bad_when in H as (fs & L & _ & _ & S). destruct fs; cbn in *; [|lia]. rewrite E1 in H0. cbn in H0. lia.
Qed.
End Bad.

(** * Tables whose first column counts 0, 1, ..., n-1 and starts again *)
Section Line.
Variables (rows : list row) (N n : nat) (tol : R).
Hypotheses (HN : 0 < N) (Hn : 2 <= n <= length rows) (HR : forall r, r < length rows -> entry rows r 0 = Ok (Fin (INR (r mod n)))).
Definition line : found := Found 0 (map (fun k => Fin (INR k)) (seq 0 n)).
Lemma line_planes g rem : 1 <= g <= n -> n <= g + rem -> g + rem <= length rows -> planes_from rows 1 0 (Fin (INR 0)) g rem = Ok (map (fun k => Fin (INR k)) (seq g (n - g))).
Proof.
  revert g. induction rem as [|rem IH]; intros g G1 G2 G3; cbn [planes_from]; [replace (n - g) with 0 by lia; reflexivity|].
  rewrite Nat.mul_1_r, HR by lia. cbn [rbind]. unfold eneqb. destruct (Nat.eq_dec g n) as [ -> |NE].
  - rewrite Nat.mod_same by lia. rewrite fin_refl. cbn [negb]. rewrite Nat.sub_diag. reflexivity.
  - rewrite Nat.mod_small by lia. rewrite fin_neq by (intros Q; apply INR_eq in Q; lia). cbn [negb]. rewrite IH by lia. cbn [rbind]. replace (n - g) with (S (n - S g)) by lia. reflexivity.
Qed.
Lemma line_dim : read_dim rows N (Fin tol) 1 [] = Ok line.
Proof.
  unfold read_dim. cbv zeta. rewrite Nat.div_1_r, Nat.mul_1_r, Nat.eqb_refl. cbn [negb].
  rewrite (find_col_intro rows 1 [] 0 0 N); [|lia|auto|intros; lia|].
  2:{ exists (Fin (INR 0)), (Fin (INR 1)). rewrite !HR by lia. rewrite Nat.mod_0_l, (Nat.mod_small 1) by lia. split; auto. split; auto. split; [apply fin_neq; intros Q; apply INR_eq in Q; lia|]. split; [apply fin_refl|].
      intros r R. replace r with 0 by lia. rewrite HR, Nat.mod_0_l by lia. reflexivity. }
  cbn [rbind]. assert (EP : planes rows 1 0 (length rows) = Ok (map (fun k => Fin (INR k)) (seq 0 n))).
  { replace (length rows) with (S (length rows - 1)) by lia. cbn [planes]. rewrite HR by lia. rewrite Nat.mod_0_l by lia. cbn [rbind]. rewrite line_planes by lia. cbn [rbind]. replace n with (S (n - 1)) at 2 by lia. reflexivity. }
  rewrite EP. cbn [rbind]. rewrite map_length, seq_length. replace (n <=? 1) with false by (symmetry; apply Nat.leb_gt; lia).
  rewrite check_rows_intro.
  2:{ intros r R. rewrite HR by lia. eexists. split; [reflexivity|]. split; [|apply fin_refl]. rewrite map_length, seq_length, Nat.div_1_r. apply (map_nth_error (fun k => Fin (INR k))), seq_error, Nat.mod_upper_bound. lia. }
  cbn [rbind]. fold line. assert (FL : fd_lower line = Fin 0). { unfold fd_lower, line. cbn [fd_planes]. replace n with (S (n - 1)) by lia. reflexivity. }
  assert (FU : fd_upper line = Fin (INR (n - 1))). { unfold fd_upper, line. cbn [fd_planes]. replace n with ((n - 1) + 1) at 1 by lia. rewrite seq_app, map_app. cbn [seq map]. rewrite last_last. reflexivity. }
  rewrite FL, FU. cbn [eisfinite negb orb]. assert (P : (0 < INR (n - 1))%R) by (apply lt_0_INR; lia).
  unfold egeb, eleb. replace (rleb (INR (n - 1)) 0) with false by (symmetry; apply rleb_false; exact P). cbn [esub eadd eneg ediv]. unfold reqb. destruct (Req_EM_T (INR (n - 1)) 0) as [|_]; [lra|].
  replace ((INR (n - 1) + - 0) / INR (n - 1))%R with 1%R by (field; lra).
  assert (CS : forall l s, check_spacing (Fin tol) (Fin 0) (Fin 1) (map (fun k => Fin (INR k)) (seq s l)) s = Ok tt).
  { induction l as [|l IH]; intros s; cbn [seq map check_spacing]; [reflexivity|]. cbn [emul eadd esub eneg eabs]. unfold egtb. cbn [eltb].
    replace (INR s + - (0 + INR s * 1))%R with 0%R by ring. rewrite Rabs_R0. replace (rltb (Rabs (tol * 1)) 0) with false by (symmetry; apply rltb_false; apply Rabs_pos). apply IH. }
  rewrite CS. reflexivity.
Qed.
End Line.
(** Points on a line, read as a two-dimensional grid. *)
Lemma line_bad K tol rows : table 2 K rows -> 4 <= length rows -> (forall r, r < length rows -> entry rows r 0 = Ok (Fin (INR r))) ->
  read_grids 2 K (Fin tol) rows = BadRow.
Proof.
  intros WF L H. unfold read_grids. replace (length rows <? 2 ^ 2) with false by (symmetry; apply Nat.ltb_ge; exact L).
  assert (H' : forall r, r < length rows -> entry rows r 0 = Ok (Fin (INR (r mod length rows)))) by (intros r R; rewrite Nat.mod_small by auto; auto).
  cbn [read_dims map]. rewrite (line_dim rows 2 (length rows) tol ltac:(lia) ltac:(lia) H'). cbn [rbind map app].
  unfold fd_count, line at 1. cbn [fd_planes]. rewrite map_length, seq_length, Nat.mul_1_l. unfold read_dim. cbv zeta. rewrite Nat.div_same, Nat.mul_1_l, Nat.eqb_refl by lia. cbn [negb find_col map fd_col line existsb Nat.eqb orb].
  destruct (entry_in rows 2 K WF 0 1) as [v E]; [lia|lia|]. rewrite E. cbn [rbind]. unfold entry at 1. replace (nth_error rows (length rows)) with (@None row) by (symmetry; apply nth_error_None; auto). reflexivity.
Qed.
(** One-dimensional tables may start again and stop anywhere. *)
Lemma line_ragged K tol rows n : table 1 K rows -> 2 <= n <= length rows -> (forall r, r < length rows -> entry rows r 0 = Ok (Fin (INR (r mod n)))) ->
  exists gs, read_grids 1 K (Fin tol) rows = Ok gs.
Proof.
  intros WF L H. destruct (read_grids 1 K (Fin tol) rows) as [gs|e|] eqn:E; [eauto| |exfalso; revert E; apply bad_one; auto].
  exfalso. revert E. unfold read_grids. replace (length rows <? 2 ^ 1) with false by (symmetry; apply Nat.ltb_ge; cbn; lia).
  assert (RD : read_dims rows 1 (Fin tol) 1 1 [] = Ok (n, [line n])).
  { cbn [read_dims map]. rewrite (line_dim rows 1 n tol ltac:(lia) L H). cbn [rbind app]. unfold fd_count, line. cbn [fd_planes]. rewrite map_length, seq_length, Nat.mul_1_l. reflexivity. }
  rewrite RD. cbn [rbind]. destruct (core rows 1 K (Fin tol) n _ WF ltac:(lia) RD) as (dims & ED & _ & _ & _ & _ & _ & _ & pos & _ & _ & H3). rewrite ED. cbn [rbind].
  assert (G : forall l, (forall k, In k l -> k < K) -> forall e, rmap (fun k => rbind (reorder rows (1 + k) (strides n (map fd_count dims)) [line n] 0 (length rows) (repeat (Fin 0) (length rows))) (fun data => Ok (map dim_found dims, firstn n data))) l <> Throw e).
  { induction l as [|k l IH]; cbn [rmap]; intros HL e'; [discriminate|]. destruct (H3 (1 + k)) as (data & -> & _); [specialize (HL k (or_introl eq_refl)); lia|]. cbn [rbind].
    specialize (IH ltac:(intros; apply HL; cbn; auto)). destruct (rmap _ l) as [bs|e2|] eqn:ER; cbn; try discriminate. intros Q. injection Q as <-. apply (IH e2). reflexivity. }
  apply G. intros k I. apply in_seq in I. lia.
Qed.
