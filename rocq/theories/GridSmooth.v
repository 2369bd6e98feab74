(** One-dimensional cubic interpolation has a continuous derivative. *)
From Coq Require Import Reals ZArith Bool List Lia Lra Psatz.
From Coquelicot Require Import Coquelicot.
From Verif Require Import ExtModel BoundProofs GridModel GridSpec GridProofs.
Import ListNotations.
Local Open Scope R_scope.

Definition slope (f : nat -> R) (count i : nat) (r : R) : R :=
  let c0 := if (i =? 0)%nat then 0 else f (i - 1)%nat in let c3 := if (count - 2 <=? i)%nat then 0 else f (i + 2)%nat in
  (6 * r * r - 6 * r) * f i + 1 / 2 * (1 - 4 * r + 3 * r * r) * (f (i + 1)%nat - c0) + (6 * r - 6 * r * r) * f (i + 1)%nat - 1 / 2 * (2 * r - 3 * r * r) * (c3 - f i).
Lemma cell_derive f count i r : is_derive (cell_value f count i) r (slope f count i r).
Proof. unfold cell_value, slope. auto_derive; [auto|]. cbn. field. Qed.
Lemma cell_join f count i : (i + 3 <= count)%nat -> cell_value f count i 1 = cell_value f count (i + 1) 0 /\ slope f count i 1 = slope f count (i + 1) 0.
Proof.
  intros H. unfold cell_value, slope. replace (count - 2 <=? i)%nat with false by (symmetry; apply Nat.leb_gt; lia). replace (i + 1 =? 0)%nat with false by (symmetry; apply Nat.eqb_neq; lia).
  replace (i + 1 - 1)%nat with i by lia. replace (i + 1 + 1)%nat with (i + 2)%nat by lia. split; cbn; field.
Qed.
Lemma glue (F L G : R -> R) (c d l : R) : 0 < d -> (forall y, c - d < y < c -> F y = L y) -> (forall y, c <= y < c + d -> F y = G y) -> L c = G c ->
  is_derive L c l -> is_derive G c l -> is_derive F c l.
Proof.
  intros D HL HG E DL DG. apply is_derive_Reals. apply is_derive_Reals in DL. apply is_derive_Reals in DG. intros eps He. destruct (DL eps He) as [d1 H1]. destruct (DG eps He) as [d2 H2].
  assert (P : 0 < Rmin d (Rmin d1 d2)) by (repeat apply Rmin_pos; auto; apply cond_pos). exists (mkposreal _ P). intros h Hh Hd. cbn in Hd.
  assert (Rabs h < d /\ Rabs h < d1 /\ Rabs h < d2) as (A & A1 & A2).
  { pose proof (Rmin_l d (Rmin d1 d2)). pose proof (Rmin_r d (Rmin d1 d2)). pose proof (Rmin_l d1 d2). pose proof (Rmin_r d1 d2). lra. }
  assert (FC : F c = G c) by (apply HG; lra). rewrite FC. destruct (Rtotal_order h 0) as [N|[Z|P']]; [|congruence|].
  - rewrite Rabs_left in A by auto. rewrite (HL (c + h)) by lra. rewrite <- E. apply H1; auto.
  - rewrite Rabs_pos_eq in A by lra. rewrite (HG (c + h)) by lra. apply H2; auto.
Qed.
Section View.
Variables (data : list ext) (a : axis) (f : nat -> R).
Hypotheses (HA : proper a) (HD : holds data [ax_count a] (fun is => f (hd 0%nat is))).
(** Value of the view as a function of the coordinate. *)
Definition value (x : R) : R := match e_cubic_view data [dim_of a] 0 [Fin x] with Val (Fin v) => v | _ => 0 end.
Lemma value_cell i r x : (i + 2 <= ax_count a)%nat -> 0 <= r < 1 -> x = node a i + r * spacing a -> value x = cell_value f (ax_count a) i r.
Proof. intros I R0 E. unfold value. rewrite (cubic_1d data a f x i r HA HD I R0 E). reflexivity. Qed.
Definition piece (i : nat) (x : R) : R := cell_value f (ax_count a) i ((x - node a i) / spacing a).
Lemma piece_derive i x : is_derive (piece i) x (slope f (ax_count a) i ((x - node a i) / spacing a) / spacing a).
Proof.
  pose proof (spacing_pos a HA) as P. unfold piece, Rdiv at 2. rewrite Rmult_comm. apply (is_derive_comp (cell_value f (ax_count a) i)); [apply cell_derive|]. auto_derive; [auto|]. ring.
Qed.
Lemma value_piece i x : (i + 2 <= ax_count a)%nat -> node a i <= x < node a i + spacing a -> value x = piece i x.
Proof.
  intros I H. pose proof (spacing_pos a HA) as P. apply value_cell; auto.
  - split; [apply Rmult_le_pos; [lra|apply Rlt_le, Rinv_0_lt_compat; auto]|]. apply Rmult_lt_reg_r with (spacing a); auto. unfold Rdiv. rewrite Rmult_assoc, Rinv_l by lra. lra.
  - field. lra.
Qed.
(** The derivative exists everywhere between the ends; it is the slope of the cell. *)
Lemma smooth x i r : (i + 2 <= ax_count a)%nat -> 0 <= r < 1 -> x = node a i + r * spacing a -> ax_lower a < x ->
  is_derive value x (slope f (ax_count a) i r / spacing a).
Proof.
  intros I R0 E LX. pose proof (spacing_pos a HA) as P.
  assert (ER : (x - node a i) / spacing a = r) by (rewrite E; field; lra). rewrite <- ER.
  destruct (Rle_lt_or_eq_dec 0 r (proj1 R0)) as [R1|R1].
  - assert (0 < Rmin (r * spacing a) ((1 - r) * spacing a)) as D by (apply Rmin_pos; nra). apply is_derive_ext_loc with (piece i); [|apply piece_derive].
    exists (mkposreal _ D). intros y Hy. cbn in Hy. unfold ball in Hy. cbn in Hy. unfold AbsRing_ball, abs, minus, plus, opp in Hy. cbn in Hy. symmetry. apply value_piece; auto.
    apply Rabs_def2 in Hy. pose proof (Rmin_l (r * spacing a) ((1 - r) * spacing a)). pose proof (Rmin_r (r * spacing a) ((1 - r) * spacing a)). lra.
  - rewrite <- R1 in ER, E. clear R1. destruct i as [|i]; [exfalso; unfold node in E; change (INR 0) with 0 in E; lra|]. replace (Datatypes.S i) with (i + 1)%nat in * by lia.
    assert (EN : x = node a (i + 1)) by lra. apply (glue value (piece i) (piece (i + 1)) x (spacing a)); auto.
    + intros y Hy. apply value_piece; [lia|]. rewrite EN, node_step in Hy by auto. lra.
    + intros y Hy. apply value_piece; [lia|]. rewrite <- EN. lra.
    + unfold piece. rewrite ER. destruct (cell_join f (ax_count a) i) as [<- _]; [lia|]. f_equal. rewrite EN, node_step by auto. field. lra.
    + replace (slope f (ax_count a) (i + 1) ((x - node a (i + 1)) / spacing a)) with (slope f (ax_count a) i ((x - node a i) / spacing a)); [apply piece_derive|].
      rewrite ER. destruct (cell_join f (ax_count a) i) as [_ <-]; [lia|]. f_equal. rewrite EN, node_step by auto. field. lra.
    + apply piece_derive.
Qed.
Lemma derivable x : ax_lower a < x < ax_upper a -> ex_derive value x.
Proof. intros H. destruct (locate_in a HA x) as (i & r & _ & I & R0 & E); [unfold inside; lra|]. eexists. apply (smooth x i r); auto. lra. Qed.
(** At a node off the ends the derivative is the central difference. *)
Lemma node_slope k : (1 <= k)%nat -> (k + 2 <= ax_count a)%nat -> is_derive value (node a k) ((f (k + 1)%nat - f (k - 1)%nat) / (2 * spacing a)).
Proof.
  intros K1 K2. pose proof (spacing_pos a HA) as P.
  assert (D : is_derive value (node a k) (slope f (ax_count a) k 0 / spacing a)).
  { apply (smooth (node a k) k 0); auto; [lra|lra|]. unfold node. assert (1 <= INR k) by (change 1 with (INR 1); apply le_INR; auto). nra. }
  replace ((f (k + 1)%nat - f (k - 1)%nat) / (2 * spacing a)) with (slope f (ax_count a) k 0 / spacing a); auto.
  unfold slope. replace (k =? 0)%nat with false by (symmetry; apply Nat.eqb_neq; lia). field. lra.
Qed.
End View.
(** Constant data is not reproduced in the first cell. *)
Lemma edge_lost data a c x : proper a -> holds data [ax_count a] (fun _ => c) -> c <> 0 -> node a 0 < x < node a 1 ->
  e_cubic_view data [dim_of a] 0 [Fin x] <> Val (Fin c).
Proof.
  intros HA HD HC HX. pose proof (spacing_pos a HA) as P. set (r := (x - node a 0) / spacing a).
  assert (N1 : node a 1 = node a 0 + spacing a) by (unfold node; cbn; ring).
  assert (EX : x = node a 0 + r * spacing a) by (unfold r; field; lra). assert (R0 : 0 < r < 1) by (split; [apply Rmult_lt_reg_r with (spacing a)|apply Rmult_lt_reg_r with (spacing a)]; lra).
  clearbody r.
  rewrite (cubic_1d data a (fun _ => c) x 0 r HA HD); [|destruct HA; lia|lra|auto]. intros E. injection E as E. unfold cell_value in E. cbn [Nat.eqb] in E.
  destruct (ax_count a - 2 <=? 0)%nat.
  - assert (c * (r * (1 - r)) = 0) by lra. assert (0 < r * (1 - r)) by nra. apply Rmult_integral in H. lra.
  - assert (c * ((1 - r) * (1 - r) * r) = 0) by lra. assert (0 < (1 - r) * (1 - r) * r) by (repeat apply Rmult_lt_0_compat; lra). apply Rmult_integral in H. lra.
Qed.

(** * The first failing dimension *)
Lemma check_first dims idx e : check_dims eisfinite egtb idx dims = Some e ->
  exists k d, nth_error dims k = Some d /\
  (forall j c, (j < k)%nat -> nth_error dims j = Some c -> exists lo hi, d_lower c = Fin lo /\ d_upper c = Fin hi /\ lo <= hi /\ (2 <= d_count c)%nat) /\
  match e with
  | InvalidBounds => ~ exists lo hi, d_lower d = Fin lo /\ d_upper d = Fin hi /\ lo <= hi
  | SingularDimension i => i = (idx + k)%nat /\ (exists lo hi, d_lower d = Fin lo /\ d_upper d = Fin hi /\ lo <= hi) /\ (d_count d <= 1)%nat
  end.
Proof.
  revert idx. induction dims as [|d ds IH]; intros idx; cbn [check_dims]; [discriminate|].
  assert (Z0 : forall j c, (j < 0)%nat -> nth_error (d :: ds) j = Some c -> exists lo hi, d_lower c = Fin lo /\ d_upper c = Fin hi /\ lo <= hi /\ (2 <= d_count c)%nat) by (intros; exfalso; lia).
  destruct (negb (eisfinite (d_lower d)) || negb (eisfinite (d_upper d)))%bool eqn:E1.
  { intros H. injection H as <-. exists 0%nat, d. split; [reflexivity|]. split; [exact Z0|]. intros (lo & hi & L & U & _). rewrite L, U in E1. discriminate. }
  apply orb_false_elim in E1. destruct E1 as [L U]. apply negb_false_iff in L, U. destruct (d_lower d) as [lo| | |] eqn:EL; try discriminate. destruct (d_upper d) as [hi| | |] eqn:EU; try discriminate.
  cbn [egtb eltb]. destruct (rltb hi lo) eqn:E2.
  { intros H. injection H as <-. exists 0%nat, d. split; [reflexivity|]. split; [exact Z0|]. intros (l & h & L' & U' & O). rewrite EL in L'. rewrite EU in U'. injection L' as <-. injection U' as <-.
    apply rltb_spec in E2. lra. }
  apply rltb_false in E2. destruct (d_count d <=? 1)%nat eqn:E3.
  { intros H. injection H as <-. exists 0%nat, d. split; [reflexivity|]. split; [exact Z0|]. split; [lia|]. split; [exists lo, hi; repeat split; auto; lra|]. apply Nat.leb_le. exact E3. }
  apply Nat.leb_gt in E3. intros H. destruct (IH (S idx) H) as (k & d' & N & B & M). exists (S k), d'. split; [exact N|]. split.
  - intros [|j] c Hj Hc; [|apply (B j c); [lia|exact Hc]]. cbn in Hc. injection Hc as <-. exists lo, hi. repeat split; auto; lra || lia.
  - destruct e; [exact M|]. destruct M as (M1 & M2 & M3). split; [lia|]. auto.
Qed.
