(** The table of the running coupling and its interpolation. *)
From Coq Require Import Reals ZArith Bool List Lia Lra.
From Coquelicot Require Import Coquelicot.
From Verif Require Import ExtModel BoundProofs GridModel GridSpec GridProofs GridSmooth XsModel PhenomModel PhenomSpec PhenomRK.
Set Bullet Behavior "Strict Subproofs".
Import ListNotations.
Local Open Scope R_scope.

Definition T (n : nat) : R := 2 * ln MASS_E + INR n * step.
Definition A (n : nat) : R := Nat.iter n rk4 ALPHA_QED_0.
Definition X (n : nat) : R := A n / (4 * PI).
Lemma PI3 : 3 < PI.
Proof. pose proof PI2_3_2. unfold PI2 in *. lra. Qed.
Lemma A_X n : A n = 4 * PI * X n.
Proof. unfold X. field. apply PI_neq0. Qed.
Lemma X_S n : X (S n) = X n * (1 + D (X n)).
Proof. unfold X at 1. change (A (S n)) with (rk4 (A n)). rewrite A_X, rk4_is. field. apply PI_neq0. Qed.
Lemma X_0 : 0 < X 0 <= 61 / 100000.
Proof.
  pose proof PI3. unfold X, A. cbn [Nat.iter nat_rect]. unfold ALPHA_QED_0. split.
  - apply Rdiv_lt_0_compat; lra.
  - apply Rmult_le_reg_r with (4 * PI); [lra|]. unfold Rdiv at 1. rewrite Rmult_assoc, Rinv_l by lra. lra.
Qed.
Lemma X_bound n : (n <= 2200)%nat -> 0 < X n <= 61 / 100000 + INR n * (14 / 1000000000).
Proof.
  induction n as [|n IH]; intros Hn; [change (INR 0) with 0; pose proof X_0; lra|].
  assert (IN : INR n <= 2200). { replace 2200 with (INR 2200); [apply le_INR; lia|]. rewrite INR_IZR_INZ. reflexivity. }
  specialize (IH ltac:(lia)). rewrite X_S, S_INR. assert (HX : 0 < X n <= 1 / 1000) by lra.
  pose proof (D_bounds _ HX) as DB. split; [apply Rmult_lt_0_compat; lra|].
  assert (X n * D (X n) <= 1 / 1000 * (102 / 100 * (1 / 1000 / 75))) by (apply Rmult_le_compat; lra). lra.
Qed.
Lemma X_small n : (n <= 2200)%nat -> 0 < X n <= 1 / 1000.
Proof.
  intros Hn. pose proof (X_bound n Hn). assert (IN : INR n <= 2200). { replace 2200 with (INR 2200); [apply le_INR; lia|]. rewrite INR_IZR_INZ. reflexivity. } lra.
Qed.
Lemma X_grow n : (n <= 2200)%nat -> X n <= X 0 + INR n * (14 / 1000000000).
Proof.
  induction n as [|n IH]; intros Hn; [change (INR 0) with 0; lra|]. specialize (IH ltac:(lia)). pose proof (X_small n ltac:(lia)) as HX. pose proof (D_bounds _ HX) as DB.
  rewrite X_S, S_INR. assert (X n * D (X n) <= 1 / 1000 * (102 / 100 * (1 / 1000 / 75))) by (apply Rmult_le_compat; lra). lra.
Qed.
Lemma A_up n : (n <= 2200)%nat -> A n <= 1 / 128.
Proof.
  intros Hn. pose proof (X_grow n Hn) as G. rewrite A_X. pose proof PI_4. pose proof PI3. pose proof (X_small n Hn).
  assert (IN : 0 <= INR n <= 2200). { split; [apply pos_INR|]. replace 2200 with (INR 2200); [apply le_INR; lia|]. rewrite INR_IZR_INZ. reflexivity. }
  apply Rle_trans with (4 * PI * (X 0 + INR n * (14 / 1000000000))); [apply Rmult_le_compat_l; lra|].
  rewrite Rmult_plus_distr_l, <- A_X. change (A 0) with ALPHA_QED_0. unfold ALPHA_QED_0.
  assert (4 * PI * (INR n * (14 / 1000000000)) <= 4 * 4 * (2200 * (14 / 1000000000))) by (apply Rmult_le_compat; lra). lra.
Qed.
Section Time.
Variable Phi : R -> R.
Hypothesis HP : evolution_time beta_two_loop Phi.
Lemma node_time n : (n <= 2200)%nat -> Rabs (Phi (A n) - Phi ALPHA_QED_0 - INR n * step) <= INR n * (72 / 10 ^ 13).
Proof.
  induction n as [|n IH]; intros Hn.
  - change (A 0) with ALPHA_QED_0. change (INR 0) with 0. rewrite Rminus_diag_eq, Rabs_R0 by ring. lra.
  - specialize (IH ltac:(lia)). pose proof (X_small n ltac:(lia)) as HX. pose proof (step_time _ HX Phi HP) as ST.
    rewrite <- A_X in ST. change (rk4 (A n)) with (A (S n)) in ST. rewrite S_INR.
    assert (W : step * (4 * (X n / 75 * (X n / 75))) <= 72 / 10 ^ 13).
    { assert (X n / 75 * (X n / 75) <= 1 / 75000 * (1 / 75000)) by (apply Rmult_le_compat; lra). unfold step. lra. }
    apply Rabs_le_between in IH. apply Rabs_le_between in ST. apply Rabs_le. lra.
Qed.
End Time.
(** Consecutive increments differ by less than one part in ten thousand. *)
Definition dX (n : nat) : R := X n * D (X n).
Lemma dX_S n : X (S n) = X n + dX n.
Proof. rewrite X_S. unfold dX. ring. Qed.
Lemma dX_pos n : (n <= 2200)%nat -> 0 < dX n.
Proof. intros Hn. pose proof (X_small n Hn) as HX. pose proof (D_bounds _ HX). apply Rmult_lt_0_compat; lra. Qed.
Lemma dX_ratio n : (n < 2200)%nat -> dX n * (1 - 3 / 100000) <= dX (S n) <= dX n * (1 + 6 / 100000).
Proof.
  intros Hn. pose proof (X_small n ltac:(lia)) as HX. pose proof (X_small (S n) ltac:(lia)) as HX'.
  pose proof (D_bounds _ HX) as DB. pose proof (s_range _ HX) as SR. pose proof (s_range _ HX') as SR'.
  pose proof (dX_S n) as DX. unfold dX in *. unfold D in *. set (x := X n) in *. set (x' := X (S n)) in *. set (S0 := s x) in *. set (S1 := s x') in *.
  assert (EX : x' = x * (1 + x / 75 * S0)) by lra. set (d := x / 75 * S0) in *.
  assert (DD : 0 < d <= 14 / 1000000) by lra.
  assert (X1 : x <= x') by (assert (0 <= x * d) by (apply Rmult_le_pos; lra); lra).
  assert (XX : x' * (x' / 75) = x * (x / 75) * ((1 + d) * (1 + d))) by (rewrite EX; field).
  assert (D2 : 1 <= (1 + d) * (1 + d) <= 1 + 281 / 10000000).
  { assert (0 <= d * d <= 14 / 1000000 * (14 / 1000000)) by (split; [apply Rle_0_sqr|apply Rmult_le_compat; lra]). lra. }
  assert (S0p : 1 < S0) by lra.
  assert (Sr : S0 * (1 - 3 / 100000) <= S1 <= S0 * (1 + 28 / 1000000)).
  { assert (XD : 0 <= x * d <= 1 / 1000 * (14 / 1000000)) by (split; [apply Rmult_le_pos; lra|apply Rmult_le_compat; lra]).
    assert (x' = x + x * d) by lra.
    assert ((1 + 3 * x) * (1 + 2 * (x / 75)) <= (1 + 3 * x) * (1 + 27 / 1000000)) by (apply Rmult_le_compat_l; lra).
    assert ((1 + 3 * x') * (1 + 2 * (x' / 75)) <= (1 + 3 * x') * (1 + 27 / 1000000)) by (apply Rmult_le_compat_l; lra). split; lra. }
  assert (P : 0 < x * (x / 75)) by (apply Rmult_lt_0_compat; lra).
  assert (XX' : x' * (x' / 75 * S1) = x * (x / 75) * ((1 + d) * (1 + d) * S1)) by (rewrite <- (Rmult_assoc x'), XX; ring).
  assert (X0 : x * d = x * (x / 75) * S0) by (unfold d; ring).
  rewrite XX', X0. set (p := x * (x / 75)) in *. clearbody p. rewrite !(Rmult_assoc p). split; (apply Rmult_le_compat_l; [lra|]).
  - apply Rle_trans with (1 * S1); [lra|]. apply Rmult_le_compat_r; lra.
  - apply Rle_trans with ((1 + 281 / 10000000) * (S0 * (1 + 28 / 1000000))); [apply Rmult_le_compat; lra|]. lra.
Qed.
(** The interpolated value inside a cell that is not at the edge. *)
Lemma cell_part k r count : (1 <= k)%nat -> (k + 3 <= count)%nat -> (k < 2000 + 200)%nat -> 0 <= r < 1 ->
  exists th, 0 <= th <= 1 /\ Rabs (th - r) <= 4 / 100000 /\ cell_value A count k r = 4 * PI * (X k * (1 + th * D (X k))).
Proof.
  intros K C K2 Hr. destruct k as [|k]; [lia|]. pose proof (dX_ratio k ltac:(lia)) as R1. pose proof (dX_ratio (S k) ltac:(lia)) as R2.
  pose proof (dX_pos k ltac:(lia)) as P0. pose proof (dX_pos (S k) ltac:(lia)) as P1.
  set (e0 := (dX k - dX (S k)) / (2 * dX (S k))). set (e1 := (dX (S (S k)) - dX (S k)) / (2 * dX (S k))).
  assert (E0 : - (4 / 100000) <= e0 <= 4 / 100000).
  { unfold e0. split; apply Rmult_le_reg_r with (2 * dX (S k)); try lra; unfold Rdiv at 2; try rewrite (Rmult_assoc (dX k - _)); unfold Rdiv; rewrite ?Rmult_assoc, ?Rinv_l by lra; lra. }
  assert (E1 : - (4 / 100000) <= e1 <= 4 / 100000).
  { unfold e1. split; apply Rmult_le_reg_r with (2 * dX (S k)); try lra; unfold Rdiv; rewrite ?Rmult_assoc, ?Rinv_l by lra; lra. }
  set (b := (1 - r) * e0 - r * e1). assert (B : - (4 / 100000) <= b <= 4 / 100000).
  { assert ((1 - r) * - (4 / 100000) <= (1 - r) * e0 <= (1 - r) * (4 / 100000)) by (split; apply Rmult_le_compat_l; lra).
    assert (r * - (4 / 100000) <= r * e1 <= r * (4 / 100000)) by (split; apply Rmult_le_compat_l; lra). unfold b. lra. }
  set (g := r * (1 - r)). assert (G : 0 <= g) by (apply Rmult_le_pos; lra). assert (G1 : g <= r) by (unfold g; assert (0 <= r * r) by apply Rle_0_sqr; lra).
  assert (G2 : g <= 1 - r) by (unfold g; assert (0 <= (1 - r) * (1 - r)) by apply Rle_0_sqr; lra).
  assert (GB : g * - (4 / 100000) <= g * b <= g * (4 / 100000)) by (split; apply Rmult_le_compat_l; lra).
  exists (r + g * b). split; [lra|]. split; [apply Rabs_le; lra|].
  unfold cell_value. replace (S k =? 0)%nat with false by reflexivity. replace (count - 2 <=? S k)%nat with false by (symmetry; apply Nat.leb_gt; lia).
  replace (S k - 1)%nat with k by lia. replace (S k + 1)%nat with (S (S k)) by lia. replace (S k + 2)%nat with (S (S (S k))) by lia.
  rewrite !A_X. rewrite (dX_S (S (S k))), (dX_S (S k)).
  replace (X k) with (X (S k) - dX k) by (rewrite (dX_S k); ring).
  replace (X (S k) * (1 + (r + g * b) * D (X (S k)))) with (X (S k) + (r + g * b) * dX (S k)) by (unfold dX; ring).
  unfold b, e0, e1, g. field. lra.
Qed.

(** The loop that fills the table. *)
Fixpoint down (n : nat) : list nat := match n with O => [O] | S k => S k :: down k end.
Lemma down_length n : length (down n) = S n.
Proof. induction n; cbn; congruence. Qed.
Lemma down_nth n j : (j <= n)%nat -> nth_error (down n) j = Some (n - j)%nat.
Proof. revert j. induction n as [|n IH]; intros [|j] H; cbn; auto; [lia|]. apply IH. lia. Qed.
Lemma down_rev n : rev (down n) = seq 0 (S n).
Proof. induction n as [|n IH]; [reflexivity|]. cbn [down rev]. rewrite IH, <- seq_S. reflexivity. Qed.
Lemma T_S n : T (S n) = T n + step.
Proof. unfold T. rewrite S_INR. ring. Qed.
Lemma T_le i j : (i <= j)%nat -> T i <= T j.
Proof. intros H. apply le_INR in H. unfold T, step. lra. Qed.
Definition ends (m : nat) : Prop := ln Q_SQ_MAX < T m /\ forall n, (n < m)%nat -> T n <= ln Q_SQ_MAX.
Lemma grow_ends m n fuel : ends m -> (n <= m + 7)%nat -> (m + 7 - n <= fuel)%nat ->
  grow fuel Q_SQ_MAX (map T (down n)) (map A (down n)) = Some (map T (down (m + 7)), map A (down (m + 7))).
Proof.
  intros [E1 E2]. remember (m + 7 - n)%nat as d eqn:Ed. revert n fuel Ed. induction d as [|d IH]; intros n fuel Ed Hn Hf.
  - assert (n = m + 7)%nat as -> by lia.
    assert (AG : (match map T (down (m + 7)) with l0 :: _ => if (length (map T (down (m + 7))) <? extra)%nat then true
                 else match nth_error (map T (down (m + 7))) (extra - 1) with Some l => rleb l (ln Q_SQ_MAX) | None => false end | [] => false end) = false).
    { rewrite map_length, down_length. replace (S (m + 7) <? extra)%nat with false by (symmetry; apply Nat.ltb_ge; unfold extra; lia).
      change (extra - 1)%nat with 7%nat. rewrite nth_error_map, down_nth by lia. cbn [option_map]. replace (m + 7 - 7)%nat with m by lia.
      replace (rleb (T m) (ln Q_SQ_MAX)) with false by (symmetry; apply rleb_false; exact E1). destruct (map T (down (m + 7))); reflexivity. }
    destruct fuel; cbn [grow]; rewrite AG; reflexivity.
  - destruct fuel as [|fuel]; [lia|].
    assert (AG : (match map T (down n) with l0 :: _ => if (length (map T (down n)) <? extra)%nat then true
                 else match nth_error (map T (down n)) (extra - 1) with Some l => rleb l (ln Q_SQ_MAX) | None => false end | [] => false end) = true).
    { rewrite map_length, down_length. replace (map T (down n)) with (T n :: tl (map T (down n))) at 1 by (destruct n; reflexivity).
      destruct (Nat.ltb_spec (S n) extra) as [|L]; [reflexivity|]. unfold extra in L. change (extra - 1)%nat with 7%nat. rewrite nth_error_map, down_nth by lia. cbn [option_map].
      apply rleb_spec. apply E2. lia. }
    cbn [grow]. rewrite AG. specialize (IH (S n) fuel ltac:(lia) ltac:(lia) ltac:(lia)). rewrite <- IH. cbn [down map]. rewrite T_S.
    destruct n; reflexivity.
Qed.
Definition the_axis (m : nat) : axis := Axis (m + 8) (T 0) (T (m + 7)).
Definition the_data (m : nat) : list ext := map Fin (map A (seq 0 (m + 8))).
Lemma grid_is m fuel : ends m -> (m + 7 <= fuel)%nat -> alpha_qed_grid fuel = Some (the_data m, [dim_of (the_axis m)]).
Proof.
  intros E F. unfold alpha_qed_grid. assert (T0 : T 0 = 2 * ln MASS_E) by (unfold T; change (INR 0) with 0; ring).
  replace [2 * ln MASS_E] with (map T (down 0)) by (cbn [down map]; rewrite T0; reflexivity).
  change [ALPHA_QED_0] with (map A (down 0)). rewrite (grow_ends m 0 fuel E) by lia. rewrite <- !map_rev, down_rev.
  replace (S (m + 7)) with (m + 8)%nat by lia. rewrite map_length, down_length.
  replace (hd_error (map T (seq 0 (m + 8)))) with (Some (T 0)) by (replace (m + 8)%nat with (S (m + 7)) by lia; reflexivity).
  replace (hd_error (map T (down (m + 7)))) with (Some (T (m + 7))) by (replace (m + 7)%nat with (S (m + 6)) by lia; reflexivity).
  unfold the_data, the_axis, dim_of. cbn [ax_count ax_lower ax_upper]. replace (S (m + 7)) with (m + 8)%nat by lia. reflexivity.
Qed.
Lemma axis_proper m : proper (the_axis m).
Proof.
  split; cbn; [lia|]. unfold T. change (INR 0) with 0. assert (7 <= INR (m + 7)) by (rewrite plus_INR; pose proof (pos_INR m); cbn; lra). unfold step. lra.
Qed.
Lemma axis_spacing m : spacing (the_axis m) = step.
Proof.
  unfold spacing, the_axis. cbn [ax_count ax_lower ax_upper]. replace (m + 8 - 1)%nat with (m + 7)%nat by lia. unfold T. change (INR 0) with 0. field.
  assert (7 <= INR (m + 7)) by (rewrite plus_INR; pose proof (pos_INR m); cbn; lra). lra.
Qed.
Lemma axis_node m k : node (the_axis m) k = T k.
Proof. unfold node. rewrite axis_spacing. unfold the_axis, T. cbn [ax_lower]. change (INR 0) with 0. ring. Qed.
Lemma data_holds m : holds (the_data m) [ax_count (the_axis m)] (fun is => A (hd 0%nat is)).
Proof.
  split.
  - unfold the_data. rewrite !map_length, seq_length. cbn. lia.
  - intros is G. destruct is as [|i [|? ?]]; [inversion G| |inversion G as [|? ? ? ? ? Hr]; inversion Hr].
    assert (Hi : (i < m + 8)%nat) by (inversion G; assumption). cbn [hd].
    unfold the_data. replace (flat [ax_count (the_axis m)] [i]) with i by (cbn; lia).
    rewrite !nth_error_map. rewrite (nth_error_nth' _ 0%nat) by (rewrite seq_length; exact Hi). rewrite seq_nth by exact Hi. reflexivity.
Qed.

(** Length of the table. *)
Lemma mass_pos : 0 < MASS_E < 1 / 1000.
Proof. unfold MASS_E. split; [apply Rdiv_lt_0_compat; [lra|apply pow_lt; lra]|lra]. Qed.
Lemma span_up : ln Q_SQ_MAX - 2 * ln MASS_E < 21.
Proof.
  pose proof mass_pos as M.
  assert (E1 : 259 / 100 <= exp 1).
  { assert (H : 11 / 10 <= exp (1 / 10)) by (pose proof (exp_ineq1_le (1 / 10)); lra).
    replace 1 with (INR 10 * (1 / 10)) by (rewrite INR_IZR_INZ; cbn; lra). 
    assert (P : forall n, exp (INR n * (1 / 10)) = exp (1 / 10) ^ n).
    { induction n as [|n IH]; [cbn; rewrite Rmult_0_l, exp_0; reflexivity|]. rewrite S_INR, Rmult_plus_distr_r, exp_plus, IH, Rmult_1_l. cbn [pow]. ring. }
    rewrite P. apply Rle_trans with ((11 / 10) ^ 10); [lra|]. apply pow_incr. lra. }
  assert (E21 : 4 * 10 ^ 8 < exp 21).
  { assert (P : forall n, exp (INR n) = exp 1 ^ n).
    { induction n as [|n IH]; [cbn; apply exp_0|]. rewrite S_INR, exp_plus, IH. cbn [pow]. ring. }
    replace 21 with (INR 21) by (rewrite INR_IZR_INZ; reflexivity). rewrite P. apply Rlt_le_trans with ((259 / 100) ^ 21); [lra|]. apply pow_incr. lra. }
  assert (ln Q_SQ_MAX < ln (exp 21 * (MASS_E * MASS_E))).
  { apply ln_increasing; [unfold Q_SQ_MAX; lra|]. unfold Q_SQ_MAX. apply Rlt_trans with ((4 * 10 ^ 8) * (MASS_E * MASS_E)); [unfold MASS_E; lra|].
    apply Rmult_lt_compat_r; [apply Rmult_lt_0_compat; lra|exact E21]. }
  rewrite ln_mult, ln_exp, ln_mult in H; try lra; try apply exp_pos. apply Rmult_lt_0_compat; lra.
Qed.
Lemma span_low : 3 < ln Q_SQ_MAX - 2 * ln MASS_E.
Proof.
  pose proof mass_pos as M. assert (3 < ln Q_SQ_MAX).
  { rewrite <- (ln_exp 3). apply ln_increasing; [apply exp_pos|]. replace 3 with (1 + 1 + 1) by lra. rewrite !exp_plus. pose proof exp_le_3. pose proof (exp_pos 1).
    assert (exp 1 * exp 1 <= 3 * 3) by (apply Rmult_le_compat; lra). assert (exp 1 * exp 1 * exp 1 <= 3 * 3 * 3) by (apply Rmult_le_compat; try lra; apply Rmult_le_pos; lra). unfold Q_SQ_MAX. lra. }
  assert (ln MASS_E < 0) by (rewrite <- ln_1; apply ln_increasing; lra). lra.
Qed.
Lemma ends_exists : exists m, ends m /\ (300 <= m <= 2101)%nat.
Proof.
  pose proof span_up as U. pose proof span_low as L. set (v := (ln Q_SQ_MAX - 2 * ln MASS_E) * 100). destruct (archimed v) as [U1 U2].
  assert (V : 300 < v < 2100) by (unfold v; lra).
  assert (Z1 : (300 < up v)%Z) by (apply lt_IZR; lra). assert (Z2 : (up v < 2102)%Z) by (apply lt_IZR; lra).
  exists (Z.to_nat (up v)). assert (IZ : INR (Z.to_nat (up v)) = IZR (up v)) by (rewrite INR_IZR_INZ, Z2Nat.id by lia; reflexivity). split; [split|lia].
  - unfold T, step. rewrite IZ. unfold v in *. lra.
  - intros n Hn. assert (INR n + 1 <= IZR (up v)) by (rewrite <- IZ, <- S_INR; apply le_INR; lia). unfold T, step. unfold v in *. lra.
Qed.

(** Values in the interior of the table. *)
Lemma value_time m Q : ends m -> (m <= 2101)%nat -> MASS_E ^ 2 * exp (1 / 100) <= Q <= 100 ->
  exists alpha, e_cubic_view (the_data m) [dim_of (the_axis m)] 0 [Fin (ln Q)] = Val (Fin alpha) /\ 0 < alpha <= 1 / 127 /\
    forall Phi, evolution_time beta_two_loop Phi -> Rabs (Phi alpha - Phi ALPHA_QED_0 - ln (Q / MASS_E ^ 2)) <= 1 / 10 ^ 6.
Proof.
  intros E M HQ. pose proof mass_pos as MP.
  assert (MM : 0 < MASS_E ^ 2) by (apply pow_lt; lra).
  assert (Q0 : 0 < Q). { eapply Rlt_le_trans; [|apply HQ]. apply Rmult_lt_0_compat; [exact MM|apply exp_pos]. }
  assert (LM : ln (MASS_E ^ 2) = 2 * ln MASS_E) by (rewrite ln_pow by lra; cbn; ring).
  assert (L1 : T 1 <= ln Q).
  { unfold T. change (INR 1) with 1. rewrite <- LM. rewrite Rmult_1_l. unfold step. rewrite <- (ln_exp (1 / 100)), <- ln_mult by (try apply exp_pos; lra).
    destruct HQ as [[H|H] _]; [left; apply ln_increasing; [|exact H]; apply Rmult_lt_0_compat; [exact MM|apply exp_pos]|rewrite H; lra]. }
  assert (L2 : ln Q <= ln Q_SQ_MAX). { destruct HQ as [_ [H|H]]; [left; apply ln_increasing; assumption|rewrite H; unfold Q_SQ_MAX; lra]. }
  destruct E as [E1 E2]. pose proof (axis_proper m) as HA.
  destruct (locate_in (the_axis m) HA (ln Q)) as (k & r & _ & K & Hr & EX).
  { unfold inside, the_axis. cbn [ax_lower ax_upper]. pose proof (T_le 0 1 ltac:(lia)). pose proof (T_le m (m + 7) ltac:(lia)). lra. }
  rewrite (cubic_1d _ _ _ _ k r HA (data_holds m) K Hr EX). rewrite axis_node, axis_spacing in EX.
  assert (K1 : (1 <= k)%nat). { destruct k; [|lia]. exfalso. unfold T in L1, EX. change (INR 1) with 1 in *. change (INR 0) with 0 in *. unfold step in *. lra. }
  assert (K2 : (k <= m)%nat). { destruct (Nat.le_gt_cases k m) as [|G]; [assumption|exfalso]. pose proof (T_le m k ltac:(lia)). unfold step in EX. lra. }
  cbn [the_axis ax_count]. destruct (cell_part k r (m + 8) K1 ltac:(lia) ltac:(lia) Hr) as (th & Ht & Hd & EC). rewrite EC.
  pose proof (X_small k ltac:(lia)) as HX. pose proof (D_bounds _ HX) as DB. pose proof PI3 as P3. pose proof PI_4 as P4.
  assert (TD : 0 <= th * D (X k) <= 1 * (2 / 100000)) by (split; [apply Rmult_le_pos; lra|apply Rmult_le_compat; lra]).
  exists (4 * PI * (X k * (1 + th * D (X k)))). split; [reflexivity|]. split.
  - split; [apply Rmult_lt_0_compat; [lra|apply Rmult_lt_0_compat; lra]|].
    rewrite <- Rmult_assoc, <- A_X. pose proof (A_up k ltac:(lia)). assert (0 < A k) by (rewrite A_X; apply Rmult_lt_0_compat; lra).
    apply Rle_trans with (1 / 128 * (1 + 2 / 100000)); [apply Rmult_le_compat; lra|lra].
  - intros Phi HP. pose proof (node_time Phi HP k ltac:(lia)) as N. pose proof (part_time _ HX Phi HP th Ht) as PT. rewrite <- A_X in PT.
    rewrite ln_div by lra. rewrite LM, EX. unfold T.
    assert (IK : 0 <= INR k <= 2200). { split; [apply pos_INR|]. replace 2200 with (INR 2200); [apply le_INR; lia|]. rewrite INR_IZR_INZ. reflexivity. }
    apply Rabs_le_between in N. apply Rabs_le_between in PT. apply Rabs_le_between in Hd. apply Rabs_le. unfold step in *. lra.
Qed.
