(** The running coupling over its whole range. *)
From Coq Require Import Reals ZArith Bool List Lia Lra.
From Coquelicot Require Import Coquelicot.
From Verif Require Import ExtModel BoundProofs GridModel GridSpec GridProofs GridSmooth CutProofs XsModel PhenomModel PhenomSpec PhenomRK PhenomProofs.
Set Bullet Behavior "Strict Subproofs".
Import ListNotations.
Local Open Scope R_scope.

Definition grid_of (m : nat) : list ext * list (dim ext) := (the_data m, [dim_of (the_axis m)]).
Lemma elog_fin v : 0 < v -> elog (Fin v) = Fin (ln v).
Proof.
  intros V. unfold elog. replace (rltb v 0) with false by (symmetry; apply rltb_false; lra). replace (reqb v 0) with false by (symmetry; apply reqb_false; lra). reflexivity.
Qed.
Lemma e_one_loop v L : v * L / (3 * PI) <> 1 ->
  ediv (emul (Fin (4 * PI)) (ediv (Fin v) (Fin (4 * PI)))) (esub (Fin 1) (emul (emul (ediv (Fin v) (Fin (4 * PI))) (Fin BETA_0)) (Fin L))) = Fin (v / (1 - v * L / (3 * PI))).
Proof.
  intros H. pose proof PI3 as P. rewrite ediv_fin by lra. cbn [emul esub eadd eneg]. 
  assert (E : 1 + - (v / (4 * PI) * BETA_0 * L) = 1 - v * L / (3 * PI)) by (unfold BETA_0, NF; field; lra).
  rewrite E. rewrite ediv_fin by lra. replace (4 * PI * (v / (4 * PI))) with v by (field; lra). reflexivity.
Qed.
(** Below 100 the interpolated table, above the one-loop formula. *)
Lemma below_is m Q v : 0 < Q < 100 -> e_cubic_view (the_data m) [dim_of (the_axis m)] 0 [Fin (ln Q)] = Val v -> alpha_qed (grid_of m) (Fin Q) = Some v.
Proof.
  intros H E. unfold alpha_qed, grid_of. cbn [eltb]. unfold Q_SQ_MAX. replace (rltb Q 100) with true by (symmetry; apply rltb_spec; lra). rewrite elog_fin by lra. rewrite E. reflexivity.
Qed.
Lemma above_is m Q v : 100 <= Q -> e_cubic_view (the_data m) [dim_of (the_axis m)] 0 [Fin (ln 100)] = Val (Fin v) -> v * ln (Q / 100) / (3 * PI) <> 1 ->
  alpha_qed (grid_of m) (Fin Q) = Some (Fin (v / (1 - v * ln (Q / 100) / (3 * PI)))).
Proof.
  intros H E N. unfold alpha_qed, grid_of. cbn [eltb]. unfold Q_SQ_MAX. replace (rltb Q 100) with false by (symmetry; apply rltb_false; lra). rewrite elog_fin by lra. rewrite E.
  rewrite (ediv_fin Q) by lra. rewrite elog_fin by (apply Rdiv_lt_0_compat; lra). rewrite e_one_loop by exact N. reflexivity.
Qed.
Lemma mm_pos : 0 < MASS_E ^ 2 < 1 / 1000000.
Proof. unfold MASS_E. lra. Qed.
Lemma edge_below : MASS_E ^ 2 * exp (1 / 100) < 1.
Proof.
  pose proof mm_pos. assert (exp (1 / 100) < 3).
  { apply Rlt_le_trans with (exp 1); [apply exp_increasing; lra|apply exp_le_3]. }
  pose proof (exp_pos (1 / 100)). apply Rle_lt_trans with (1 / 1000000 * 3); [apply Rmult_le_compat|]; lra.
Qed.
Lemma at_100 m : ends m -> (m <= 2101)%nat -> exists v, e_cubic_view (the_data m) [dim_of (the_axis m)] 0 [Fin (ln 100)] = Val (Fin v) /\ 0 < v <= 1 / 127 /\
  forall Phi, evolution_time beta_two_loop Phi -> Rabs (Phi v - Phi ALPHA_QED_0 - ln (100 / MASS_E ^ 2)) <= 1 / 10 ^ 6.
Proof. intros E M. pose proof edge_below. apply (value_time m 100 E M). lra. Qed.
Lemma log_range Q : 100 <= Q <= 100 * exp 1000 -> 0 <= ln (Q / 100) <= 1000.
Proof.
  intros H. assert (D : 1 <= Q / 100 <= exp 1000) by lra. split.
  - destruct D as [[L|L] _]; [left; rewrite <- ln_1; apply ln_increasing; lra|rewrite <- L, ln_1; lra].
  - rewrite <- (ln_exp 1000). destruct D as [_ [L|L]]; [left; apply ln_increasing; lra|rewrite L; lra].
Qed.
Lemma denom v L : 0 < v <= 1 / 127 -> 0 <= L <= 1000 -> 0 <= v * L / (3 * PI) <= 9 / 10.
Proof.
  intros V L0. pose proof PI3 as P. assert (0 <= v * L <= 1 / 127 * 1000) by (split; [apply Rmult_le_pos; lra|apply Rmult_le_compat; lra]).
  split; [apply Rmult_le_pos; [lra|left; apply Rinv_0_lt_compat; lra]|]. apply Rmult_le_reg_r with (3 * PI); [lra|]. unfold Rdiv at 1. rewrite Rmult_assoc, Rinv_l by lra. lra.
Qed.
(** Evolution time of the one-loop formula. *)
Lemma one_loop_time Phi a b : evolution_time beta_one_loop Phi -> 0 < a <= b -> Phi b - Phi a = 3 * PI / a - 3 * PI / b.
Proof.
  intros HP H. pose proof PI3 as P.
  destruct (MVT_gen (fun t => Phi t + 3 * PI / t) a b (fun _ => 0)) as (c & _ & E).
  - rewrite Rmin_left, Rmax_right by lra. intros t Ht. replace 0 with (plus (/ beta_one_loop t) (- (3 * PI) / (t * t))).
    + apply @is_derive_plus; [apply HP; lra|]. auto_derive; [lra|]. field. lra.
    + unfold plus. cbn. unfold beta_one_loop. field. lra.
  - rewrite Rmin_left, Rmax_right by lra. intros t Ht. apply derivable_continuous_pt. exists 0. apply is_derive_Reals.
    replace 0 with (plus (/ beta_one_loop t) (- (3 * PI) / (t * t))).
    + apply @is_derive_plus; [apply HP; lra|]. auto_derive; [lra|]. field. lra.
    + unfold plus. cbn. unfold beta_one_loop. field. lra.
  - lra.
Qed.
Lemma running m Q : ends m -> (m <= 2101)%nat -> MASS_E ^ 2 * exp (1 / 100) <= Q <= 100 ->
  exists alpha, alpha_qed (grid_of m) (Fin Q) = Some (Fin alpha) /\ 0 < alpha <= 1 / 127 /\
    forall Phi, evolution_time beta_two_loop Phi -> Rabs (Phi alpha - Phi ALPHA_QED_0 - ln (Q / MASS_E ^ 2)) <= 1 / 10 ^ 6.
Proof.
  intros E M H. pose proof mm_pos as MP. pose proof (exp_pos (1 / 100)) as EP. assert (0 < MASS_E ^ 2 * exp (1 / 100)) by (apply Rmult_lt_0_compat; lra).
  destruct (Rlt_le_dec Q 100) as [L|L].
  - destruct (value_time m Q E M H) as (v & V & B). exists v. split; [|exact B]. apply below_is; [lra|exact V].
  - assert (Q = 100) as -> by lra. destruct (at_100 m E M) as (v & V & B & B'). exists v. split; [|split; assumption].
    assert (Z : v * ln (100 / 100) / (3 * PI) = 0) by (replace (100 / 100) with 1 by field; rewrite ln_1; unfold Rdiv; rewrite Rmult_0_r, Rmult_0_l; reflexivity).
    rewrite (above_is m 100 v); [|lra|exact V|lra].
    replace (100 / 100) with 1 by field. rewrite ln_1. do 2 f_equal. field. apply PI_neq0.
Qed.
Lemma continuation m Q : ends m -> (m <= 2101)%nat -> 100 <= Q <= 100 * exp 1000 ->
  exists alpha_100 alpha, alpha_qed (grid_of m) (Fin 100) = Some (Fin alpha_100) /\ alpha_qed (grid_of m) (Fin Q) = Some (Fin alpha) /\ 0 < alpha_100 <= alpha /\
    forall Phi, evolution_time beta_one_loop Phi -> Phi alpha - Phi alpha_100 = ln (Q / 100).
Proof.
  intros E M H. pose proof PI3 as P. destruct (at_100 m E M) as (v & V & B & _). pose proof (log_range Q H) as LR. pose proof (denom v _ B LR) as DB.
  pose proof (exp_pos 1000) as EP. assert (1 < exp 1000) by (rewrite <- exp_0; apply exp_increasing; lra). pose proof (log_range 100 ltac:(lra)) as LR1. pose proof (denom v _ B LR1) as DB1.
  exists v, (v / (1 - v * ln (Q / 100) / (3 * PI))). split; [|split; [|split]].
  - rewrite (above_is m 100 v); [|lra|exact V|lra]. replace (100 / 100) with 1 by field. rewrite ln_1. do 2 f_equal. field. lra.
  - apply above_is; [lra|exact V|lra].
  - set (d := v * ln (Q / 100) / (3 * PI)) in *. split; [lra|]. apply Rmult_le_reg_r with (1 - d); [lra|]. unfold Rdiv. rewrite Rmult_assoc, Rinv_l by lra.
    assert (0 <= v * d) by (apply Rmult_le_pos; lra). lra.
  - intros Phi HP. set (L := ln (Q / 100)) in *. set (d := v * L / (3 * PI)) in *.
    assert (LE : v <= v / (1 - d)).
    { apply Rmult_le_reg_r with (1 - d); [lra|]. unfold Rdiv. rewrite Rmult_assoc, Rinv_l by lra. assert (0 <= v * d) by (apply Rmult_le_pos; lra). lra. }
    rewrite (one_loop_time Phi v (v / (1 - d)) HP) by lra.
    replace (3 * PI / (v / (1 - d))) with (3 * PI * (1 - d) / v) by (field; lra). unfold d. field. lra.
Qed.
(** Continuity. *)
Lemma glue_cont (F L G : R -> R) c d : 0 < d -> (forall y, c - d < y < c -> F y = L y) -> (forall y, c <= y < c + d -> F y = G y) -> L c = G c -> continuous L c -> continuous G c -> continuous F c.
Proof.
  intros D HL HG E CL CG. assert (FC : F c = G c) by (apply HG; lra). intros P HP. rewrite FC in HP. pose proof (CG P HP) as P2. rewrite <- E in HP. pose proof (CL P HP) as P1.
  assert (P3 : locally c (fun y => c - d < y < c + d)).
  { exists (mkposreal d D). intros y Hy. unfold ball in Hy. cbn in Hy. unfold AbsRing_ball, abs, minus, plus, opp in Hy. cbn in Hy. apply Rabs_def2 in Hy. lra. }
  unfold filtermap in *. generalize (filter_and _ _ P1 (filter_and _ _ P2 P3)). apply filter_imp. intros y (A1 & A2 & A3).
  destruct (Rlt_le_dec y c); [rewrite HL by lra; exact A1|rewrite HG by lra; exact A2].
Qed.
Lemma near_of c lo hi : lo < c < hi -> locally c (fun y => lo < y < hi).
Proof.
  intros H. assert (0 < Rmin (c - lo) (hi - c)) as D by (apply Rmin_pos; lra). exists (mkposreal _ D). intros y Hy. unfold ball in Hy. cbn in Hy. unfold AbsRing_ball, abs, minus, plus, opp in Hy. cbn in Hy.
  pose proof (Rmin_l (c - lo) (hi - c)). pose proof (Rmin_r (c - lo) (hi - c)). apply Rabs_def2 in Hy. lra.
Qed.
Lemma T_0 : T 0 = ln (MASS_E ^ 2).
Proof. pose proof mass_pos. unfold T. rewrite ln_pow by lra. change (INR 0) with 0. cbn. ring. Qed.
Lemma low_inside m Q : ends m -> MASS_E ^ 2 < Q <= 100 -> T 0 < ln Q < T (m + 7).
Proof.
  intros [E _] H. pose proof mm_pos. rewrite T_0. split; [apply ln_increasing; lra|]. apply Rle_lt_trans with (ln Q_SQ_MAX).
  - unfold Q_SQ_MAX. destruct (Rle_lt_or_eq_dec Q 100 (proj2 H)) as [L|L]; [left; apply ln_increasing; lra|rewrite L; lra].
  - apply Rlt_le_trans with (T m); [exact E|apply T_le; lia].
Qed.
Definition low (m : nat) (Q : R) : R := value (the_data m) (the_axis m) (ln Q).
Lemma low_cont m Q : ends m -> MASS_E ^ 2 < Q <= 100 -> continuous (low m) Q.
Proof.
  intros E H. pose proof mm_pos. unfold low. apply (continuous_comp ln).
  - apply (ex_derive_continuous ln). exists (/ Q). apply is_derive_Reals. apply derivable_pt_lim_ln. lra.
  - apply (ex_derive_continuous (value (the_data m) (the_axis m))). apply (derivable _ _ _ (axis_proper m) (data_holds m)). exact (low_inside m Q E H).
Qed.
Lemma low_finite m Q : ends m -> MASS_E ^ 2 < Q <= 100 -> e_cubic_view (the_data m) [dim_of (the_axis m)] 0 [Fin (ln Q)] = Val (Fin (low m Q)).
Proof.
  intros E H. pose proof (low_inside m Q E H) as I. destruct (locate_in (the_axis m) (axis_proper m) (ln Q)) as (k & r & _ & K & Hr & EX); [unfold inside; cbn; lra|].
  unfold low, value. rewrite (cubic_1d _ _ _ _ k r (axis_proper m) (data_holds m) K Hr EX). reflexivity.
Qed.
Lemma continuous_running m Q : ends m -> (m <= 2101)%nat -> MASS_E ^ 2 < Q < 100 * exp 1000 ->
  (exists alpha, alpha_qed (grid_of m) (Fin Q) = Some (Fin alpha)) /\ continuous (fun Q => number (alpha_qed (grid_of m) (Fin Q))) Q.
Proof.
  intros E M H. pose proof mm_pos as MP. pose proof PI3 as P. destruct (at_100 m E M) as (v & V & B & _).
  set (hi := fun Q => v / (1 - v * ln (Q / 100) / (3 * PI))).
  assert (HL : forall y, MASS_E ^ 2 < y < 100 -> alpha_qed (grid_of m) (Fin y) = Some (Fin (low m y))) by (intros y Hy; apply below_is; [lra|]; apply low_finite; [exact E|lra]).
  assert (HH : forall y, 100 <= y <= 100 * exp 1000 -> alpha_qed (grid_of m) (Fin y) = Some (Fin (hi y))).
  { intros y Hy. apply above_is; [lra|exact V|]. pose proof (denom v _ B (log_range y Hy)). lra. }
  assert (CH : forall y, 100 <= y <= 100 * exp 1000 -> continuous hi y).
  { intros y Hy. apply (ex_derive_continuous hi). unfold hi. pose proof (denom v _ B (log_range y Hy)) as DB. auto_derive. repeat split; lra. }
  split; [destruct (Rlt_le_dec Q 100); [rewrite HL by lra|rewrite HH by lra]; eauto|].
  destruct (Rtotal_order Q 100) as [L|[L|L]].
  - apply (continuous_ext_loc _ (low m)); [|apply low_cont; [exact E|lra]].
    generalize (near_of Q (MASS_E ^ 2) 100 ltac:(lra)). apply filter_imp. intros y Hy. rewrite HL by lra. reflexivity.
  - subst Q. apply (glue_cont _ (low m) hi 100 99); [lra| | | | |].
    + intros y Hy. rewrite HL by lra. reflexivity.
    + intros y Hy. rewrite HH; [reflexivity|]. pose proof (exp_ineq1_le 1000). lra.
    + pose proof (low_finite m 100 E ltac:(lra)) as LF. rewrite V in LF. injection LF as ->. unfold hi. replace (100 / 100) with 1 by field. rewrite ln_1. unfold Rdiv. rewrite Rmult_0_r, Rmult_0_l, Rminus_0_r, Rinv_1, Rmult_1_r. reflexivity.
    + apply low_cont; [exact E|lra].
    + apply CH. lra.
  - apply (continuous_ext_loc _ hi); [|apply CH; lra].
    generalize (near_of Q 100 (100 * exp 1000) ltac:(lra)). apply filter_imp. intros y Hy. rewrite HH by lra. reflexivity.
Qed.
(** Below the electron mass there is no value. *)
Lemma under m Q : Q < MASS_E ^ 2 -> alpha_qed (grid_of m) (Fin Q) = Some NaN.
Proof.
  intros H. pose proof mm_pos as MP. unfold alpha_qed, grid_of. cbn [eltb]. unfold Q_SQ_MAX. replace (rltb Q 100) with true by (symmetry; apply rltb_spec; lra).
  assert (EN : e_cubic_view (the_data m) [dim_of (the_axis m)] 0 [elog (Fin Q)] = Val NaN); [|rewrite EN; reflexivity].
  apply (cubic_nan (the_data m) [the_axis m] 0 [elog (Fin Q)] (fun is => A (hd 0%nat is))); [repeat constructor; apply axis_proper..| |reflexivity|].
  - intros is G. rewrite Nat.add_0_l. apply (data_holds m). exact G.
  - intros (y & EY & IN). destruct y as [|y [|? ?]]; try discriminate. inversion IN as [|? ? ? ? I0 _]; subst. injection EY as EY.
    unfold elog in EY. destruct (rltb Q 0) eqn:E1; [discriminate|]. destruct (reqb Q 0) eqn:E2; [discriminate|]. apply rltb_false in E1. apply reqb_false in E2. injection EY as <-.
    destruct I0 as [I0 _]. cbn [the_axis ax_lower] in I0. rewrite T_0 in I0. assert (ln Q < ln (MASS_E ^ 2)) by (apply ln_increasing; lra). lra.
Qed.
(** The first cell. *)
Lemma two_loop_more Phi a b : evolution_time beta_two_loop Phi -> 0 < a <= b -> b <= 1 / 100 -> 3 * PI * (9 / 10) * (1 / a - 1 / b) <= Phi b - Phi a.
Proof.
  intros HP H B. pose proof PI3 as P.
  pose proof (incr (fun t => Phi (a + t) + 3 * PI * (9 / 10) * / (a + t)) (fun t => / beta_two_loop (a + t) - 3 * PI * (9 / 10) / ((a + t) * (a + t))) (b - a) ltac:(lra)) as I. cbv beta in I.
  rewrite Rplus_0_r in I. replace (a + (b - a)) with b in I by ring. replace (1 / a) with (/ a) by (field; lra). replace (1 / b) with (/ b) by (field; lra). cut (Phi a + 3 * PI * (9 / 10) * / a <= Phi b + 3 * PI * (9 / 10) * / b); [lra|]. apply I.
  - intros t Ht. replace (/ beta_two_loop (a + t) - 3 * PI * (9 / 10) / ((a + t) * (a + t))) with (plus (scal 1 (/ beta_two_loop (a + t))) (- (3 * PI * (9 / 10)) / ((a + t) * (a + t)))).
    + apply @is_derive_plus; [apply (is_derive_comp Phi (fun t => a + t)); [apply HP; lra|auto_derive; [exact Logic.I|ring]]|]. auto_derive; [lra|]. field. lra.
    + unfold plus, scal. cbn. unfold mult. cbn. field. split; [lra|]. unfold beta_two_loop. assert (0 < (a + t) ^ 2 / (3 * PI) * (1 + 3 * (a + t) / (4 * PI))); [|lra].
      apply Rmult_lt_0_compat; [apply Rdiv_lt_0_compat; [apply pow_lt|]; lra|]. assert (0 < 3 * (a + t) / (4 * PI)) by (apply Rdiv_lt_0_compat; lra). lra.
  - intros t Ht. set (u := a + t) in *. assert (U : 0 < u <= 1 / 100) by (unfold u; lra). clearbody u. unfold beta_two_loop.
    assert (Q : 0 < 3 * u / (4 * PI) <= 1 / 100). { split; [apply Rdiv_lt_0_compat; lra|]. apply Rmult_le_reg_r with (4 * PI); [lra|]. unfold Rdiv at 1. rewrite Rmult_assoc, Rinv_l by lra. lra. }
    set (q := 3 * u / (4 * PI)) in *. clearbody q.
    replace (/ (u ^ 2 / (3 * PI) * (1 + q))) with (3 * PI / (u * u) * / (1 + q)) by (field; lra).
    replace (3 * PI * (9 / 10) / (u * u)) with (3 * PI / (u * u) * (9 / 10)) by (field; lra).
    rewrite <- Rmult_minus_distr_l. apply Rmult_le_pos; [left; apply Rdiv_lt_0_compat; [lra|apply Rmult_lt_0_compat; lra]|].
    assert (9 / 10 <= / (1 + q)); [|lra]. apply Rmult_le_reg_r with (1 + q); [lra|]. rewrite Rinv_l by lra. lra.
Qed.
Lemma first_cell m : ends m -> exists alpha, alpha_qed (grid_of m) (Fin (MASS_E ^ 2 * exp (1 / 300))) = Some (Fin alpha) /\ 105 / 100 * ALPHA_QED_0 < alpha /\
  forall Phi, evolution_time beta_two_loop Phi -> 50 < Phi alpha - Phi ALPHA_QED_0.
Proof.
  intros E. pose proof mm_pos as MP. pose proof PI3 as P3. pose proof PI_4 as P4. set (Q := MASS_E ^ 2 * exp (1 / 300)).
  assert (EB : exp (1 / 300) < exp (1 / 100)) by (apply exp_increasing; lra). pose proof edge_below as EL.
  assert (Q0 : 0 < Q < 1). { unfold Q. split; [apply Rmult_lt_0_compat; [lra|apply exp_pos]|]. eapply Rlt_trans; [apply Rmult_lt_compat_l; [lra|exact EB]|exact EL]. }
  assert (LQ : ln Q = node (the_axis m) 0 + 1 / 3 * spacing (the_axis m)).
  { unfold Q. rewrite ln_mult by (try apply exp_pos; lra). rewrite ln_exp, axis_node, axis_spacing, T_0. unfold step. lra. }
  pose proof (cubic_1d _ _ _ _ 0%nat (1 / 3) (axis_proper m) (data_holds m) ltac:(cbn; lia) ltac:(lra) LQ) as V.
  set (v := cell_value A (ax_count (the_axis m)) 0 (1 / 3)) in *.
  assert (X0 := X_0). pose proof (D_bounds _ (X_small 0 ltac:(lia))) as D0. pose proof (X_small 1 ltac:(lia)) as X1. pose proof (D_bounds _ X1) as D1.
  assert (P0 : 0 < dX 0 <= X 0 * (1 / 10000)) by (split; [apply dX_pos; lia|]; unfold dX; apply Rmult_le_compat_l; lra).
  assert (R1 := dX_ratio 0 ltac:(lia)).
  assert (VX : v = 4 * PI * (X 0 * (1 + 2 / 27) + 9 / 27 * dX 0 - 1 / 27 * (dX 0 + dX 1))).
  { unfold v, cell_value. cbn [the_axis ax_count Nat.eqb]. replace (m + 8 - 2 <=? 0)%nat with false by (symmetry; apply Nat.leb_gt; lia). cbn [Nat.add].
    rewrite !A_X. rewrite (dX_S 1), (dX_S 0). field. }
  assert (A0 : ALPHA_QED_0 = 4 * PI * X 0) by (rewrite <- A_X; reflexivity).
  assert (LO : 105 / 100 * ALPHA_QED_0 < v). { rewrite A0, VX. replace (105 / 100 * (4 * PI * X 0)) with (4 * PI * (105 / 100 * X 0)) by ring. apply Rmult_lt_compat_l; lra. }
  assert (HI : v <= 12 / 10 * ALPHA_QED_0). { rewrite A0, VX. replace (12 / 10 * (4 * PI * X 0)) with (4 * PI * (12 / 10 * X 0)) by ring. apply Rmult_le_compat_l; lra. }
  exists v. split; [apply below_is; [lra|exact V]|]. split; [exact LO|]. intros Phi HP.
  assert (AP : 0 < ALPHA_QED_0 <= 1 / 137) by (unfold ALPHA_QED_0; lra).
  pose proof (two_loop_more Phi ALPHA_QED_0 v HP ltac:(lra) ltac:(lra)) as TM.
  assert (/ v <= / (105 / 100 * ALPHA_QED_0)) by (apply Rinv_le_contravar; lra). rewrite Rinv_mult in H.
  assert (137 <= / ALPHA_QED_0). { unfold ALPHA_QED_0. lra. }
  assert (IV : 1 / ALPHA_QED_0 - 1 / v >= 1 / 21 * 137). { unfold Rdiv. rewrite !Rmult_1_l. assert (/ (105 * / 100) * / ALPHA_QED_0 = 20 / 21 * / ALPHA_QED_0) by (f_equal; field). unfold Rdiv in H. lra. }
  assert (3 * 3 * (9 / 10) * (1 / 21 * 137) <= 3 * PI * (9 / 10) * (1 / ALPHA_QED_0 - 1 / v)) by (apply Rmult_le_compat; lra). lra.
Qed.
