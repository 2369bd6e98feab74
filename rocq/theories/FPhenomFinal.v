(** The running coupling in double arithmetic against the exact one; doubles and a logarithm as assumed. *)
From Coq Require Import Reals ZArith Bool List Lia Lra.
From Flocq Require Import Core.Core Relative IEEE754.Binary IEEE754.Bits IEEE754.BinarySingleNaN.
From Verif Require Import ExtModel GridModel GridSpec GridProofs GridFloat FBoundModel FBoundProofs FBoundLerp FGridSpec FGridProofs FCubicSpec FCubicProofs
  XsModel PhenomModel PhenomProofs PhenomFinal DefaultProofs FPhenomModel FPhenomSpec FPhenomProofs.
From Verif Require TextModel ConstModel ConstNear VacHadProofs.
Import ListNotations.
Local Open Scope R_scope.
Local Notation fexp := (FLT_exp (-1074) 53).
Local Notation rnd := (round radix2 fexp (Znearest (fun x => negb (Z.even x)))).
Local Notation B := (Binary.B2R 53 1024).
Local Notation top := (bpow radix2 1024).
Local Notation u := (bpow radix2 (-53)).
Local Notation tiny := (bpow radix2 (-1075)).

(** ** The exact table *)
Lemma spline_longer n n' g t : 0 <= t -> t < INR n - 1 -> t < INR n' - 1 -> spline n g t = spline n' g t.
Proof.
  intros P H1 H2. unfold spline. set (k := Zfloor t). assert (K : (0 <= k)%Z) by (apply Zfloor_lub; exact P).
  pose proof (Zfloor_lb t) as L. fold k in L. assert (N : (k + 2 <= Z.of_nat n)%Z). { apply le_IZR. rewrite <- INR_IZR_INZ. assert (IZR (k + 1) < INR n) by (rewrite plus_IZR; lra). rewrite INR_IZR_INZ in H |- *. apply lt_IZR in H. apply IZR_le. lia. }
  assert (N' : (k + 2 <= Z.of_nat n')%Z). { apply le_IZR. rewrite <- INR_IZR_INZ. assert (IZR (k + 1) < INR n') by (rewrite plus_IZR; lra). rewrite INR_IZR_INZ in H |- *. apply lt_IZR in H. apply IZR_le. lia. }
  assert (Q : forall j, (j <= k + 2)%Z -> at_node n g j = at_node n' g j). { intros j J. unfold at_node. replace (j <=? Z.of_nat n)%Z with true by (symmetry; apply Z.leb_le; lia). replace (j <=? Z.of_nat n')%Z with true by (symmetry; apply Z.leb_le; lia). reflexivity. }
  rewrite !Q by lia. reflexivity.
Qed.
Lemma exact_value m q : ends m -> MASS_E ^ 2 < q <= 100 ->
  e_cubic_view (the_data m) [dim_of (the_axis m)] 0 [Fin (ln q)] = Val (Fin (spline (m + 7) A ((ln q - 2 * ln MASS_E) / step))).
Proof.
  intros E H. destruct (low_inside m q E H) as [L1 L2]. pose proof (axis_proper m) as HA. destruct (data_holds m) as [_ HD].
  pose proof (cubic_spline (the_data m) [the_axis m] 0%nat [ln q] _ ltac:(repeat constructor; apply HA) HD ltac:(repeat constructor; cbn; lra)) as V.
  cbn [map] in V. rewrite V. cbn [combine map spline_nd fst snd hd the_axis ax_count ax_lower ax_upper]. replace (m + 8 - 1)%nat with (m + 7)%nat by lia. do 2 f_equal.
  unfold spline. set (t := position _ _ _ _). set (t' := (_ - _) / _). assert (t = t') as ->; [|reflexivity].
  unfold t, t', position, T. change (INR 0) with 0. set (N := INR (m + 7)). assert (0 < N) by (apply lt_0_INR; lia). unfold step. field. lra.
Qed.
Section Against.
Context (pi mass_e alpha_0 : binary64) (log : binary64 -> binary64).
Context (Hpi : f_isfinite pi = true /\ Rabs (B pi - PI) <= 4 * u) (Hme : within 2 mass_e MASS_E) (Ha0 : within 3 alpha_0 ALPHA_QED_0) (HL : good_log log).
Definition f_grid (m : nat) := (map (FA pi alpha_0) (seq 0 (m + 8)), [Dim (m + 8) (FL mass_e log 0) (FL mass_e log (m + 7))]).
Lemma value_low m m' q : stops mass_e log m -> (m <= 2110)%nat -> ends m' -> f_isfinite q = true -> MASS_E ^ 2 * (1 + bpow radix2 (-40)) <= B q <= 100 ->
  exists z v, f_alpha_low log (f_grid m) q = Val z /\ f_isfinite z = true /\
    e_cubic_view (the_data m') [dim_of (the_axis m')] 0 [Fin (ln (B q))] = Val (Fin v) /\ Rabs (B z - v) <= bpow radix2 (-35).
Proof.
  intros S M E Fq Hq. destruct (low_value pi mass_e alpha_0 log Hpi Hme Ha0 HL m q S M Fq Hq) as (z & V & Fz & Ez). exists z. eexists. split; [exact V|]. split; [exact Fz|].
  pose proof mm_pos as MP. pose proof mass_pos as MP'. assert (E1 : 1 < 1 + bpow radix2 (-40)) by (pose proof (bpow_gt_0 radix2 (-40)); lra).
  assert (Q : MASS_E ^ 2 < B q <= 100). { split; [|lra]. apply Rlt_le_trans with (2 := proj1 Hq). rewrite <- (Rmult_1_r (MASS_E ^ 2)) at 1. apply Rmult_lt_compat_l; lra. }
  split; [apply exact_value; auto|]. set (t := (ln (B q) - 2 * ln MASS_E) / step) in *. rewrite (spline_longer (m' + 7) (m + 7) A t); [exact Ez| | |].
  - unfold t, step. assert (2 * ln MASS_E <= ln (B q)); [|lra]. replace (2 * ln MASS_E) with (ln (MASS_E ^ 2)) by (rewrite ln_pow by lra; cbn; ring). apply ln_mono; lra.
  - destruct E as [E _]. unfold t, step. unfold T, Q_SQ_MAX, step in E. rewrite plus_INR. change (INR 7) with (1 + 1 + 1 + 1 + 1 + 1 + 1)%R. pose proof (ln_mono (B q) 100 ltac:(lra) ltac:(lra)). lra.
  - destruct S as [S _]. destruct (log_100 log HL) as (F1 & E2 & R1). destruct (FL_err mass_e log Hme HL m ltac:(lia)) as [F2 E3]. pose proof (INR_2200 m ltac:(lia)) as N. pose proof u15 as U.
    assert (NU : INR m * u <= 2200 * u) by (apply Rmult_le_compat_r; lra). apply Rabs_le_inv in E2. apply Rabs_le_inv in E3.
    assert (L : ~ B (FL mass_e log m) <= B (log (f_of_Z 100))) by (intros X; apply fle_spec in X; auto; congruence). pose proof (ln_mono (B q) 100 ltac:(lra) ltac:(lra)).
    unfold T, step in E3. unfold t, step. rewrite plus_INR. change (INR 7) with (1 + 1 + 1 + 1 + 1 + 1 + 1)%R. lra.
Qed.
Lemma flt_spec a b : f_isfinite a = true -> f_isfinite b = true -> f_lt a b = true <-> B a < B b.
Proof. intros Fa Fb. unfold f_lt, b64_compare. rewrite Binary.Bcompare_correct by auto. destruct (Rcompare_spec (B a) (B b)); split; intros; try discriminate; try lra; auto. Qed.
Lemma low_final m m' q : stops mass_e log m -> (m <= 2110)%nat -> ends m' -> f_isfinite q = true -> MASS_E ^ 2 * (1 + bpow radix2 (-40)) <= B q < 100 ->
  exists z v, f_alpha_qed pi log (f_grid m) q = Val z /\ f_isfinite z = true /\ alpha_qed (grid_of m') (Fin (B q)) = Some (Fin v) /\ Rabs (B z - v) <= bpow radix2 (-35).
Proof.
  intros S M E Fq Hq. destruct (value_low m m' q S M E Fq ltac:(lra)) as (z & v & V & Fz & X & Ez). exists z, v. destruct (of_Z_spec 100 ltac:(lia)) as [B1 F1].
  pose proof mm_pos as MP. pose proof (bpow_gt_0 radix2 (-40)) as EP. assert (0 < MASS_E ^ 2 * (1 + bpow radix2 (-40))) by (apply Rmult_lt_0_compat; lra).
  split; [unfold f_alpha_qed; replace (f_lt q (f_of_Z 100)) with true by (symmetry; apply flt_spec; auto; rewrite B1; lra); exact V|]. split; [exact Fz|]. split; [apply below_is; [lra|exact X]|exact Ez].
Qed.
(** Beyond Q^2 = 100. *)
Lemma u16 : 0 < u <= 12 / 100000000000000000. Proof. cbn. lra. Qed.
Lemma ln2_up : ln 2 <= 7 / 10. Proof. pose proof VacHadProofs.ln2_bounds. lra. Qed.
Lemma ln_double x : f_isfinite x = true -> 1 <= B x -> 0 <= ln (B x) <= 717.
Proof.
  intros Fx Px. split; [rewrite <- ln_1; apply ln_mono; lra|]. pose proof (Binary.abs_B2R_lt_emax 53 1024 x) as Q. rewrite Rabs_pos_eq in Q by lra. rewrite bpow_exp in Q.
  pose proof ln2_up. assert (ln (B x) < 1024 * ln 2) by (rewrite <- (ln_exp (1024 * ln 2)); apply ln_increasing; [lra|exact Q]). lra.
Qed.
Lemma hundredth q : f_isfinite q = true -> 100 <= B q -> let c := f_div q (f_of_Z 100) in f_isfinite c = true /\ Rabs (B c - B q / 100) <= 2 * u * (B q / 100) /\ 1 <= B c.
Proof.
  intros Fq Hq c. destruct (of_Z_spec 100 ltac:(lia)) as [E F]. pose proof (div_rounded q (f_of_Z 100) Fq ltac:(rewrite E; lra)) as R. fold c in R. rewrite E in R. pose proof u16 as U.
  pose proof (Binary.abs_B2R_lt_emax 53 1024 q) as Q. rewrite Rabs_pos_eq in Q by lra. pose proof (rnd_err (B q / 100)) as RE. rewrite (Rabs_pos_eq (B q / 100)) in RE by lra.
  assert (T : tiny <= u * 1) by (rewrite Rmult_1_r; apply bpow_le; lia). assert (UQ : u * 1 <= u * (B q / 100)) by (apply Rmult_le_compat_l; lra).
  assert (G : generic_format radix2 fexp 1). { replace 1 with (bpow radix2 0) by reflexivity. apply generic_format_bpow. unfold FLT_exp. lia. }
  assert (L1 : 1 <= rnd (B q / 100)). { rewrite <- (round_generic radix2 fexp (Znearest (fun x => negb (Z.even x))) 1 G) at 1. apply rnd_le. lra. }
  assert (UQ' : u * (B q / 100) <= / 10 * (B q / 100)) by (apply Rmult_le_compat_r; lra). apply Rabs_le_inv in RE.
  destruct (rounded_small _ _ R) as [F1 E1]; [rewrite Rabs_pos_eq by lra; lra|]. split; [exact F1|]. rewrite E1. split; [apply Rabs_le; lra|exact L1].
Qed.
Lemma high_final m m' q : stops mass_e log m -> (m <= 2110)%nat -> ends m' -> (m' <= 2101)%nat -> f_isfinite q = true -> 100 <= B q ->
  exists z v, f_alpha_qed pi log (f_grid m) q = Val z /\ f_isfinite z = true /\ alpha_qed (grid_of m') (Fin (B q)) = Some (Fin v) /\ Rabs (B z - v) <= bpow radix2 (-31).
Proof.
  intros S M E M' Fq Hq. destruct (of_Z_spec 100 ltac:(lia)) as [B1 F1]. pose proof mm_pos as MP.
  assert (H100 : MASS_E ^ 2 * (1 + bpow radix2 (-40)) <= B (f_of_Z 100) <= 100). { rewrite B1. split; [|lra]. assert (bpow radix2 (-40) <= 1) by (change 1 with (bpow radix2 0); apply bpow_le; lia). unfold MASS_E. lra. }
  destruct (value_low m m' (f_of_Z 100) S M E F1 H100) as (z0 & v0 & V & Fz & X & Ez). rewrite B1 in X. destruct (at_100 m' E M') as (w & W100 & Hv & _). rewrite W100 in X. injection X as ->.
  destruct Hpi as [Fp Ep]. pose proof u16 as U. pose proof PI3 as P3. pose proof PI_32 as P32.
  assert (A0 : ap 1 z0 v0 (1 / 127) 262144). { split; [exact Fz|]. split; [rewrite Rabs_pos_eq; lra|]. apply Rle_trans with (1 := Ez). cbn. lra. }
  destruct (pi4_rel pi Fp Ep) as [F4 E4]. pose proof (pi4 pi Fp Ep) as A4. set (p4 := f_mul (f_of_Z 4) pi) in *. set (ar := f_div z0 p4).
  assert (AR : ap 1 ar (v0 / (4 * PI)) (1 / 1500) 21900).
  { pose proof (gdiv 1 z0 v0 (1 / 127) 262144 p4 (4 * PI) 3 ltac:(apply scale_of; lra) ltac:(lra) ltac:(lra) ltac:(lra) ltac:(lra) F4 E4 A0) as Y.
    assert (I : 0 < / (4 * PI) <= / 12) by (split; [apply Rinv_0_lt_compat; lra|apply Rinv_le_contravar; lra]).
    assert (I1 : 1 / 127 / (4 * PI) <= 1 / 1500) by (unfold Rdiv at 1; apply Rle_trans with (1 / 127 * / 12); [apply Rmult_le_compat_l; lra|lra]).
    assert (I2 : (262144 + 1 / 127 * 3 + 1 / 127) / (4 * PI) + / 100 <= 21900) by (unfold Rdiv at 1; apply Rle_trans with ((262144 + 1 / 127 * 3 + 1 / 127) * / 12 + / 100); [apply Rplus_le_compat_r, Rmult_le_compat_l; lra|lra]).
    refine (rescale _ _ _ _ _ _ _ _ _ _ _ Y); lra. }
  gm 16 1 A4 AR. set (num := f_mul p4 ar) in *. destruct W as (Fn & _ & En).
  assert (EN : Rabs (B num - v0) <= 281000 * u). { replace (4 * PI * (v0 / (4 * PI))) with v0 in En by (field; lra). apply Rle_trans with (1 := En). lra. } clear En.
  gm 1 1 AR beta0_ap. assert (AB : ap 1 (f_mul ar f_BETA_0) (v0 / (4 * PI) * (4 / 3)) (1 / 1125) 29300) by rs W. clear W.
  destruct (hundredth q Fq Hq) as (Fc & Ec & Pc). set (c := f_div q (f_of_Z 100)) in *. destruct (ln_double c Fc Pc) as [L1 L2]. destruct (HL c Fc ltac:(lra)) as [Fl El]. rewrite (Rabs_pos_eq (ln (B c))) in El by lra.
  set (L := ln (B q / 100)). pose proof (ln_near (B c) (B q / 100) (2 * u) ltac:(lra) ltac:(lra) Ec) as LC. fold L in LC. assert (L0 : 0 <= L) by (unfold L; rewrite <- ln_1; apply ln_mono; lra).
  assert (EL : Rabs (B (log c) - L) <= 3 * u * 1000). { apply Rabs_le_inv in El. apply Rabs_le_inv in LC. assert (u * ln (B c) <= u * 717) by (apply Rmult_le_compat_l; lra). apply Rabs_le. lra. }
  assert (L7 : L <= 718) by (apply Rabs_le_inv in LC; lra).
  assert (AL : ap 1000 (log c) L (718 / 1000) 3) by (split; [exact Fl|]; split; [rewrite Rabs_pos_eq; lra|exact EL]).
  gm 1 1000 AB AL. set (prod := f_mul (f_mul ar f_BETA_0) (log c)) in *. destruct W as (Fr & Vr & Er). set (P := v0 / (4 * PI) * (4 / 3) * L) in *.
  assert (P0 : 0 <= P). { unfold P. apply Rmult_le_pos; [|lra]. apply Rmult_le_pos; [|lra]. apply Rmult_le_pos; [lra|]. left. apply Rinv_0_lt_compat. lra. }
  rewrite (Rabs_pos_eq P) in Vr by lra. assert (PU : P <= 64 / 100) by lra.
  assert (ER : Rabs (B prod - P) <= 22000000 * u) by (apply Rle_trans with (1 := Er); lra). clear Er Vr.
  destruct (of_Z_spec 1 ltac:(lia)) as [B11 F11]. pose proof (sub_rounded (f_of_Z 1) prod F11 Fr) as RD. rewrite B11 in RD. set (den := f_sub (f_of_Z 1) prod) in *.
  pose proof (rnd_err (1 - B prod)) as RE. pose proof (Rabs_le_inv _ _ ER) as ER'. rewrite (Rabs_pos_eq (1 - B prod)) in RE by lra. assert (T : tiny <= u) by (apply bpow_le; lia). assert (UB : u * (1 - B prod) <= u * 2) by (apply Rmult_le_compat_l; lra).
  apply Rabs_le_inv in RE. assert (TP : 2 < top) by (apply Rlt_le_trans with (bpow radix2 2); [cbn; lra|apply bpow_le; lia]).
  destruct (rounded_small _ _ RD) as [Fd Ed]; [apply Rabs_lt; lra|]. assert (ED : Rabs (B den - (1 - P)) <= 22000010 * u) by (rewrite Ed; apply Rabs_le; lra). clear RE RD Ed UB.
  pose proof (Rabs_le_inv _ _ ED) as ED'. assert (D1 : 359 / 1000 <= B den) by lra. pose proof (div_rounded num den Fn ltac:(lra)) as RZ. set (z := f_div num den) in *. set (r := B num / B den) in *.
  assert (DD : Rabs (r - v0 / (1 - P)) <= 4 / 10000000000).
  { replace (r - v0 / (1 - P)) with ((B num - v0) * / B den + v0 * ((1 - P) - B den) * (/ B den * / (1 - P))) by (unfold r; field; lra).
    assert (I1 : 0 < / B den <= 2786 / 1000) by (split; [apply Rinv_0_lt_compat; lra|apply Rle_trans with (/ (359 / 1000)); [apply Rinv_le_contravar; lra|lra]]).
    assert (I2 : 0 < / (1 - P) <= 2778 / 1000) by (split; [apply Rinv_0_lt_compat; lra|apply Rle_trans with (/ (36 / 100)); [apply Rinv_le_contravar; lra|lra]]).
    assert (I3 : 0 <= / B den * / (1 - P) <= 774 / 100) by (split; [apply Rmult_le_pos; lra|apply Rle_trans with (2786 / 1000 * (2778 / 1000)); [apply Rmult_le_compat; lra|lra]]).
    apply Rle_trans with (1 := Rabs_triang _ _). rewrite !Rabs_mult. rewrite (Rabs_pos_eq (/ B den)), (Rabs_pos_eq (/ (1 - P))), (Rabs_pos_eq v0) by lra. rewrite (Rabs_minus_sym (1 - P)).
    apply Rle_trans with (281000 * u * (2786 / 1000) + 1 / 127 * (22000010 * u) * (774 / 100)); [|lra]. apply Rplus_le_compat; [apply Rmult_le_compat; try lra; apply Rabs_pos|].
    apply Rmult_le_compat; try lra; [apply Rmult_le_pos; [lra|apply Rabs_pos]|apply Rmult_le_compat; try lra; apply Rabs_pos]. }
  assert (VP : 0 <= v0 / (1 - P) <= 1). { split; [apply Rmult_le_pos; [lra|left; apply Rinv_0_lt_compat; lra]|]. apply Rmult_le_reg_r with (1 - P); [lra|]. replace (v0 / (1 - P) * (1 - P)) with v0 by (field; lra). lra. }
  pose proof (rnd_err r) as RE. apply Rabs_le_inv in DD. assert (RB : Rabs r <= 2) by (apply Rabs_le; lra). assert (UR : u * Rabs r <= u * 2) by (apply Rmult_le_compat_l; lra). apply Rabs_le_inv in RE. apply Rabs_le_inv in RB.
  assert (TP' : 4 < top) by (apply Rlt_le_trans with (bpow radix2 3); [cbn; lra|apply bpow_le; lia]). destruct (rounded_small _ _ RZ) as [FZ EZ]; [apply Rabs_lt; lra|].
  exists z, (v0 / (1 - P)). split; [|split; [exact FZ|split]].
  - unfold f_alpha_qed. replace (f_lt q (f_of_Z 100)) with false. rewrite V. reflexivity. symmetry. destruct (f_lt q (f_of_Z 100)) eqn:LT; [|reflexivity]. apply flt_spec in LT; auto. rewrite B1 in LT. lra.
  - assert (PE : v0 * ln (B q / 100) / (3 * PI) = P) by (unfold P, L; field; lra). rewrite (above_is m' (B q) v0 Hq W100); rewrite PE; [reflexivity|lra].
  - rewrite EZ. apply Rle_trans with (41 / 100000000000); [apply Rabs_le; lra|cbn; lra].
Qed.
End Against.
(** ** Constants and a logarithm as assumed *)
Definition pi_double : binary64 := b64_of_bits 0x400921FB54442D18.
Definition mass_e_double : binary64 := b64_of_bits 0x3F40BE91E1825569.
Definition alpha_0_double : binary64 := b64_of_bits 0x3F7DE3D44B5C7FF0.
Lemma pi_is : B pi_double = ConstNear.dval ConstModel.PI_.
Proof. unfold pi_double, ConstNear.dval. cbn [ConstNear.dbl fst snd]. vm_compute. lra. Qed.
Lemma mass_e_is : B mass_e_double = IZR 4713133390321001 * / IZR (2 ^ 63).
Proof. vm_compute. lra. Qed.
Lemma alpha_0_is : B alpha_0_double = IZR 8413275261534192 * / IZR (2 ^ 60).
Proof. vm_compute. lra. Qed.
Lemma constants : (f_isfinite pi_double = true /\ Rabs (B pi_double - PI) <= 4 * u) /\ within 2 mass_e_double MASS_E /\ within 3 alpha_0_double ALPHA_QED_0.
Proof.
  split; [|split].
  - split; [reflexivity|]. rewrite pi_is. rewrite <- (ConstNear.near_meaning ConstModel.PI_ PI eq_refl). pose proof (rnd_err PI) as R. unfold TextModel.RN. apply Rle_trans with (1 := R).
    rewrite Rabs_pos_eq by (pose proof PI_RGT_0; lra). pose proof PI3 as P. pose proof PI_32 as P4. assert (T : tiny <= u * / 100) by (apply Rle_trans with (bpow radix2 (-60)); [apply bpow_le; lia|cbn; lra]). pose proof u15. assert (u * PI <= u * (32 / 10)) by (apply Rmult_le_compat_l; lra). lra.
  - split; [reflexivity|]. rewrite mass_e_is. unfold MASS_E. rewrite (Rabs_pos_eq (_ / _)) by lra. apply Rabs_le. change u with (/ IZR (2 ^ 53)). cbn [Z.pow Z.pow_pos Pos.iter Z.mul Pos.mul]. lra.
  - split; [reflexivity|]. rewrite alpha_0_is. unfold ALPHA_QED_0. rewrite (Rabs_pos_eq (_ / _)) by lra. apply Rabs_le. change u with (/ IZR (2 ^ 53)). cbn [Z.pow Z.pow_pos Pos.iter Z.mul Pos.mul]. lra.
Qed.
(** the nearest double to the logarithm *)
Definition nearest_double (v : R) : binary64 :=
  Binary.binary_normalize 53 1024 eq_refl eq_refl mode_NE (Ztrunc (scaled_mantissa radix2 fexp (rnd v))) (cexp radix2 fexp (rnd v)) false.
Lemma nearest_double_is v : Rabs (rnd v) < top -> f_isfinite (nearest_double v) = true /\ B (nearest_double v) = rnd v.
Proof.
  intros H. unfold nearest_double. set (mx := Ztrunc _). set (ex := cexp _ _ _). pose proof (Binary.binary_normalize_correct 53 1024 eq_refl eq_refl mode_NE mx ex false) as C.
  assert (G : generic_format radix2 fexp (rnd v)) by (apply generic_format_round; [apply FLT_exp_valid; reflexivity|apply valid_rnd_N]).
  assert (V : F2R (Float radix2 mx ex) = rnd v) by (symmetry; exact G). rewrite V in C. cbn [round_mode] in C. change (SpecFloat.fexp 53 1024) with fexp in C.
  rewrite (round_generic radix2 fexp _ (rnd v) G) in C. rewrite Rlt_bool_true in C by exact H. destruct C as (C1 & C2 & _). split; [exact C2|exact C1].
Qed.
Definition nearest_log (x : binary64) : binary64 := match x with Binary.B754_zero _ => Binary.B754_infinity 53 1024 true | _ => nearest_double (ln (B x)) end.
Lemma nearest_log_good : good_log nearest_log.
Proof.
  intros x Fx Px. replace (nearest_log x) with (nearest_double (ln (B x))) by (destruct x; try reflexivity; cbn in Px; lra). set (v := ln (B x)). pose proof u15 as U. assert (L2 : 0 < ln 2 < 1) by (split; [rewrite <- ln_1; apply ln_increasing; lra|pose proof (exp_ineq1 1 ltac:(lra)) as E; apply Rlt_le_trans with (ln (exp 1)); [apply ln_increasing; lra|rewrite ln_exp; lra]]).
  assert (V : Rabs v <= 1100).
  { assert (Q1 : B x < top) by (pose proof (Binary.abs_B2R_lt_emax 53 1024 x) as Q; rewrite Rabs_pos_eq in Q by lra; exact Q).
    assert (Q2 : bpow radix2 (-1074) <= B x).
    { pose proof (Binary.abs_B2R_ge_emin 53 1024 x) as Q. rewrite Rabs_pos_eq in Q by lra. apply Q. destruct x as [s|s|s p e|s mm e h]; try discriminate; auto. exfalso. cbn in Px. lra. }
    rewrite bpow_exp in Q1, Q2. assert (v < 1024 * ln 2) by (rewrite <- (ln_exp (1024 * ln 2)); apply ln_increasing; auto).
    assert (-1074 * ln 2 <= v) by (rewrite <- (ln_exp (-1074 * ln 2)); apply ln_mono; [apply exp_pos|exact Q2]). apply Rabs_le. lra. }
  pose proof (rnd_err v) as R. assert (T : tiny <= u) by (apply bpow_le; lia). pose proof (Rabs_pos v) as PV. assert (UV : 0 <= u * Rabs v <= u * 1100) by (split; [apply Rmult_le_pos; lra|apply Rmult_le_compat_l; lra]).
  destruct (nearest_double_is v) as [F1 E1].
  { apply Rle_lt_trans with 1200; [|apply Rlt_le_trans with (bpow radix2 11); [cbn; lra|apply bpow_le; lia]]. replace (rnd v) with ((rnd v - v) + v) by ring. pose proof (Rabs_triang (rnd v - v) v). lra. }
  split; [exact F1|]. rewrite E1. apply Rle_trans with (1 := R). lra.
Qed.
(** ** Statements *)
Lemma table pi mass_e alpha_0 log : f_isfinite pi = true /\ Rabs (B pi - PI) <= 4 * u -> within 2 mass_e MASS_E -> within 3 alpha_0 ALPHA_QED_0 -> good_log log ->
  exists rounds data lower upper, (forall fuel, (rounds <= fuel)%nat -> f_alpha_grid pi mass_e alpha_0 log fuel = Some (data, [Dim (length data) lower upper])) /\
    (308 <= length data <= 2118)%nat /\
    (forall k z, nth_error data k = Some z -> f_isfinite z = true /\ Rabs (B z - coupling k) <= (3 + 11 / 10 * INR k) * u * / 127) /\
    f_isfinite lower = true /\ Rabs (B lower - 2 * ln MASS_E) <= 100 * u /\
    f_isfinite upper = true /\ Rabs (B upper - (2 * ln MASS_E + INR (length data - 1) / 100)) <= (100 + 25 * INR (length data - 1)) * u /\
    ln 100 + 7 / 100 - 1 / 10 ^ 9 <= B upper <= ln 100 + 8 / 100 + 1 / 10 ^ 9.
Proof.
  intros Hpi Hme Ha0 HL. destruct (stops_exists mass_e log Hme HL) as (m & S & M). exists (m + 7)%nat, (map (FA pi alpha_0) (seq 0 (m + 8))), (FL mass_e log 0), (FL mass_e log (m + 7)).
  rewrite map_length, seq_length. replace (m + 8 - 1)%nat with (m + 7)%nat by lia. split; [intros fuel H; exact (f_grid_is pi mass_e alpha_0 log m fuel S H)|]. split; [lia|]. split.
  - intros k z Z. rewrite nth_error_map in Z. destruct (nth_error (seq 0 (m + 8)) k) as [j|] eqn:J; [|discriminate]. injection Z as <-.
    assert (K : (k < m + 8)%nat) by (rewrite <- (seq_length (m + 8) 0); apply nth_error_Some; congruence). rewrite nth_error_nth' with (d := 0%nat) in J by (rewrite seq_length; exact K). rewrite seq_nth in J by exact K. injection J as <-. cbn [Nat.add].
    exact (FA_err pi alpha_0 Hpi Ha0 k ltac:(lia)).
  - destruct (FL_0 mass_e log Hme HL) as [F0 E0]. destruct (FL_err mass_e log Hme HL (m + 7) ltac:(lia)) as [F1 E1]. unfold T, step in E0, E1. change (INR 0) with 0 in E0.
    split; [exact F0|]. split; [replace (2 * ln MASS_E) with (2 * ln MASS_E + 0 * (1 / 100)) by ring; exact E0|]. split; [exact F1|]. split; [replace (INR (m + 7) / 100) with (INR (m + 7) * (1 / 100)) by field; exact E1|].
    destruct S as [S1 S2]. specialize (S2 (m - 1)%nat ltac:(lia)). destruct (log_100 log HL) as (FH & EH & _). destruct (FL_err mass_e log Hme HL m ltac:(lia)) as [Fm Em]. destruct (FL_err mass_e log Hme HL (m - 1) ltac:(lia)) as [Fn En].
    assert (X1 : ~ B (FL mass_e log m) <= B (log (f_of_Z 100))) by (intros Y; apply fle_spec in Y; auto; congruence). apply fle_spec in S2; auto.
    assert (U : 0 < u <= 12 / 100000000000000000) by (cbn; lra). pose proof (INR_2200 m ltac:(lia)) as Nm. unfold T, step in Em, En. rewrite minus_INR in En by lia. rewrite plus_INR in E1. change (INR 1) with 1 in En. change (INR 7) with (1 + 1 + 1 + 1 + 1 + 1 + 1)%R in E1.
    assert (NU : 0 <= INR m * u <= 2200 * u) by (split; [apply Rmult_le_pos; lra|apply Rmult_le_compat_r; lra]). apply Rabs_le_inv in E1, EH, Em, En. lra.
Qed.
Lemma value_bound pi mass_e alpha_0 log : f_isfinite pi = true /\ Rabs (B pi - PI) <= 4 * u -> within 2 mass_e MASS_E -> within 3 alpha_0 ALPHA_QED_0 -> good_log log ->
  exists rounds grid exact, (forall fuel, (rounds <= fuel)%nat -> f_alpha_grid pi mass_e alpha_0 log fuel = Some grid /\ alpha_qed_grid fuel = Some exact) /\
    forall q, f_isfinite q = true -> MASS_E ^ 2 * (1 + bpow radix2 (-40)) <= B q < 100 ->
      exists z v, f_alpha_qed pi log grid q = Val z /\ f_isfinite z = true /\ alpha_qed exact (Fin (B q)) = Some (Fin v) /\ Rabs (B z - v) <= bpow radix2 (-35).
Proof.
  intros Hpi Hme Ha0 HL. destruct (stops_exists mass_e log Hme HL) as (m & S & M). destruct ends_exists as (m' & E & M'). exists (max (m + 7) (m' + 7))%nat, (f_grid pi mass_e alpha_0 log m), (grid_of m').
  split; [intros fuel H; split; [exact (f_grid_is pi mass_e alpha_0 log m fuel S ltac:(lia))|exact (grid_is m' fuel E ltac:(lia))]|].
  intros q Fq Hq. exact (low_final pi mass_e alpha_0 log Hpi Hme Ha0 HL m m' q S (proj2 M) E Fq Hq).
Qed.
Lemma beyond_bound pi mass_e alpha_0 log : f_isfinite pi = true /\ Rabs (B pi - PI) <= 4 * u -> within 2 mass_e MASS_E -> within 3 alpha_0 ALPHA_QED_0 -> good_log log ->
  exists rounds grid exact, (forall fuel, (rounds <= fuel)%nat -> f_alpha_grid pi mass_e alpha_0 log fuel = Some grid /\ alpha_qed_grid fuel = Some exact) /\
    forall q, f_isfinite q = true -> 100 <= B q ->
      exists z v, f_alpha_qed pi log grid q = Val z /\ f_isfinite z = true /\ alpha_qed exact (Fin (B q)) = Some (Fin v) /\ Rabs (B z - v) <= bpow radix2 (-31).
Proof.
  intros Hpi Hme Ha0 HL. destruct (stops_exists mass_e log Hme HL) as (m & S & M). destruct ends_exists as (m' & E & M'). exists (max (m + 7) (m' + 7))%nat, (f_grid pi mass_e alpha_0 log m), (grid_of m').
  split; [intros fuel H; split; [exact (f_grid_is pi mass_e alpha_0 log m fuel S ltac:(lia))|exact (grid_is m' fuel E ltac:(lia))]|].
  intros q Fq Hq. exact (high_final pi mass_e alpha_0 log Hpi Hme Ha0 HL m m' q S (proj2 M) E (proj2 M') Fq Hq).
Qed.
(** Below the table. *)
Lemma ln_any x : f_isfinite x = true -> 0 < B x -> Rabs (ln (B x)) <= 1100.
Proof.
  intros Fx Px. pose proof ln2_up as L2. assert (L0 : 0 < ln 2) by (rewrite <- ln_1; apply ln_increasing; lra).
  pose proof (Binary.abs_B2R_lt_emax 53 1024 x) as Q1. rewrite Rabs_pos_eq in Q1 by lra.
  assert (Q2 : bpow radix2 (-1074) <= B x). { pose proof (Binary.abs_B2R_ge_emin 53 1024 x) as Q. rewrite Rabs_pos_eq in Q by lra. apply Q. destruct x as [s|s|s p e|s mm e h]; try discriminate; auto. exfalso. cbn in Px. lra. }
  rewrite bpow_exp in Q1, Q2. assert (ln (B x) < 1024 * ln 2) by (rewrite <- (ln_exp (1024 * ln 2)); apply ln_increasing; auto).
  assert (-1074 * ln 2 <= ln (B x)) by (rewrite <- (ln_exp (-1074 * ln 2)); apply ln_mono; [apply exp_pos|exact Q2]). apply Rabs_le. lra.
Qed.
Lemma locate_ninf d : f_isfinite (d_lower d) = true -> f_locate (Binary.B754_infinity 53 1024 true) d = Outside f_nan.
Proof. destruct d as [c l h]. cbn [d_lower]. intros F. destruct l as [s|s|s p e|s mm e hh]; try discriminate; reflexivity. Qed.
Lemma below_nan pi mass_e alpha_0 log : f_isfinite pi = true /\ Rabs (B pi - PI) <= 4 * u -> within 2 mass_e MASS_E -> within 3 alpha_0 ALPHA_QED_0 -> good_log log ->
  exists rounds grid, (forall fuel, (rounds <= fuel)%nat -> f_alpha_grid pi mass_e alpha_0 log fuel = Some grid) /\
    (forall q, f_isfinite q = true -> 0 < B q <= MASS_E ^ 2 * (1 - bpow radix2 (-40)) -> f_alpha_qed pi log grid q = Val f_nan) /\
    (log (f_of_Z 0) = Binary.B754_infinity 53 1024 true -> f_alpha_qed pi log grid (f_of_Z 0) = Val f_nan).
Proof.
  intros Hpi Hme Ha0 HL. destruct (stops_exists mass_e log Hme HL) as (m & S & M). exists (m + 7)%nat, (f_grid pi mass_e alpha_0 log m). split; [intros fuel H; exact (f_grid_is pi mass_e alpha_0 log m fuel S H)|].
  destruct (FL_0 mass_e log Hme HL) as [F0 E0]. destruct (of_Z_spec 100 ltac:(lia)) as [B1 F1]. pose proof mm_pos as MP. pose proof mass_pos as MP'. split.
  - intros q Fq Hq. set (dl := bpow radix2 (-40)) in *. assert (DL : dl = 8192 * u) by (unfold dl; cbn; lra). pose proof u15 as U.
    assert (QL : B q < 100). { unfold MASS_E in Hq. lra. }
    unfold f_alpha_qed. replace (f_lt q (f_of_Z 100)) with true by (symmetry; apply flt_spec; auto; lra).
    destruct (HL q Fq ltac:(lra)) as [Fl El]. pose proof (ln_any q Fq ltac:(lra)) as LA. assert (4 * u * (1 + Rabs (ln (B q))) <= 4 * u * 1101) by (apply Rmult_le_compat_l; lra). apply Rabs_le_inv in El.
    assert (LQ : ln (B q) <= 2 * ln MASS_E - dl).
    { apply Rle_trans with (ln (MASS_E ^ 2 * (1 - dl))); [apply ln_mono; lra|]. rewrite ln_mult by lra. rewrite ln_pow by lra. pose proof (exp_ineq1_le (ln (1 - dl))) as X. rewrite exp_ln in X by lra. cbn [INR]. lra. }
    destruct (FL_err mass_e log Hme HL (m + 7) ltac:(lia)) as [F7 E7]. pose proof (INR_2200 (m + 7) ltac:(lia)) as N. assert (NU : INR (m + 7) * u <= 2200 * u) by (apply Rmult_le_compat_r; lra). pose proof mass_log as ML.
    unfold T, step in E0, E7. change (INR 0) with 0 in E0. apply Rabs_le_inv in E0. apply Rabs_le_inv in E7. apply Rabs_le_inv in LA.
    assert (TB : 2000 <= bpow radix2 1022) by (apply Rle_trans with (bpow radix2 11); [cbn; lra|apply bpow_le; lia]).
    unfold f_alpha_low, f_grid. cbn [fst snd]. unfold f_cubic_view. cbn [cubic_view]. set (d := Dim (m + 8) (FL mass_e log 0) (FL mass_e log (m + 7))).
    assert (G : good_dim d) by (unfold good_dim, moderate, d; cbn [d_lower d_upper d_count]; repeat split; auto; try lia; apply Rabs_le; lra).
    rewrite (locate_outside (log q) d Fl (good_finite d G) ltac:(cbn; lia) ltac:(apply Rabs_le; lra) ltac:(cbn [d d_lower]; apply Rabs_le; lra) ltac:(cbn [d d_upper]; apply Rabs_le; lra) ltac:(left; cbn [d d_lower]; lra)). reflexivity.
  - intros H0. unfold f_alpha_qed. replace (f_lt (f_of_Z 0) (f_of_Z 100)) with true by reflexivity. unfold f_alpha_low. rewrite H0. unfold f_grid. cbn [fst snd]. unfold f_cubic_view. cbn [cubic_view]. rewrite locate_ninf by exact F0. reflexivity.
Qed.
Lemma first_cell_double pi mass_e alpha_0 log : f_isfinite pi = true /\ Rabs (B pi - PI) <= 4 * u -> within 2 mass_e MASS_E -> within 3 alpha_0 ALPHA_QED_0 -> good_log log ->
  exists rounds grid, (forall fuel, (rounds <= fuel)%nat -> f_alpha_grid pi mass_e alpha_0 log fuel = Some grid) /\
    exists q z, f_isfinite q = true /\ MASS_E ^ 2 < B q < MASS_E ^ 2 * exp (1 / 200) /\ f_alpha_qed pi log grid q = Val z /\ f_isfinite z = true /\ 104 / 100 * ALPHA_QED_0 < B z.
Proof.
  intros Hpi Hme Ha0 HL. destruct (stops_exists mass_e log Hme HL) as (m & S & M). destruct ends_exists as (m' & E & M'). exists (m + 7)%nat, (f_grid pi mass_e alpha_0 log m). split; [intros fuel H; exact (f_grid_is pi mass_e alpha_0 log m fuel S H)|].
  pose proof u16 as U. pose proof mm_pos as MP. pose proof mass_pos as MP'. set (Qe := MASS_E ^ 2 * exp (1 / 300)).
  assert (X0 : 1 + 1 / 300 <= exp (1 / 300)) by (pose proof (exp_ineq1_le (1 / 300)); lra). assert (X3 : exp (1 / 300) < 3) by (pose proof (exp_increasing (1 / 300) 1 ltac:(lra)); pose proof exp_le_3; lra).
  assert (QP : 0 < Qe) by (apply Rmult_lt_0_compat; lra). assert (QU : Qe <= 1 / 100000). { apply Rle_trans with (1 / 1000000 * 3); [apply Rmult_le_compat; lra|lra]. }
  assert (QL : / 10000000 <= Qe). { apply Rle_trans with (MASS_E ^ 2 * 1); [unfold MASS_E; lra|apply Rmult_le_compat_l; lra]. }
  pose proof (rnd_err Qe) as R. rewrite (Rabs_pos_eq Qe) in R by lra. assert (T : tiny <= u * / 10000000) by (apply Rle_trans with (bpow radix2 (-80)); [apply bpow_le; lia|cbn; lra]).
  assert (T' : u * / 10000000 <= u * Qe) by (apply Rmult_le_compat_l; lra). assert (R' : Rabs (rnd Qe - Qe) <= 2 * u * Qe) by lra. pose proof (Rabs_le_inv _ _ R') as R2. assert (UQ : 2 * u * Qe <= / 1000000 * Qe) by (apply Rmult_le_compat_r; lra).
  destruct (nearest_double_is Qe) as [Fq Eq]; [apply Rlt_le_trans with (bpow radix2 1); [apply Rabs_lt; cbn; lra|apply bpow_le; lia]|]. set (q := nearest_double Qe) in *.
  pose proof (ln_near (B q) Qe (2 * u) QP ltac:(lra) ltac:(rewrite Eq; exact R')) as LN. assert (LQ : ln Qe = 2 * ln MASS_E + 1 / 300) by (unfold Qe; rewrite ln_mult, ln_exp, ln_pow; try lra; try apply exp_pos; cbn [INR]; lra).
  assert (BQ : MASS_E ^ 2 * (1 + bpow radix2 (-40)) <= B q < 100).
  { rewrite Eq. split; [|lra]. assert (bpow radix2 (-40) <= / 1000000) by (cbn; lra). assert (MASS_E ^ 2 * (1 + 1 / 300) <= Qe) by (apply Rmult_le_compat_l; lra). apply Rle_trans with (MASS_E ^ 2 * (1 + / 1000000)); [apply Rmult_le_compat_l; lra|]. lra. }
  assert (dP : 0 < bpow radix2 (-40)) by apply bpow_gt_0. assert (BQ1 : MASS_E ^ 2 < B q). { apply Rlt_le_trans with (2 := proj1 BQ). rewrite <- (Rmult_1_r (MASS_E ^ 2)) at 1. apply Rmult_lt_compat_l; lra. }
  destruct (low_final pi mass_e alpha_0 log Hpi Hme Ha0 HL m m' q S (proj2 M) E Fq BQ) as (z & v & V1 & Fz & V2 & Ez). exists q, z.
  split; [exact Fq|]. split; [split; [exact BQ1|]|].
  { rewrite Eq. assert (Y : exp (1 / 300) * (1 + 1 / 600) <= exp (1 / 200)). { replace (1 / 200) with (1 / 300 + 1 / 600) by field. rewrite exp_plus. apply Rmult_le_compat_l; [lra|]. pose proof (exp_ineq1_le (1 / 600)). lra. }
    apply Rlt_le_trans with (MASS_E ^ 2 * (exp (1 / 300) * (1 + 1 / 600))); [|apply Rmult_le_compat_l; lra]. rewrite <- Rmult_assoc. fold Qe. lra. }
  split; [exact V1|]. split; [exact Fz|].
  destruct (first_cell m' E) as (w & W & WB & _). fold Qe in W.
  assert (QE1 : MASS_E ^ 2 < Qe) by (unfold Qe; rewrite <- (Rmult_1_r (MASS_E ^ 2)) at 1; apply Rmult_lt_compat_l; lra).
  pose proof (exact_value m' Qe E ltac:(lra)) as S1. pose proof (exact_value m' (B q) E ltac:(lra)) as S2. rewrite (below_is m' Qe _ ltac:(lra) S1) in W. injection W as <-. rewrite (below_is m' (B q) _ ltac:(lra) S2) in V2. injection V2 as <-.
  pose proof (spline_lip (m' + 7) A (/ 126) ltac:(lra)) as SL. specialize (SL ltac:(intros k Hk; pose proof (A_up k ltac:(lia)); pose proof (A_low k ltac:(lia)); apply Rabs_le; lra)).
  set (t1 := (ln Qe - 2 * ln MASS_E) / step) in *. set (t2 := (ln (B q) - 2 * ln MASS_E) / step) in *. specialize (SL t1 t2). assert (TD : Rabs (t2 - t1) <= 400 * u) by (apply Rabs_le_inv in LN; unfold t1, t2, step; apply Rabs_le; lra).
  set (s1 := spline (m' + 7) A t1) in *. set (s2 := spline (m' + 7) A t2) in *. clearbody s1 s2.
  assert (B35 : bpow radix2 (-35) <= / 1000000) by (cbn; lra). assert (SL' : Rabs (s2 - s1) <= / 1000000) by (apply Rle_trans with (1 := SL); lra). apply Rabs_le_inv in SL'. apply Rabs_le_inv in Ez. unfold ALPHA_QED_0 in *. lra.
Qed.

Lemma example : (f_isfinite pi_double = true /\ Rabs (B pi_double - PI) <= 4 * u) /\ within 2 mass_e_double MASS_E /\ within 3 alpha_0_double ALPHA_QED_0 /\ good_log nearest_log /\
  f_isfinite (f_of_Z 4) = true /\ MASS_E ^ 2 * (1 + bpow radix2 (-40)) <= B (f_of_Z 4) < 100 /\ 1 / 1000 <= B alpha_0_double <= 1 / 127 /\ 100 <= B (f_of_Z 10000) /\
  0 < B (b64_of_bits 0x3E10000000000000) <= MASS_E ^ 2 * (1 - bpow radix2 (-40)) /\ nearest_log (f_of_Z 0) = Binary.B754_infinity 53 1024 true.
Proof.
  destruct constants as (C1 & C2 & C3). split; [exact C1|]. split; [exact C2|]. split; [exact C3|]. split; [exact nearest_log_good|]. destruct (of_Z_spec 4 ltac:(lia)) as [E F]. split; [exact F|]. rewrite E. split.
  - split; [|lra]. assert (bpow radix2 (-40) <= 1) by (change 1 with (bpow radix2 0); apply bpow_le; lia). unfold MASS_E. lra.
  - rewrite (proj1 (of_Z_spec 10000 ltac:(lia))). split; [|split; [lra|split; [|reflexivity]]].
    2: { assert (E30 : B (b64_of_bits 0x3E10000000000000) = / 1073741824) by (vm_compute; lra). rewrite E30. change (bpow radix2 (-40)) with (/ IZR (2 ^ 40)). cbn [Z.pow Z.pow_pos Pos.iter Z.mul Pos.mul]. unfold MASS_E. lra. }
     destruct C3 as [_ C3]. unfold ALPHA_QED_0 in C3. rewrite (Rabs_pos_eq (_ / _)) in C3 by lra. apply Rabs_le_inv in C3. pose proof u15. lra.
Qed.
