(** Rounding errors of the hadronic vacuum polarization. *)
From Coq Require Import Reals ZArith Lia Lra.
From Flocq Require Import Core Relative.
From Verif Require Import ExtModel TextModel PhenomModel VacHadProofs PhenomRK DefaultProofs BoundProofs ConstModel ConstSpec ConstProofs ConstNear PhenomProofs FPhenomProofs FVacModel FVacSpec.
Local Open Scope R_scope.
Local Notation u := (bpow radix2 (-53)).

Lemma uu : 0 < u <= 12 / 100000000000000000. Proof. cbn. lra. Qed.
Definition off (k z v w : R) : Prop := Rabs (z - v) <= k * u * w.
Lemma off_weak k k' z v w w' : 0 <= k <= k' -> 0 <= w <= w' -> off k z v w -> off k' z v w'.
Proof. unfold off. intros Hk Hw H. pose proof uu. apply Rle_trans with (1 := H). apply Rmult_le_compat; try lra; [apply Rmult_le_pos; lra|apply Rmult_le_compat_r; lra]. Qed.
Section Long.
Context (p emin : Z) (H : long_double p emin).
Lemma rl_err x : Rabs (to_long p emin x - x) <= u * Rabs x + bpow radix2 (-85).
Proof.
  assert (PE : (53 <= p)%Z /\ (emin <= -84)%Z) by (destruct H as [(P & E)|(-> & ->)]; lia). destruct PE as [P E].
  assert (P0 : (0 < p)%Z) by lia. pose proof (error_N_FLT radix2 emin p P0 (fun x => negb (Z.even x)) x) as (e & d & He & Hd & _ & EQ). unfold to_long. rewrite EQ.
  replace (x * (1 + e) + d - x) with (e * x + d) by ring. apply Rle_trans with (1 := Rabs_triang _ _). apply Rplus_le_compat.
  - rewrite Rabs_mult. apply Rmult_le_compat_r; [apply Rabs_pos|]. apply Rle_trans with (1 := He). apply Rle_trans with (/ 2 * bpow radix2 (-52)); [apply Rmult_le_compat_l; [lra|apply bpow_le; lia]|cbn; lra].
  - apply Rle_trans with (1 := Hd). apply Rle_trans with (/ 2 * bpow radix2 (-84)); [apply Rmult_le_compat_l; [lra|apply bpow_le; lia]|right; change (-84)%Z with (1 + -85)%Z; rewrite bpow_plus; change (bpow radix2 1) with 2; lra].
Qed.
Lemma RLe k x v w : 0 <= k <= 1000 -> / 10000000 <= w -> Rabs v <= w -> off k x v w -> off (k + 1 + / 100) (to_long p emin x) v w.
Proof.
  unfold off. intros Hk Hw Hv E. pose proof uu as U. pose proof (rl_err x) as R. assert (T : bpow radix2 (-85) <= / 400 * u * / 10000000) by (cbn; lra).
  assert (T' : / 400 * u * / 10000000 <= / 400 * u * w) by (apply Rmult_le_compat_l; lra). assert (ku : k * u <= 1000 * u) by (apply Rmult_le_compat_r; lra).
  assert (X : Rabs x <= (1 + / 1000) * w). { replace x with ((x - v) + v) by ring. pose proof (Rabs_triang (x - v) v). assert (k * u * w <= / 1000 * w) by (apply Rmult_le_compat_r; lra). lra. }
  assert (u * Rabs x <= u * ((1 + / 1000) * w)) by (apply Rmult_le_compat_l; lra). replace (to_long p emin x - v) with ((to_long p emin x - x) + (x - v)) by ring. pose proof (Rabs_triang (to_long p emin x - x) (x - v)).
  assert (0 <= u * w) by (apply Rmult_le_pos; lra). lra.
Qed.
End Long.
Lemma double_long : long_double 53 (-1074). Proof. right. auto. Qed.
Lemma RNe k x v w : 0 <= k <= 1000 -> / 10000000 <= w -> Rabs v <= w -> off k x v w -> off (k + 1 + / 100) (RN x) v w.
Proof. exact (RLe 53 (-1074) double_long k x v w). Qed.
Lemma off_self v w : 0 <= w -> off 0 v v w.
Proof. intros. unfold off. rewrite Rminus_diag_eq, Rabs_R0 by reflexivity. lra. Qed.
Lemma off_mul k k' x y v v' w w' : 0 <= k <= 1000 -> 0 <= k' <= 1000 -> 0 <= w -> 0 <= w' -> Rabs v <= w -> Rabs v' <= w' -> off k x v w -> off k' y v' w' -> off (k + k' + / 100) (x * y) (v * v') (w * w').
Proof.
  unfold off. intros Hk Hk' Hw Hw' V V' E E'. pose proof uu as U. replace (x * y - v * v') with ((x - v) * v' + v * (y - v') + (x - v) * (y - v')) by ring.
  apply Rle_trans with (1 := Rabs_triang _ _). apply Rle_trans with (k * u * w * w' + w * (k' * u * w') + (k * u * w) * (k' * u * w')).
  - apply Rplus_le_compat; [apply Rle_trans with (1 := Rabs_triang _ _); apply Rplus_le_compat|]; rewrite Rabs_mult; apply Rmult_le_compat; auto; apply Rabs_pos.
  - assert (W : 0 <= w * w') by (apply Rmult_le_pos; auto). assert (K : 0 <= k * k' <= 1000 * 1000) by (split; [apply Rmult_le_pos; lra|apply Rmult_le_compat; lra]).
    assert (KU : k * k' * u <= / 100). { apply Rle_trans with (1000 * 1000 * u); [apply Rmult_le_compat_r; lra|lra]. }
    assert (KW : k * k' * u * (u * (w * w')) <= / 100 * (u * (w * w'))) by (apply Rmult_le_compat_r; [apply Rmult_le_pos; lra|lra]). lra.
Qed.
Lemma off_div k k' x y v v' : 0 <= k <= 1000 -> 0 <= k' <= 1000 -> 0 < v -> 0 < v' -> off k x v v -> off k' y v' v' -> off (k + k' + / 100) (x / y) (v / v') (v / v').
Proof.
  unfold off. intros Hk Hk' V V' E E'. pose proof uu as U. assert (ku : 0 <= k' * u <= 1000 * u) by (split; [apply Rmult_le_pos; lra|apply Rmult_le_compat_r; lra]).
  assert (Y : (1 - 1000 * u) * v' <= y). { apply Rabs_le_inv in E'. assert (k' * u * v' <= 1000 * u * v') by (apply Rmult_le_compat_r; lra). lra. }
  assert (P : (999 / 1000) * v' <= y). { apply Rle_trans with (2 := Y). apply Rmult_le_compat_r; lra. } assert (Py : 0 < y) by lra.
  replace (x / y - v / v') with (((x - v) * v' + v * (v' - y)) * / (y * v')) by (field; lra). rewrite Rabs_mult, (Rabs_pos_eq (/ (y * v'))) by (left; apply Rinv_0_lt_compat, Rmult_lt_0_compat; lra).
  apply Rmult_le_reg_r with (y * v'); [apply Rmult_lt_0_compat; lra|]. rewrite Rmult_assoc, Rinv_l, Rmult_1_r by (apply Rgt_not_eq, Rmult_lt_0_compat; lra).
  replace ((k + k' + / 100) * u * (v / v') * (y * v')) with ((k + k' + / 100) * u * v * y) by (field; lra).
  apply Rle_trans with (1 := Rabs_triang _ _). rewrite !Rabs_mult. rewrite (Rabs_pos_eq v'), (Rabs_pos_eq v), (Rabs_minus_sym v') by lra.
  apply Rle_trans with (k * u * v * v' + v * (k' * u * v')); [apply Rplus_le_compat; [apply Rmult_le_compat_r; lra|apply Rmult_le_compat_l; lra]|].
  apply Rle_trans with ((k + k' + / 100) * u * v * ((1 - 1000 * u) * v')); [|apply Rmult_le_compat_l; [repeat apply Rmult_le_pos; lra|exact Y]].
  assert (VV : 0 <= u * v * v') by (repeat apply Rmult_le_pos; lra).
  assert (KK : (k + k' + / 100) * (1000 * u) <= / 100). { apply Rle_trans with (2001 * (1000 * u)); [apply Rmult_le_compat_r; lra|lra]. }
  assert (KV : (k + k' + / 100) * (1000 * u) * (u * v * v') <= / 100 * (u * v * v')) by (apply Rmult_le_compat_r; lra). lra.
Qed.
Section Fit.
Context (p emin : Z) (H : long_double p emin) (logl : R -> R) (HL : accurate_log logl).
Local Notation RL := (to_long p emin).
Lemma fit_err a b c Q : 0 <= a <= b -> / 1000 <= b <= 1 -> 9 / 10 <= c <= 5 -> 0 <= Q -> off (15) (f_fit p emin logl a b c Q) (- (a + b * ln (1 + c * Q))) (a + b * (1 + ln (1 + c * Q))).
Proof.
  intros Ha Hb Hc HQ. pose proof uu as U. unfold f_fit. set (L := ln (1 + c * Q)). assert (cQ : 0 <= c * Q) by (apply Rmult_le_pos; lra). assert (L0 : 0 <= L) by (unfold L; rewrite <- ln_1; apply ln_mono; lra).
  assert (C1 : off (0 + 1 + / 100) (RL c) c c) by (apply (RLe p emin H); [lra|lra|rewrite Rabs_pos_eq; lra|apply off_self; lra]).
  assert (C2 : off (0 + 1 + / 100 + 0 + / 100) (RL c * Q) (c * Q) (c * Q)) by (apply off_mul; [lra|lra|lra|lra|rewrite Rabs_pos_eq; lra|rewrite Rabs_pos_eq; lra|exact C1|apply off_self; lra]).
  assert (C3 : off (103 / 100) (RL c * Q) (c * Q) (1 + c * Q)) by (refine (off_weak _ _ _ _ _ _ _ _ C2); lra).
  assert (C4 : off (103 / 100 + 1 + / 100) (RL (RL c * Q)) (c * Q) (1 + c * Q)) by (apply (RLe p emin H); [lra|lra|rewrite Rabs_pos_eq; lra|exact C3]). set (x1 := RL (RL c * Q)) in *.
  assert (C5 : off (205 / 100) (1 + x1) (1 + c * Q) (1 + c * Q)). { unfold off in *. replace (1 + x1 - (1 + c * Q)) with (x1 - c * Q) by ring. apply Rle_trans with (1 := C4). apply Rmult_le_compat_r; lra. }
  assert (C6 : off (205 / 100 + 1 + / 100) (RL (1 + x1)) (1 + c * Q) (1 + c * Q)) by (apply (RLe p emin H); [lra|lra|rewrite Rabs_pos_eq; lra|exact C5]). set (x2 := RL (1 + x1)) in *.
  unfold off in C6. pose proof (ln_near x2 (1 + c * Q) ((205 / 100 + 1 + / 100) * u) ltac:(lra) ltac:(lra) C6) as C7. fold L in C7.
  assert (X2 : 0 < x2). { apply Rabs_le_inv in C6. assert ((205 / 100 + 1 + / 100) * u * (1 + c * Q) <= / 2 * (1 + c * Q)) by (apply Rmult_le_compat_r; lra). lra. }
  pose proof (HL x2 X2) as C8. set (l := logl x2) in *.
  assert (C9 : off (103 / 10) l L (1 + L)).
  { unfold off. apply Rabs_le_inv in C7. assert (XA : Rabs (ln x2) <= L + / 1000) by (apply Rabs_le; lra). assert (4 * u * (1 + Rabs (ln x2)) <= 4 * u * (1 + L + / 1000)) by (apply Rmult_le_compat_l; lra).
    apply Rabs_le_inv in C8. assert (0 <= u * L) by (apply Rmult_le_pos; lra). apply Rabs_le. lra. }
  assert (D1 : off (0 + 1 + / 100) (RL b) b b) by (apply (RLe p emin H); [lra|lra|rewrite Rabs_pos_eq; lra|apply off_self; lra]).
  assert (D2 : off (0 + 1 + / 100 + 103 / 10 + / 100) (RL b * l) (b * L) (b * (1 + L))) by (apply off_mul; [lra|lra|lra|lra|rewrite Rabs_pos_eq; lra|rewrite Rabs_pos_eq; lra|exact D1|exact C9]).
  assert (BL : b * 1 <= b * (1 + L)) by (apply Rmult_le_compat_l; lra). assert (bL : 0 <= b * L) by (apply Rmult_le_pos; lra).
  assert (D3 : off (0 + 1 + / 100 + 103 / 10 + / 100 + 1 + / 100) (RL (RL b * l)) (b * L) (b * (1 + L))) by (apply (RLe p emin H); [lra|lra|rewrite Rabs_pos_eq; lra|exact D2]). set (m := RL (RL b * l)) in *.
  assert (A1 : off (0 + 1 + / 100) (RL a) a b) by (apply (RLe p emin H); [lra|lra|rewrite Rabs_pos_eq; lra|apply off_self; lra]).
  assert (W : b * (1 + L) <= a + b * (1 + L)) by lra. unfold off in A1, D3. apply Rabs_le_inv in A1. apply Rabs_le_inv in D3.
  assert (UW : 0 <= u * b <= u * (b * (1 + L))) by (split; [apply Rmult_le_pos; lra|apply Rmult_le_compat_l; lra]). assert (UW' : u * (b * (1 + L)) <= u * (a + b * (1 + L))) by (apply Rmult_le_compat_l; lra).
  assert (S1 : off (138 / 10) (- RL a - m) (- (a + b * L)) (a + b * (1 + L))) by (unfold off; apply Rabs_le; lra).
  assert (S2 : off (138 / 10 + 1 + / 100) (RL (- RL a - m)) (- (a + b * L)) (a + b * (1 + L))) by (apply (RLe p emin H); [lra|lra|rewrite Rabs_Ropp, Rabs_pos_eq; lra|exact S1]).
  refine (off_weak _ _ _ _ _ _ _ _ S2); lra.
Qed.
Definition C0 : R := 2 * PI / (72973525664 / 10 ^ 13).
Lemma alpha_err : off (204 / 100) (f_alpha p emin) (72973525664 / 10 ^ 13) (72973525664 / 10 ^ 13).
Proof.
  unfold f_alpha. set (v := 72973525664 / 10 ^ 13). assert (V : 7 / 1000 <= v <= 8 / 1000) by (unfold v; lra).
  assert (A1 : off (0 + 1 + / 100) (RL v) v v) by (apply (RLe p emin H); [lra|lra|rewrite Rabs_pos_eq; lra|apply off_self; lra]).
  assert (A2 : off (0 + 1 + / 100 + 1 + / 100) (RN (RL v)) v v) by (apply RNe; [lra|lra|rewrite Rabs_pos_eq; lra|exact A1]). refine (off_weak _ _ _ _ _ _ _ _ A2); lra.
Qed.
Lemma factor_err : off (52 / 10) (f_factor p emin) (- C0) C0.
Proof.
  unfold f_factor. rewrite (constant_is p emin PI_ H), <- (near_meaning PI_ PI eq_refl). pose proof PI3 as P3. pose proof PI_32 as P4. pose proof uu as U.
  assert (P1 : off (0 + 1 + / 100) (RN PI) PI PI) by (apply RNe; [lra|lra|rewrite Rabs_pos_eq; lra|apply off_self; lra]).
  assert (P2 : off (0 + 1 + / 100) (2 * RN PI) (2 * PI) (2 * PI)) by (unfold off in *; apply Rabs_le_inv in P1; apply Rabs_le; lra).
  assert (P5 : off (0 + 1 + / 100 + 1 + / 100) (RN (2 * RN PI)) (2 * PI) (2 * PI)) by (apply RNe; [lra|lra|rewrite Rabs_pos_eq; lra|exact P2]).
  pose proof (off_div (0 + 1 + / 100 + 1 + / 100) (204 / 100) _ _ (2 * PI) (72973525664 / 10 ^ 13) ltac:(lra) ltac:(lra) ltac:(lra) ltac:(lra) P5 alpha_err) as D. fold C0 in D.
  assert (C : 1 <= C0). { unfold C0, Rdiv. rewrite <- (Rmult_1_l 1). apply Rmult_le_compat; lra. }
  set (x := RN (2 * RN PI)) in *. set (y := f_alpha p emin) in *. assert (D' : off (0 + 1 + / 100 + 1 + / 100 + 204 / 100 + / 100) (- x / y) (- C0) C0) by (unfold off in *; replace (- x / y - - C0) with (- (x / y - C0)) by (unfold Rdiv; ring); rewrite Rabs_Ropp; exact D).
  assert (E : off (0 + 1 + / 100 + 1 + / 100 + 204 / 100 + / 100 + 1 + / 100) (RN (- x / y)) (- C0) C0) by (apply RNe; [lra|lra|rewrite Rabs_Ropp, Rabs_pos_eq; lra|exact D']).
  refine (off_weak _ _ _ _ _ _ _ _ E); lra.
Qed.
Lemma C0_range : 800 <= C0 <= 900.
Proof. pose proof PI3 as P3. pose proof PI_32 as P4. unfold C0. lra. Qed.
Lemma branch_err a b c Q : 0 <= a <= b -> / 1000 <= b <= 31 / 10000 -> 9 / 10 <= c <= 5 -> 0 <= Q ->
  Rabs (RN (RL (f_factor p emin * f_fit p emin logl a b c Q)) - C0 * (a + b * ln (1 + c * Q))) <= 23 * u * (C0 * (a + b * ln (1 + c * Q)) + 3).
Proof.
  intros Ha Hb Hc HQ. pose proof (fit_err a b c Q Ha ltac:(lra) Hc HQ) as F. pose proof factor_err as G. pose proof C0_range as C. pose proof uu as U.
  set (L := ln (1 + c * Q)) in *. assert (cQ : 0 <= c * Q) by (apply Rmult_le_pos; lra). assert (L0 : 0 <= L) by (unfold L; rewrite <- ln_1; apply ln_mono; lra). assert (bL : 0 <= b * L) by (apply Rmult_le_pos; lra).
  set (s := f_fit p emin logl a b c Q) in *. set (f := f_factor p emin) in *. set (W := a + b * (1 + L)) in *. set (v := a + b * L) in *. assert (WV : W = v + b) by (unfold W, v; ring). assert (V0 : 0 <= v) by (unfold v; lra).
  assert (M : off (52 / 10 + 15 + / 100) (f * s) (- C0 * - v) (C0 * W)) by (apply off_mul; [lra|lra|lra|lra|rewrite Rabs_Ropp, Rabs_pos_eq; lra|rewrite Rabs_Ropp, Rabs_pos_eq; lra|exact G|exact F]).
  replace (- C0 * - v) with (C0 * v) in M by ring. assert (CW : 800 * W <= C0 * W) by (apply Rmult_le_compat_r; lra). assert (CV : 0 <= C0 * v <= C0 * W) by (split; [apply Rmult_le_pos; lra|apply Rmult_le_compat_l; lra]).
  assert (M1 : off (52 / 10 + 15 + / 100 + 1 + / 100) (RL (f * s)) (C0 * v) (C0 * W)) by (apply (RLe p emin H); [lra|lra|rewrite Rabs_pos_eq; lra|exact M]).
  assert (M2 : off (52 / 10 + 15 + / 100 + 1 + / 100 + 1 + / 100) (RN (RL (f * s))) (C0 * v) (C0 * W)) by (apply RNe; [lra|lra|rewrite Rabs_pos_eq; lra|exact M1]).
  unfold off in M2. apply Rle_trans with (1 := M2). assert (Cb : C0 * b <= 900 * (31 / 10000)) by (apply Rmult_le_compat; lra). apply Rmult_le_compat; try lra. rewrite WV. lra.
Qed.
Lemma vac_err Q : 0 <= Q -> Rabs (f_delta_vac_had p emin logl Q - delta_vac_had Q) <= 23 * u * (delta_vac_had Q + 3).
Proof.
  intros HQ. unfold f_delta_vac_had, delta_vac_had. cbv zeta.
  assert (E : forall a b c, - (2 * PI) / (72973525664 / 10 ^ 13) * (- a - b * ln (1 + c * Q)) = C0 * (a + b * ln (1 + c * Q))) by (intros; unfold C0, Rdiv; ring).
  destruct (rltb Q 1); [|destruct (rltb Q 64)]; rewrite E; apply branch_err; lra.
Qed.
Lemma below_joint k Q Q' : 0 <= Q -> 0 <= Q' -> 1 / 1000 <= k <= 1 -> 1 <= delta_vac_had Q' -> delta_vac_had Q < (1 - k) * delta_vac_had Q' ->
  f_delta_vac_had p emin logl Q < (1 - k + / 1000000) * f_delta_vac_had p emin logl Q'.
Proof.
  intros HQ HQ' Hk H1 HD. pose proof (vac_err Q HQ) as E. pose proof (vac_err Q' HQ') as E'. pose proof uu as U. pose proof (vac_pos Q HQ) as P. set (d := delta_vac_had Q) in *. set (d' := delta_vac_had Q') in *.
  set (f := f_delta_vac_had p emin logl Q) in *. set (f' := f_delta_vac_had p emin logl Q') in *. clearbody d d' f f'. assert (kd : 0 <= k * d') by (apply Rmult_le_pos; lra). assert (D : d <= d') by lra.
  assert (T : 23 * u * (d' + 3) <= / 10000000 * d'). { apply Rle_trans with (23 * u * (4 * d')); [apply Rmult_le_compat_l; lra|]. replace (23 * u * (4 * d')) with (92 * u * d') by ring. apply Rmult_le_compat_r; lra. }
  assert (T0 : 23 * u * (d + 3) <= 23 * u * (d' + 3)) by (apply Rmult_le_compat_l; lra). apply Rabs_le_inv in E. apply Rabs_le_inv in E'.
  assert (F : d' - / 10000000 * d' <= f') by lra. assert (G : (1 - k + / 1000000) * (d' - / 10000000 * d') <= (1 - k + / 1000000) * f') by (apply Rmult_le_compat_l; lra). apply Rlt_le_trans with (2 := G).
  assert (KK : 0 <= / 10000000 * (k * d')) by lra. lra.
Qed.
Lemma vac_positive Q : 0 <= Q -> 0 < f_delta_vac_had p emin logl Q.
Proof.
  intros HQ. pose proof (vac_err Q HQ) as E. pose proof uu as U. assert (D : / 1000000 <= delta_vac_had Q).
  { unfold delta_vac_had. cbv zeta. pose proof C0_range as C.
    assert (K : forall a b c, - (2 * PI) / (72973525664 / 10 ^ 13) * (- a - b * ln (1 + c * Q)) = C0 * (a + b * ln (1 + c * Q))) by (intros; unfold C0, Rdiv; ring).
    assert (K2 : forall a b c, 1345 / 10 ^ 12 <= a -> 0 <= b -> 0 <= c -> / 1000000 <= C0 * (a + b * ln (1 + c * Q))).
    { intros a b c Ha Hb Hc. assert (cQ : 0 <= c * Q) by (apply Rmult_le_pos; lra). assert (L0 : 0 <= ln (1 + c * Q)) by (rewrite <- ln_1; apply ln_mono; lra). assert (0 <= b * ln (1 + c * Q)) by (apply Rmult_le_pos; lra).
      apply Rle_trans with (800 * (1345 / 10 ^ 12)); [lra|]. apply Rmult_le_compat; lra. }
    destruct (rltb Q 1); [|destruct (rltb Q 64)]; rewrite K; apply K2; lra. }
  apply Rabs_le_inv in E. assert (UD : u * delta_vac_had Q <= / 1000000 * delta_vac_had Q) by (apply Rmult_le_compat_r; lra). lra.
Qed.
End Fit.
Lemma gaps p emin logl : long_double p emin -> accurate_log logl ->
  (forall Q_sq, 0 <= Q_sq < 1 -> f_delta_vac_had p emin logl Q_sq < (1 - 29 / 10000) * f_delta_vac_had p emin logl 1) /\
  (forall Q_sq, 0 <= Q_sq < 64 -> f_delta_vac_had p emin logl Q_sq < (1 - 59 / 10000) * f_delta_vac_had p emin logl 64).
Proof.
  intros H HL.
  assert (K : forall a b c Q, - (2 * PI) / (72973525664 / 10 ^ 13) * (- a - b * ln (1 + c * Q)) = C0 * (a + b * ln (1 + c * Q))) by (intros; unfold C0, Rdiv; ring).
  assert (D : forall Q, 1 <= Q -> 1 <= delta_vac_had Q).
  { intros Q HQ. unfold delta_vac_had. cbv zeta. pose proof C0_range as C. rewrite (proj2 (rltb_false Q 1)) by lra. assert (L2 : 69 / 100 <= ln 2) by (pose proof ln2_bounds; lra).
    assert (K2 : forall a b c, 1 / 1000 <= a -> 28 / 10000 <= b -> 9 / 10 <= c -> 2 <= 1 + c * Q -> 1 <= C0 * (a + b * ln (1 + c * Q))).
    { intros a b c Ha Hb Hc H2. assert (L : ln 2 <= ln (1 + c * Q)) by (apply ln_mono; lra). assert (28 / 10000 * (69 / 100) <= b * ln (1 + c * Q)) by (apply Rmult_le_compat; lra).
      apply Rle_trans with (800 * (1 / 1000 + 28 / 10000 * (69 / 100))); [lra|]. apply Rmult_le_compat; lra. }
    destruct (rltb Q 64) eqn:E; rewrite K; apply K2; try lra. apply rltb_false in E. lra. }
  split; intros Q HQ.
  - pose proof (below_joint p emin H logl HL (3 / 1000) Q 1 ltac:(lra) ltac:(lra) ltac:(lra) (D 1 ltac:(lra)) (had_scale _ _ _ (proj2 (below_1 Q HQ)))) as B. pose proof (vac_positive p emin H logl HL 1 ltac:(lra)). apply Rlt_le_trans with (1 := B). apply Rmult_le_compat_r; lra.
  - pose proof (below_joint p emin H logl HL (6 / 1000) Q 64 ltac:(lra) ltac:(lra) ltac:(lra) (D 64 ltac:(lra)) (had_scale _ _ _ (below_64 Q HQ))) as B. pose proof (vac_positive p emin H logl HL 64 ltac:(lra)). apply Rlt_le_trans with (1 := B). apply Rmult_le_compat_r; lra.
Qed.
Section Mono.
Context (p emin : Z) (H : long_double p emin) (logl : R -> R) (HL : accurate_log logl) (MO : forall x y, 0 < x <= y -> logl x <= logl y).
Local Notation RL := (to_long p emin).
Lemma rl_mono x y : x <= y -> RL x <= RL y.
Proof. intros L. assert (P : Prec_gt_0 p) by (unfold Prec_gt_0; destruct H as [X|X]; lia). apply round_le; [apply FLT_exp_valid; exact P|apply valid_rnd_N|exact L]. Qed.
Lemma rn_mono x y : x <= y -> RN x <= RN y.
Proof. intros L. apply round_le; [apply FLT_exp_valid; reflexivity|apply valid_rnd_N|exact L]. Qed.
Lemma rl_0 : RL 0 = 0. Proof. apply round_0. apply valid_rnd_N. Qed.
Lemma fit_mono a b c Q Q' : 0 <= b -> 0 <= c -> 0 <= Q <= Q' -> f_fit p emin logl a b c Q' <= f_fit p emin logl a b c Q.
Proof.
  intros Hb Hc HQ. unfold f_fit. assert (B0 : 0 <= RL b) by (rewrite <- rl_0; apply rl_mono; lra). assert (C : 0 <= RL c) by (rewrite <- rl_0; apply rl_mono; lra).
  assert (X : RL (RL c * Q) <= RL (RL c * Q')) by (apply rl_mono, Rmult_le_compat_l; lra). assert (X0 : 0 <= RL (RL c * Q)) by (rewrite <- rl_0; apply rl_mono, Rmult_le_pos; lra).
  assert (O : 0 < RL 1). { pose proof (rl_err p emin H 1) as E. rewrite Rabs_R1 in E. apply Rabs_le_inv in E. pose proof uu. assert (bpow radix2 (-85) <= / 2) by (cbn; lra). lra. }
  assert (O' : RL 1 <= RL (1 + RL (RL c * Q))) by (apply rl_mono; lra). assert (L : RL (1 + RL (RL c * Q)) <= RL (1 + RL (RL c * Q'))) by (apply rl_mono; lra).
  pose proof (MO _ _ (conj (Rlt_le_trans _ _ _ O O') L)) as LL. apply rl_mono. apply Rplus_le_compat_l, Ropp_le_contravar, rl_mono, Rmult_le_compat_l; [exact B0|exact LL].
Qed.
Lemma branch_mono a b c Q Q' : 0 <= b -> 0 <= c -> 0 <= Q <= Q' -> RN (RL (f_factor p emin * f_fit p emin logl a b c Q)) <= RN (RL (f_factor p emin * f_fit p emin logl a b c Q')).
Proof.
  intros Hb Hc HQ. apply rn_mono, rl_mono. apply Rmult_le_compat_neg_l; [|apply fit_mono; auto].
  pose proof (factor_err p emin H) as F. unfold off in F. pose proof C0_range as C. pose proof uu. apply Rabs_le_inv in F. assert (52 / 10 * u * C0 <= 52 / 10 * u * 900) by (apply Rmult_le_compat_l; lra). lra.
Qed.
Lemma vac_mono Q Q' : 0 <= Q <= Q' -> f_delta_vac_had p emin logl Q <= f_delta_vac_had p emin logl Q'.
Proof.
  assert (S : forall Q Q', 0 <= Q <= Q' -> rltb Q 1 = rltb Q' 1 -> rltb Q 64 = rltb Q' 64 -> f_delta_vac_had p emin logl Q <= f_delta_vac_had p emin logl Q').
  { intros q q' Hq E1 E2. unfold f_delta_vac_had. rewrite <- E1, <- E2. destruct (rltb q 1); [apply branch_mono; lra|]. destruct (rltb q 64); apply branch_mono; lra. }
  assert (T : forall x y, x < y -> rltb x y = true) by (intros x y L; unfold rltb; destruct (Rlt_dec x y); [reflexivity|contradiction]).
  destruct (gaps p emin logl H HL) as [G1 G2]. pose proof (vac_positive p emin H logl HL 1 ltac:(lra)) as P1. pose proof (vac_positive p emin H logl HL 64 ltac:(lra)) as P64. intros HQ.
  destruct (Rlt_dec Q' 1) as [A|A]. { apply S; [lra| |]; rewrite !T by lra; reflexivity. }
  destruct (Rlt_dec Q' 64) as [B|B].
  - assert (Y : 1 <= Q' -> f_delta_vac_had p emin logl 1 <= f_delta_vac_had p emin logl Q') by (intros; apply S; [lra| |]; [rewrite !(proj2 (rltb_false _ 1)) by lra|rewrite !T by lra]; reflexivity).
    destruct (Rlt_dec Q 1) as [D|D]; [specialize (G1 Q ltac:(lra)); specialize (Y ltac:(lra)); lra|]. apply S; [lra| |]; [rewrite !(proj2 (rltb_false _ 1)) by lra|rewrite !T by lra]; reflexivity.
  - assert (Y : f_delta_vac_had p emin logl 64 <= f_delta_vac_had p emin logl Q') by (apply S; [lra| |]; [rewrite !(proj2 (rltb_false _ 1)) by lra|rewrite !(proj2 (rltb_false _ 64)) by lra]; reflexivity).
    destruct (Rlt_dec Q 64) as [D|D]; [specialize (G2 Q ltac:(lra)); lra|]. apply S; [lra| |]; [rewrite !(proj2 (rltb_false _ 1)) by lra|rewrite !(proj2 (rltb_false _ 64)) by lra]; reflexivity.
Qed.
End Mono.
Lemma example : long_double 64 (-16445) /\ long_double 113 (-16494) /\ long_double 53 (-1074) /\ accurate_log ln /\ (forall x y, 0 < x <= y -> ln x <= ln y).
Proof.
  split; [left; lia|]. split; [left; lia|]. split; [right; lia|]. split; [|intros x y Hxy; apply ln_mono; lra]. intros x Hx. rewrite Rminus_diag_eq, Rabs_R0 by reflexivity. pose proof uu. apply Rmult_le_pos; [lra|]. pose proof (Rabs_pos (ln x)). lra.
Qed.
