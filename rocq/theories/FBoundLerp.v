(** How far rounding moves an interpolated point. *)
From Coq Require Import Reals ZArith Bool Lia Lra Psatz.
From Flocq Require Import Core.Core Relative Plus_error IEEE754.Binary IEEE754.Bits IEEE754.BinarySingleNaN.
From Verif Require Import GridModel GridFloat FBoundModel FBoundProofs.
Local Open Scope R_scope.

Local Notation fexp := (FLT_exp (-1074) 53).
Local Notation F := (generic_format radix2 fexp).
Local Notation rnd := (round radix2 fexp (Znearest (fun x => negb (Z.even x)))).
Local Notation B := (Binary.B2R 53 1024).
Local Notation top := (bpow radix2 1024).
Local Notation u := (bpow radix2 (-53)).
Local Notation tiny := (bpow radix2 (-1075)).

#[local] Instance prec_53 : Prec_gt_0 53 := eq_refl _.
Ltac ulpm := apply ulp_le_pos; try (apply FLT_exp_valid; reflexivity); try apply FLT_exp_monotone; lra.
Lemma u_small : 0 < u <= / 1000. Proof. cbn. lra. Qed.
Lemma tiny_pos : 0 < tiny. Proof. apply bpow_gt_0. Qed.
Lemma u_half : / 2 * bpow radix2 (- (53) + 1) = u.
Proof. change (- (53) + 1)%Z with (1 + -53)%Z. rewrite bpow_plus. cbn. lra. Qed.
Lemma tiny_half : / 2 * bpow radix2 (-1074) = tiny.
Proof. change (-1074)%Z with (1 + -1075)%Z. rewrite bpow_plus. change (bpow radix2 1) with 2. lra. Qed.
Lemma rnd_err x : Rabs (rnd x - x) <= u * Rabs x + tiny.
Proof.
  destruct (error_N_FLT radix2 (-1074) 53 ltac:(lia) (fun x => negb (Z.even x)) x) as (e & d & He & Hd & _ & E). rewrite E.
  rewrite u_half in He. rewrite tiny_half in Hd. replace (x * (1 + e) + d - x) with (e * x + d) by ring.
  apply Rle_trans with (1 := Rabs_triang _ _). apply Rplus_le_compat; auto. rewrite Rabs_mult. apply Rmult_le_compat_r; auto. apply Rabs_pos.
Qed.
Lemma sum_err x y : F x -> F y -> Rabs (rnd (x + y) - (x + y)) <= u * Rabs (x + y).
Proof.
  intros Fx Fy. destruct (FLT_plus_error_N_ex radix2 (-1074) 53 (fun x => negb (Z.even x)) x y Fx Fy) as (e & He & E). rewrite E.
  replace ((x + y) * (1 + e) - (x + y)) with (e * (x + y)) by ring. rewrite Rabs_mult. apply Rmult_le_compat_r; [apply Rabs_pos|].
  apply Rle_trans with (1 := He). assert (U : u_ro radix2 53 = u) by (unfold u_ro; apply u_half). rewrite U. pose proof u_small.
  apply Rmult_le_reg_r with (1 + u); [lra|]; unfold Rdiv; rewrite Rmult_assoc, Rinv_l by lra; nra.
Qed.
Lemma F_rnd x : F (rnd x). Proof. apply generic_format_round; fv. Qed.

Section Lerp.
Context (b : fbound) (Fl : f_isfinite (f_min b) = true) (Fh : f_isfinite (f_max b) = true) (t : binary64) (Ft : f_isfinite t = true) (Ht : 0 <= B t <= 1).
Let m := B (f_min b). Let M := B (f_max b). Let s := B t.
Let W := (1 - s) * Rabs m + s * Rabs M.
Lemma parts_err : Rabs (part1 b t + part2 b t - ((1 - s) * m + s * M)) <= (2 * u + u * u) * W + 2 * tiny.
Proof.
  pose proof u_small as U. pose proof tiny_pos as T. unfold part1, part2. fold m M s.
  assert (Hs : 0 <= s <= 1) by exact Ht.
  assert (E1 : Rabs (rnd (1 - s) - (1 - s)) <= u * (1 - s)).
  { rewrite <- (Rabs_pos_eq (1 - s)) at 3 by lra. apply (sum_err 1 (- s)); [apply F1|apply generic_format_opp, format_of]. }
  set (c := rnd (1 - s)) in *.
  assert (C : 0 <= c <= (1 + u) * (1 - s)). { split; [apply rnd_nonneg; lra|]. apply Rabs_le_inv in E1. lra. }
  pose proof (rnd_err (c * m)) as E2. pose proof (rnd_err (s * M)) as E3. rewrite !Rabs_mult in E2, E3. rewrite (Rabs_pos_eq c) in E2 by lra. rewrite (Rabs_pos_eq s) in E3 by lra.
  assert (E4 : Rabs (c * m - (1 - s) * m) <= u * (1 - s) * Rabs m).
  { rewrite <- Rmult_minus_distr_r, Rabs_mult. apply Rmult_le_compat_r; auto. apply Rabs_pos. }
  replace (rnd (c * m) + rnd (s * M) - ((1 - s) * m + s * M)) with ((rnd (c * m) - c * m) + ((c * m - (1 - s) * m) + (rnd (s * M) - s * M))) by ring.
  pose proof (Rabs_triang (rnd (c * m) - c * m) ((c * m - (1 - s) * m) + (rnd (s * M) - s * M))) as T1.
  pose proof (Rabs_triang (c * m - (1 - s) * m) (rnd (s * M) - s * M)) as T2.
  pose proof (Rabs_pos m) as Pm. pose proof (Rabs_pos M) as PM. unfold W.
  assert (c * Rabs m <= (1 + u) * (1 - s) * Rabs m) by (apply Rmult_le_compat_r; tauto).
  assert (u * (c * Rabs m) <= u * ((1 + u) * (1 - s) * Rabs m)) by (apply Rmult_le_compat_l; lra).
  assert (0 <= s * Rabs M) by (apply Rmult_le_pos; lra). assert (0 <= u * (s * Rabs M)) by (apply Rmult_le_pos; lra). assert (0 <= u * (u * (s * Rabs M))) by (apply Rmult_le_pos; lra).
  assert (0 <= (1 - s) * Rabs m) by (apply Rmult_le_pos; lra). lra.
Qed.
Lemma W_pos : 0 <= W. Proof. unfold W. pose proof (Rabs_pos m). pose proof (Rabs_pos M). pose proof Ht. fold s in H1. nra. Qed.
Lemma exact_W : Rabs ((1 - s) * m + s * M) <= W.
Proof.
  apply Rle_trans with (1 := Rabs_triang _ _). rewrite !Rabs_mult. pose proof Ht as H. fold s in H. rewrite (Rabs_pos_eq (1 - s)), (Rabs_pos_eq s) by lra. unfold W. lra.
Qed.
Lemma lerp_err : Rabs m <= bpow radix2 1022 -> Rabs M <= bpow radix2 1022 ->
  f_isfinite (f_lerp b t) = true /\ Rabs (B (f_lerp b t) - ((1 - s) * m + s * M)) <= 4 * u * W + 4 * tiny.
Proof.
  intros Hm HM. destruct (lerp_rounded b Fl Fh t Ft Ht) as (R & _). pose proof parts_err as P. pose proof exact_W as X. pose proof W_pos as WP.
  pose proof u_small as U. pose proof tiny_pos as T. set (e := (1 - s) * m + s * M) in *.
  assert (WB : W <= bpow radix2 1022). { unfold W. pose proof Ht as H. fold s in H. nra. }
  set (p := part1 b t + part2 b t) in *. assert (S : Rabs (rnd p - p) <= u * Rabs p) by (apply sum_err; apply F_rnd).
  assert (A : Rabs p <= (1 + 2 * u + u * u) * W + 2 * tiny).
  { replace p with ((p - e) + e) by ring. pose proof (Rabs_triang (p - e) e). lra. }
  assert (T1 : tiny <= / 4). { change (/ 4) with (bpow radix2 (-2)) || (replace (/ 4) with (bpow radix2 (-2)) by (cbn; lra)). apply bpow_le. lia. }
  assert (E : Rabs (rnd p - e) <= 4 * u * W + 4 * tiny).
  { replace (rnd p - e) with ((rnd p - p) + (p - e)) by ring. pose proof (Rabs_triang (rnd p - p) (p - e)) as Q.
    assert (u * Rabs p <= u * ((1 + 2 * u + u * u) * W + 2 * tiny)) by (apply Rmult_le_compat_l; lra).
    assert (uW : 0 <= u * W) by (apply Rmult_le_pos; lra). assert (u * (u * W) <= / 1000 * (u * W)) by (apply Rmult_le_compat_r; lra).
    assert (u * (u * (u * W)) <= / 1000 * (u * (u * W))) by (apply Rmult_le_compat_r; [apply Rmult_le_pos; lra|lra]).
    assert (u * tiny <= / 1000 * tiny) by (apply Rmult_le_compat_r; lra). lra. }
  destruct (rounded_small _ _ R) as [R1 R2].
  - fold p. replace (rnd p) with ((rnd p - e) + e) by ring. apply Rle_lt_trans with (1 := Rabs_triang _ _).
    replace top with (4 * bpow radix2 1022) by (change 1024%Z with (2 + 1022)%Z; rewrite bpow_plus; reflexivity).
    assert (BG : 1 <= bpow radix2 1022). { change 1 with (bpow radix2 0). apply bpow_le. lia. }
    assert (u * W <= / 1000 * W) by (apply Rmult_le_compat_r; lra). lra.
  - split; [exact R1|]. rewrite R2. exact E.
Qed.
End Lerp.

(** ** Exactly complementary weights *)
Lemma err_half x v : F v -> 0 < v -> 0 <= x <= v -> rnd x <= x + ulp radix2 fexp v / 2.
Proof.
  intros Fv Pv H. pose proof (error_le_half_ulp radix2 fexp (fun x => negb (Z.even x)) x) as E.
  assert (L : ulp radix2 fexp x <= ulp radix2 fexp v) by (ulpm). apply Rabs_le_inv in E. lra.
Qed.
Lemma below_half x v : F v -> 0 < v -> 0 <= x <= v -> x - (v - pred radix2 fexp v) / 2 <= rnd x.
Proof.
  intros Fv Pv H. set (p := pred radix2 fexp v). assert (Fp : F p) by (apply generic_format_pred; fv).
  assert (Pp : 0 <= p) by (apply pred_ge_0; fv). assert (Sp : succ radix2 fexp p = v) by (apply succ_pred; fv). rewrite succ_eq_pos in Sp by auto.
  destruct (Rle_dec x p) as [L|L].
  - pose proof (error_le_half_ulp radix2 fexp (fun x => negb (Z.even x)) x) as E.
    assert (ulp radix2 fexp x <= ulp radix2 fexp p) by (ulpm). apply Rabs_le_inv in E. lra.
  - destruct (Rlt_dec ((p + v) / 2) x) as [G|G].
    + apply Rle_trans with v; [lra|]. apply round_N_ge_midp; fv. fold p. lra.
    + apply Rle_trans with p; [lra|]. apply Rle_trans with (rnd p); [rewrite (rnd_id p Fp); lra|]. apply rnd_le. lra.
Qed.
(** Two weights that add up to one exactly, neither of them below 2^-53, and values further apart than 2^-52 of the larger:
    the rounded blend stays between the values. *)
Lemma blend c t m M : c + t = 1 -> u <= c -> u <= t -> F m -> F M -> 0 <= m -> bpow radix2 (-900) <= M -> 2 * u * M <= M - m ->
  m <= rnd (rnd (c * m) + rnd (t * M)) <= M.
Proof.
  intros E Hc Ht Fm FM Pm PM W. pose proof u_small as U. pose proof tiny_pos as T. assert (P0 : 0 < bpow radix2 (-900)) by apply bpow_gt_0.
  assert (TT : tiny < u * (u * M)).
  { apply Rlt_le_trans with (u * (u * bpow radix2 (-900))).
    - rewrite <- !bpow_plus. apply bpow_lt. lia.
    - apply Rmult_le_compat_l; [lra|]. apply Rmult_le_compat_l; lra. }
  assert (uM : 0 < u * M) by (apply Rmult_lt_0_compat; lra).
  assert (E1 := rnd_err (c * m)). assert (E2 := rnd_err (t * M)).
  assert (cm : 0 <= c * m) by (apply Rmult_le_pos; lra). assert (tM : 0 <= t * M) by (apply Rmult_le_pos; lra).
  rewrite (Rabs_pos_eq (c * m)) in E1 by auto. rewrite (Rabs_pos_eq (t * M)) in E2 by auto. apply Rabs_le_inv in E1, E2.
  assert (X1 : u * (c * m) <= c * (u * M) - c * (2 * (u * (u * M)))).
  { replace (c * (u * M) - c * (2 * (u * (u * M)))) with (u * (c * (M - 2 * u * M))) by ring. apply Rmult_le_compat_l; [lra|]. apply Rmult_le_compat_l; lra. }
  assert (cuM : u * (u * M) <= c * (u * M)) by (apply Rmult_le_compat_r; lra).
  assert (tuM : u * (u * M) <= t * (u * M)) by (apply Rmult_le_compat_r; lra).
  assert (c2 : 0 <= c * (2 * (u * (u * M)))) by (apply Rmult_le_pos; [lra|]; apply Rmult_le_pos; [lra|]; apply Rmult_le_pos; lra).
  split.
  - destruct (Rle_lt_or_eq_dec _ _ Pm) as [Q|<-].
    2:{ apply rnd_nonneg. apply Rplus_le_le_0_compat; apply rnd_nonneg; auto. }
    apply round_N_ge_midp; fv.
    assert (BH := below_half (c * m) m Fm Q ltac:(split; [auto|nra])).
    assert (t * (2 * u * M) <= t * (M - m)) by (apply Rmult_le_compat_l; lra).
    assert (CM : c * m = m - t * m) by (replace c with (1 - t) by lra; ring). lra.
  - apply round_N_le_midp; fv. rewrite succ_eq_pos by lra.
    assert (EH := err_half (t * M) M FM ltac:(lra) ltac:(split; [auto|nra])).
    assert (c * (2 * u * M) <= c * (M - m)) by (apply Rmult_le_compat_l; lra).
    assert (TM : t * M = M - c * M) by (replace t with (1 - c) by lra; ring). lra.
Qed.
Lemma blend_zero c t m M : c + t = 1 -> c = 0 \/ t = 0 -> F m -> F M -> 0 <= m -> m <= M -> m <= rnd (rnd (c * m) + rnd (t * M)) <= M.
Proof.
  intros E [->| ->] Fm FM Pm L.
  - replace t with 1 by lra. rewrite Rmult_0_l, Rmult_1_l, round_0, Rplus_0_l by fv. rewrite !(rnd_id M) by (try apply F_rnd; auto). lra.
  - replace c with 1 by lra. rewrite Rmult_0_l, Rmult_1_l, round_0, Rplus_0_r by fv. rewrite !(rnd_id m) by (try apply F_rnd; auto). lra.
Qed.
Lemma dyadic_format k : (0 <= k <= 2 ^ 53)%Z -> F (IZR k * u).
Proof.
  intros H. destruct (Z.eq_dec k (2 ^ 53)) as [->|NE].
  - replace (IZR (2 ^ 53) * u) with 1; [apply F1|]. change (IZR (2 ^ 53)) with (bpow radix2 53). rewrite <- bpow_plus. reflexivity.
  - apply generic_format_FLT. exists (Float radix2 k (-53)); [reflexivity|cbn -[Z.pow]; lia|cbn; lia].
Qed.
Section Wide.
Context (b : fbound) (Fl : f_isfinite (f_min b) = true) (Fh : f_isfinite (f_max b) = true) (t : binary64) (Ft : f_isfinite t = true).
Context (k : Z) (Hk : (0 <= k <= 2 ^ 53)%Z) (Et : B t = IZR k * u).
Let m := B (f_min b). Let M := B (f_max b).
Lemma weights : 0 <= B t <= 1 /\ rnd (1 - B t) = 1 - B t /\ ((u <= 1 - B t /\ u <= B t) \/ (1 - B t = 0 \/ B t = 0)).
Proof.
  pose proof u_small as U. assert (E : IZR (2 ^ 53) * u = 1). { change (IZR (2 ^ 53)) with (bpow radix2 53). rewrite <- bpow_plus. reflexivity. }
  assert (C : 1 - B t = IZR (2 ^ 53 - k) * u) by (rewrite Et, minus_IZR; lra).
  assert (K0 : 0 <= IZR k) by (apply IZR_le; lia). assert (K1 : 0 <= IZR (2 ^ 53 - k)) by (apply IZR_le; lia).
  assert (0 <= B t) by (rewrite Et; apply Rmult_le_pos; lra). assert (0 <= 1 - B t) by (rewrite C; apply Rmult_le_pos; lra).
  split; [lra|]. split.
  - apply rnd_id. rewrite C. apply dyadic_format. lia.
  - destruct (Z.eq_dec k 0) as [->|N0]; [right; right; rewrite Et; ring|]. destruct (Z.eq_dec k (2 ^ 53)) as [->|N1]; [right; left; rewrite Et; lra|].
    left. assert (1 <= IZR k) by (apply IZR_le; lia). assert (1 <= IZR (2 ^ 53 - k)) by (apply IZR_le; lia). rewrite Et in *. rewrite C. nra.
Qed.
Lemma lerp_wide : m <= M -> (0 <= m /\ bpow radix2 (-900) <= M /\ 2 * u * M <= M - m) \/ (M <= 0 /\ bpow radix2 (-900) <= - m /\ 2 * u * - m <= M - m) ->
  f_isfinite (f_lerp b t) = true /\ m <= B (f_lerp b t) <= M.
Proof.
  intros L H. destruct weights as (Ht & Ec & W). destruct (lerp_rounded b Fl Fh t Ft Ht) as (R & _).
  assert (S : m <= rnd (part1 b t + part2 b t) <= M).
  { unfold part1, part2. rewrite Ec. fold m M. destruct H as [(H1 & H2 & H3)|(H1 & H2 & H3)].
    - destruct W as [[W1 W2]|W]; [apply blend; auto; try apply format_of; lra|apply blend_zero; auto; try apply format_of; lra].
    - assert (Q : - M <= rnd (rnd (B t * - M) + rnd ((1 - B t) * - m)) <= - m).
      { destruct W as [[W1 W2]|W]; [apply blend; auto; try (apply generic_format_opp; apply format_of); lra|apply blend_zero; auto; try (apply generic_format_opp; apply format_of); lra || tauto]. }
      replace (B t * - M) with (- (B t * M)) in Q by ring. replace ((1 - B t) * - m) with (- ((1 - B t) * m)) in Q by ring.
      rewrite !round_NE_opp in Q. replace (- rnd (B t * M) + - rnd ((1 - B t) * m)) with (- (rnd ((1 - B t) * m) + rnd (B t * M))) in Q by ring. rewrite round_NE_opp in Q. lra. }
  pose proof (finite_top _ Fl) as T1. pose proof (finite_top _ Fh) as T2. fold m in T1. fold M in T2. apply Rabs_def2 in T1, T2.
  destruct (rounded_small _ _ R) as [A1 A2]; [apply Rabs_def1; lra|]. rewrite A2. auto.
Qed.
End Wide.
