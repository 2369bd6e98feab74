(** Which doubles are recovered from their printed digits: all of them from 17 digits; a power of two from 16 digits, decided by integer arithmetic. *)
From Coq Require Import Reals ZArith List Bool Lia Lra.
From Flocq Require Import Core.
From Verif Require Import ExtModel TextModel TextNum.
Import ListNotations.
Local Open Scope R_scope.

Notation fexp := (FLT_exp (-1074) 53).
Notation pred2 := (pred radix2 fexp).
Notation succ2 := (succ radix2 fexp).
Local Instance prec53 : Prec_gt_0 53.
Proof. reflexivity. Qed.
Local Instance vexp : Valid_exp fexp.
Proof. apply FLT_exp_valid. exact prec53. Qed.

(** The reals that round to [d] lie between the midpoints to its neighbours. *)
Lemma near_in d v : F2 d -> (pred2 d + d) / 2 < v < (d + succ2 d) / 2 -> RN v = d.
Proof.
  intros D H. apply Rle_antisym.
  - apply round_N_le_midp; [exact vexp|exact D|lra].
  - apply round_N_ge_midp; [exact vexp|exact D|lra].
Qed.
Lemma near_out d v : F2 d -> 0 < d -> v < (pred2 d + d) / 2 \/ (d + succ2 d) / 2 < v -> RN v <> d.
Proof.
  intros D D0 [H|H] E.
  - assert (L : RN v <= pred2 d). { apply round_N_le_midp; [exact vexp|apply generic_format_pred; [exact vexp|exact D]|]. rewrite succ_pred by (exact vexp || exact D). lra. }
    pose proof (pred_lt_id radix2 fexp d ltac:(lra)). lra.
  - assert (L : succ2 d <= RN v). { apply round_N_ge_midp; [exact vexp|apply generic_format_succ; [exact vexp|exact D]|]. rewrite pred_succ by (exact vexp || exact D). lra. }
    pose proof (succ_gt_id radix2 fexp d ltac:(lra)). lra.
Qed.
Lemma gap d : 0 < d -> pred2 d <= d - bpow radix2 (-53) * d /\ d + bpow radix2 (-53) * d <= succ2 d.
Proof.
  intros D0. assert (M : d < bpow radix2 (mag radix2 d)). { rewrite <- (Rabs_pos_eq d) at 1 by lra. apply bpow_mag_gt. }
  assert (U : bpow radix2 (-53) * d <= ulp2 d).
  { rewrite ulp_neq_0 by lra. unfold cexp. apply Rle_trans with (bpow radix2 (mag radix2 d - 53)); [|apply bpow_le; unfold FLT_exp; lia].
    unfold Zminus. rewrite bpow_plus, Rmult_comm. apply Rmult_le_compat_r; [apply bpow_ge_0|lra]. }
  split.
  - rewrite pred_eq_pos by lra. unfold pred_pos. destruct (Req_bool_spec d (bpow radix2 (mag radix2 d - 1))) as [E|E].
    + apply Rplus_le_compat_l, Ropp_le_contravar. rewrite E at 1. rewrite <- bpow_plus. apply bpow_le. unfold FLT_exp. lia.
    + lra.
  - rewrite succ_eq_pos by lra. lra.
Qed.
(** 17 digits always suffice. *)
Lemma seventeen p d : (17 <= p)%nat -> F2 d -> 0 < d -> RN (dec_value p (decimal p d)) = d.
Proof.
  intros P D D0. pose proof (decimal_error p ltac:(lia) d D0) as E. destruct (gap d D0) as (G1 & G2).
  assert (B : bpow radix10 (1 - Z.of_nat p) < bpow radix2 (-53)).
  { apply Rle_lt_trans with (bpow radix10 (- (16))); [apply bpow_le; lia|]. rewrite (bpow_opp radix10 16). change (-53)%Z with (- (53))%Z. rewrite (bpow_opp radix2 53).
    apply Rinv_lt_contravar; [apply Rmult_lt_0_compat; apply bpow_gt_0|]. rewrite <- (IZR_Zpower radix2 53), <- (IZR_Zpower radix10 16) by lia. apply IZR_lt. reflexivity. }
  apply (Rmult_lt_compat_r d) in B; [|exact D0]. apply Rabs_le_inv in E. apply near_in; [exact D|]. lra.
Qed.

(** Nearest integer to a quotient. *)
Definition near_quot (a b : Z) : Z :=
  let q := (a / b)%Z in match (2 * (a mod b) ?= b)%Z with Lt => q | Gt => (q + 1)%Z | Eq => if Z.even q then q else (q + 1)%Z end.
Lemma near_quot_ok a b : (0 < b)%Z -> ZnearestE (IZR a / IZR b) = near_quot a b.
Proof.
  intros B. assert (B' : 0 < IZR b) by (apply IZR_lt; exact B). pose proof (Z.div_mod a b ltac:(lia)) as DM. pose proof (Z.mod_pos_bound a b B) as MB.
  set (q := (a / b)%Z) in *. set (m := (a mod b)%Z) in *.
  assert (V : IZR a / IZR b = IZR q + IZR m / IZR b). { rewrite DM, plus_IZR, mult_IZR. field. lra. }
  assert (MR : 0 <= IZR m / IZR b < 1). { split; [apply Rmult_le_pos; [apply IZR_le; lia|left; apply Rinv_0_lt_compat; exact B']|]. apply Rmult_lt_reg_r with (IZR b); [exact B'|]. unfold Rdiv. rewrite Rmult_assoc, Rinv_l, Rmult_1_r, Rmult_1_l by lra. apply IZR_lt. lia. }
  unfold Znearest. assert (FL : Zfloor (IZR a / IZR b) = q) by (apply Zfloor_imp; rewrite V, plus_IZR; lra). rewrite FL.
  replace (IZR a / IZR b - IZR q) with (IZR m / IZR b) by (rewrite V; ring).
  assert (CE : IZR m / IZR b <> 0 -> Zceil (IZR a / IZR b) = (q + 1)%Z). { intros N. apply Zceil_imp. rewrite V. replace (q + 1 - 1)%Z with q by ring. rewrite plus_IZR. lra. }
  assert (HALF : IZR m / IZR b = / 2 + (IZR (2 * m - b)) / (2 * IZR b)). { rewrite minus_IZR, mult_IZR. field. lra. }
  assert (IB : 0 < / (2 * IZR b)) by (apply Rinv_0_lt_compat; lra).
  unfold near_quot. fold q m. destruct (Z.compare_spec (2 * m) b) as [C|C|C].
  - rewrite Rcompare_Eq; [|rewrite HALF; replace (2 * m - b)%Z with 0%Z by lia; field; lra].
    rewrite CE by (rewrite HALF; replace (2 * m - b)%Z with 0%Z by lia; unfold Rdiv; rewrite Rmult_0_l; lra). destruct (Z.even q); reflexivity.
  - rewrite Rcompare_Lt; [reflexivity|]. rewrite HALF. assert (IZR (2 * m - b) < 0) by (apply IZR_lt; lia). unfold Rdiv. pose proof (Rmult_lt_compat_r _ _ _ IB H). lra.
  - assert (0 < IZR (2 * m - b)) by (apply IZR_lt; lia). pose proof (Rmult_lt_compat_r _ _ _ IB H). assert (HG : / 2 < IZR m / IZR b) by (rewrite HALF; unfold Rdiv; lra).
    rewrite Rcompare_Gt by exact HG. apply CE. lra.
Qed.

Definition zpow (b k : Z) : Z := (if 0 <=? k then b ^ k else 1)%Z.
Lemma zpow_pos b k : (0 < b)%Z -> (0 < zpow b k)%Z.
Proof. intros B. unfold zpow. destruct (Z.leb_spec 0 k); [apply Z.pow_pos_nonneg; lia|lia]. Qed.
Lemma zpow_quot (r : radix) k : bpow r k = IZR (zpow r k) / IZR (zpow r (- k)).
Proof.
  unfold zpow. destruct (Z.leb_spec 0 k) as [K|K].
  - rewrite IZR_Zpower by exact K. destruct (Z.leb_spec 0 (- k)) as [K'|K']; [replace k with 0%Z by lia|]; cbn; field.
  - destruct (Z.leb_spec 0 (- k)) as [K'|K']; [|lia]. rewrite IZR_Zpower by exact K'. rewrite bpow_opp. unfold Rdiv. rewrite Rinv_inv. ring.
Qed.
Section Power.
Variable k : Z.
Hypothesis KL : (-1074 <= k)%Z.
Let d := bpow radix2 k.
Lemma power_F : F2 d.
Proof. apply generic_format_bpow. unfold FLT_exp. lia. Qed.
Lemma power_low : (pred2 d + d) / 2 = d * (1 - bpow radix2 (- Z.min 54 (k + 1075))).
Proof.
  unfold d. rewrite pred_bpow. assert (E : bpow radix2 (FLT_exp (-1074) 53 k) = 2 * (bpow radix2 k * bpow radix2 (- Z.min 54 (k + 1075)))).
  { change 2 with (bpow radix2 1). rewrite <- !bpow_plus. f_equal. unfold FLT_exp. lia. }
  rewrite E. field.
Qed.
Lemma power_high : (d + succ2 d) / 2 = d * (1 + bpow radix2 (- Z.min 53 (k + 1075))).
Proof.
  unfold d. rewrite succ_eq_pos by apply bpow_ge_0. rewrite ulp_bpow. assert (E : bpow radix2 (FLT_exp (-1074) 53 (k + 1)) = 2 * (bpow radix2 k * bpow radix2 (- Z.min 53 (k + 1075)))).
  { change 2 with (bpow radix2 1). rewrite <- !bpow_plus. f_equal. unfold FLT_exp. lia. }
  rewrite E. field.
Qed.
End Power.
(** A power of two printed with 16 digits, scaled by a power of ten into [10^15, 10^16). *)
Section Scaled.
Variables (k j n : Z) (y : R).
Hypothesis KL : (-1074 <= k)%Z.
Hypothesis Y : y = bpow radix2 k * bpow radix10 j.
Hypothesis YR : bpow radix10 15 <= y < bpow radix10 16.
Hypothesis YN : ZnearestE y = n.
Let l := Z.min 54 (k + 1075).
Let h := Z.min 53 (k + 1075).
Lemma scaled_value : dec_value 16 (decimal 16 (bpow radix2 k)) = bpow radix2 k * (IZR n / y).
Proof.
  pose proof (bpow_gt_0 radix2 k) as D0. assert (BJ : bpow radix10 j * bpow radix10 (- j) = 1) by (rewrite <- bpow_plus, Z.add_opp_diag_r; reflexivity). pose proof (bpow_gt_0 radix10 j) as J0. pose proof (bpow_gt_0 radix10 (- j)) as J1.
  assert (AB2 : bpow radix2 k = y * bpow radix10 (- j)). { rewrite Y, Rmult_assoc, BJ. ring. }
  assert (MG : mag radix10 (bpow radix2 k) = (16 - j)%Z :> Z).
  { apply mag_unique. rewrite Rabs_pos_eq by lra. replace (16 - j - 1)%Z with (15 + - j)%Z by ring. replace (16 - j)%Z with (16 + - j)%Z by ring. rewrite !bpow_plus, AB2. split; [apply Rmult_le_compat_r; [lra|]|apply Rmult_lt_compat_r; [lra|]]; lra. }
  rewrite (proj1 (decimal_spec 16 ltac:(lia) (bpow radix2 k) D0)). unfold round, F2R, scaled_mantissa, cexp, FLX_exp. cbn [Fnum Fexp]. rewrite MG.
  replace (- (16 - j - Z.of_nat 16))%Z with j by (change (Z.of_nat 16) with 16%Z; ring). replace (16 - j - Z.of_nat 16)%Z with (- j)%Z by (change (Z.of_nat 16) with 16%Z; ring).
  rewrite <- Y, YN. rewrite AB2. assert (0 < bpow radix10 15) by apply bpow_gt_0. field. lra.
Qed.
Lemma half_pow q : (0 <= q)%Z -> bpow radix2 (- q) = / IZR (2 ^ q) /\ 0 < IZR (2 ^ q).
Proof. intros Q. split; [rewrite bpow_opp, <- IZR_Zpower by exact Q; reflexivity|apply IZR_lt, Z.pow_pos_nonneg; lia]. Qed.
Lemma scaled_kept : IZR (2 ^ l) * (y - IZR n) < y -> IZR (2 ^ h) * (IZR n - y) < y -> RN (dec_value 16 (decimal 16 (bpow radix2 k))) = bpow radix2 k.
Proof.
  intros A B. rewrite scaled_value. pose proof (bpow_gt_0 radix2 k) as D0. assert (Y0 : 0 < y) by (pose proof (bpow_gt_0 radix10 15); lra).
  destruct (half_pow l) as (L1 & L2); [unfold l; lia|]. destruct (half_pow h) as (H1 & H2); [unfold h; lia|].
  apply near_in; [apply power_F; exact KL|]. rewrite (power_low k), (power_high k). fold l. fold h. rewrite L1, H1. split; apply Rmult_lt_compat_l; try exact D0.
  - apply Rmult_lt_reg_r with (IZR (2 ^ l) * y); [apply Rmult_lt_0_compat; lra|]. replace ((1 - / IZR (2 ^ l)) * (IZR (2 ^ l) * y)) with (IZR (2 ^ l) * y - y) by (field; lra). replace (IZR n / y * (IZR (2 ^ l) * y)) with (IZR (2 ^ l) * IZR n) by (field; lra). lra.
  - apply Rmult_lt_reg_r with (IZR (2 ^ h) * y); [apply Rmult_lt_0_compat; lra|]. replace ((1 + / IZR (2 ^ h)) * (IZR (2 ^ h) * y)) with (IZR (2 ^ h) * y + y) by (field; lra). replace (IZR n / y * (IZR (2 ^ h) * y)) with (IZR (2 ^ h) * IZR n) by (field; lra). lra.
Qed.
Lemma scaled_lost : y < IZR (2 ^ l) * (y - IZR n) \/ y < IZR (2 ^ h) * (IZR n - y) -> RN (dec_value 16 (decimal 16 (bpow radix2 k))) <> bpow radix2 k.
Proof.
  intros A. rewrite scaled_value. pose proof (bpow_gt_0 radix2 k) as D0. assert (Y0 : 0 < y) by (pose proof (bpow_gt_0 radix10 15); lra).
  destruct (half_pow l) as (L1 & L2); [unfold l; lia|]. destruct (half_pow h) as (H1 & H2); [unfold h; lia|].
  apply near_out; [apply power_F; exact KL|exact D0|]. rewrite (power_low k), (power_high k). fold l. fold h. rewrite L1, H1. destruct A as [A|A]; [left|right]; apply Rmult_lt_compat_l; try exact D0.
  - apply Rmult_lt_reg_r with (IZR (2 ^ l) * y); [apply Rmult_lt_0_compat; lra|]. replace ((1 - / IZR (2 ^ l)) * (IZR (2 ^ l) * y)) with (IZR (2 ^ l) * y - y) by (field; lra). replace (IZR n / y * (IZR (2 ^ l) * y)) with (IZR (2 ^ l) * IZR n) by (field; lra). lra.
  - apply Rmult_lt_reg_r with (IZR (2 ^ h) * y); [apply Rmult_lt_0_compat; lra|]. replace ((1 + / IZR (2 ^ h)) * (IZR (2 ^ h) * y)) with (IZR (2 ^ h) * y + y) by (field; lra). replace (IZR n / y * (IZR (2 ^ h) * y)) with (IZR (2 ^ h) * IZR n) by (field; lra). lra.
Qed.
End Scaled.
