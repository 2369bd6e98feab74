(** Rounding of given fractions, and two events worked out in double arithmetic. *)
From Coq Require Import Reals ZArith Lia Lra Bool.
From Flocq Require Import Core.
From Verif Require Import ExtModel BoundProofs TextModel TextNum TextPower FMathModel FMathSpec FMathDilog FKinModel FKinSpec.
Local Open Scope R_scope.

(** [a / b] rounds to [n 2^e] *)
Definition rounds (a b e n : Z) : bool :=
  let num := (a * zpow 2 (- e))%Z in let den := (b * zpow 2 e)%Z in
  ((0 <? b) && (-1074 <=? e) && (2 ^ 52 * den <=? num) && (num <? 2 ^ 53 * den) && (near_quot num den =? n))%Z.
Lemma rounds_ok x a b e n : x = IZR a / IZR b -> rounds a b e n = true -> RN x = IZR n * bpow radix2 e.
Proof.
  unfold rounds. set (num := (a * zpow 2 (- e))%Z). set (den := (b * zpow 2 e)%Z). intros -> H. repeat (apply andb_prop in H; destruct H as (H & ?)).
  apply Z.ltb_lt in H, H1. apply Z.leb_le in H2, H3. apply Z.eqb_eq in H0.
  pose proof (zpow_pos 2 e eq_refl) as P1. pose proof (zpow_pos 2 (- e) eq_refl) as P2. assert (D0 : (0 < den)%Z) by (apply Z.mul_pos_pos; lia). assert (D0' := D0). apply IZR_lt in D0'. assert (B0 := H). apply IZR_lt in B0. assert (P1' := P1). apply IZR_lt in P1'. assert (P2' := P2). apply IZR_lt in P2'.
  assert (SC : IZR a / IZR b * bpow radix2 (- e) = IZR num / IZR den).
  { rewrite (zpow_quot radix2 (- e)). change (radix_val radix2) with 2%Z. rewrite Z.opp_involutive. unfold num, den. rewrite !mult_IZR. field. lra. }
  assert (BE : bpow radix2 (- e) * bpow radix2 e = 1) by (rewrite <- bpow_plus, Z.add_opp_diag_l; reflexivity). pose proof (bpow_gt_0 radix2 e) as E0.
  assert (V : IZR a / IZR b = IZR num / IZR den * bpow radix2 e). { rewrite <- SC, Rmult_assoc, BE. ring. }
  assert (L : IZR (2 ^ 52) <= IZR num / IZR den). { apply Rmult_le_reg_r with (IZR den); [exact D0'|]. unfold Rdiv. rewrite Rmult_assoc, Rinv_l, Rmult_1_r by lra. rewrite <- mult_IZR. apply IZR_le. exact H2. }
  assert (U : IZR num / IZR den < IZR (2 ^ 53)). { apply Rmult_lt_reg_r with (IZR den); [exact D0'|]. unfold Rdiv. rewrite Rmult_assoc, Rinv_l, Rmult_1_r by lra. rewrite <- mult_IZR. apply IZR_lt. exact H1. }
  assert (MG : mag radix2 (IZR a / IZR b) = (53 + e)%Z :> Z).
  { apply mag_unique. rewrite V. replace (53 + e - 1)%Z with (52 + e)%Z by ring. rewrite !bpow_plus. rewrite Rabs_pos_eq by (apply Rmult_le_pos; [|lra]; apply Rle_trans with (IZR (2 ^ 52)); [apply IZR_le; lia|exact L]).
    rewrite <- (IZR_Zpower radix2 52), <- (IZR_Zpower radix2 53) by lia. split; [apply Rmult_le_compat_r; [lra|exact L]|apply Rmult_lt_compat_r; [lra|exact U]]. }
  unfold RN, round, F2R, scaled_mantissa, cexp. cbn [Fnum Fexp]. rewrite MG. replace (FLT_exp (-1074) 53 (53 + e)) with e by (unfold FLT_exp; lia). rewrite SC, near_quot_ok by exact D0. rewrite H0. reflexivity.
Qed.

(** values as fractions *)
Ltac frac := unfold Rdiv; lra.
Ltac rstep a b e n := rewrite (rounds_ok _ a b e n); [|frac|reflexivity].
Lemma bm k : (0 < k)%Z -> bpow radix2 (- k) = / IZR (2 ^ k).
Proof. intros H. rewrite bpow_opp, <- IZR_Zpower by lia. reflexivity. Qed.
Section Nan.
Let pt : R := 4675612113138119 / 1125899906842624.
Lemma n1 : f_S_x 7 (7 / 8) = 49 / 8.
Proof. unfold f_S_x. rstep 49%Z 8%Z (-50)%Z 6896136929411072%Z. change (-50)%Z with (- (50))%Z. rewrite bm by lia. change (2 ^ 50)%Z with 1125899906842624%Z. lra. Qed.
Lemma n2 : f_ph_0 7 (3 / 4) (7 / 8) (1 / 2) = 4597424619607381 / 2251799813685248.
Proof.
  unfold f_ph_0. rewrite n1. assert (A : RN (1 / 2 * (49 / 8)) = 49 / 16). { rstep 49%Z 16%Z (-51)%Z 6896136929411072%Z. change (-51)%Z with (- (51))%Z. rewrite bm by lia. change (2 ^ 51)%Z with 2251799813685248%Z. lra. }
  assert (B : RN (2 * (3 / 4)) = 3 / 2). { rstep 3%Z 2%Z (-52)%Z 6755399441055744%Z. change (-52)%Z with (- (52))%Z. rewrite bm by lia. change (2 ^ 52)%Z with 4503599627370496%Z. lra. }
  rewrite A, B. rstep 49%Z 24%Z (-51)%Z 4597424619607381%Z. change (-51)%Z with (- (51))%Z. rewrite bm by lia. change (2 ^ 51)%Z with 2251799813685248%Z. lra.
Qed.
Lemma n3 : f_ph_ratio_sq 7 (3 / 4) (1 / 8) (7 / 8) (1 / 2) pt = 4503599627370497 / 4503599627370496.
Proof.
  unfold f_ph_ratio_sq. rewrite n2.
  assert (A : f_sq (4597424619607381 / 2251799813685248) = 2346602149591267 / 562949953421312).
  { unfold f_sq. rstep 21136313132972071886394589679161%Z 5070602400912917605986812821504%Z (-50)%Z 4693204299182534%Z. change (-50)%Z with (- (50))%Z. rewrite bm by lia. change (2 ^ 50)%Z with 1125899906842624%Z. lra. }
  assert (B : RN (pt / (2346602149591267 / 562949953421312)) = 8973436325422931 / 9007199254740992).
  { rewrite (rounds_ok _ 4675612113138119 4693204299182534 (-53) 8973436325422931); [|unfold pt; field|reflexivity]. change (-53)%Z with (- (53))%Z. rewrite bm by lia. change (2 ^ 53)%Z with 9007199254740992%Z. lra. }
  assert (C : RN (1 / 8 / (4597424619607381 / 2251799813685248)) = 8823378861787095 / 144115188075855872).
  { rewrite (rounds_ok _ 281474976710656 4597424619607381 (-57) 8823378861787095); [|field|reflexivity]. change (-57)%Z with (- (57))%Z. rewrite bm by lia. change (2 ^ 57)%Z with 144115188075855872%Z. lra. }
  assert (D : f_sq (8823378861787095 / 144115188075855872) = 4321654952712047 / 1152921504606846976).
  { unfold f_sq. rstep 77852014538631332090817108539025%Z 20769187434139310514121985316880384%Z (-61)%Z 8643309905424094%Z. change (-61)%Z with (- (61))%Z. rewrite bm by lia. change (2 ^ 61)%Z with 2305843009213693952%Z. lra. }
  rewrite A, B, C, D. rstep 1152921504606847215%Z 1152921504606846976%Z (-52)%Z 4503599627370497%Z. change (-52)%Z with (- (52))%Z. rewrite bm by lia. change (2 ^ 52)%Z with 4503599627370496%Z. lra.
Qed.
Lemma nan_phl : f_ph_l 7 (3 / 4) (1 / 8) (7 / 8) (1 / 2) pt = None /\ 0 < energy 7 (3 / 4) (7 / 8) (1 / 2) ^ 2 - (1 / 8) ^ 2 - pt.
Proof.
  split; [|unfold energy, pt; lra]. unfold f_ph_l. rewrite n3. assert (E : RN (1 - 4503599627370497 / 4503599627370496) = - bpow radix2 (-52)).
  { rewrite RN_id; [cbn; lra|]. replace (1 - 4503599627370497 / 4503599627370496) with (- bpow radix2 (-52)) by (cbn; lra). apply generic_format_opp, generic_format_bpow. unfold FLT_exp. lia. }
  rewrite E. unfold f_sqrt. assert (L : rltb (- bpow radix2 (-52)) 0 = true) by (apply rltb_spec; pose proof (bpow_gt_0 radix2 (-52)); lra). rewrite L. reflexivity.
Qed.
End Nan.
Lemma dyadic_double n e : (Z.abs n < 2 ^ 53)%Z -> (-1074 <= e <= 900)%Z -> double (IZR n * bpow radix2 e).
Proof.
  intros N E. split; [apply generic_format_FLT; exists (Float radix2 n e); [reflexivity|exact N|cbn; lia]|].
  rewrite Rabs_mult, (Rabs_pos_eq (bpow radix2 e)) by apply bpow_ge_0. rewrite <- abs_IZR. apply Rlt_le_trans with (IZR (2 ^ 53) * bpow radix2 e); [apply Rmult_lt_compat_r; [apply bpow_gt_0|apply IZR_lt; exact N]|].
  change (IZR (2 ^ 53)) with (IZR (radix2 ^ 53)). rewrite (IZR_Zpower radix2 53) by lia. rewrite <- bpow_plus. apply bpow_le. lia.
Qed.
(** The comparison of the formulas at S = 1, M = 1/8, mh = 2^-30, x = 2^-50, y = z = 1, ph_t = 0. *)
Section Plain.
Notation bp := (bpow radix2).
Lemma RN_bp e : (-1000 <= e)%Z -> RN (bp e) = bp e.
Proof. intros H. apply RN_id, generic_format_bpow. unfold FLT_exp. lia. Qed.
Lemma RN_near1 t : - bp (-55) <= t <= bp (-54) -> RN (1 + t) = 1.
Proof.
  intros H. apply near_in; [apply (generic_format_bpow radix2 (FLT_exp (-1074) 53) 0); unfold FLT_exp; lia|].
  assert (E1 : bp (-53) = 2 * bp (-54)) by (cbn; lra). assert (E2 : bp (-54) = 2 * bp (-55)) by (cbn; lra). assert (P : 0 < bp (-55)) by apply bpow_gt_0.
  pose proof (power_low 0) as PL. pose proof (power_high 0) as PH. change (bp 0) with 1 in PL, PH. change (- Z.min 54 (0 + 1075))%Z with (-54)%Z in PL. change (- Z.min 53 (0 + 1075))%Z with (-53)%Z in PH. rewrite PL, PH. lra.
Qed.
Lemma RN_1 : RN 1 = 1.
Proof. apply (RN_bp 0). lia. Qed.
Lemma p1 : f_S_x 1 1 = 1.
Proof. unfold f_S_x. rewrite Rmult_1_l. exact RN_1. Qed.
Lemma p2 : RN (RN (4 * f_sq (bp (-3))) * f_Q_sq 1 (bp (-50)) 1) = bp (-54).
Proof.
  unfold f_sq, f_Q_sq. rewrite Rmult_1_l, Rmult_1_r, !(RN_bp (-50)) by lia. rewrite <- bpow_plus, (RN_bp (-3 + -3)) by lia. change 4 with (bp 2). rewrite <- bpow_plus, (RN_bp (2 + (-3 + -3))) by lia. rewrite <- bpow_plus. apply RN_bp. lia.
Qed.
Lemma p3 : f_lambda_Y 1 (bp (-3)) (bp (-50)) 1 = 1.
Proof. unfold f_lambda_Y. rewrite p2, p1. unfold f_sq. rewrite Rmult_1_l, RN_1. apply RN_near1. pose proof (bpow_gt_0 radix2 (-55)). pose proof (bpow_gt_0 radix2 (-54)). lra. Qed.
Lemma p4 : f_ph_0 1 (bp (-3)) 1 1 = bp 2.
Proof. unfold f_ph_0. rewrite p1, Rmult_1_l, RN_1. change 2 with (bp 1) at 1. rewrite <- bpow_plus, (RN_bp (1 + -3)) by lia. unfold Rdiv. rewrite Rmult_1_l, <- bpow_opp. apply RN_bp. lia. Qed.
Lemma p5 : f_ph_ratio_sq 1 (bp (-3)) (bp (-30)) 1 1 0 = bp (-64).
Proof.
  unfold f_ph_ratio_sq. rewrite p4. unfold Rdiv at 1. rewrite Rmult_0_l. assert (Z0 : RN 0 = 0) by (unfold RN; apply round_0; typeclasses eauto). rewrite Z0, Rplus_0_l.
  unfold Rdiv. rewrite <- bpow_opp, <- bpow_plus, (RN_bp (-30 + - (2))) by lia. unfold f_sq. rewrite <- bpow_plus, !RN_bp by lia. reflexivity.
Qed.
Lemma p6 : f_ph_l 1 (bp (-3)) (bp (-30)) 1 1 0 = Some (bp 2).
Proof.
  unfold f_ph_l. rewrite p5. assert (E : RN (1 - bp (-64)) = 1). { apply (RN_near1 (- bp (-64))). assert (bp (-64) <= bp (-55)) by (apply bpow_le; lia). pose proof (bpow_gt_0 radix2 (-64)). pose proof (bpow_gt_0 radix2 (-54)). lra. }
  rewrite E, p4. unfold f_sqrt. assert (L : rltb 1 0 = false) by (apply rltb_false; lra). rewrite L, sqrt_1, RN_1, Rmult_1_r, RN_bp by lia. reflexivity.
Qed.
Lemma plain_zero : f_V_m_plain 1 (bp (-3)) (bp (-30)) (bp (-50)) 1 1 0 = Some 0.
Proof.
  unfold f_V_m_plain. rewrite p6, p3, p1. unfold f_sqrt. assert (L : rltb 1 0 = false) by (apply rltb_false; lra). rewrite L, sqrt_1, RN_1. unfold f_sq at 1. rewrite !Rmult_1_l, !RN_1. change 2 with (bp 1) at 1. rewrite <- bpow_plus, (RN_bp (1 + -3)) by lia.
  rewrite <- bpow_plus. change (bp (1 + -3 + 2)) with 1. rewrite RN_1, Rmult_1_r, RN_1. assert (Z0 : RN 0 = 0) by (unfold RN; apply round_0; typeclasses eauto). replace (1 - 1) with 0 by ring. rewrite Z0. unfold Rdiv. rewrite Rmult_0_l, Z0. reflexivity.
Qed.
End Plain.
