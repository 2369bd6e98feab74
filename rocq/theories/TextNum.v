(** Rounding to decimals and back to doubles. *)
From Coq Require Import String Ascii Reals ZArith List Bool Lia Lra.
From Flocq Require Import Core.
From Verif Require Import ExtModel TextModel.
Import ListNotations.
Local Open Scope R_scope.

Notation F2 := (generic_format radix2 (FLT_exp (-1074) 53)).
Notation ulp2 := (ulp radix2 (FLT_exp (-1074) 53)).
Local Instance prec53 : Prec_gt_0 53.
Proof. reflexivity. Qed.
Lemma RN_F x : F2 (RN x).
Proof. apply generic_format_round; [apply FLT_exp_valid; exact prec53|apply valid_rnd_N]. Qed.
Lemma RN_id x : F2 x -> RN x = x.
Proof. intros H. apply round_generic; [apply valid_rnd_N|exact H]. Qed.
Lemma RN_le x y : x <= y -> RN x <= RN y.
Proof. apply round_le; [apply FLT_exp_valid; exact prec53|apply valid_rnd_N]. Qed.
Lemma RN_opp x : RN (- x) = - RN x.
Proof. unfold RN. apply round_NE_opp. Qed.
Lemma RN_half dec : Rabs (dec - RN dec) <= / 2 * ulp2 (RN dec).
Proof. rewrite Rabs_minus_sym. apply error_le_half_ulp_round; typeclasses eauto. Qed.
Section Back.
Variables (d dec : R).
Hypotheses (Hd : d = RN dec) (D0 : 0 < d) (ND : d <> bpow radix2 (mag radix2 d - 1)).
Let e := cexp radix2 (FLT_exp (-1074) 53) d.
Let u := bpow radix2 e.
Lemma dF : F2 d.
Proof. rewrite Hd. apply RN_F. Qed.
Lemma u_is : ulp2 d = u.
Proof. apply ulp_neq_0. lra. Qed.
Lemma u_pos : 0 < u.
Proof. apply bpow_gt_0. Qed.
Lemma pred_is : pred radix2 (FLT_exp (-1074) 53) d = d - u.
Proof. rewrite pred_eq_pos by lra. unfold pred_pos. rewrite Req_bool_false by exact ND. rewrite u_is. reflexivity. Qed.
Lemma mag_same x : Rabs (x - d) <= u / 2 -> mag radix2 x = mag radix2 d :> Z.
Proof.
  intros H. pose proof u_pos as U. apply mag_unique. pose (m := mag_val radix2 d (mag radix2 d)). fold m. change (d <> bpow radix2 (m - 1)) in ND. assert (M : bpow radix2 (m - 1) <= d < bpow radix2 m).
  { rewrite <- (Rabs_pos_eq d) by lra. split; [apply bpow_mag_le; lra|apply bpow_mag_gt]. }
  assert (UP : d + u <= bpow radix2 m).
  { rewrite <- u_is. apply id_p_ulp_le_bpow; [exact D0|exact dF|apply M]. }
  assert (LO : bpow radix2 (m - 1) <= d - u).
  { rewrite <- pred_is. apply pred_ge_gt; [apply FLT_exp_valid; exact prec53| |exact dF|].
    - apply generic_format_bpow. unfold FLT_exp. replace (m - 1 + 1)%Z with m by ring. apply Z.max_lub; [lia|].
      assert (-1074 < m)%Z; [|lia]. apply (lt_bpow radix2). eapply Rle_lt_trans; [|apply M].
      apply (generic_format_ge_bpow radix2 (FLT_exp (-1074) 53)); [intros; unfold FLT_exp; lia|exact D0|exact dF].
    - destruct (proj1 M) as [L|L]; [exact L|]. exfalso. apply ND. symmetry. exact L. }
  apply Rabs_le_inv in H. rewrite Rabs_pos_eq; [lra|]. pose proof (bpow_gt_0 radix2 (m - 1)). lra.
Qed.
Lemma near_even t (n : Z) : ZnearestE (IZR n + t) = n -> Rabs t = / 2 -> ZnearestE (IZR n - t) = n.
Proof.
  assert (HP : forall n, ZnearestE (IZR n + / 2) = if Z.even n then n else (n + 1)%Z).
  { intros k. unfold Znearest. assert (FL : Zfloor (IZR k + / 2) = k) by (apply Zfloor_imp; rewrite plus_IZR; lra).
    rewrite FL. replace (IZR k + / 2 - IZR k) with (/ 2) by ring. rewrite Rcompare_Eq by lra.
    rewrite (Zceil_imp (k + 1)) by (rewrite plus_IZR, minus_IZR, plus_IZR; lra). destruct (Z.even k); reflexivity. }
  assert (HM : forall n, ZnearestE (IZR n - / 2) = if Z.even n then n else (n - 1)%Z).
  { intros k. replace (IZR k - / 2) with (IZR (k - 1) + / 2) by (rewrite minus_IZR; lra). rewrite HP. rewrite Z.even_sub. change (Z.even 1) with false. destruct (Z.even k); cbn; lia. }
  intros H1 H2. destruct (Rcase_abs t) as [N|N].
  - rewrite Rabs_left in H2 by exact N. assert (t = - / 2) as -> by lra. replace (IZR n + - / 2) with (IZR n - / 2) in H1 by ring. replace (IZR n - - / 2) with (IZR n + / 2) by ring.
    rewrite HM in H1. rewrite HP. destruct (Z.even n); [reflexivity|lia].
  - rewrite Rabs_pos_eq in H2 by lra. subst t. rewrite HP in H1. rewrite HM. destruct (Z.even n); [reflexivity|lia].
Qed.
Lemma RN_back s : Rabs (s - d) <= Rabs (dec - d) -> RN s = d.
Proof.
  intros H. pose proof u_pos as U. pose proof (RN_half dec) as HH. rewrite <- Hd, u_is in HH.
  destruct (Rle_lt_or_eq_dec (Rabs (s - d)) (u / 2)) as [L|L]; [lra| |].
  - apply Rabs_def2 in L. apply Rle_antisym.
    + apply round_N_le_midp; [apply FLT_exp_valid; exact prec53|exact dF|]. rewrite succ_eq_pos by lra. rewrite u_is. lra.
    + apply round_N_ge_midp; [apply FLT_exp_valid; exact prec53|exact dF|]. rewrite pred_is. lra.
  - assert (E : Rabs (dec - d) = u / 2) by lra.
    destruct (Req_dec s dec) as [->|N]; [symmetry; exact Hd|].
    assert (S : s = d - (dec - d)). { revert L E. unfold Rabs. destruct (Rcase_abs (s - d)), (Rcase_abs (dec - d)); lra. }
    assert (N0 := dF). unfold generic_format in N0. fold e in N0. unfold F2R in N0. cbn [Fnum Fexp] in N0. set (n := Ztrunc (scaled_mantissa radix2 (FLT_exp (-1074) 53) d)) in *.
    set (t := (dec - d) * bpow radix2 (- e)).
    assert (BB : bpow radix2 e * bpow radix2 (- e) = 1) by (rewrite <- bpow_plus, Z.add_opp_diag_r; reflexivity).
    assert (SC : forall x, Rabs (x - d) = u / 2 -> RN x = IZR (ZnearestE (IZR n + (x - d) * bpow radix2 (- e))) * u).
    { intros x Hx. unfold RN, round, F2R. cbn [Fnum Fexp]. assert (CE : cexp radix2 (FLT_exp (-1074) 53) x = e).
      { unfold e, cexp. rewrite (mag_same x) by lra. reflexivity. }
      unfold scaled_mantissa. rewrite CE. f_equal. f_equal. f_equal. replace x with (d + (x - d)) at 1 by ring. rewrite Rmult_plus_distr_r. f_equal. rewrite N0 at 1. rewrite Rmult_assoc, BB. ring. }
    assert (DN : d = IZR n * u) by exact N0.
    assert (T2 : Rabs t = / 2). { unfold t. rewrite Rabs_mult, E. rewrite (Rabs_pos_eq (bpow _ _)) by apply bpow_ge_0. unfold u. replace (bpow radix2 e / 2 * bpow radix2 (- e)) with (/ 2 * (bpow radix2 e * bpow radix2 (- e))) by field. rewrite BB. ring. }
    assert (TN : ZnearestE (IZR n + t) = n).
    { apply eq_IZR. apply Rmult_eq_reg_r with u; [|lra]. rewrite <- DN. unfold t. rewrite <- SC by exact E. symmetry. exact Hd. }
    rewrite SC by (rewrite S; replace (d - (dec - d) - d) with (- (dec - d)) by ring; rewrite Rabs_Ropp; exact E).
    rewrite S. replace (d - (dec - d) - d) with (- (dec - d)) by ring. replace (IZR n + - (dec - d) * bpow radix2 (- e)) with (IZR n - t) by (unfold t; ring).
    rewrite (near_even t n TN T2). symmetry. exact DN.
Qed.
End Back.

(** Decimals with [p] digits. *)
Section Decimal.
Variable p : nat.
Hypothesis P1 : (1 <= p)%nat.
Notation F10 := (generic_format radix10 (FLX_exp (Z.of_nat p))).
Lemma prec10 : Prec_gt_0 (Z.of_nat p).
Proof. unfold Prec_gt_0. lia. Qed.
Definition dec_value (q : Z * Z) : R := IZR (fst q) * bpow radix10 (snd q - Z.of_nat p + 1).
Lemma ten_pow k : (0 <= k)%Z -> bpow radix10 k = IZR (10 ^ k).
Proof. intros H. rewrite <- IZR_Zpower by exact H. reflexivity. Qed.
Lemma decimal_spec a : 0 < a -> dec_value (decimal p a) = round radix10 (FLX_exp (Z.of_nat p)) ZnearestE a /\ (10 ^ (Z.of_nat p - 1) <= fst (decimal p a) < 10 ^ Z.of_nat p)%Z.
Proof.
  intros A. unfold decimal. set (x := (mag radix10 a - 1)%Z). set (n := ZnearestE (a * bpow radix10 (Z.of_nat p - 1 - x))).
  assert (V : IZR n * bpow radix10 (x - Z.of_nat p + 1) = round radix10 (FLX_exp (Z.of_nat p)) ZnearestE a).
  { unfold round, F2R, scaled_mantissa, cexp, FLX_exp. cbn [Fnum Fexp]. unfold n, x. f_equal; [do 4 f_equal|f_equal]; ring. }
  assert (B : (10 ^ (Z.of_nat p - 1) <= n <= 10 ^ Z.of_nat p)%Z).
  { assert (M : bpow radix10 (mag radix10 a - 1) <= a < bpow radix10 (mag radix10 a)).
    { pose proof (Rabs_pos_eq a ltac:(lra)) as AE. pose proof (bpow_mag_le radix10 a ltac:(lra)) as L1. pose proof (bpow_mag_gt radix10 a) as L2. rewrite AE in L1, L2. split; assumption. }
    set (m := mag_val radix10 a (mag radix10 a)) in *.
    assert (BP : 0 < bpow radix10 (Z.of_nat p - 1 - x)) by apply bpow_gt_0.
    assert (L : IZR (10 ^ (Z.of_nat p - 1)) <= a * bpow radix10 (Z.of_nat p - 1 - x)).
    { rewrite <- ten_pow by lia. replace (Z.of_nat p - 1)%Z with ((m - 1) + (Z.of_nat p - 1 - x))%Z at 1 by (unfold x; ring). rewrite bpow_plus. apply Rmult_le_compat_r; lra. }
    assert (U : a * bpow radix10 (Z.of_nat p - 1 - x) <= IZR (10 ^ Z.of_nat p)).
    { rewrite <- ten_pow by lia. replace (Z.of_nat p) with (m + (Z.of_nat p - 1 - x))%Z at 2 by (unfold x; ring). rewrite bpow_plus. apply Rmult_le_compat_r; lra. }
    unfold n. split.
    - rewrite <- (Zrnd_IZR (Znearest (fun t => negb (Z.even t))) (10 ^ (Z.of_nat p - 1))). apply Zrnd_le; [apply valid_rnd_N|exact L].
    - rewrite <- (Zrnd_IZR (Znearest (fun t => negb (Z.even t))) (10 ^ Z.of_nat p)). apply Zrnd_le; [apply valid_rnd_N|exact U]. }
  destruct (Z.eqb_spec n (10 ^ Z.of_nat p)) as [E|E].
  - cbn [fst snd]. split; [|split; [lia|apply Z.pow_lt_mono_r; lia]]. unfold dec_value. cbn [fst snd]. rewrite <- V, E. rewrite <- !ten_pow by lia. rewrite <- !bpow_plus. f_equal. ring.
  - cbn [fst snd]. split; [exact V|lia].
Qed.
(** A double that is the nearest one to a decimal with [p] digits is recovered from its [p] printed digits. *)
Lemma decimal_back r dec : F10 dec -> r = RN dec -> 0 < r -> r = dec \/ r <> bpow radix2 (mag radix2 r - 1) -> RN (dec_value (decimal p r)) = r.
Proof.
  intros FD E R0 H. rewrite (proj1 (decimal_spec r R0)). assert (V10 : Valid_exp (FLX_exp (Z.of_nat p))) by (apply FLX_exp_valid; exact prec10).
  destruct H as [H|H].
  - subst dec. rewrite round_generic; [symmetry; exact E|apply valid_rnd_N|exact FD].
  - apply (RN_back r dec E R0 H). apply (round_N_pt radix10 (FLX_exp (Z.of_nat p)) (fun t => negb (Z.even t)) r). exact FD.
Qed.
(** Printing changes a number by at most half a unit of its last digit. *)
Lemma decimal_error a : 0 < a -> Rabs (dec_value (decimal p a) - a) <= / 2 * bpow radix10 (1 - Z.of_nat p) * a.
Proof.
  intros A. rewrite (proj1 (decimal_spec a A)). pose proof prec10 as PP. pose proof (error_le_half_ulp radix10 (FLX_exp (Z.of_nat p)) (fun t => negb (Z.even t)) a) as H.
  eapply Rle_trans; [exact H|]. rewrite Rmult_assoc. apply Rmult_le_compat_l; [lra|]. rewrite Rmult_comm. rewrite <- (Rabs_pos_eq a) at 2 by lra. apply ulp_FLX_le; exact PP.
Qed.
End Decimal.
Lemma decimal_F10 p (n e : Z) : (1 <= p)%nat -> (Z.abs n < 10 ^ Z.of_nat p)%Z -> generic_format radix10 (FLX_exp (Z.of_nat p)) (IZR n * bpow radix10 e).
Proof.
  intros P1 H. apply generic_format_FLX. exists (Float radix10 n e); [reflexivity|exact H].
Qed.
