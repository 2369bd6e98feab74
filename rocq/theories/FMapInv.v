(** Sampling with the inverse and linear maps in double arithmetic; the end of the decaying map. *)
From Coq Require Import Reals ZArith Lia Lra.
From Flocq Require Import Core.
From Coquelicot Require Import Coquelicot.
From Verif Require Import ExtModel BoundModel TextModel MathModel FMathModel FMathSpec FMathSeries FMathDilog FMathSqrt TextNum FKinRel FKinPoint FMapModel FMapSpec FMapProofs.
Local Open Scope R_scope.

Lemma bpow_num e : (0 <= e)%Z -> bpow radix2 e = IZR (2 ^ e) /\ bpow radix2 (- e) = / IZR (2 ^ e).
Proof. intros E. rewrite bpow_opp, <- IZR_Zpower by exact E. split; reflexivity. Qed.
Section Inverse.
Variables (o p a b : R).
Hypothesis O : fmt o.
Hypothesis O0 : 0 <= o.
Hypothesis A : bpow radix2 (-100) <= a + o.
Hypothesis A0 : 0 <= a.
Hypothesis AB : a <= b.
Hypothesis B : b + o <= bpow radix2 100.
Hypothesis PF : fmt p.
Hypothesis P : p = 0 \/ bpow radix2 (-100) <= p.
Hypothesis P1 : p < 1.
Let U t := RN (1 / RN (t + o)).
Let V := ulerp p (U a) (U b).
Lemma inr100 t : a <= t <= b -> inr 100 (t + o).
Proof. intros T. unfold inr. change (- (100))%Z with (-100)%Z. lra. Qed.
Lemma inr_one n : (0 <= n)%Z -> inr n 1.
Proof. intros N. split; [change 1 with (bpow radix2 0)|change 1 with (bpow radix2 0)]; apply bpow_le; lia. Qed.
Lemma U_ok t : a <= t <= b -> appr 100 2 (U t) (/ (t + o)).
Proof.
  intros T. pose proof (inr100 t T) as I. assert (A1 : appr 100 1 (RN (t + o)) (t + o)) by (apply appr_RN; [lia|exact I|exact I|apply rel_refl]).
  pose proof (appr_div 0 100 0 1 1 1 _ _ ltac:(lia) (appr_exact 0 1 (inr_one 0 ltac:(lia))) A1) as D. replace (1 / (t + o)) with (/ (t + o)) in D by (field; apply inr_pos in I; lra). exact D.
Qed.
Lemma p_case : (p = 0 \/ appr 100 0 p p) /\ appr 100 1 (RN (1 - p)) (1 - p).
Proof.
  assert (P0 : 0 <= p) by (destruct P as [->|H]; [lra|pose proof (bpow_gt_0 radix2 (-100)); lra]). assert (B1 : 1 <= bpow radix2 100) by (change 1 with (bpow radix2 0); apply bpow_le; lia). split.
  - destruct P as [H|H]; [left; exact H|right]. apply appr_exact. unfold inr. change (- (100))%Z with (-100)%Z. lra.
  - pose proof (below_one p PF P1) as H. assert (I : inr 100 (1 - p)). { split; [|lra]. apply Rle_trans with (bpow radix2 (-53)); [apply bpow_le; lia|]. change (bpow radix2 (-53)) with u0. lra. }
    apply appr_RN; [lia|exact I|exact I|apply rel_refl].
Qed.
Lemma V_ok : exists n, (0 <= n <= 900)%Z /\ appr n 5 V ((1 - p) / (a + o) + p / (b + o)).
Proof.
  destruct p_case as (PC & Q). pose proof (U_ok a ltac:(lra)) as UA. pose proof (U_ok b ltac:(lra)) as UB.
  pose proof (appr_mul 100 100 1 2 _ _ _ _ ltac:(lia) Q UA) as T1. unfold V, ulerp. destruct PC as [Z|PA].
  - exists 200%Z. split; [lia|]. rewrite Z at 2. rewrite !Rmult_0_l, RN_0, Rplus_0_r, RN_fmt by apply fmt_RN. replace ((1 - p) / (a + o) + p / (b + o)) with ((1 - p) * / (a + o)) by (rewrite Z at 3; unfold Rdiv; ring). eapply appr_weak; [| |exact T1]; lia.
  - pose proof (appr_mul 100 100 0 2 _ _ _ _ ltac:(lia) PA UB) as T2. exists 201%Z. split; [lia|].
    assert (T2' : appr 200 4 (RN (p * U b)) (p * / (b + o))) by (eapply appr_weak; [| |exact T2]; lia). pose proof (appr_add 200 4 _ _ _ _ ltac:(lia) T1 T2') as S. exact S.
Qed.
Lemma inverse_ok : exists x, fst (f_apply_map (f_inverse_u o) (f_inverse_x o) (Fin p) (Bnd (Fin a) (Fin b))) = Fin x /\
  Rabs (x - drawn_inverse o p a b) <= 8 * u0 * (drawn_inverse o p a b + o) + eta.
Proof.
  destruct V_ok as (n & N & VA). assert (PA : forall t, a <= t <= b -> 0 < RN (t + o)). { intros t T. apply (inr_pos 100). apply inr_RN; [lia|apply inr100; exact T]. }
  assert (FU : forall t, a <= t <= b -> f_inverse_u o (Fin t) = Fin (- U t)).
  { intros t T. unfold f_inverse_u. cbn [eadd rnd ediv]. destruct (reqb_case (RN (t + o)) 0) as [(_ & E)|(-> & _)]; [pose proof (PA t T); lra|]. cbn [rnd]. f_equal. unfold U. rewrite <- RN_opp. f_equal. field. pose proof (PA t T). lra. }
  unfold f_apply_map. cbn [bmin bmax]. rewrite !FU by lra. unfold mk_bound. cbn [eleb].
  assert (MU : U b <= U a). { unfold U. apply RN_mono. unfold Rdiv. apply Rmult_le_compat_l; [lra|]. apply Rinv_le_contravar; [apply PA; lra|apply RN_mono; lra]. }
  unfold rleb. destruct (Rle_dec (- U a) (- U b)) as [_|C]; [|lra]. cbn [negb fst]. unfold f_lerp. cbn [bmin bmax esub eneg eadd rnd emul].
  replace (RN (RN (RN (1 + - p) * - U a) + RN (p * - U b))) with (- V).
  2: { unfold V, ulerp. change (1 + - p) with (1 - p). rewrite <- RN_opp. f_equal. rewrite Ropp_plus_distr, <- !RN_opp. f_equal; f_equal; ring. }
  assert (V0 : 0 < V) by (apply (inr_pos n), VA). unfold f_inverse_x. cbn [fst ediv]. destruct (reqb_case (- V) 0) as [(_ & E)|(-> & _)]; [lra|]. cbn [rnd esub eneg eadd]. eexists. split; [reflexivity|].
  replace (-1 / - V) with (1 / V) by (field; lra). destruct VA as (I1 & I2 & RL). unfold drawn_inverse. set (W := (1 - p) / (a + o) + p / (b + o)) in *.
  assert (RI : rel 6 (RN (1 / V)) (/ W)).
  { assert (H : appr 1000 6 (RN (1 / V)) (1 / W)).
    { pose proof (appr_div 0 n 0 5 1 1 _ _ ltac:(lia) (appr_exact 0 1 (inr_one 0 ltac:(lia))) (conj I1 (conj I2 RL))) as D. eapply appr_weak; [| |exact D]; lia. }
    destruct H as (_ & _ & H). replace (1 / W) with (/ W) in H by (field; pose proof (inr_pos _ _ I2); lra). exact H. }
  assert (W0 : 0 < W) by exact (inr_pos _ _ I2). assert (I0 : 0 < / W) by (apply Rinv_0_lt_compat; exact W0). pose proof (rel_num 6 _ _ ltac:(lia) (Rlt_le _ _ I0) RI) as RE. change (INR 6) with (1 + 1 + 1 + 1 + 1 + 1) in RE. set (D := RN (1 / V)) in *.
  pose proof (RN_err (D - o)) as E. change (D + - o) with (D - o).
  assert (DO : 0 <= / W - o).
  { assert (W <= / (a + o) /\ True) as (WA & _).
    { split; [|exact I]. unfold W, Rdiv. assert (0 < a + o) by (pose proof (bpow_gt_0 radix2 (-100)); lra). assert (/ (b + o) <= / (a + o)) by (apply Rinv_le_contravar; lra). assert (P0 : 0 <= p) by (destruct P as [->|H']; [lra|pose proof (bpow_gt_0 radix2 (-100)); lra]). assert (p * / (b + o) <= p * / (a + o)) by (apply Rmult_le_compat_l; lra). lra. }
    apply (Rinv_le_contravar W) in WA; [|exact W0]. rewrite Rinv_inv in WA. lra. }
  apply Rabs_le_inv in RE. assert (AD : Rabs (D - o) <= / W + 7 * u0 * / W) by (apply Rabs_le; lra). apply Rabs_le_inv in E. apply Rabs_le. lra.
Qed.
Lemma inverse_jac : exists j, snd (f_apply_map (f_inverse_u o) (f_inverse_x o) (Fin p) (Bnd (Fin a) (Fin b))) = Fin j /\
  Rabs (j - slope_inverse o p a b) <= 20 * u0 * ((drawn_inverse o p a b + o) ^ 2 * / (a + o)) + eta.
Proof.
  destruct V_ok as (n & N & VA). assert (PA : forall t, a <= t <= b -> 0 < RN (t + o)). { intros t T. apply (inr_pos 100). apply inr_RN; [lia|apply inr100; exact T]. }
  assert (FU : forall t, a <= t <= b -> f_inverse_u o (Fin t) = Fin (- U t)).
  { intros t T. unfold f_inverse_u. cbn [eadd rnd ediv]. destruct (reqb_case (RN (t + o)) 0) as [(_ & E)|(-> & _)]; [pose proof (PA t T); lra|]. cbn [rnd]. f_equal. unfold U. rewrite <- RN_opp. f_equal. field. pose proof (PA t T). lra. }
  unfold f_apply_map. cbn [bmin bmax]. rewrite !FU by lra. unfold mk_bound. cbn [eleb].
  assert (MU : U b <= U a). { unfold U. apply RN_mono. unfold Rdiv. apply Rmult_le_compat_l; [lra|]. apply Rinv_le_contravar; [apply PA; lra|apply RN_mono; lra]. }
  unfold rleb. destruct (Rle_dec (- U a) (- U b)) as [_|C]; [|lra]. cbn [negb snd]. unfold f_lerp, f_size. cbn [bmin bmax esub eneg eadd rnd emul].
  replace (RN (RN (RN (1 + - p) * - U a) + RN (p * - U b))) with (- V).
  2: { unfold V, ulerp. change (1 + - p) with (1 - p). rewrite <- RN_opp. f_equal. rewrite Ropp_plus_distr, <- !RN_opp. f_equal; f_equal; ring. }
  assert (V0 : 0 < V) by (apply (inr_pos n), VA). unfold f_inverse_x. cbn [snd ediv]. destruct (reqb_case (- V) 0) as [(_ & E)|(-> & _)]; [lra|]. cbn [rnd emul]. eexists. split; [reflexivity|].
  replace (1 / - V) with (- (1 / V)) by (field; lra). rewrite RN_opp. replace (- RN (1 / V) * - RN (1 / V)) with (RN (1 / V) * RN (1 / V)) by ring.
  unfold slope_inverse, drawn_inverse. set (W := (1 - p) / (a + o) + p / (b + o)) in *. replace (/ W - o + o) with (/ W) by ring.
  destruct VA as (I1 & I2 & RL). assert (W0 : 0 < W) by exact (inr_pos _ _ I2).
  assert (IV : inr 100 W).
  { assert (0 < a + o) by (pose proof (bpow_gt_0 radix2 (-100)); lra). assert (P0 : 0 <= p) by (destruct P as [->|H']; [lra|pose proof (bpow_gt_0 radix2 (-100)); lra]). destruct (inr_inv 100 _ (inr100 a ltac:(lra))) as (G1 & G2). destruct (inr_inv 100 _ (inr100 b ltac:(lra))) as (H1 & H2). unfold W, Rdiv. split.
    - apply Rle_trans with ((1 - p) * bpow radix2 (- (100)) + p * bpow radix2 (- (100))); [lra|]. apply Rplus_le_compat; apply Rmult_le_compat_l; lra.
    - apply Rle_trans with ((1 - p) * bpow radix2 100 + p * bpow radix2 100); [|lra]. apply Rplus_le_compat; apply Rmult_le_compat_l; lra. }
  assert (QQ : rel 13 (RN (RN (1 / V) * RN (1 / V))) ((/ W) ^ 2)).
  { assert (H : appr (0 + n) 6 (RN (1 / V)) (1 / W)) by (apply (appr_div 0 n 0 5); [lia|apply appr_exact, inr_one; lia|exact (conj I1 (conj I2 RL))]).
    assert (H' : appr 101 6 (RN (1 / V)) (1 / W)).
    { destruct H as (_ & _ & R6). destruct (inr_inv 100 _ IV) as (G1 & G2). assert (E : 1 / W = / W) by (field; lra). rewrite E in *. assert (R7 := rel_num 6 _ _ ltac:(lia) (Rlt_le _ _ (Rinv_0_lt_compat _ W0)) R6). change (INR 6) with (1 + 1 + 1 + 1 + 1 + 1) in R7. apply Rabs_le_inv in R7.
      assert (B1 : bpow radix2 101 = 2 * bpow radix2 100) by (change 101%Z with (100 + 1)%Z; rewrite bpow_plus; change (bpow radix2 1) with 2; ring). assert (B2 : bpow radix2 (- (100)) = 2 * bpow radix2 (- (101))) by (replace (- (100))%Z with (- (101) + 1)%Z by ring; rewrite bpow_plus; change (bpow radix2 1) with 2; ring). pose proof (bpow_gt_0 radix2 (- (101))).
      split; [split; lra|]. split; [split; lra|exact R6]. }
    pose proof (appr_mul 101 101 6 6 _ _ _ _ ltac:(lia) H' H') as (_ & _ & R). replace ((/ W) ^ 2) with (1 / W * (1 / W)) by (field; lra). exact R. }
  assert (X0 : 0 < (/ W) ^ 2) by (apply pow_lt, Rinv_0_lt_compat; exact W0). pose proof (rel_num 13 _ _ ltac:(lia) (Rlt_le _ _ X0) QQ) as RE. change (INR 13) with (1 + 1 + 1 + 1 + 1 + 1 + 1 + 1 + 1 + 1 + 1 + 1 + 1) in RE. set (q := RN (RN (1 / V) * RN (1 / V))) in *. set (X := (/ W) ^ 2) in *.
  destruct (U_ok a ltac:(lra)) as (_ & (_ & _) & RA). destruct (U_ok b ltac:(lra)) as (_ & _ & RB). assert (A1 : 0 < a + o) by (pose proof (bpow_gt_0 radix2 (-100)); lra). set (A' := / (a + o)) in *. set (B' := / (b + o)) in *. assert (HA0 : 0 < A') by (apply Rinv_0_lt_compat; exact A1). assert (HB0 : 0 < B') by (apply Rinv_0_lt_compat; lra). assert (BA : B' <= A') by (apply Rinv_le_contravar; lra).
  pose proof (rel_num 2 _ _ ltac:(lia) (Rlt_le _ _ HA0) RA) as EA. pose proof (rel_num 2 _ _ ltac:(lia) (Rlt_le _ _ HB0) RB) as EB. change (INR 2) with (1 + 1) in EA, EB. apply Rabs_le_inv in EA. apply Rabs_le_inv in EB. apply Rabs_le_inv in RE.
  replace (- U b + - - U a) with (U a - U b) by ring. pose proof (RN_err (U a - U b)) as ES. rewrite (Rabs_pos_eq (U a - U b)) in ES by lra. apply Rabs_le_inv in ES. set (d := RN (U a - U b)) in *. assert (D0 : 0 <= d) by (apply RN_nonneg; lra).
  assert (ETA : eta <= / 100 * (u0 * A')).
  { destruct (inr_inv 100 _ (inr100 a ltac:(lra))) as (G1 & _). fold A' in G1. apply Rle_trans with (/ 100 * (u0 * bpow radix2 (- (100)))); [|apply Rmult_le_compat_l; [lra|]; apply Rmult_le_compat_l; lra]. change u0 with (bpow radix2 (-53)). rewrite <- bpow_plus. apply Rle_trans with (bpow radix2 (-7) * bpow radix2 (-53 + - (100))); [rewrite <- bpow_plus; apply bpow_le; lia|]. apply Rmult_le_compat_r; [apply bpow_ge_0|]. change (bpow radix2 (-7)) with (/ 128). lra. }
  assert (DD : - (5.3 * (u0 * A')) <= d - (A' - B') <= 5.3 * (u0 * A')) by lra.
  assert (P1' : Rabs (q * d - (A' - B') * X) <= 18.6 * (u0 * (X * A'))).
  { replace (q * d - (A' - B') * X) with ((q - X) * (A' - B') + q * (d - (A' - B'))) by ring. eapply Rle_trans; [apply Rabs_triang|]. rewrite !Rabs_mult, (Rabs_pos_eq (A' - B')), (Rabs_pos_eq q) by lra.
    assert (K1 : Rabs (q - X) * (A' - B') <= 13.2 * u0 * X * A') by (apply Rmult_le_compat; [apply Rabs_pos|lra|apply Rabs_le; lra|lra]).
    assert (K2 : q * Rabs (d - (A' - B')) <= 1.01 * X * (5.3 * (u0 * A'))) by (apply Rmult_le_compat; [lra|apply Rabs_pos|lra|apply Rabs_le; lra]). assert (0 <= u0 * (X * A')) by (apply Rmult_le_pos; [lra|apply Rmult_le_pos; lra]). lra. }
  pose proof (RN_err (q * d)) as EJ. assert (XA : 0 <= X * A') by (apply Rmult_le_pos; lra). assert (XB : 0 <= X * B') by (apply Rmult_le_pos; lra). apply Rabs_le_inv in P1'.
  assert (XBA : X * B' <= X * A') by (apply Rmult_le_compat_l; lra). assert (QD0 : 0 <= q * d) by (apply Rmult_le_pos; lra).
  assert (AJ : Rabs (q * d) <= X * A' + 18.6 * (u0 * (X * A'))) by (apply Rabs_le; lra). apply Rabs_le_inv in EJ. apply Rabs_le. assert (0 <= u0 * (X * A')) by (apply Rmult_le_pos; lra). lra.
Qed.
End Inverse.

(** Above 9.5 the decaying map has no points left: both ends are mapped to 1. *)
Lemma exp_38 v : v <= -38 -> exp v < bpow radix2 (-54).
Proof.
  intros V. apply Rle_lt_trans with (exp (- (38))); [destruct (Req_dec v (-38)) as [->|N]; [right; f_equal; lra|left; apply exp_increasing; lra]|]. rewrite exp_Ropp. change (bpow radix2 (-54)) with (/ 18014398509481984). apply Rinv_lt_contravar; [apply Rmult_lt_0_compat; [lra|apply exp_pos]|].
  apply Rlt_le_trans with (2.71 ^ 38); [cbn; lra|]. replace 38 with (INR 38) by (cbn; lra). rewrite exp_nat. apply pow_incr. split; [lra|]. pose proof ConstProofs.e_digits as E. unfold ConstProofs.half_unit, ConstModel.literal in E. apply Rabs_le_inv in E.
  let v := eval vm_compute in (10 ^ ConstModel.decimals ConstModel.E_NUM)%Z in change (10 ^ ConstModel.decimals ConstModel.E_NUM)%Z with v in E. cbn [ConstModel.digits] in E. lra.
Qed.
Lemma expm1_one v : v <= -38 -> RN (exp v - 1) = -1.
Proof.
  intros V. pose proof (exp_38 v V) as E. pose proof (exp_pos v) as P. replace (exp v - 1) with (- (1 - exp v)) by ring. rewrite RN_opp. replace (-1) with (- (1)) by lra. f_equal.
  change (bpow radix2 (-54)) with (/ 18014398509481984) in E. pose proof (TextPower.power_low 0) as L. pose proof (TextPower.power_high 0) as H. change (Z.min 54 (0 + 1075)) with 54%Z in L. change (Z.min 53 (0 + 1075)) with 53%Z in H. change (bpow radix2 0) with 1 in L, H. change (bpow radix2 (- (54))) with (/ 18014398509481984) in L. change (bpow radix2 (- (53))) with u0 in H.
  apply TextPower.near_in; [apply fmt_1|]. rewrite L, H. lra.
Qed.
Lemma RN_short : RN (1 - / 18014398509481984) = 1.
Proof. rewrite (rounds_ok _ 18014398509481983 18014398509481984 (-53) 9007199254740992); [cbn; lra|lra|reflexivity]. Qed.
Lemma lerp_ones p : 0 <= p <= 1 -> fmt p -> ulerp p 1 1 = 1.
Proof.
  intros P F. unfold ulerp. rewrite !Rmult_1_r. rewrite (RN_fmt (RN (1 - p))) by apply fmt_RN. rewrite (RN_fmt p F).
  assert (E : Rabs (RN (1 - p) - (1 - p)) <= / 18014398509481984).
  { destruct (Req_dec p 0) as [->|N]; [rewrite Rminus_0_r, (RN_fmt 1 fmt_1), Rminus_diag_eq, Rabs_R0 by reflexivity; lra|]. destruct (Req_dec p 1) as [->|N1]; [replace (1 - 1) with 0 by ring; rewrite RN_0, Rminus_0_r, Rabs_R0; lra|].
    eapply Rle_trans; [unfold RN; apply error_le_half_ulp; typeclasses eauto|]. apply Rle_trans with (/ 2 * bpow radix2 (-53)); [|change (bpow radix2 (-53)) with (/ 9007199254740992); lra]. apply Rmult_le_compat_l; [lra|]. rewrite ulp_neq_0 by lra. apply bpow_le. unfold cexp, FLT_exp.
    assert (mag radix2 (1 - p) <= 0)%Z by (apply mag_le_bpow; [lra|change (bpow radix2 0) with 1; rewrite Rabs_pos_eq; lra]). lia. }
  apply Rabs_le_inv in E. apply Rle_antisym.
  - apply Rle_trans with (RN (1 + / 18014398509481984)); [apply RN_mono; lra|]. right. rewrite (rounds_ok _ 18014398509481985 18014398509481984 (-52) 4503599627370496); [cbn; lra|lra|reflexivity].
  - rewrite <- RN_short at 1. apply RN_mono. lra.
Qed.
Lemma high p a b log1p expm1 : (forall v, double v -> v <= -38 -> expm1 v = -1) -> range a -> range b -> 9.5 <= a -> 9.5 <= b -> 0 <= p <= 1 -> fmt p ->
  f_ph_t_sq log1p expm1 p (Bnd (Fin a) (Fin b)) = (PInf, NaN).
Proof.
  intros X A B HA HB P F. rewrite decay_unfold. assert (U : forall t, range t -> 9.5 <= t -> ulim expm1 t = 1).
  { intros t T H. unfold ulim. destruct (arg_double t T) as (D & E). rewrite X; [lra|exact D|rewrite E; lra]. }
  rewrite !U by assumption. replace (rleb 1 1) with true by (unfold rleb; destruct Rle_dec; [reflexivity|lra]). rewrite lerp_ones by assumption. unfold f_decay_x. cbn [fst snd eneg e_log1p].
  destruct (rltb_case (-1) (- (1))) as [(_ & H)|(-> & _)]; [lra|]. destruct (reqb_case (- (1)) (-1)) as [(-> & _)|(_ & H)]; [|lra]. cbn [emul]. unfold sinf at 1. destruct (rltb_case 0 (- - (1 / 4))) as [(-> & _)|(_ & H)]; [|lra]. cbn [rnd esub eneg eadd ediv].
  replace (1 + - (1)) with 0 by ring. rewrite RN_0. destruct (reqb_case 0 0) as [(-> & _)|(_ & H)]; [|lra]. unfold sinf at 1. destruct (rltb_case 0 (1 / 4)) as [(-> & _)|(_ & H)]; [|lra]. cbn [rnd emul]. replace (1 - 1) with 0 by ring. rewrite RN_0. unfold sinf. destruct (rltb_case 0 0) as [(_ & H)|(-> & _)]; [lra|]. reflexivity.
Qed.
(** The linear map. *)
Lemma linear_ok p a b : 0 <= p <= 1 -> 0 <= a <= b -> b <= 1 -> exists x, f_z p (Bnd (Fin a) (Fin b)) = (Fin x, Fin (RN (b - a))) /\ Rabs (x - ((1 - p) * a + p * b)) <= 4 * u0.
Proof.
  intros P A B. unfold f_z, f_apply_map, f_linear_u, mk_bound. cbn [bmin bmax eleb]. replace (rleb a b) with true by (unfold rleb; destruct Rle_dec; [reflexivity|lra]). cbn [negb f_linear_x fst snd f_size bmin bmax esub eneg eadd rnd emul f_lerp].
  unfold f_size. cbn [bmin bmax esub eneg eadd rnd emul]. rewrite Rmult_1_l, (RN_fmt (RN _)) by apply fmt_RN. eexists. split; [reflexivity|]. fold (ulerp p a b).
  change (1 + - p) with (1 - p). pose proof eta_u0 as ET. pose proof eta_pos as EP.
  pose proof (RN_err (1 - p)) as E1. rewrite (Rabs_pos_eq (1 - p)) in E1 by lra. set (q := RN (1 - p)) in *. assert (Q0 : 0 <= q) by (apply RN_nonneg; lra). assert (Q1 : q <= 1) by (rewrite <- (RN_fmt 1 fmt_1); apply RN_mono; lra).
  assert (QA : 0 <= q * a <= 1) by (split; [apply Rmult_le_pos; lra|rewrite <- (Rmult_1_r 1); apply Rmult_le_compat; lra]). assert (PB : 0 <= p * b <= p) by (split; [apply Rmult_le_pos; lra|rewrite <- (Rmult_1_r p) at 2; apply Rmult_le_compat; lra]).
  pose proof (RN_err (q * a)) as E2. rewrite (Rabs_pos_eq (q * a)) in E2 by lra. pose proof (RN_err (p * b)) as E3. rewrite (Rabs_pos_eq (p * b)) in E3 by lra. set (s := RN (q * a)) in *. set (t := RN (p * b)) in *.
  assert (M1 : Rabs (q * a - (1 - p) * a) <= u0 * (1 - p) + eta). { rewrite <- Rmult_minus_distr_r, Rabs_mult, (Rabs_pos_eq a) by lra. rewrite <- (Rmult_1_r (u0 * (1 - p) + eta)). apply Rmult_le_compat; [apply Rabs_pos|lra|exact E1|lra]. }
  assert (M3 : (1 - p) * a <= 1 - p) by (rewrite <- (Rmult_1_r (1 - p)) at 2; apply Rmult_le_compat_l; lra).
  apply Rabs_le_inv in M1. apply Rabs_le_inv in E2. apply Rabs_le_inv in E3. pose proof (RN_err (s + t)) as E4. assert (S : Rabs (s + t) <= 1.001) by (apply Rabs_le; lra). apply Rabs_le_inv in E4. apply Rabs_le. lra.
Qed.
(** Intervals at least 1/50 wide are not reversed by the rounding. *)
Lemma ordered log log1p expm1 a b : libm (2 * u0) log log1p expm1 -> range a -> range b -> a + 1 / 50 <= b -> b <= 8 -> ulim expm1 a <= ulim expm1 b.
Proof.
  intros LIB A B AB B8. destruct (ulim_ok _ _ _ LIB a A) as (_ & _ & EA & A1). destruct (ulim_ok _ _ _ LIB b B) as (_ & _ & EB & B1). apply Rabs_le_inv in EA. apply Rabs_le_inv in EB.
  assert (X : exp (- (4 * b)) <= exp (- (4 * a)) * (1 - 7 / 100)).
  { replace (- (4 * b)) with (- (4 * a) + - (4 * (b - a))) by ring. rewrite exp_plus. apply Rmult_le_compat_l; [left; apply exp_pos|]. rewrite exp_Ropp. apply Rle_trans with (/ (1 + 8 / 100)); [|lra]. apply Rinv_le_contravar; [lra|]. pose proof (exp_ineq1_le (4 * (b - a))). lra. }
  assert (E32 := exp_m32). assert (exp (-32) <= exp (- (4 * a))) by (apply exp_le; lra). pose proof (exp_pos (- (4 * b))). lra.
Qed.
(** The slopes are derivatives. *)
Lemma slopes o p a b : 0 <= p <= 1 -> 0 < a + o <= b + o -> derivable_pt_lim (fun p => drawn_decay p a b) p (slope_decay p a b) /\
  derivable_pt_lim (fun p => drawn_inverse o p a b) p (slope_inverse o p a b).
Proof.
  intros P A. split; apply is_derive_Reals.
  - assert (W : 0 < (1 - p) * exp (- (4 * a)) + p * exp (- (4 * b))).
    { pose proof (exp_pos (- (4 * a))). pose proof (exp_pos (- (4 * b))). destruct (Req_dec p 0) as [->|N]; [lra|]. assert (0 < p * exp (- (4 * b))) by (apply Rmult_lt_0_compat; lra). assert (0 <= (1 - p) * exp (- (4 * a))) by (apply Rmult_le_pos; lra). lra. }
    unfold drawn_decay, slope_decay. auto_derive; [exact W|]. change (1 + - p) with (1 - p). field. lra.
  - assert (W : 0 < (1 - p) / (a + o) + p / (b + o)).
    { unfold Rdiv. assert (0 < / (a + o)) by (apply Rinv_0_lt_compat; lra). assert (0 < / (b + o)) by (apply Rinv_0_lt_compat; lra). destruct (Req_dec p 0) as [->|N]; [lra|]. assert (0 < p * / (b + o)) by (apply Rmult_lt_0_compat; lra). assert (0 <= (1 - p) * / (a + o)) by (apply Rmult_le_pos; lra). lra. }
    unfold drawn_inverse, slope_inverse, drawn_inverse. auto_derive; [apply Rgt_not_eq; exact W|]. change (1 + - p) with (1 - p). set (w := (1 - p) / (a + o) + p / (b + o)) in *. replace ((1 - p) * / (a + o) + p * / (b + o)) with w by reflexivity. field. split; [lra|]. split; lra.
Qed.
