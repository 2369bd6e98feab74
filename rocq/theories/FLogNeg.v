(** Sampling R in double arithmetic: values below zero, the smallest values, the threshold. *)
From Coq Require Import Reals ZArith Lia Lra QArith Qreals.
From Flocq Require Import Core Mult_error.
From Coquelicot Require Import Coquelicot.
From Verif Require Import ExtModel BoundModel TextModel MathModel FMathModel FMathSpec FMathSeries FMathDilog FMathSqrt TextNum DilogError FKinRel FKinPoint FMapModel FMapProofs FLogModel FLogSpec FLogProofs.
Local Open Scope R_scope.

Lemma ln2_tight : 6931471805599453094 / 10000000000000000000 <= ln 2 <= 6931471805599453095 / 10000000000000000000.
Proof.
  pose proof ln_half as H. apply Rabs_le_inv in H.
  assert (Q1 : Q2R (6931471805599453094 # 10000000000000000000) + / 1000000000000000000000 <= Q2R q_ln).
  { replace (/ 1000000000000000000000) with (Q2R (1 # 1000000000000000000000)) by (apply Q2R_inv). rewrite <- Q2R_plus. apply Qle_Rle. vm_compute. discriminate. }
  assert (Q2 : Q2R q_ln + / 1000000000000000000000 <= Q2R (6931471805599453095 # 10000000000000000000)).
  { replace (/ 1000000000000000000000) with (Q2R (1 # 1000000000000000000000)) by (apply Q2R_inv). rewrite <- Q2R_plus. apply Qle_Rle. vm_compute. discriminate. }
  assert (E : / 2 ^ 150 <= / 1000000000000000000000) by (apply Rinv_le_contravar; [lra|]; apply Rle_trans with (2 ^ 70); [cbn; lra|apply Rle_pow; [lra|lia]]).
  unfold Q2R in Q1 at 1. unfold Q2R in Q2 at 2. cbn [Qnum Qden] in Q1, Q2. unfold Rdiv. lra.
Qed.
Definition g11 : R := 8584557806227369 * bpow radix2 (-50).
Lemma g11_fmt : fmt g11.
Proof. apply generic_format_FLT. exists (Float radix2 8584557806227369 (-50)); [reflexivity|cbn; lia|cbn; lia]. Qed.
Lemma g11_num : g11 = 8584557806227369 / 1125899906842624.
Proof. unfold g11. replace (bpow radix2 (-50)) with (/ 1125899906842624) by (cbn; lra). unfold Rdiv. reflexivity. Qed.
Lemma pred_g11 : pred radix2 (FLT_exp (-1074) 53) g11 = g11 - bpow radix2 (-50).
Proof.
  assert (B4 : bpow radix2 2 = 4) by reflexivity. assert (B8 : bpow radix2 3 = 8) by reflexivity. assert (G : 7 <= g11 <= 7.9) by (rewrite g11_num; lra).
  rewrite pred_eq_pos by lra. unfold pred_pos. assert (M : mag radix2 g11 = 3%Z :> Z) by (apply mag_unique_pos; change (3 - 1)%Z with 2%Z; rewrite B4, B8; lra).
  rewrite M. change (3 - 1)%Z with 2%Z. rewrite B4, Req_bool_false by lra. rewrite ulp_neq_0 by lra. unfold cexp. rewrite M. reflexivity.
Qed.
Lemma log_low : RN (ln (bpow radix2 (-11))) <= - g11.
Proof.
  rewrite ln_bpow. pose proof ln2_tight as T. replace (-11 * ln 2) with (- (11 * ln 2)) by (replace (-11) with (- (11)) by lra; ring). rewrite RN_opp. apply Ropp_le_contravar.
  unfold RN. apply round_N_ge_midp; [typeclasses eauto|exact g11_fmt|]. rewrite pred_g11. replace (bpow radix2 (-50)) with (/ 1125899906842624) by (cbn; lra). rewrite g11_num. lra.
Qed.
Lemma pred_r11 : pred radix2 (FLT_exp (-1074) 53) (bpow radix2 (-11)) = bpow radix2 (-11) - bpow radix2 (-64).
Proof. rewrite pred_bpow. reflexivity. Qed.
Lemma exp_low u : u <= - g11 -> RN (exp u) <= bpow radix2 (-11) - bpow radix2 (-64).
Proof.
  intros H. rewrite <- pred_r11. unfold RN. apply round_N_le_midp; [typeclasses eauto| |].
  - apply generic_format_pred; [typeclasses eauto|apply fmt_bpow; lia].
  - rewrite succ_pred; [|typeclasses eauto|apply fmt_bpow; lia]. rewrite pred_r11. pose proof ln2_tight as T.
    assert (X : exp u <= bpow radix2 (-11) * exp (- (0.65 * u0))).
    { rewrite <- (exp_ln (bpow radix2 (-11))) by apply bpow_gt_0. rewrite <- exp_plus, ln_bpow. replace (-11) with (- (11)) by lra. assert (Q : u <= - (11) * ln 2 + - (0.65 * u0)). { rewrite g11_num in H. lra. } destruct Q as [Q|Q]; [left; apply exp_increasing; exact Q|rewrite Q; right; reflexivity]. }
    assert (Y : exp (- (0.65 * u0)) <= 1 - 0.6 * u0). { rewrite exp_Ropp. pose proof (exp_ineq1_le (0.65 * u0)). apply Rle_trans with (/ (1 + 0.65 * u0)); [apply Rinv_le_contravar; lra|]. apply Rmult_le_reg_r with (1 + 0.65 * u0); [lra|]. rewrite Rinv_l by lra. lra. }
    assert (B : bpow radix2 (-11) * exp (- (0.65 * u0)) <= bpow radix2 (-11) * (1 - 0.6 * u0)) by (apply Rmult_le_compat_l; [apply bpow_ge_0|exact Y]).
    assert (E64 : bpow radix2 (-64) = bpow radix2 (-11) * u0) by (change (-64)%Z with (-11 + -53)%Z; rewrite bpow_plus; f_equal; cbn; lra). rewrite E64 in *. assert (0 < bpow radix2 (-11) * u0) by (apply Rmult_lt_0_compat; [apply bpow_gt_0|lra]). lra.
Qed.
Lemma drawn_negative log exp' b : (forall x, double x -> 0 < x -> log x = RN (ln x)) -> (forall x, double x -> Rabs x <= 600 -> exp' x = RN (exp x)) -> double b -> 1 <= b <= bpow radix2 100 ->
  exists x, fst (f_R log exp' (bpow radix2 (-11)) 0 (Bnd (Fin 0) (Fin b))) = Fin x /\ x < 0.
Proof.
  intros HL HE DB B. set (r := bpow radix2 (-11)). assert (R0 : 0 < r) by apply bpow_gt_0. assert (RF : fmt r) by (apply fmt_bpow; lia). assert (R1 : r <= 1) by (change 1 with (bpow radix2 0); apply bpow_le; lia).
  assert (D : forall x, fmt x -> 0 < x <= bpow radix2 101 -> double x) by (intros x F X; split; [exact F|rewrite Rabs_pos_eq by lra; apply Rle_lt_trans with (1 := proj2 X), bpow_lt; lia]).
  assert (R101 : 1 <= bpow radix2 101) by (change 1 with (bpow radix2 0); apply bpow_le; lia). assert (BB : bpow radix2 101 = 2 * bpow radix2 100) by (change 101%Z with (1 + 100)%Z; rewrite bpow_plus; reflexivity).
  assert (B0 : 1 <= RN (b + r)) by (rewrite <- (RN_fmt 1) by apply fmt_1; apply RN_mono; lra). assert (B1 : RN (b + r) <= bpow radix2 101) by (rewrite <- (RN_fmt (bpow radix2 101)) by (apply fmt_bpow; lia); apply RN_mono; lra).
  unfold f_R, f_apply_map, f_log_u. cbn [bmin bmax eadd rnd e_log]. rewrite Rplus_0_l, (RN_fmt r RF). destruct (rltb_case 0 r) as [(-> & _)|(_ & H)]; [|lra]. destruct (rltb_case 0 (RN (b + r))) as [(-> & _)|(_ & H)]; [|lra].
  rewrite !HL; [|apply D; [apply fmt_RN|lra]|lra|apply D; [exact RF|lra]|exact R0]. set (U := RN (ln r)). set (W := RN (ln (RN (b + r)))). assert (U1 : U <= - g11) by exact log_low.
  assert (G : 7 <= g11 <= 7.9) by (rewrite g11_num; lra). assert (W0 : 0 <= W). { unfold W. rewrite <- RN_0. apply RN_mono. rewrite <- ln_1. apply Rcomplements.ln_le; lra. }
  unfold mk_bound. cbn [eleb]. unfold rleb. destruct (Rle_dec U W) as [_|N]; [|lra]. cbn [negb]. unfold f_lerp. cbn [bmin bmax esub eneg eadd rnd emul f_log_x e_exp fst].
  replace (RN (RN (RN (1 + - 0) * U) + RN (0 * W))) with U. 2: { rewrite Ropp_0, Rplus_0_r, (RN_fmt 1) by apply fmt_1. rewrite Rmult_1_l, Rmult_0_l, RN_0, Rplus_0_r. assert (FU : fmt U) by apply fmt_RN. rewrite !(RN_fmt U FU). reflexivity. }
  assert (U2 : -8 <= U). { unfold U. replace (-8) with (- (8)) by lra. rewrite <- (RN_fmt (- (8))) by (apply fmt_opp; change 8 with (bpow radix2 3); apply fmt_bpow; lia). apply RN_mono. unfold r. rewrite ln_bpow. pose proof ln2_tight. lra. }
  rewrite HE; [|apply small_double; [apply fmt_RN|apply Rabs_le; lra]|apply Rabs_le; lra]. eexists. split; [reflexivity|]. pose proof (exp_low U U1) as E. fold r in E. assert (P : 0 < bpow radix2 (-64)) by apply bpow_gt_0.
  apply Rle_lt_trans with (- bpow radix2 (-64)); [|lra]. rewrite <- (RN_fmt (- bpow radix2 (-64))) by (apply fmt_opp, fmt_bpow; lia). apply RN_mono. lra.
Qed.
(** The smallest values. *)
Lemma ulp_low x : 0 < x -> u0 * x <= ulp radix2 (FLT_exp (-1074) 53) x.
Proof.
  intros X. rewrite ulp_neq_0 by lra. unfold cexp. destruct (mag radix2 x) as (e & H). cbn [mag_val]. specialize (H ltac:(lra)). rewrite Rabs_pos_eq in H by lra. apply Rle_trans with (bpow radix2 (e - 53)).
  - unfold Zminus. rewrite bpow_plus. replace (bpow radix2 (- (53))) with u0 by (cbn; lra). lra.
  - apply bpow_le. unfold FLT_exp. lia.
Qed.
Lemma apart e r : fmt e -> fmt r -> 0 < r -> e <> r -> r * bpow radix2 (-54) <= Rabs (e - r).
Proof.
  intros FE FR R0 N. replace (bpow radix2 (-54)) with (0.5 * u0) by (cbn; lra). destruct (Rlt_or_le e r) as [H|H].
  - rewrite Rabs_left by lra. destruct (Rlt_or_le 0 e) as [E|E]; [|lra]. pose proof (succ_le_lt radix2 (FLT_exp (-1074) 53) e r FE FR H) as S. rewrite succ_eq_pos in S by lra. pose proof (ulp_low e E). destruct (Rlt_or_le e (0.9 * r)); lra.
  - assert (H' : r < e) by lra. rewrite Rabs_pos_eq by lra. pose proof (succ_le_lt radix2 (FLT_exp (-1074) 53) r e FR FE H') as S. rewrite succ_eq_pos in S by lra. pose proof (ulp_low r R0). lra.
Qed.
Lemma drawn_floor log exp' r p bnd x : fmt r -> bpow radix2 (-900) <= r -> (forall u, fmt (exp' u)) ->
  fst (f_R log exp' r p bnd) = Fin x -> x = 0 \/ r * bpow radix2 (-54) <= Rabs x.
Proof.
  intros FR R0 FE. assert (R1 : 0 < r) by (pose proof (bpow_gt_0 radix2 (-900)); lra). unfold f_R, f_apply_map. cbn [fst]. set (u := f_lerp _ _). unfold f_log_x. cbn [fst].
  assert (K : forall e, fmt e -> RN (e - r) = 0 \/ r * bpow radix2 (-54) <= Rabs (RN (e - r))).
  { intros e F. destruct (Req_dec e r) as [->|N]; [left; rewrite Rminus_diag_eq by reflexivity; apply RN_0|right]. pose proof (apart e r F FR R1 N) as A.
    assert (FM : fmt (r * bpow radix2 (-54))). { apply mult_bpow_exact_FLT; [exact FR|]. assert (mag radix2 r > -900)%Z. { apply Z.lt_gt, mag_gt_bpow. rewrite Rabs_pos_eq by lra. exact R0. } lia. }
    destruct (Rle_or_lt 0 (e - r)) as [S|S].
    - rewrite Rabs_pos_eq in A by exact S. rewrite Rabs_pos_eq by (rewrite <- RN_0; apply RN_mono; exact S). rewrite <- (RN_fmt _ FM). apply RN_mono. exact A.
    - rewrite Rabs_left in A by exact S. assert (RN (e - r) <= - (r * bpow radix2 (-54))) by (rewrite <- (RN_fmt (- (r * bpow radix2 (-54)))) by (apply fmt_opp; exact FM); apply RN_mono; lra). rewrite Rabs_left1; [lra|]. assert (0 < r * bpow radix2 (-54)) by (apply Rmult_lt_0_compat; [exact R1|apply bpow_gt_0]). lra. }
  destruct u as [u| | |]; cbn [e_exp esub eneg eadd rnd]; try discriminate; intros [= <-]; apply K; [apply FE|apply generic_format_0].
Qed.
(** At the threshold. *)
Lemma drawn_threshold log exp' p b : 0 < p < 1 -> fmt p -> 0 <= b -> f_R log exp' 0 p (Bnd (Fin 0) (Fin b)) = (Fin 0, NaN).
Proof.
  intros P FP B. unfold f_R, f_apply_map, f_log_u. cbn [bmin bmax eadd rnd]. rewrite Rplus_0_r, Rplus_0_r, RN_0. unfold e_log at 1 3 5. destruct (rltb_case 0 0) as [(_ & H)|(-> & _)]; [lra|]. destruct (reqb_case 0 0) as [(-> & _)|(_ & H)]; [|lra].
  pose proof (below_one p FP (proj2 P)) as Q. assert (Q2 : 0 < RN (1 - p)). { apply Rlt_le_trans with u0; [lra|]. rewrite <- (RN_fmt u0); [apply RN_mono; lra|]. replace u0 with (bpow radix2 (-53)) by (cbn; lra). apply fmt_bpow; lia. }
  assert (LU : e_log log (Fin (RN b)) = NInf \/ exists w, e_log log (Fin (RN b)) = Fin w).
  { cbn [e_log]. assert (0 <= RN b) by (rewrite <- RN_0; apply RN_mono; exact B). destruct (rltb_case 0 (RN b)) as [(-> & _)|(-> & H1)]; [right; eexists; reflexivity|left]. destruct (reqb_case (RN b) 0) as [(-> & _)|(_ & H2)]; [reflexivity|lra]. }
  destruct LU as [->|(w & ->)]; unfold mk_bound; cbn [eleb negb]; unfold f_lerp, f_size; cbn [bmin bmax esub eneg eadd rnd emul].
  all: change (1 + - p) with (1 - p); unfold sinf; destruct (rltb_case 0 (- RN (1 - p))) as [(_ & H)|(-> & _)]; [lra|]; destruct (rltb_case (- RN (1 - p)) 0) as [(-> & _)|(_ & H)]; [|lra].
  - destruct (rltb_case 0 (- p)) as [(_ & H)|(-> & _)]; [lra|]. destruct (rltb_case (- p) 0) as [(-> & _)|(_ & H)]; [|lra]. cbn. rewrite Ropp_0, Rplus_0_r, RN_0. reflexivity.
  - cbn. rewrite Ropp_0, Rplus_0_r, RN_0. unfold sinf. destruct (rltb_case 0 0) as [(_ & H)|(-> & _)]; [lra|]. reflexivity.
Qed.
Lemma drawn_slope r p a b : 0 < a + r -> 0 < b + r -> derivable_pt_lim (fun p => drawn_log r p a b) p (slope_log r p a b).
Proof.
  intros A B. apply is_derive_Reals. unfold slope_log, drawn_log, Rpower. rewrite ln_div by assumption. set (A' := ln (a + r)). set (B' := ln (b + r)).
  apply is_derive_ext with (fun q => exp (A' - q * (A' - B')) - r). { intros q. rewrite <- exp_plus. f_equal. f_equal. ring. }
  auto_derive; [exact I|]. rewrite <- exp_plus. replace ((1 - p) * A' + p * B') with (A' - p * (A' - B')) by ring. change (A' + - (p * (A' - B'))) with (A' - p * (A' - B')). ring.
Qed.
(** The correctly rounded functions are accurate enough. *)
Lemma rounded_ok : log_exp (2 * u0) (fun x => RN (ln x)) (fun x => RN (exp x)).
Proof.
  constructor.
  - intros x D X. destruct lib_exists as [H _ _]. exact (H x D X).
  - intros x D X. apply abs_in in X. pose proof VacHadProofs.ln2_bounds as L2.
    assert (I : inr 870 (exp x)). { unfold inr. change (- (870))%Z with (-870)%Z. rewrite <- (exp_ln (bpow radix2 (-870))) by apply bpow_gt_0. rewrite <- (exp_ln (bpow radix2 870)) by apply bpow_gt_0. rewrite !ln_bpow. split; left; apply exp_increasing; lra. }
    pose proof (exp_pos x) as E0. assert (RL : rel 1 (RN (exp x)) (exp x)) by (apply rel_RN; destruct I as (I & _); apply Rle_trans with (2 := I), bpow_le; lia). pose proof (rel_num 1 _ _ ltac:(lia) (Rlt_le _ _ E0) RL) as E. cbn [INR] in E.
    split; [|unfold close; rewrite (Rabs_pos_eq (exp x)) by lra; eapply Rle_trans; [exact E|]; apply Rmult_le_compat_r; lra].
    split; [apply fmt_RN|]. assert (I2 : inr 870 (RN (exp x))) by (apply inr_RN; [lia|exact I]). rewrite Rabs_pos_eq by (left; exact (inr_pos _ _ I2)). destruct I2 as (_ & I2). apply Rle_lt_trans with (1 := I2), bpow_lt. lia.
Qed.
