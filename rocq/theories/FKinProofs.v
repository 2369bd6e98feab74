(** Rounding errors of the kinematic variables of the hadron. *)
From Coq Require Import Reals ZArith Lia Lra Psatz.
From Flocq Require Import Core.
From Verif Require Import ExtModel BoundProofs TextModel TextNum FMathModel FMathSpec FMathSeries DilogProofs FMathDilog FMathSqrt FKinModel FKinSpec FKinRel.
Local Open Scope R_scope.
Set Bullet Behavior "Strict Subproofs".

Lemma bp50 : bp 50 = 2 ^ 50. Proof. cbn. lra. Qed.
Lemma bpm50 : bp (- (50)) = / 2 ^ 50. Proof. cbn. lra. Qed.
Lemma bp100 : bp 100 = 2 ^ 100. Proof. cbn. lra. Qed.
Lemma bpm100 : bp (- (100)) = / 2 ^ 100. Proof. cbn. lra. Qed.
Lemma moderate_inr v : moderate v -> inr 50 v.
Proof. intros (_ & H). unfold inr. rewrite bp50, bpm50. exact H. Qed.
Lemma moderate_sq_inr v : moderate_sq v -> v = 0 \/ inr 100 v.
Proof. intros (_ & [H|H]); [left; exact H|right]. unfold inr. rewrite bp100, bpm100. exact H. Qed.
Lemma inr_2 : inr 1 2. Proof. split; cbn; lra. Qed.
Lemma inr_4 : inr 2 4. Proof. split; cbn; lra. Qed.
Lemma inr_1 : inr 0 1. Proof. split; cbn; lra. Qed.
Lemma RN_0 : RN 0 = 0. Proof. unfold RN. apply round_0. typeclasses eauto. Qed.
Lemma RN_neg x : RN (- x) = - RN x. Proof. apply RN_opp. Qed.
(** the error of one rounding, for a bound on the argument that is not tiny *)
Lemma RN_abs z B : Rabs z <= B -> bp (-1000) <= B -> Rabs (RN z - z) <= 1.0001 * u0 * B.
Proof.
  intros Z L. pose proof (RN_err z) as E. assert (ET : eta <= 0.0001 * u0 * bp (-1000)).
  { replace (bp (-1075)) with (bp (-75) * bp (-1000)) by (rewrite <- bpow_plus; reflexivity). apply Rmult_le_compat_r; [apply bpow_ge_0|]. cbn. lra. }
  assert (0.0001 * u0 * bp (-1000) <= 0.0001 * u0 * B) by (apply Rmult_le_compat_l; lra). assert (u0 * Rabs z <= u0 * B) by (apply Rmult_le_compat_l; lra). lra.
Qed.

Section Errors.
Context (log log1p expm1 : R -> R) (lib : libm (2 * u0) log log1p expm1).
Context (S M mh x y z p : R).
Hypotheses (HS : inr 50 S) (HM : inr 50 M) (Hmh : inr 50 mh) (Hx : inr 50 x) (Hy : inr 50 y) (Hz : inr 50 z) (Hp : p = 0 \/ inr 100 p).
Let e := energy S M y z. Let v := virtuality S M x y. Let s := slowness S M mh y z p. Let q := S * x * y. Let sx := S * y.
Lemma positive : 0 < S /\ 0 < M /\ 0 < mh /\ 0 < x /\ 0 < y /\ 0 < z /\ 0 <= p /\ 0 < sx /\ 0 < q /\ 0 < e.
Proof.
  pose proof (inr_pos _ _ HS). pose proof (inr_pos _ _ HM). pose proof (inr_pos _ _ Hmh). pose proof (inr_pos _ _ Hx). pose proof (inr_pos _ _ Hy). pose proof (inr_pos _ _ Hz).
  assert (0 <= p) by (destruct Hp as [->|H']; [lra|left; apply (inr_pos _ _ H')]). assert (X : 0 < sx) by (apply Rmult_lt_0_compat; assumption).
  repeat (split; [assumption|]). split; [repeat apply Rmult_lt_0_compat; assumption|]. unfold e, energy. apply Rdiv_lt_0_compat; [apply Rmult_lt_0_compat; assumption|lra].
Qed.
Lemma a_sx : appr 100 1 (f_S_x S y) sx.
Proof. apply (appr_mul 50 50 0 0); [lia|apply appr_exact; assumption|apply appr_exact; assumption]. Qed.
Lemma a_q : appr 150 2 (f_Q_sq S x y) q.
Proof. apply (appr_mul 100 50 1 0); [lia| |apply appr_exact; assumption]. apply (appr_mul 50 50 0 0); [lia|apply appr_exact; assumption|apply appr_exact; assumption]. Qed.
Lemma a_2M : appr 51 1 (RN (2 * M)) (2 * M).
Proof. apply (appr_mul 1 50 0 0); [lia|apply appr_exact, inr_2|apply appr_exact; assumption]. Qed.
Lemma a_e : appr 201 4 (f_ph_0 S M y z) e.
Proof. apply (appr_div 150 51 2 1); [lia| |exact a_2M]. apply (appr_mul 50 100 0 1); [lia|apply appr_exact; assumption|exact a_sx]. Qed.
Lemma a_4M : appr 102 2 (RN (4 * f_sq M)) (4 * (M * M)).
Proof. apply (appr_mul 2 100 0 1); [lia|apply appr_exact, inr_4|]. apply (appr_sq 50 0); [lia|apply appr_exact; assumption]. Qed.
Lemma a_4Mq : appr 252 5 (RN (RN (4 * f_sq M) * f_Q_sq S x y)) (4 * (M * M) * q).
Proof. apply (appr_mul 102 150 2 2); [lia|exact a_4M|exact a_q]. Qed.
Lemma a_v : appr 452 9 (f_lambda_Y_ratio S M x y) v.
Proof.
  replace v with (4 * (M * M) * q / (sx * sx)) by (unfold v, virtuality, q, sx; f_equal; ring). apply (appr_div 252 200 5 3); [lia|exact a_4Mq|]. apply (appr_sq 100 1); [lia|exact a_sx].
Qed.
Lemma a_pe : p = 0 /\ RN (p / f_sq (f_ph_0 S M y z)) = 0 \/ appr 502 10 (RN (p / f_sq (f_ph_0 S M y z))) (p / (e * e)).
Proof.
  destruct Hp as [H|H]; [left; split; [exact H|]; rewrite H; unfold Rdiv; rewrite Rmult_0_l; exact RN_0|right].
  apply (appr_div 100 402 0 9); [lia|apply appr_exact; exact H|]. apply (appr_sq 201 4); [lia|exact a_e].
Qed.
Lemma a_me : appr 502 11 (f_sq (RN (mh / f_ph_0 S M y z))) (mh / e * (mh / e)).
Proof. apply (appr_sq 251 5); [lia|]. apply (appr_div 50 201 0 4); [lia|apply appr_exact; assumption|exact a_e]. Qed.
Lemma s_is : s = p / (e * e) + mh / e * (mh / e).
Proof. unfold s, slowness. fold e. destruct positive as (_ & _ & _ & _ & _ & _ & _ & _ & _ & E). field. lra. Qed.
Lemma a_s : appr 503 12 (f_ph_ratio_sq S M mh y z p) s.
Proof.
  rewrite s_is. unfold f_ph_ratio_sq. destruct a_pe as [(P0 & Z)|A].
  - rewrite Z, P0. replace (0 / (e * e)) with 0 by (unfold Rdiv; ring). rewrite !Rplus_0_l. destruct a_me as (A & B & R). rewrite RN_id by (unfold f_sq; apply RN_F). apply (appr_weak 502 503 11 12); [lia|lia|exact a_me].
  - apply (appr_add 502 11); [lia|apply (appr_weak 502 502 10 11); [lia|lia|exact A]|exact a_me].
Qed.
Lemma a_1v : appr 453 10 (RN (1 + f_lambda_Y_ratio S M x y)) (1 + v).
Proof. apply (appr_add 452 9); [lia|apply (appr_weak 0 452 0 9); [lia|lia|apply appr_exact, inr_1]|exact a_v]. Qed.
Lemma a_prod : appr 956 23 (RN (f_ph_ratio_sq S M mh y z p * RN (1 + f_lambda_Y_ratio S M x y))) (s * (1 + v)).
Proof. apply (appr_mul 503 453 12 10); [lia|exact a_s|exact a_1v]. Qed.
Let A := v + s * (1 + v). Let w := v - s * (1 + v). Let w' := f_V_m_arg S M mh x y z p.
Lemma vs_pos : 0 < v /\ 0 < s.
Proof. destruct a_v as (_ & V & _). destruct a_s as (_ & W & _). split; [apply (inr_pos _ _ V)|apply (inr_pos _ _ W)]. Qed.
Lemma A_low : bp (-452) <= A.
Proof. destruct a_v as (_ & (V & _) & _). destruct vs_pos as (V0 & S0). unfold A. assert (0 < s * (1 + v)) by (apply Rmult_lt_0_compat; lra). change (- (452))%Z with (-452)%Z in V. lra. Qed.
Lemma w_err : Rabs (w' - w) <= 24.01 * u0 * A.
Proof.
  destruct vs_pos as (V0 & S0). pose proof A_low as AL. assert (A0 : 0 < A) by (pose proof (bpow_gt_0 radix2 (-452)); lra). unfold w', f_V_m_arg.
  destruct a_v as (_ & _ & RV). apply (rel_num 9) in RV; [|lia|lra]. destruct a_prod as (_ & _ & RP). assert (P0 : 0 < s * (1 + v)) by (apply Rmult_lt_0_compat; lra). apply (rel_num 23) in RP; [|lia|lra].
  replace (INR 9) with 9 in RV by (cbn; lra). replace (INR 23) with 23 in RP by (cbn; lra).
  set (r' := f_lambda_Y_ratio S M x y) in *. set (p' := RN (f_ph_ratio_sq S M mh y z p * RN (1 + r'))) in *. fold A.
  assert (D : Rabs ((r' - p') - w) <= 23.001 * u0 * A). { unfold w, A. replace (r' - p' - (v - s * (1 + v))) with ((r' - v) - (p' - s * (1 + v))) by ring. eapply Rle_trans; [apply Rabs_triang|]. rewrite Rabs_Ropp. assert (0 < u0 * v) by (apply Rmult_lt_0_compat; lra). lra. }
  assert (W : Rabs w <= A) by (unfold w, A; apply Rabs_le; lra).
  assert (B : Rabs (r' - p') <= 1.0001 * A). { replace (r' - p') with ((r' - p' - w) + w) by ring. eapply Rle_trans; [apply Rabs_triang|]. lra. }
  assert (L : bp (-1000) <= 1.0001 * A). { apply Rle_trans with (bp (-452)); [apply bpow_le; lia|]. pose proof (bpow_gt_0 radix2 (-452)). lra. }
  pose proof (RN_abs (r' - p') _ B L) as E. replace (RN (r' - p') - w) with ((RN (r' - p') - (r' - p')) + (r' - p' - w)) by ring. eapply Rle_trans; [apply Rabs_triang|]. pose proof (bpow_gt_0 radix2 (-452)). lra.
Qed.
Hypotheses (Hs : s <= 3 / 4) (Hv : v <= 3).
Lemma A_high : A <= 6.
Proof. destruct vs_pos as (V0 & S0). unfold A. assert (s * (1 + v) <= 3 / 4 * 4) by (apply Rmult_le_compat; lra). lra. Qed.
Lemma w_range : 1 / 4 <= 1 + w <= 4.
Proof. destruct vs_pos as (V0 & S0). unfold w. replace (1 + (v - s * (1 + v))) with ((1 + v) * (1 - s)) by ring. split; nra. Qed.
Let K := sx / (2 * M) * e.
Let f := f_sqrt1p_1m log1p expm1 w'.
Lemma f_err : Rabs (f - (sqrt (1 + w) - 1)) <= 34.8 * u0 * A /\ Rabs (sqrt (1 + w) - 1) <= A.
Proof.
  pose proof w_err as WE. pose proof A_high as AH. pose proof A_low as AL. pose proof w_range as WR. assert (A0 : 0 < A) by (pose proof (bpow_gt_0 radix2 (-452)); lra). destruct vs_pos as (V0 & S0).
  assert (W : Rabs w <= A) by (assert (0 < s * (1 + v)) by (apply Rmult_lt_0_compat; lra); unfold w, A; apply Rabs_le; lra).
  assert (WE' := WE). apply Rabs_le_inv in WE'. assert (WR' : 0.249 <= 1 + w' <= 4.001) by lra.
  assert (DW : double w') by (apply small_double; [unfold w', f_V_m_arg; apply RN_F|apply Rabs_le; lra]).
  pose proof (f_sqrt_err _ _ _ lib w' DW ltac:(lra)) as FE. fold f in FE.
  assert (Q1 : sqrt (1 + w) * sqrt (1 + w) = 1 + w) by (apply sqrt_sqrt; lra). assert (Q2 : sqrt (1 + w') * sqrt (1 + w') = 1 + w') by (apply sqrt_sqrt; lra).
  pose proof (sqrt_pos (1 + w)) as P1. pose proof (sqrt_pos (1 + w')) as P2. set (r := sqrt (1 + w)) in *. set (r' := sqrt (1 + w')) in *.
  assert (R1 : 0.5 <= r) by nra. assert (R2 : 0.495 <= r' <= 2.01) by nra.
  assert (DR : Rabs (r' - r) <= 24.3 * u0 * A).
  { assert (E : (r' - r) * (r' + r) = w' - w) by lra. assert (Rabs (r' - r) * (r' + r) = Rabs (w' - w)) by (rewrite <- E, Rabs_mult, (Rabs_pos_eq (r' + r)); lra). pose proof (Rabs_pos (r' - r)). assert (Rabs (r' - r) * 0.995 <= Rabs (r' - r) * (r' + r)) by (apply Rmult_le_compat_l; lra). assert (0 < u0 * A) by lra. lra. }
  assert (SW : Rabs (r - 1) <= A). { assert (E : (r - 1) * (r + 1) = w) by lra. assert (Rabs (r - 1) * (r + 1) = Rabs w) by (rewrite <- E, Rabs_mult, (Rabs_pos_eq (r + 1)); lra). pose proof (Rabs_pos (r - 1)). nra. }
  split; [|exact SW].
  assert (LN : Rmax 0 (ln (1 + w') / 2) <= 1.01).
  { apply Rmax_lub; [lra|]. replace (1 + w') with (r' * r') by exact Q2. rewrite ln_mult by lra. pose proof (ln_le_sub r' ltac:(lra)). lra. }
  assert (SR : Rabs (r' - 1) <= 1.0001 * A). { replace (r' - 1) with ((r' - r) + (r - 1)) by ring. eapply Rle_trans; [apply Rabs_triang|]. lra. }
  assert (T : bp (-1074) <= 0.0001 * u0 * A). { apply Rle_trans with (0.0001 * u0 * bp (-452)); [|apply Rmult_le_compat_l; lra]. replace (bp (-1074)) with (bp (-622) * bp (-452)) by (rewrite <- bpow_plus; reflexivity). apply Rmult_le_compat_r; [apply bpow_ge_0|]. apply Rle_trans with (bp (-100)); [apply bpow_le; lia|]. cbn. lra. }
  assert (F2 : (6 + 4 * Rmax 0 (ln (1 + w') / 2)) * u0 * Rabs (r' - 1) <= 10.04 * u0 * (1.0001 * A)). { apply Rmult_le_compat; [|apply Rabs_pos| |exact SR]; [pose proof (Rmax_l 0 (ln (1 + w') / 2)); lra|lra]. }
  replace (f - (r - 1)) with ((f - (r' - 1)) + (r' - r)) by ring. eapply Rle_trans; [apply Rabs_triang|]. lra.
Qed.
Lemma a_K : appr 352 8 (RN (RN (f_ph_0 S M y z * f_S_x S y) / RN (2 * M))) K.
Proof.
  destruct positive as (_ & M0 & _). replace K with (e * sx / (2 * M)) by (unfold K; field; lra). apply (appr_div 301 51 6 1); [lia| |exact a_2M]. apply (appr_mul 201 100 4 1); [lia|exact a_e|exact a_sx].
Qed.
Lemma v_exact : photon_hadron S M mh x y z p = - K * (sqrt (1 + w) - 1).
Proof.
  destruct positive as (S0 & M0 & mh0 & x0 & y0 & z0 & p0 & X0 & Q0 & E0). destruct vs_pos as (V0 & S1).
  unfold photon_hadron, longitudinal, photon. fold e sx q. unfold w. replace (1 + (v - s * (1 + v))) with ((1 + v) * (1 - s)) by ring. rewrite sqrt_mult by lra.
  assert (PH : sqrt (sx ^ 2 + 4 * M ^ 2 * q) = sx * sqrt (1 + v)).
  { replace (sx ^ 2 + 4 * M ^ 2 * q) with ((sx * sx) * (1 + v)) by (unfold v, virtuality; fold sx q; field; lra). rewrite sqrt_mult by nra. rewrite sqrt_square by lra. reflexivity. }
  assert (PL : sqrt (e ^ 2 - mh ^ 2 - p) = e * sqrt (1 - s)).
  { replace (e ^ 2 - mh ^ 2 - p) with ((e * e) * (1 - s)) by (unfold s, slowness; fold e; field; lra). rewrite sqrt_mult by nra. rewrite sqrt_square by lra. reflexivity. }
  rewrite PH, PL. unfold K. field. lra.
Qed.
Lemma K_pos : 0 < K.
Proof. destruct a_K as (_ & B & _). exact (inr_pos _ _ B). Qed.
Lemma V_err : Rabs (f_V_m log1p expm1 S M mh x y z p - photon_hadron S M mh x y z p) <= 45 * u0 * (K * A) /\ Rabs (photon_hadron S M mh x y z p) <= K * A.
Proof.
  rewrite v_exact. destruct f_err as (FE & SW). pose proof K_pos as K0. pose proof A_low as AL. assert (A0 : 0 < A) by (pose proof (bpow_gt_0 radix2 (-452)); lra).
  assert (KA : 0 < K * A) by (apply Rmult_lt_0_compat; assumption).
  split. 2:{ rewrite Ropp_mult_distr_l_reverse, Rabs_Ropp, Rabs_mult, (Rabs_pos_eq K) by lra. apply Rmult_le_compat_l; lra. }
  unfold f_V_m. fold w' f. replace (- RN (f_ph_0 S M y z * f_S_x S y) / RN (2 * M)) with (- (RN (f_ph_0 S M y z * f_S_x S y) / RN (2 * M))) by (unfold Rdiv; ring). rewrite RN_neg.
  destruct a_K as (_ & (KL & _) & KR). apply (rel_num 8) in KR; [|lia|lra]. replace (INR 8) with 8 in KR by (cbn; lra). set (c := RN (RN (f_ph_0 S M y z * f_S_x S y) / RN (2 * M))) in *. set (g := sqrt (1 + w) - 1) in *.
  assert (FA : Rabs f <= 1.0001 * A). { replace f with ((f - g) + g) by ring. eapply Rle_trans; [apply Rabs_triang|]. lra. }
  assert (D1 : Rabs ((c - K) * f) <= 8.001 * u0 * K * (1.0001 * A)) by (rewrite Rabs_mult; apply Rmult_le_compat; [apply Rabs_pos|apply Rabs_pos|lra|exact FA]).
  assert (D2 : Rabs (K * (f - g)) <= K * (34.8 * u0 * A)) by (rewrite Rabs_mult, (Rabs_pos_eq K) by lra; apply Rmult_le_compat_l; lra).
  assert (D3 : Rabs (K * g) <= K * A) by (rewrite Rabs_mult, (Rabs_pos_eq K) by lra; apply Rmult_le_compat_l; lra).
  assert (D : Rabs (- c * f - - K * g) <= 42.9 * u0 * (K * A)). { replace (- c * f - - K * g) with (- ((c - K) * f + K * (f - g))) by ring. rewrite Rabs_Ropp. eapply Rle_trans; [apply Rabs_triang|]. lra. }
  assert (B : Rabs (- c * f) <= 1.0001 * (K * A)). { replace (- c * f) with ((- c * f - - K * g) + - (K * g)) by ring. eapply Rle_trans; [apply Rabs_triang|]. rewrite Rabs_Ropp. lra. }
  assert (L : bp (-1000) <= 1.0001 * (K * A)).
  { apply Rle_trans with (bp (- (352)) * bp (-452)); [rewrite <- bpow_plus; apply bpow_le; lia|]. assert (bp (- (352)) * bp (-452) <= K * A) by (apply Rmult_le_compat; try apply bpow_ge_0; lra). lra. }
  pose proof (RN_abs _ _ B L) as E. replace (RN (- c * f) - - K * g) with ((RN (- c * f) - - c * f) + (- c * f - - K * g)) by ring. eapply Rle_trans; [apply Rabs_triang|]. lra.
Qed.
End Errors.
