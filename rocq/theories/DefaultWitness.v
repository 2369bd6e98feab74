(** An event for which the loop correction is small enough to compare the two couplings. *)
From Coq Require Import Reals ZArith Lia Lra Psatz.
From Coquelicot Require Import Coquelicot.
From Verif Require Import ExtModel MathModel MathProofs BoundProofs ParticleModel VecModel TransModel FrameBase KinModel KinSpec VecTac KinEqs KinFinal KinAll KinFin SfModel
  DilogSpec DilogProofs Basel LepModel HadModel XsModel XsProofs XsDelta VirtSpec VirtVac VirtEvent PhenomModel PhenomProofs DefaultModel DefaultProofs.
Set Bullet Behavior "Strict Subproofs".
Local Open Scope R_scope.

(** Coarse bounds of the dilogarithm. *)
Lemma full_zero : dilog_full 0 = 0. Proof. rewrite full_mid by lra. apply Li_0. Qed.
Lemma slope t : t < 0 \/ 0 < t < 1 -> 0 <= - ln (Rabs (1 - t)) / t /\ (t < 0 -> - ln (Rabs (1 - t)) / t <= 1).
Proof.
  intros H. rewrite Rabs_right by lra. destruct H as [H|H].
  - assert (L : 0 <= ln (1 - t)) by (rewrite <- ln_1; apply ln_le; lra). pose proof (ln_le_sub (1 - t) ltac:(lra)) as U. 
    replace (- ln (1 - t) / t) with (ln (1 - t) * / - t) by (field; lra). assert (I : 0 < / - t) by (apply Rinv_0_lt_compat; lra). split; [apply Rmult_le_pos; lra|].
    intros _. apply Rmult_le_reg_r with (- t); [lra|]. rewrite Rmult_assoc, Rinv_l by lra. lra.
  - split; [|lra]. assert (L : ln (1 - t) <= 0) by (rewrite <- ln_1; apply ln_le; lra). apply Rmult_le_pos; [lra|left; apply Rinv_0_lt_compat; lra].
Qed.
(** A function with a derivative between two bounds inside an interval. *)
Lemma grows (f : R -> R) a b : a <= b -> (forall x, a < x < b -> exists d, is_derive f x d /\ 0 <= d) -> (forall x, continuous f x) -> f a <= f b.
Proof.
  intros [AB|<-] HD HC; [|lra].
  assert (X : forall s, 0 < s < (b - a) / 2 -> f (a + s) <= f (b - s)).
  { intros s Hs. destruct (MVT_gen f (a + s) (b - s) (fun x => Derive f x)) as (c & C & E).
    - rewrite Rmin_left, Rmax_right by lra. intros t Ht. destruct (HD t ltac:(lra)) as (d & D1 & _). apply Derive_correct. exists d. exact D1.
    - rewrite Rmin_left, Rmax_right by lra. intros t Ht. apply continuity_pt_filterlim. apply HC.
    - rewrite Rmin_left, Rmax_right in C by lra. destruct (HD c ltac:(lra)) as (d & D1 & D2). rewrite (is_derive_unique _ _ _ D1) in E.
      assert (0 <= d * (b - s - (a + s))) by (apply Rmult_le_pos; lra). lra. }
  apply Rnot_lt_le. intros N. set (e := (f a - f b) / 2). assert (E0 : 0 < e) by (unfold e; lra).
  destruct (HC a (fun y => Rabs (y - f a) < e) ltac:(exists (mkposreal e E0); intros y Hy; exact Hy)) as (d1 & H1).
  destruct (HC b (fun y => Rabs (y - f b) < e) ltac:(exists (mkposreal e E0); intros y Hy; exact Hy)) as (d2 & H2).
  set (s := Rmin ((b - a) / 3) (Rmin (d1 / 2) (d2 / 2))). pose proof (cond_pos d1). pose proof (cond_pos d2).
  assert (S0 : 0 < s) by (unfold s; repeat apply Rmin_pos; lra). pose proof (Rmin_l ((b - a) / 3) (Rmin (d1 / 2) (d2 / 2))) as S1. pose proof (Rmin_r ((b - a) / 3) (Rmin (d1 / 2) (d2 / 2))) as S2.
  pose proof (Rmin_l (d1 / 2) (d2 / 2)). pose proof (Rmin_r (d1 / 2) (d2 / 2)). fold s in S1, S2.
  pose proof (X s ltac:(lra)) as F.
  assert (A1 : Rabs (f (a + s) - f a) < e). { apply (H1 (a + s)). unfold ball. cbn. unfold AbsRing_ball, abs, minus, plus, opp. cbn. rewrite Rabs_right; lra. }
  assert (A2 : Rabs (f (b - s) - f b) < e). { apply (H2 (b - s)). unfold ball. cbn. unfold AbsRing_ball, abs, minus, plus, opp. cbn. rewrite Rabs_left; lra. }
  apply Rabs_def2 in A1. apply Rabs_def2 in A2. unfold e in A1, A2. lra.
Qed.
Lemma full_neg x : x <= 0 -> x <= dilog_full x <= 0.
Proof.
  intros H. split.
  - pose proof (grows (fun t => t - dilog_full t) x 0 H) as G. cbv beta in G. rewrite full_zero in G. cut (x - dilog_full x <= 0 - 0); [lra|]. apply G.
    + intros t Ht. exists (minus 1 (- ln (Rabs (1 - t)) / t)). split; [apply @is_derive_minus; [apply @is_derive_id|apply full_derive; lra]|].
      destruct (slope t ltac:(lra)) as [_ S]. specialize (S ltac:(lra)). unfold minus, plus, opp. cbn. lra.
    + intros t. apply (continuous_minus (fun t => t) dilog_full); [apply continuous_id|apply full_cont].
  - rewrite <- full_zero. apply (grows dilog_full x 0 H); [|apply full_cont]. intros t Ht. exists (- ln (Rabs (1 - t)) / t). split; [apply full_derive; lra|]. apply slope; lra.
Qed.
Lemma full_unit x : 0 <= x <= 1 -> 0 <= dilog_full x <= PI ^ 2 / 6.
Proof.
  intros H. rewrite <- full_zero at 1. rewrite <- c0_is, <- full_one. split; apply grows; try lra; try apply full_cont; intros t Ht; exists (- ln (Rabs (1 - t)) / t); (split; [apply full_derive; lra|apply slope; lra]).
Qed.
Lemma full_low_bound x : x <= 1 -> Rmin x 0 <= dilog_full x.
Proof.
  intros H. destruct (Rle_dec x 0) as [L|L]; [rewrite Rmin_left by lra; apply full_neg; exact L|]. rewrite Rmin_right by lra. apply full_unit. lra.
Qed.
Lemma pi_sq : PI ^ 2 <= 1024 / 100.
Proof. pose proof PI_32. pose proof PI3. replace (1024 / 100) with ((32 / 10) ^ 2) by field. apply pow_incr. lra. Qed.
Lemma full_high_bound x : dilog_full x <= 35 / 10.
Proof.
  pose proof pi_sq as P. destruct (Rle_dec x 1) as [L|L].
  - destruct (Rle_dec x 0) as [L0|L0]; [pose proof (full_neg x L0); lra|]. pose proof (full_unit x ltac:(lra)). lra.
  - rewrite full_high by lra. unfold f_high. rewrite c0_is.
    assert (U : 0 <= 1 / x < 1). { split; [left; apply Rdiv_lt_0_compat; lra|]. apply Rmult_lt_reg_r with x; [lra|]. unfold Rdiv. rewrite Rmult_assoc, Rinv_l by lra. lra. }
    pose proof (full_unit (1 / x) ltac:(lra)) as F. rewrite full_mid in F by lra. pose proof (pow2_ge_0 (ln x)). lra.
Qed.
Lemma ln_up n x : 0 < x -> x <= 2 ^ n -> ln x <= INR n.
Proof.
  intros X H. rewrite <- (ln_exp (INR n)). apply ln_le; [exact X|]. apply Rle_trans with (2 ^ n); [exact H|].
  rewrite <- (Rmult_1_r (INR n)). rewrite <- (exp_ln (exp (INR n * 1))) by apply exp_pos. clear. induction n as [|n IH]; [cbn; rewrite Rmult_0_l, exp_ln, exp_0 by apply exp_pos; lra|].
  rewrite S_INR. rewrite exp_ln in IH |- * by apply exp_pos. replace ((INR n + 1) * 1) with (INR n * 1 + 1) by ring. rewrite exp_plus. cbn [pow]. rewrite Rmult_comm. pose proof (exp_ineq1_le 1). apply Rmult_le_compat; try lra. apply pow_le; lra.
Qed.
Lemma sqrt_in lo hi x : 0 <= lo -> 0 <= hi -> lo ^ 2 <= x <= hi ^ 2 -> lo <= sqrt x <= hi.
Proof. intros L H X. split; [rewrite <- (sqrt_pow2 lo L)|rewrite <- (sqrt_pow2 hi H)]; apply sqrt_le_1_alt; lra. Qed.
Lemma mul_le a b A B : 0 <= a <= A -> 0 <= b <= B -> a * b <= A * B.
Proof. intros. apply Rmult_le_compat; lra. Qed.
Lemma div_le a b c : 0 < b -> a <= c * b -> a / b <= c.
Proof. intros B H. apply Rmult_le_reg_r with b; [exact B|]. unfold Rdiv. rewrite Rmult_assoc, Rinv_l by lra. lra. Qed.
Lemma lambda_L r l : 0 < r -> r ^ 2 * sq (1 / r * l) = l ^ 2.
Proof. intros H. unfold sq. field. lra. Qed.
Section Num.
Variables (D : R -> R) (k : kin).
Hypothesis D_high : forall x, D x <= 36 / 10.
Hypothesis D_low : forall x, x <= 1 -> Rmin x 0 - 1 / 10 <= D x.
Hypothesis HQ : kQ_sq k = 5.
Hypothesis Hm : km k = 2 / 3.
Hypothesis HS : kS k - kQ_sq k - kV_1 k = 226 / 9.
Hypothesis HX : kX k + kQ_sq k - kV_2 k = 154 / 9.
Hypothesis Hmx : kmx_sq k = 256 / 9.
Lemma diffs : 164 / 1000 <= sqrt1p_1m (4 * sq (2 / 3) / 5) <= 165 / 1000 /\ -41 / 1000 <= sqrt1p_1m (- (4 * sq (2 / 3) * (256 / 9)) / sq (226 / 9)) <= -40 / 1000 /\
  -91 / 1000 <= sqrt1p_1m (- (4 * sq (2 / 3) * (256 / 9)) / sq (154 / 9)) <= -90 / 1000.
Proof.
  unfold sq. rewrite !sqrt1p_1m_eq by lra. repeat split.
  all: match goal with |- context [sqrt ?x] => first
    [ assert (B : 1164 / 1000 <= sqrt x <= 1165 / 1000) by (apply sqrt_in; lra); lra
    | assert (B : 959 / 1000 <= sqrt x <= 960 / 1000) by (apply sqrt_in; lra); lra
    | assert (B : 909 / 1000 <= sqrt x <= 910 / 1000) by (apply sqrt_in; lra); lra ] end.
Qed.
Lemma roots : 582 / 100 <= sqrt (5 * (5 + 4 * sq (2 / 3))) <= 583 / 100 /\ 24 <= sqrt (sq (226 / 9) - 4 * sq (2 / 3) * (256 / 9)) <= 25 /\ 15 <= sqrt (sq (154 / 9) - 4 * sq (2 / 3) * (256 / 9)) <= 16.
Proof. unfold sq. split; [|split]; apply sqrt_in; lra. Qed.
Lemma square_roots : sqrt (sq (226 / 9) - 4 * sq (2 / 3) * (256 / 9)) ^ 2 = sq (226 / 9) - 4 * sq (2 / 3) * (256 / 9) /\ sqrt (sq (154 / 9) - 4 * sq (2 / 3) * (256 / 9)) ^ 2 = sq (154 / 9) - 4 * sq (2 / 3) * (256 / 9) /\
  sqrt (5 * (5 + 4 * sq (2 / 3))) ^ 2 = 5 * (5 + 4 * sq (2 / 3)).
Proof. unfold sq. repeat split; apply pow2_sqrt; lra. Qed.
Lemma num : -78 <= delta_vert_rad_0 D k.
Proof.
  unfold delta_vert_rad_0. cbv zeta. rewrite HS, HX, HQ, Hm, Hmx. destruct diffs as (Dm & DS & DX). destruct roots as (Rm & RS & RX). destruct square_roots as (QS & QX & Qm).
  rewrite <- QS, <- QX, <- Qm. rewrite !sqrt_pow2 by (apply sqrt_pos).
  set (dm := sqrt1p_1m (4 * sq (2 / 3) / 5)) in *. set (dS := sqrt1p_1m (- (4 * sq (2 / 3) * (256 / 9)) / sq (226 / 9))) in *. set (dX := sqrt1p_1m (- (4 * sq (2 / 3) * (256 / 9)) / sq (154 / 9))) in *.
  set (r := sqrt (5 * (5 + 4 * sq (2 / 3)))) in *. set (rS := sqrt (sq (226 / 9) - 4 * sq (2 / 3) * (256 / 9))) in *. set (rX := sqrt (sq (154 / 9) - 4 * sq (2 / 3) * (256 / 9))) in *.
  clearbody dm dS dX r rS rX. rewrite !lambda_L by lra.
  set (lm := ln ((2 + dm) / dm)). set (lS := ln (- (2 + dS) / dS)). set (lX := ln (- (2 + dX) / dX)).
  assert (Lm : 0 <= lm <= 4). { unfold lm. assert (1 <= (2 + dm) / dm <= 2 ^ 4).
    { split; [|apply div_le; lra]. apply Rmult_le_reg_r with dm; [lra|]. unfold Rdiv. rewrite Rmult_assoc, Rinv_l by lra. lra. }
    split; [rewrite <- ln_1; apply ln_le; lra|]. replace 4 with (INR 4) by (cbn; lra). apply ln_up; lra. }
  assert (LS : 0 <= lS). { unfold lS. replace (- (2 + dS) / dS) with ((2 + dS) / - dS) by (field; lra). assert (1 <= (2 + dS) / - dS).
    { apply Rmult_le_reg_r with (- dS); [lra|]. unfold Rdiv. rewrite Rmult_assoc, Rinv_l by lra. lra. } rewrite <- ln_1; apply ln_le; lra. }
  assert (LX : 0 <= lX <= 5). { unfold lX. replace (- (2 + dX) / dX) with ((2 + dX) / - dX) by (field; lra). assert (1 <= (2 + dX) / - dX <= 2 ^ 5).
    { split; [|apply div_le; lra]. apply Rmult_le_reg_r with (- dX); [lra|]. unfold Rdiv. rewrite Rmult_assoc, Rinv_l by lra. lra. }
    split; [rewrite <- ln_1; apply ln_le; lra|]. replace 5 with (INR 5) by (cbn; lra). apply ln_up; lra. }
  clearbody lm lS lX. clear Qm QS QX DX.
  set (c := (5 + 2 * sq (2 / 3)) / r). assert (C : 1 <= c <= 102 / 100). { unfold c, sq. split; [apply Rmult_le_reg_r with r; [lra|]; unfold Rdiv; rewrite Rmult_assoc, Rinv_l by lra; lra|apply div_le; lra]. }
  set (rho := 1 / r * ((5 + 2 * sq (2 / 3) + r) * (226 / 9) - 2 * sq (2 / 3) * (154 / 9))).
  assert (RH : 0 <= rho <= 485 / 10). { replace rho with (((5 + 2 * sq (2 / 3) + r) * (226 / 9) - 2 * sq (2 / 3) * (154 / 9)) / r) by (unfold rho, Rdiv; ring). unfold sq. split; [left; apply Rdiv_lt_0_compat; lra|apply div_le; lra]. }
  clearbody rho c.
  assert (T1 : - (1 / 10) <= D (1 - 1 / ((2 + dS) * (226 / 9)) * rho)).
  { assert (B : 0 <= 1 / ((2 + dS) * (226 / 9)) * rho <= 1). { replace (1 / ((2 + dS) * (226 / 9)) * rho) with (rho / ((2 + dS) * (226 / 9))) by (field; lra). split; [apply Rmult_le_pos; [lra|left; apply Rinv_0_lt_compat; lra]|apply div_le; lra]. }
    eapply Rle_trans; [|apply D_low; lra]. rewrite Rmin_right by lra. lra. }
  assert (T2 : - (467 / 10) <= D (1 - (2 + dS) * (226 / 9) / (4 * sq (2 / 3) * (256 / 9)) * rho)).
  { assert (B : 0 <= (2 + dS) * (226 / 9) / (4 * sq (2 / 3) * (256 / 9)) * rho <= 476 / 10).
    { assert (F : 0 <= (2 + dS) * (226 / 9) / (4 * sq (2 / 3) * (256 / 9)) <= 98 / 100) by (unfold sq; split; lra). split; [apply Rmult_le_pos; lra|]. eapply Rle_trans; [apply mul_le; [exact F|exact RH]|lra]. }
    eapply Rle_trans; [|apply D_low; lra]. apply Rle_trans with (- (466 / 10) - 1 / 10); [lra|]. apply Rplus_le_compat_r. apply Rmin_glb; lra. }
  pose proof (D_high (1 - (2 + dX) * (154 / 9) / (256 / 9 * sq (2 + dm) * 5) * rho)) as T3. pose proof (D_high (1 - 4 * sq (2 / 3) / ((2 + dX) * (154 / 9) * sq (2 + dm) * 5) * rho)) as T4.
  pose proof (D_high (2 * r / (5 + r))) as T5.
  set (D1 := D (1 - 1 / ((2 + dS) * (226 / 9)) * rho)) in *. set (D2 := D (1 - (2 + dS) * (226 / 9) / (4 * sq (2 / 3) * (256 / 9)) * rho)) in *.
  set (D3 := D (1 - (2 + dX) * (154 / 9) / (256 / 9 * sq (2 + dm) * 5) * rho)) in *. set (D4 := D (1 - 4 * sq (2 / 3) / ((2 + dX) * (154 / 9) * sq (2 + dm) * 5) * rho)) in *. set (D5 := D (2 * r / (5 + r))) in *.
  clearbody D1 D2 D3 D4 D5.
  assert (P1 : 0 <= 1 / 2 * (226 / 9) * (1 / rS * lS)). { apply Rmult_le_pos; [lra|]. apply Rmult_le_pos; [left; apply Rdiv_lt_0_compat; lra|lra]. }
  assert (P2 : 0 <= 1 / 2 * (154 / 9) * (1 / rX * lX)). { apply Rmult_le_pos; [lra|]. apply Rmult_le_pos; [left; apply Rdiv_lt_0_compat; lra|lra]. }
  assert (P3 : 0 <= (3 / 2 * 5 + 4 * sq (2 / 3)) * (1 / r * lm)). { apply Rmult_le_pos; [unfold sq; lra|]. apply Rmult_le_pos; [left; apply Rdiv_lt_0_compat; lra|lra]. }
  assert (S1 : 0 <= lS ^ 2) by apply pow2_ge_0. assert (S2 : lX ^ 2 <= 5 ^ 2) by (apply pow_incr; lra). assert (S3 : lm ^ 2 <= 4 ^ 2) by (apply pow_incr; lra).
  pose proof PI3 as P. assert (PP : 9 <= sq PI) by (unfold sq; replace 9 with (3 * 3) by ring; apply Rmult_le_compat; lra).
  replace (1 / 2 * r ^ 2 * sq (1 / r * lm)) with (1 / 2 * lm ^ 2) by (rewrite Rmult_assoc, lambda_L by lra; reflexivity).
  assert (A : c * -61 <= c * (lS ^ 2 / 4 - lX ^ 2 / 4 + D1 + D2 - D3 - D4)) by (apply Rmult_le_compat_l; lra).
  assert (B : c * (1 / 2 * lm ^ 2 + 2 * D5 - 1 / 2 * sq PI) <= c * 11) by (apply Rmult_le_compat_l; lra). lra.
Qed.
Hypothesis Hmx1 : kmx k = 16 / 3.
Hypothesis Hth : kMth k = 5.
Lemma num_ir k0 : 31 / 96 <= k0 -> exists dv, delta_vert_rad_ir D k k0 = Fin dv /\ -79 <= dv.
Proof.
  intros H. unfold delta_vert_rad_ir. cbv zeta. rewrite Hmx, Hmx1, Hth. replace (rltb 0 k0) with true by (symmetry; apply rltb_spec; lra).
  replace (rltb k0 ((256 / 9 - sq 5) / (2 * (16 / 3)))) with false by (symmetry; apply rltb_false; unfold sq; lra). cbn [negb].
  eexists. split; [reflexivity|]. pose proof num as N. rewrite HQ, Hm. replace ((256 / 9 - sq 5) / (2 / 3 * (16 / 3))) with (31 / 32) by (unfold sq; field).
  assert (L : - (1 / 31) <= ln (31 / 32) <= 0).
  { pose proof (ln_le_sub (/ (31 / 32)) ltac:(apply Rinv_0_lt_compat; lra)) as U. rewrite ln_Rinv in U by lra. replace (/ (31 / 32)) with (32 / 31) in U by field. split; [lra|]. rewrite <- ln_1. apply ln_le; lra. }
  destruct diffs as (Dm & _). destruct roots as (Rm & _). unfold lepton_L. cbv zeta.
  set (dm := sqrt1p_1m (4 * sq (2 / 3) / 5)) in *. set (r := sqrt (5 * (5 + 4 * sq (2 / 3)))) in *. clearbody dm r.
  set (lm := ln ((2 + dm) / dm)). assert (Lm : 0 <= lm <= 4). { unfold lm. assert (1 <= (2 + dm) / dm <= 2 ^ 4).
    { split; [|apply div_le; lra]. apply Rmult_le_reg_r with dm; [lra|]. unfold Rdiv. rewrite Rmult_assoc, Rinv_l by lra. lra. }
    split; [rewrite <- ln_1; apply ln_le; lra|]. replace 4 with (INR 4) by (cbn; lra). apply ln_up; lra. }
  clearbody lm. assert (F : 0 <= (5 + 2 * sq (2 / 3)) * (1 / r * lm) <= 5).
  { replace ((5 + 2 * sq (2 / 3)) * (1 / r * lm)) with (((5 + 2 * sq (2 / 3)) * lm) / r) by (field; lra). unfold sq. split; [apply Rmult_le_pos; [lra|left; apply Rinv_0_lt_compat; lra]|apply div_le; lra]. }
  set (f := (5 + 2 * sq (2 / 3)) * (1 / r * lm)) in *. clearbody f. assert (0 <= (1 / 31 + ln (31 / 32)) * (5 - f)) by (apply Rmult_le_pos; lra). assert (0 <= - ln (31 / 32) * f) by (apply Rmult_le_pos; lra). assert (- (1 / 31) * f <= ln (31 / 32) * f) by (apply Rmult_le_compat_r; lra). lra.
Qed.
End Num.
(** A lepton of mass 2/3 scattering off a target of mass 5, all momenta rational. *)
Definition w_event := Event 5 (2 / 3) (2 / 3) (7 / 2) (4 / 3) (19 / 6) 2 3 1 (2 / 3) (1 / 3) (PI / 2) 0.
Definition w_kin : kin := make_kin (event_parts w_event P_ E_ PI_P 5) (event_S w_event) (event_space w_event).
(** The only structure function: that of longitudinal photons. *)
Definition w_sf : sf_set sf_point := fun n p => match n with F_UUL => 1 | _ => 0 end.
Ltac wev := unfold w_event, v_k2, v_k1, v_q, v_ph, v_p; cbn [e_M e_m e_mh e_E e_kx e_kz e_q0 e_qz e_Eh e_pt e_pl e_phi_h e_phi]; rewrite ?cos_PI2, ?sin_PI2.
Lemma w_same : same_event w_event (event_parts w_event P_ E_ PI_P 5) (event_S w_event) (event_space w_event).
Proof.
  unfold same_event. repeat split; unfold w_event, v_k2, v_k1, v_q, v_ph, norm_sq4, dot4, sub4, sq; cbn [e_M e_m e_mh e_E e_kx e_kz e_q0 e_qz e_Eh e_pt e_pl e_phi_h e_phi t4 x4 y4 z4];
    rewrite ?cos_PI2, ?sin_PI2; uvec; lra.
Qed.
Lemma w_fields : kQ_sq w_kin = 5 /\ km w_kin = 2 / 3 /\ kS w_kin - kQ_sq w_kin - kV_1 w_kin = 226 / 9 /\ kX w_kin + kQ_sq w_kin - kV_2 w_kin = 154 / 9 /\ kmx_sq w_kin = 256 / 9 /\
  kmx w_kin = 16 / 3 /\ kMth w_kin = 5 /\ kS w_kin = 35 /\ kX w_kin = 15 /\ kM w_kin = 5 /\ kS_x w_kin = 20 /\ klambda_S w_kin = 10625 / 9 /\ klambda_Y w_kin = 900 /\ kph_l w_kin = 1 / 3 /\ kph_t_sq w_kin = 4 / 9.
Proof.
  destruct (event_names_id _ _ _ _ w_same) as [N1 N2]. fold w_kin in N1, N2.
  pose proof (n_Q_sq _ _ _ _ _ N1) as F1. pose proof (n_m _ _ _ _ _ N2) as F2. pose proof (n_S _ _ _ _ _ N2) as F3. pose proof (n_V_1 _ _ _ _ _ N2) as F4. pose proof (n_X _ _ _ _ _ N2) as F5.
  pose proof (n_V_2 _ _ _ _ _ N2) as F6. pose proof (n_mx_sq _ _ _ _ _ N1) as F7. pose proof (n_mx _ _ _ _ _ N1) as F8. pose proof (n_M _ _ _ _ _ N2) as F9. pose proof (n_S_x _ _ _ _ _ N1) as F10.
  pose proof (n_lambda_S _ _ _ _ _ N2) as F11. pose proof (n_lambda_Y _ _ _ _ _ N1) as F12. pose proof (n_ph_l _ _ _ _ _ N1) as F13. pose proof (n_ph_t_sq _ _ _ _ _ N1) as F14.
  cbn [kin_vals iQ_sq imx_sq imx iS_x ilambda_Y iph_l iph_t_sq] in *. clear N1 N2.
  assert (Qv : kQ_sq w_kin = 5) by (rewrite F1; wev; uvec; lra).
  assert (Sv : kS w_kin = 35) by (rewrite F3; wev; uvec; lra).
  assert (Xv : kX w_kin = 15) by (rewrite F5; wev; uvec; lra).
  assert (V1 : kV_1 w_kin = 44 / 9) by (rewrite F4; wev; uvec; lra).
  assert (V2 : kV_2 w_kin = 26 / 9) by (rewrite F6; wev; uvec; lra).
  assert (M2 : norm_sq4 (v_k1 w_event) = (2 / 3) ^ 2) by (wev; uvec; lra).
  assert (MX : norm_sq4 (sub4 (add4 (v_p w_event) (v_q w_event)) (v_ph w_event)) = (16 / 3) ^ 2) by (wev; uvec; lra).
  assert (MM : norm_sq4 (v_p w_event) = 5 ^ 2) by (wev; uvec; lra).
  rewrite M2, sqrt_pow2 in F2 by lra. rewrite MX in F7, F8. rewrite sqrt_pow2 in F8 by lra. rewrite MM, sqrt_pow2 in F9 by lra.
  split; [exact Qv|]. split; [exact F2|]. split; [lra|]. split; [lra|]. split; [lra|]. split; [exact F8|]. split; [reflexivity|]. split; [exact Sv|]. split; [exact Xv|]. split; [exact F9|].
  split; [rewrite F10; wev; uvec; lra|]. split; [rewrite F11; unfold gram2; wev; uvec; lra|]. split; [rewrite F12; unfold gram2; wev; uvec; lra|].
  split.
  - rewrite F13. unfold along. assert (Z : sdot (v_p w_event) (v_q w_event) (v_q w_event) = 3 ^ 2) by (unfold sdot; wev; uvec; lra). rewrite Z, sqrt_pow2 by lra. unfold sdot; wev; uvec; lra.
  - rewrite F14. unfold gram2, gram3; wev; uvec; lra.
Qed.
Lemma w_C1 : 0 < kC_1 w_kin.
Proof.
  destruct w_fields as (Q & _ & _ & _ & _ & _ & _ & _ & _ & M & Sx & _ & _ & PL & _).
  destruct (event_names_id _ _ _ _ w_same) as [N1 _]. fold w_kin in N1. pose proof (n_C_1 _ _ _ _ _ N1) as F. pose proof (n_ph_l _ _ _ _ _ N1) as F'. cbn [kin_vals iC_1 iph_l] in F, F'. rewrite F, <- F', PL. clear.
  assert (MM : norm_sq4 (v_p w_event) = 5 ^ 2) by (wev; uvec; lra). rewrite MM, sqrt_pow2 by lra. assert (NQ : norm_sq4 (v_q w_event) = -5) by (wev; uvec; lra). rewrite NQ.
  assert (PQ : dot4 (v_p w_event) (v_q w_event) = 10) by (wev; uvec; lra). rewrite PQ. unfold sq. lra.
Qed.
Lemma w_born al h : 0 < al -> 0 < born w_sf w_kin (Phenom al h) 0 (V3 0 0 0).
Proof.
  intros A. destruct w_fields as (Q & _ & _ & _ & _ & _ & _ & Sv & Xv & M & Sx & LS & LY & PL & PT). pose proof w_C1 as C. rewrite born_full. cbn [x3 y3 z3]. rewrite !Rmult_0_l, !Rplus_0_r.
  unfold born_base_uu, make_had_base_uu, LepBornBaseUU, sf_base_uu, w_sf, Born. cbn [born_coeff lb1 lb2 lb3 lb4 h10 h20 h30 h40 uu_F_UUL uu_F_UU_cos_phih uu_F_UU_cos_2phih uu_F_UUT p_alpha_qed].
  rewrite Q, Sv, Xv, M, Sx, LS, LY, PL, PT. unfold sq.
  match goal with |- 0 < ?x => replace x with (al * al * (kC_1 w_kin) * (35 * (20 * 20) / (8 * 5 * (1 / 3) * (10625 / 9)) * (200 * (20 / 900)))) by field end.
  apply Rmult_lt_0_compat; [|lra]. apply Rmult_lt_0_compat; [apply Rmult_lt_0_compat; exact A|exact C].
Qed.
Lemma w_delta D k0 : (forall x, D x <= 36 / 10) -> (forall x, x <= 1 -> Rmin x 0 - 1 / 10 <= D x) -> 31 / 96 <= k0 -> exists dv, delta_vert_rad_ir D w_kin k0 = Fin dv /\ -79 <= dv.
Proof. intros H1 H2. destruct w_fields as (Q & M & S & X & MX & MX1 & T & _). exact (num_ir D w_kin H1 H2 Q M S X MX MX1 T k0). Qed.
