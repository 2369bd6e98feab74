(** The vertex correction. *)
From Coq Require Import Reals Lra Lia.
From Coquelicot Require Import Coquelicot.
From Verif Require Import ExtModel MathModel MathProofs DilogSpec DilogProofs Basel XsModel VirtSpec VirtVac.
Local Open Scope R_scope.
Set Bullet Behavior "Strict Subproofs".

Section D.
Variable D : R -> R.
Hypothesis HD : is_dilog D.
Lemma D_full x : D x = dilog_full x. Proof. exact (dilog_unique D dilog_full HD full_is_dilog x). Qed.
Lemma D_reflect x : 0 < x < 1 -> D (1 - x) = PI ^ 2 / 6 - ln x * ln (1 - x) - D x.
Proof. intros H. rewrite !D_full, !full_mid by lra. pose proof (reflection x H) as E. rewrite c0_is in E. lra. Qed.
Lemma D_invert x : 0 < x < 1 -> D (/ x) = PI ^ 2 / 3 - / 2 * ln x ^ 2 - D x.
Proof.
  intros H. assert (1 < / x) by (rewrite <- Rinv_1; apply Rinv_lt_contravar; lra). rewrite !D_full, full_high, full_mid by lra. unfold f_high. rewrite c0_is.
  rewrite ln_Rinv by lra. replace (1 / / x) with x by (field; lra). field.
Qed.
Lemma D_der x : 0 < x -> x <> 1 -> is_derive D (1 - x) (- ln x / (1 - x)).
Proof. intros H N. replace (ln x) with (ln (Rabs (1 - (1 - x)))); [apply (dl_derive D HD); lra|]. f_equal. rewrite Rabs_right by lra. ring. Qed.

Section Q.
Variables Q m : R.
Hypothesis HQ : 0 < Q.
Hypothesis Hm : 0 < m.
Notation cc := (cc Q m).
Definition log_value : R := let r := sqrt (Q * (Q + 4 * sq m)) in 2 / r * (1 / 2 * (Q * (Q + 4 * sq m)) * sq (lepton_L Q m) + 2 * D ((2 * r) / (Q + r)) - 1 / 2 * sq PI).
Lemma root_is : sqrt (Q * (Q + 4 * sq m)) = 2 * Q * cc.
Proof.
  pose proof (cc_half Q m HQ Hm). apply sqrt_lem_1; [|apply Rmult_le_pos; lra|].
  - apply Rmult_le_pos; [lra|]. unfold sq. assert (0 < m * m) by (apply Rmult_lt_0_compat; lra). lra.
  - replace (2 * Q * cc * (2 * Q * cc)) with (4 * Q * Q * cc ^ 2) by ring. rewrite (cc_sq Q m HQ Hm). unfold sq. field. lra.
Qed.
Lemma log_integral : is_RInt (fun a => ln (mean_mass_sq Q m a / m ^ 2) / mean_mass_sq Q m a) 0 1 log_value.
Proof.
  pose proof (cc_half Q m HQ Hm) as C. set (c := cc) in *.
  set (l1 := ln (c + 1 / 2)). set (l2 := ln (c - 1 / 2)). set (l := ln (2 * c)).
  evar_last.
  - apply (is_RInt_ext (fun a => (ln (c - (a - 1 / 2)) + ln (c + (a - 1 / 2)) - l2 - l1) * (/ (c + (a - 1 / 2)) + / (c - (a - 1 / 2))) * / (2 * Q * c))).
    { intros a Ha. rewrite Rmin_left, Rmax_right in Ha by lra. rewrite (ln_mean Q m HQ Hm) by lra. rewrite (mean_is Q m HQ Hm). destruct (in_range Q m HQ Hm a ltac:(lra)) as [P1 P2]. fold c in P1, P2. fold c. fold l1 l2. toR. field. repeat split; lra. }
    apply (is_int (fun a => (/ 2 * ln (c + (a - 1 / 2)) ^ 2 - / 2 * ln (c - (a - 1 / 2)) ^ 2 + (l - l1 - l2) * (ln (c + (a - 1 / 2)) - ln (c - (a - 1 / 2)))
       - D (1 - (c - (a - 1 / 2)) / (2 * c)) + D (1 - (c + (a - 1 / 2)) / (2 * c))) * / (2 * Q * c))); [lra| |].
    + intros a Ha. destruct (in_range Q m HQ Hm a Ha) as [P1 P2]. fold c in P1, P2. clearbody l1 l2.
      assert (U1 : 0 < (c - (a - 1 / 2)) / (2 * c)) by (apply Rdiv_lt_0_compat; lra). assert (U2 : 0 < (c + (a - 1 / 2)) / (2 * c)) by (apply Rdiv_lt_0_compat; lra).
      assert (S1 : (c - (a - 1 / 2)) / (2 * c) + (c + (a - 1 / 2)) / (2 * c) = 1) by (field; lra).
      assert (D1 : is_derive (fun a => D (1 - (c - (a - 1 / 2)) / (2 * c))) a (/ (2 * c) * (- ln ((c - (a - 1 / 2)) / (2 * c)) / (1 - (c - (a - 1 / 2)) / (2 * c))))).
      { apply (is_derive_comp D (fun a => 1 - (c - (a - 1 / 2)) / (2 * c))); [apply D_der; lra|]. auto_derive; [lra|]. field. lra. }
      assert (D2 : is_derive (fun a => D (1 - (c + (a - 1 / 2)) / (2 * c))) a (- / (2 * c) * (- ln ((c + (a - 1 / 2)) / (2 * c)) / (1 - (c + (a - 1 / 2)) / (2 * c))))).
      { apply (is_derive_comp D (fun a => 1 - (c + (a - 1 / 2)) / (2 * c))); [apply D_der; lra|]. auto_derive; [lra|]. field. lra. }
      assert (D3 : is_derive (fun a => / 2 * ln (c + (a - 1 / 2)) ^ 2 - / 2 * ln (c - (a - 1 / 2)) ^ 2 + (l - l1 - l2) * (ln (c + (a - 1 / 2)) - ln (c - (a - 1 / 2)))) a
        (ln (c + (a - 1 / 2)) / (c + (a - 1 / 2)) + ln (c - (a - 1 / 2)) / (c - (a - 1 / 2)) + (l - l1 - l2) * (/ (c + (a - 1 / 2)) + / (c - (a - 1 / 2))))).
      { clearbody l. auto_derive; [repeat split; lra|]. fold_minus. field. repeat split; lra. }
      evar_last.
      * apply (is_derive_ext (fun a => / (2 * Q * c) * ((/ 2 * ln (c + (a - 1 / 2)) ^ 2 - / 2 * ln (c - (a - 1 / 2)) ^ 2 + (l - l1 - l2) * (ln (c + (a - 1 / 2)) - ln (c - (a - 1 / 2))))
          - D (1 - (c - (a - 1 / 2)) / (2 * c)) + D (1 - (c + (a - 1 / 2)) / (2 * c))))); [intros t; toR; ring|].
        apply is_derive_scal. apply @is_derive_plus; [apply @is_derive_minus; [exact D3|exact D1]|exact D2].
      * assert (LA : forall z, 0 < z -> ln (z / (2 * c)) = ln z - l) by (intros z Z; unfold Rdiv; rewrite ln_mult, ln_Rinv by (try apply Rinv_0_lt_compat; lra); reflexivity).
        unfold minus. toR. rewrite !LA by lra. clearbody l. set (p1 := ln (c - (a - 1 / 2))). set (p2 := ln (c + (a - 1 / 2))). clearbody p1 p2.
        replace (1 - (c - (a - 1 / 2)) / (2 * c)) with ((c + (a - 1 / 2)) / (2 * c)) by lra. replace (1 - (c + (a - 1 / 2)) / (2 * c)) with ((c - (a - 1 / 2)) / (2 * c)) by lra.
        field. repeat split; lra.
    + intros a Ha. destruct (in_range Q m HQ Hm a Ha) as [P1 P2]. fold c in P1, P2. apply (ex_derive_continuous (V := R_NormedModule)). auto_derive. repeat split; lra.
  - replace (1 - 1 / 2) with (1 / 2) by lra. replace (0 - 1 / 2) with (- (1 / 2)) by lra. replace (c - - (1 / 2)) with (c + 1 / 2) by ring. replace (c + - (1 / 2)) with (c - 1 / 2) by ring.
    fold l1 l2. set (x := (c + 1 / 2) / (2 * c)). assert (X : 0 < x < 1).
    { unfold x. split; [apply Rdiv_lt_0_compat; lra|]. apply Rmult_lt_reg_r with (2 * c); [lra|]. unfold Rdiv. rewrite Rmult_assoc, Rinv_l by lra. lra. }
    assert (X' : (c - 1 / 2) / (2 * c) = 1 - x) by (unfold x; field; lra). rewrite X'. replace (1 - (1 - x)) with x by ring. rewrite (D_reflect x X).
    assert (LX : ln x = l1 - l) by (unfold x, Rdiv; rewrite ln_mult, ln_Rinv by (try apply Rinv_0_lt_compat; lra); reflexivity).
    assert (LX' : ln (1 - x) = l2 - l) by (rewrite <- X'; unfold Rdiv; rewrite ln_mult, ln_Rinv by (try apply Rinv_0_lt_compat; lra); reflexivity).
    unfold log_value. cbv zeta. rewrite root_is. fold c. replace (2 * (2 * Q * c) / (Q + 2 * Q * c)) with (/ x).
    2:{ unfold x. assert (0 < Q * c) by (apply Rmult_lt_0_compat; lra). field. repeat split; lra. }
    rewrite (D_invert x X), LX, LX'. rewrite (L_is Q m HQ Hm). fold c l1 l2. replace (Q * (Q + 4 * sq m)) with (4 * Q ^ 2 * c ^ 2).
    2:{ unfold c. rewrite (cc_sq Q m HQ Hm). unfold sq. field. lra. }
    cbn -[Rmult Rplus pow]. unfold sq. field. lra.
Qed.

(** the integral over the second parameter *)
Definition den e := sqrt (e * (1 - e / 4)).
Definition rr e := -1 - / 2 * ln e + e * (/ 2 * ln e + (3 / 2 - e / 2) / den e * (atan ((1 - e / 2) / den e) + atan (e / 2 / den e))).
Lemma den_pos e : 0 < e <= 1 -> 0 < e * (1 - e / 4).
Proof. intros H. apply Rmult_lt_0_compat; lra. Qed.
Lemma den_sq e : 0 < e <= 1 -> den e ^ 2 = e * (1 - e / 4) /\ 0 < den e.
Proof. intros H. pose proof (den_pos e H). unfold den. split; [cbn [pow]; rewrite Rmult_1_r; apply sqrt_sqrt; lra|apply sqrt_lt_R0; lra]. Qed.
Lemma w_den e w : 0 < e <= 1 -> 0 <= w <= 1 -> 0 < w ^ 2 + e * (1 - w).
Proof.
  intros He Hw. destruct (Req_dec w 0) as [->|N]; [replace (0 ^ 2 + e * (1 - 0)) with e by ring; lra|].
  assert (0 < w ^ 2) by (apply pow_lt; lra). assert (0 <= e * (1 - w)) by (apply Rmult_le_pos; lra). lra.
Qed.
Lemma rr_int e : 0 < e <= 1 -> is_RInt (fun w => w * (1 - w) / (w ^ 2 + e * (1 - w))) 0 1 (rr e).
Proof.
  intros He. destruct (den_sq e He) as [DS DP]. set (d := den e) in *. evar_last.
  - apply (is_int (fun w => - w + / 2 * ln (w ^ 2 + e * (1 - w)) + e * (- / 2 * ln (w ^ 2 + e * (1 - w)) + (3 / 2 - e / 2) / d * atan ((w - e / 2) / d)))); [lra| |].
    + intros w Hw. pose proof (w_den e w He Hw) as W. auto_derive; [repeat split; cbn [pow] in *; lra|].
      assert (DD : d ^ 2 * (1 + ((w - e / 2) / d) ^ 2) = w ^ 2 + e * (1 - w)).
      { replace (d ^ 2 * (1 + ((w - e / 2) / d) ^ 2)) with (d ^ 2 + (w - e / 2) ^ 2) by (field; lra). rewrite DS. field. }
      assert (IV : / (1 + ((w - e / 2) / d) ^ 2) = d ^ 2 / (w ^ 2 + e * (1 - w))) by (rewrite <- DD; pose proof (pow2_ge_0 ((w - e / 2) / d)) as Y; set (y := ((w - e / 2) / d) ^ 2) in *; clearbody y; field; lra).
      match goal with |- context [/ (1 + ?z)] => replace z with (((w - e / 2) / d) ^ 2) by (cbn [pow]; unfold Rdiv, Rminus; ring) end. 
      rewrite IV. cbn [pow] in *. field. split; lra.
    + intros w Hw. pose proof (w_den e w He Hw) as W. apply (ex_derive_continuous (V := R_NormedModule)). auto_derive. cbn [pow] in *. lra.
  - unfold rr. fold d. replace (1 ^ 2 + e * (1 - 1)) with 1 by ring. replace (0 ^ 2 + e * (1 - 0)) with e by ring. rewrite ln_1. replace ((0 - e / 2) / d) with (- (e / 2 / d)) by (field; lra). rewrite atan_opp. cbn -[Rmult Rplus pow]. field. lra.
Qed.
Lemma tt_int e : 0 < e <= 1 -> is_RInt (fun w => w ^ 3 / (w ^ 2 + e * (1 - w))) 0 1 (1 / 2 - e * rr e).
Proof.
  intros He. evar_last.
  - apply (is_RInt_ext (fun w => minus w (scal e (w * (1 - w) / (w ^ 2 + e * (1 - w)))))).
    { intros w Hw. rewrite Rmin_left, Rmax_right in Hw by lra. pose proof (w_den e w He ltac:(lra)) as W. change (w - e * (w * (1 - w) / (w ^ 2 + e * (1 - w))) = w ^ 3 / (w ^ 2 + e * (1 - w))). field. lra. }
    apply (is_RInt_minus (V := R_NormedModule)); [|apply (is_RInt_scal (V := R_NormedModule)), rr_int; exact He].
    apply (is_int (fun w => w ^ 2 / 2)); [lra| |]; intros w _; [auto_derive; [auto|field]|apply continuous_id].
  - unfold minus. toR. field.
Qed.
Lemma ln_small e : 0 < e <= 1 -> 0 <= - ln e * sqrt e <= 2.
Proof.
  intros H. assert (S : 0 < sqrt e) by (apply sqrt_lt_R0; lra). assert (L : ln e = 2 * ln (sqrt e)) by (rewrite <- (sqrt_sqrt e) at 1 by lra; rewrite ln_mult by lra; ring).
  assert (N : ln e <= 0) by (rewrite <- ln_1; apply ln_le; lra). split; [apply Rmult_le_pos; lra|].
  assert (- ln (sqrt e) <= / sqrt e).
  { rewrite <- ln_Rinv by lra. pose proof (Rinv_0_lt_compat _ S) as I. pose proof (exp_ineq1_le (ln (/ sqrt e))) as X. rewrite exp_ln in X by lra. lra. }
  rewrite L. replace (- (2 * ln (sqrt e)) * sqrt e) with (2 * (- ln (sqrt e) * sqrt e)) by ring. assert (- ln (sqrt e) * sqrt e <= / sqrt e * sqrt e) by (apply Rmult_le_compat_r; lra). rewrite Rinv_l in * by lra. lra.
Qed.
Lemma atan_up x : - 2 < atan x < 2.
Proof. pose proof (atan_bound x). pose proof PI_4. lra. Qed.
Lemma rr_close e : 0 < e <= 1 -> Rabs (rr e - (-1 - / 2 * ln e)) <= 9 * sqrt e.
Proof.
  intros He. destruct (den_sq e He) as [DS DP]. assert (S : 0 < sqrt e) by (apply sqrt_lt_R0; lra). assert (SS : sqrt e * sqrt e = e) by (apply sqrt_sqrt; lra).
  unfold rr. match goal with |- Rabs (?a + ?b - ?a) <= _ => replace (a + b - a) with b by ring end.
  rewrite Rmult_plus_distr_l. eapply Rle_trans; [apply Rabs_triang|].
  assert (A : Rabs (e * (/ 2 * ln e)) <= sqrt e).
  { pose proof (ln_small e He) as LS. rewrite <- SS at 1. replace (sqrt e * sqrt e * (/ 2 * ln e)) with (- (sqrt e * (/ 2 * (- ln e * sqrt e)))) by ring. rewrite Rabs_Ropp, Rabs_right.
    - rewrite <- (Rmult_1_r (sqrt e)) at 3. apply Rmult_le_compat_l; lra.
    - apply Rle_ge, Rmult_le_pos; lra. }
  assert (B : e / den e <= 5 / 4 * sqrt e).
  { assert (K : 4 / 5 * sqrt e <= den e).
    { apply Rsqr_incr_0_var; [|lra]. unfold Rsqr. replace (den e * den e) with (den e ^ 2) by ring. rewrite DS. replace (4 / 5 * sqrt e * (4 / 5 * sqrt e)) with (16 / 25 * (sqrt e * sqrt e)) by field. rewrite SS.
      replace (16 / 25 * e) with (e * (16 / 25)) by ring. apply Rmult_le_compat_l; lra. }
    apply Rmult_le_reg_r with (den e); [lra|]. unfold Rdiv at 1. rewrite Rmult_assoc, Rinv_l, Rmult_1_r by lra. rewrite <- SS at 1.
    replace (5 / 4 * sqrt e * den e) with (sqrt e * (5 / 4 * den e)) by ring. apply Rmult_le_compat_l; lra. }
  assert (B0 : 0 < e / den e) by (apply Rdiv_lt_0_compat; lra).
  pose proof (atan_up ((1 - e / 2) / den e)) as T1. pose proof (atan_up (e / 2 / den e)) as T2. set (t := atan ((1 - e / 2) / den e) + atan (e / 2 / den e)).
  assert (TB : Rabs t <= 4) by (apply Rabs_le; unfold t; lra).
  replace (e * ((3 / 2 - e / 2) / den e * t)) with ((e / den e) * ((3 / 2 - e / 2) * t)) by (field; lra). rewrite (Rabs_mult (e / den e)), (Rabs_right (e / den e)) by lra.
  assert (X : Rabs ((3 / 2 - e / 2) * t) <= 6). { rewrite Rabs_mult, (Rabs_right (3 / 2 - e / 2)) by lra. pose proof (Rabs_pos t). assert ((3 / 2 - e / 2) * Rabs t <= 3 / 2 * 4) by (apply Rmult_le_compat; lra). lra. }
  pose proof (Rabs_pos ((3 / 2 - e / 2) * t)). assert (e / den e * Rabs ((3 / 2 - e / 2) * t) <= 5 / 4 * sqrt e * 6) by (apply Rmult_le_compat; lra). lra.
Qed.
Lemma tt_close e : 0 < e <= 1 -> Rabs (e * rr e) <= 11 * sqrt e.
Proof.
  intros He. assert (S : 0 < sqrt e) by (apply sqrt_lt_R0; lra). assert (SS : sqrt e * sqrt e = e) by (apply sqrt_sqrt; lra). assert (S1 : sqrt e <= 1) by (rewrite <- sqrt_1; apply sqrt_le_1; lra).
  pose proof (rr_close e He) as C. pose proof (ln_small e He) as LS. apply Rabs_le_between in C.
  assert (B : Rabs (sqrt e * rr e) <= 11).
  { assert (- (9 * sqrt e) * sqrt e <= (rr e - (-1 - / 2 * ln e)) * sqrt e <= 9 * sqrt e * sqrt e) as [c1 c2] by (split; apply Rmult_le_compat_r; lra).
    assert (9 * sqrt e * sqrt e <= 9) by (rewrite Rmult_assoc, SS; lra). apply Rabs_le. split; lra. }
  rewrite <- SS at 1. rewrite Rmult_assoc, Rabs_mult, (Rabs_right (sqrt e)) by lra. rewrite (Rmult_comm 11). apply Rmult_le_compat_l; lra.
Qed.

(** the inner integral *)
Definition Qm := Q + 2 * m ^ 2.
Definition inner mu a := let M := mean_mass_sq Q m a in
  / 2 * ln (m ^ 2 / M) - Qm / M * rr (mu ^ 2 / M) + (2 * m ^ 2 - M) / M * (1 / 2 - mu ^ 2 / M * rr (mu ^ 2 / M)) + 2 * rr (mu ^ 2 / m ^ 2) - (1 / 2 - mu ^ 2 / m ^ 2 * rr (mu ^ 2 / m ^ 2)).
Lemma ratio_ok mu M : 0 < mu <= m -> m ^ 2 <= M -> 0 < mu ^ 2 / M <= 1 /\ sqrt (mu ^ 2 / M) <= mu / m.
Proof.
  intros Hmu HM. pose proof (pow_lt m 2 Hm) as P. pose proof (pow_lt mu 2 (proj1 Hmu)) as U. assert (L : mu ^ 2 <= m ^ 2) by (apply pow_incr; lra).
  assert (X : mu ^ 2 / M <= mu ^ 2 / m ^ 2) by (unfold Rdiv; apply Rmult_le_compat_l; [lra|apply Rinv_le_contravar; lra]).
  split; [split; [apply Rdiv_lt_0_compat; lra|]|].
  - eapply Rle_trans; [exact X|]. apply Rmult_le_reg_r with (m ^ 2); [lra|]. unfold Rdiv. rewrite Rmult_assoc, Rinv_l by lra. lra.
  - rewrite <- (sqrt_Rsqr (mu / m)) by (apply Rlt_le, Rdiv_lt_0_compat; lra). apply sqrt_le_1; [apply Rlt_le, Rdiv_lt_0_compat; lra|apply Rle_0_sqr|]. unfold Rsqr. replace (mu / m * (mu / m)) with (mu ^ 2 / m ^ 2) by (field; lra). exact X.
Qed.
Lemma inner_is mu a : 0 < mu <= m -> 0 <= a <= 1 -> is_RInt (fun w => w * dirac_integrand Q m mu (a * w) ((1 - a) * w) (1 - w)) 0 1 (inner mu a).
Proof.
  intros Hmu Ha. pose proof (mean_ge Q m HQ a Ha) as MG. pose proof (pow_lt m 2 Hm) as P. pose proof (pow_lt mu 2 (proj1 Hmu)) as U.
  set (M := mean_mass_sq Q m a) in *. destruct (ratio_ok mu M Hmu MG) as [E1 _]. destruct (ratio_ok mu (m ^ 2) Hmu (Rle_refl _)) as [E0 _].
  set (l := ln (m ^ 2 / M)).
  pose proof (rr_int _ E1) as R1. pose proof (rr_int _ E0) as R0. pose proof (tt_int _ E1) as T1. pose proof (tt_int _ E0) as T0.
  evar_last.
  - apply (is_RInt_ext (fun w => minus (plus (plus (minus (scal l w) (scal (Qm / M) (w * (1 - w) / (w ^ 2 + mu ^ 2 / M * (1 - w)))))
        (scal ((2 * m ^ 2 - M) / M) (w ^ 3 / (w ^ 2 + mu ^ 2 / M * (1 - w))))) (scal 2 (w * (1 - w) / (w ^ 2 + mu ^ 2 / m ^ 2 * (1 - w))))) (w ^ 3 / (w ^ 2 + mu ^ 2 / m ^ 2 * (1 - w))))).
    { intros w Hw. rewrite Rmin_left, Rmax_right in Hw by lra. pose proof (w_den _ w E1 ltac:(lra)) as W1. pose proof (w_den _ w E0 ltac:(lra)) as W0.
      unfold minus. change (l * w + - (Qm / M * (w * (1 - w) / (w ^ 2 + mu ^ 2 / M * (1 - w)))) + (2 * m ^ 2 - M) / M * (w ^ 3 / (w ^ 2 + mu ^ 2 / M * (1 - w))) + 2 * (w * (1 - w) / (w ^ 2 + mu ^ 2 / m ^ 2 * (1 - w))) + - (w ^ 3 / (w ^ 2 + mu ^ 2 / m ^ 2 * (1 - w)))
        = w * dirac_integrand Q m mu (a * w) ((1 - a) * w) (1 - w)).
      unfold dirac_integrand. replace (m ^ 2 * (1 - (1 - w)) ^ 2 + Q * (a * w) * ((1 - a) * w)) with (w ^ 2 * M) by (unfold M, mean_mass_sq; ring).
      replace (m ^ 2 * (1 - (1 - w)) ^ 2 / (w ^ 2 * M)) with (m ^ 2 / M) by (field; lra). fold l.
      replace (m ^ 2 * (1 - 4 * (1 - w) + (1 - w) ^ 2) - Q * (1 - a * w) * (1 - (1 - a) * w)) with (- Qm * (1 - w) + w ^ 2 * (2 * m ^ 2 - M)) by (unfold Qm, M, mean_mass_sq; ring).
      assert (F1 : 0 < w ^ 2 * M + mu ^ 2 * (1 - w)). { replace (w ^ 2 * M + mu ^ 2 * (1 - w)) with (M * (w ^ 2 + mu ^ 2 / M * (1 - w))) by (field; lra). apply Rmult_lt_0_compat; lra. }
      assert (F0 : 0 < m ^ 2 * w ^ 2 + mu ^ 2 * (1 - w)). { replace (m ^ 2 * w ^ 2 + mu ^ 2 * (1 - w)) with (m ^ 2 * (w ^ 2 + mu ^ 2 / m ^ 2 * (1 - w))) by (field; lra). apply Rmult_lt_0_compat; lra. }
      clearbody M l. unfold Qm. field. repeat split; lra. }
    assert (I : is_RInt (fun w => w) 0 1 (1 ^ 2 / 2 - 0 ^ 2 / 2)) by (apply (is_int (fun w => w ^ 2 / 2)); [lra| |]; intros w _; [auto_derive; [auto|field]|apply continuous_id]).
    pose proof (is_RInt_scal (V := R_NormedModule) _ _ _ l _ I) as J1. pose proof (is_RInt_scal (V := R_NormedModule) _ _ _ (Qm / M) _ R1) as J2.
    pose proof (is_RInt_scal (V := R_NormedModule) _ _ _ ((2 * m ^ 2 - M) / M) _ T1) as J3. pose proof (is_RInt_scal (V := R_NormedModule) _ _ _ 2 _ R0) as J4.
    exact (is_RInt_minus (V := R_NormedModule) _ _ _ _ _ _ (is_RInt_plus (V := R_NormedModule) _ _ _ _ _ _ (is_RInt_plus (V := R_NormedModule) _ _ _ _ _ _ (is_RInt_minus (V := R_NormedModule) _ _ _ _ _ _ J1 J2) J3) J4) T0).
  - unfold minus. toR. unfold inner. fold M. cbv zeta. fold l. field. lra.
Qed.
(** its limit *)
Definition inner_0 mu a := let M := mean_mass_sq Q m a in
  - (/ 2) * ln (M / m ^ 2) - / 2 * Qm * (ln (M / m ^ 2) / M) + (Qm * (1 - ln (m / mu)) + m ^ 2) * / M + (2 * ln (m / mu) - 3).
Lemma inner_close mu a : 0 < mu <= m -> 0 <= a <= 1 -> Rabs (inner mu a - inner_0 mu a) <= (9 * Qm / m ^ 2 + 62) * (mu / m).
Proof.
  intros Hmu Ha. pose proof (mean_ge Q m HQ a Ha) as MG. pose proof (pow_lt m 2 Hm) as P. pose proof (pow_lt mu 2 (proj1 Hmu)) as U.
  assert (QP : 0 < Qm) by (unfold Qm; lra). unfold inner, inner_0. cbv zeta. set (M := mean_mass_sq Q m a) in *. clearbody M.
  destruct (ratio_ok mu M Hmu MG) as [E1 S1]. destruct (ratio_ok mu (m ^ 2) Hmu (Rle_refl _)) as [E0 S0].
  pose proof (rr_close _ E1) as R1. pose proof (tt_close _ E1) as T1. pose proof (rr_close _ E0) as R0. pose proof (tt_close _ E0) as T0.
  set (t1 := mu ^ 2 / M * rr (mu ^ 2 / M)) in *. set (t0 := mu ^ 2 / m ^ 2 * rr (mu ^ 2 / m ^ 2)) in *.
  set (r1 := rr (mu ^ 2 / M)) in *. set (r0 := rr (mu ^ 2 / m ^ 2)) in *. clearbody t1 t0 r1 r0.
  assert (L1 : ln (mu ^ 2 / M) = - ln (M / m ^ 2) - 2 * ln (m / mu)).
  { unfold Rdiv. rewrite !ln_mult, !ln_Rinv; try lra; try (apply Rinv_0_lt_compat; lra). replace (m ^ 2) with (m * m) by ring. replace (mu ^ 2) with (mu * mu) by ring. rewrite !ln_mult by lra. ring. }
  assert (L0 : ln (mu ^ 2 / m ^ 2) = - 2 * ln (m / mu)).
  { unfold Rdiv. rewrite !ln_mult, !ln_Rinv; try lra; try (apply Rinv_0_lt_compat; lra). replace (m ^ 2) with (m * m) by ring. replace (mu ^ 2) with (mu * mu) by ring. rewrite !ln_mult by lra. ring. }
  assert (L2 : ln (m ^ 2 / M) = - ln (M / m ^ 2)).
  { rewrite <- ln_Rinv by (apply Rdiv_lt_0_compat; lra). f_equal. field. lra. }
  rewrite L1 in R1. rewrite L0 in R0. rewrite L2. set (x := ln (M / m ^ 2)) in *. set (y := ln (m / mu)) in *. clearbody x y.
  set (d1 := r1 - (-1 - / 2 * (- x - 2 * y))) in *. set (d0 := r0 - (-1 - / 2 * (- 2 * y))) in *.
  match goal with |- Rabs ?e <= _ => replace e with (- (Qm / M) * d1 - (2 * m ^ 2 - M) / M * t1 + 2 * d0 + t0) by (unfold d1, d0; field; lra) end.
  clearbody d1 d0. assert (RP : 0 < mu / m) by (apply Rdiv_lt_0_compat; lra).
  assert (K1 : Rabs d1 <= 9 * (mu / m)) by lra. assert (K2 : Rabs t1 <= 11 * (mu / m)) by lra. assert (K3 : Rabs d0 <= 9 * (mu / m)) by lra. assert (K4 : Rabs t0 <= 11 * (mu / m)) by lra.
  assert (C1 : 0 <= Qm / M <= Qm / m ^ 2) by (split; [apply Rlt_le, Rdiv_lt_0_compat; lra|unfold Rdiv; apply Rmult_le_compat_l; [lra|apply Rinv_le_contravar; lra]]).
  assert (C2 : Rabs ((2 * m ^ 2 - M) / M) <= 3).
  { assert (0 < m ^ 2 / M <= 1). { split; [apply Rdiv_lt_0_compat; lra|]. apply Rmult_le_reg_r with M; [lra|]. unfold Rdiv. rewrite Rmult_assoc, Rinv_l by lra. lra. }
    replace ((2 * m ^ 2 - M) / M) with (2 * (m ^ 2 / M) - 1) by (field; lra). apply Rabs_le. lra. }
  assert (G1 : Rabs (- (Qm / M) * d1) <= Qm / m ^ 2 * (9 * (mu / m))).
  { rewrite Rabs_mult, Rabs_Ropp, (Rabs_right (Qm / M)) by lra. apply Rmult_le_compat; try lra. apply Rabs_pos. }
  assert (G2 : Rabs ((2 * m ^ 2 - M) / M * t1) <= 3 * (11 * (mu / m))) by (rewrite Rabs_mult; apply Rmult_le_compat; try lra; apply Rabs_pos).
  apply Rabs_le_between in G1. apply Rabs_le_between in G2. apply Rabs_le_between in K3. apply Rabs_le_between in K4.
  assert (Z : (9 * Qm / m ^ 2 + 62) * (mu / m) = Qm / m ^ 2 * (9 * (mu / m)) + 62 * (mu / m)) by (field; lra). rewrite Z. apply Rabs_le. lra.
Qed.
Definition vertex_0 := (3 / 2 * Q + 4 * m ^ 2) * lepton_L Q m - 2 - / 2 * Qm * log_value.
Lemma inner_0_int mu : 0 < mu -> is_RInt (inner_0 mu) 0 1 (vertex_0 - 2 * (Qm * lepton_L Q m - 1) * ln (m / mu)).
Proof.
  intros Hmu. evar_last.
  - unfold inner_0. cbv zeta.
    apply (is_RInt_plus (V := R_NormedModule)); [apply (is_RInt_plus (V := R_NormedModule)); [apply (is_RInt_minus (V := R_NormedModule))|]|apply (is_RInt_const (V := R_NormedModule))].
    + apply (is_RInt_scal (V := R_NormedModule)), (ln_integral Q m HQ Hm).
    + apply (is_RInt_scal (V := R_NormedModule)), log_integral.
    + apply (is_RInt_scal (V := R_NormedModule)), (inv_integral Q m HQ Hm).
  - unfold minus. toR. unfold vertex_0, Qm. field.
Qed.
Lemma inner_cont mu a : 0 < mu <= m -> 0 <= a <= 1 -> continuous (inner mu) a.
Proof.
  intros Hmu Ha. pose proof (mean_ge Q m HQ a Ha) as MG. pose proof (pow_lt m 2 Hm) as P. destruct (ratio_ok mu (mean_mass_sq Q m a) Hmu MG) as [E1 _].
  destruct (den_sq _ E1) as [_ D1]. pose proof (den_pos _ E1) as D0.
  assert (K : forall M, m ^ 2 <= M -> continuous (fun M => / 2 * ln (m ^ 2 / M) - Qm / M * rr (mu ^ 2 / M) + (2 * m ^ 2 - M) / M * (1 / 2 - mu ^ 2 / M * rr (mu ^ 2 / M)) + 2 * rr (mu ^ 2 / m ^ 2) - (1 / 2 - mu ^ 2 / m ^ 2 * rr (mu ^ 2 / m ^ 2))) M).
  { intros M HM. destruct (ratio_ok mu M Hmu HM) as [F1 _]. destruct (den_sq _ F1) as [_ G1]. pose proof (den_pos _ F1) as G0.
    assert (CR : continuous rr (mu ^ 2 / M)).
    { set (e := mu ^ 2 / M) in *. clearbody e. apply (ex_derive_continuous (V := R_NormedModule)). unfold rr, den in *. auto_derive. unfold Rdiv in *. repeat split; try lra; exact (not_eq_sym (Rlt_not_eq _ _ G1)). }
    assert (CM : continuous (fun M => mu ^ 2 / M) M) by (apply (ex_derive_continuous (V := R_NormedModule)); auto_derive; lra).
    assert (CC : continuous (fun M => rr (mu ^ 2 / M)) M) by (apply (continuous_comp (fun M => mu ^ 2 / M) rr); assumption).
    assert (C1 : continuous (fun M => / 2 * ln (m ^ 2 / M)) M).
    { apply (ex_derive_continuous (V := R_NormedModule)). auto_derive. split; [lra|]. split; [|auto]. apply Rmult_lt_0_compat; [cbn [pow] in *; lra|apply Rinv_0_lt_compat; lra]. }
    assert (C2 : continuous (fun M => Qm / M) M) by (apply (ex_derive_continuous (V := R_NormedModule)); auto_derive; lra).
    assert (C3 : continuous (fun M => (2 * m ^ 2 - M) / M) M) by (apply (ex_derive_continuous (V := R_NormedModule)); auto_derive; lra).
    apply (continuous_minus (V := R_NormedModule)); [|apply continuous_const]. apply (continuous_plus (V := R_NormedModule)); [|apply continuous_const].
    apply (continuous_plus (V := R_NormedModule)); [apply (continuous_minus (V := R_NormedModule)); [exact C1|apply (continuous_mult (K := R_AbsRing)); assumption]|].
    apply (continuous_mult (K := R_AbsRing)); [exact C3|]. apply (continuous_minus (V := R_NormedModule)); [apply continuous_const|]. apply (continuous_mult (K := R_AbsRing)); assumption. }
  unfold inner. cbv zeta. apply (continuous_comp (mean_mass_sq Q m) (fun M => / 2 * ln (m ^ 2 / M) - Qm / M * rr (mu ^ 2 / M) + (2 * m ^ 2 - M) / M * (1 / 2 - mu ^ 2 / M * rr (mu ^ 2 / M)) + 2 * rr (mu ^ 2 / m ^ 2) - (1 / 2 - mu ^ 2 / m ^ 2 * rr (mu ^ 2 / m ^ 2)))); [|apply K; exact MG].
  apply (ex_derive_continuous (V := R_NormedModule)). unfold mean_mass_sq. auto_derive. auto.
Qed.
Lemma vertex_close mu : 0 < mu <= m -> Rabs (vertex Q m mu - (vertex_0 - 2 * (Qm * lepton_L Q m - 1) * ln (m / mu))) <= (9 * Qm / m ^ 2 + 62) * (mu / m).
Proof.
  intros Hmu. unfold vertex. rewrite (RInt_ext _ (inner mu)).
  2:{ intros a Ha. rewrite Rmin_left, Rmax_right in Ha by lra. apply is_RInt_unique, inner_is; [exact Hmu|lra]. }
  assert (EX : ex_RInt (inner mu) 0 1). { apply (ex_RInt_continuous (V := R_CompleteNormedModule)). intros a Ha. rewrite Rmin_left, Rmax_right in Ha by lra. apply inner_cont; [exact Hmu|lra]. }
  pose proof (RInt_correct (V := R_CompleteNormedModule) _ _ _ EX) as I1. pose proof (inner_0_int mu (proj1 Hmu)) as I0.
  pose proof (is_RInt_minus (V := R_NormedModule) _ _ _ _ _ _ I1 I0) as ID.
  pose proof (is_RInt_const (V := R_NormedModule) 0 1 ((9 * Qm / m ^ 2 + 62) * (mu / m))) as IK.
  replace ((9 * Qm / m ^ 2 + 62) * (mu / m)) with (scal (1 - 0) ((9 * Qm / m ^ 2 + 62) * (mu / m))) by (toR; ring).
  refine (norm_RInt_le _ _ 0 1 _ _ ltac:(lra) _ ID IK). intros a Ha. apply (inner_close mu a Hmu Ha).
Qed.
End Q.
End D.
