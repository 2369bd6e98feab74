(** Sampling R in double arithmetic: proofs. *)
From Coq Require Import Reals ZArith Lia Lra QArith.
From Flocq Require Import Core.
From Coquelicot Require Import Coquelicot.
From Verif Require Import ExtModel BoundModel TextModel MathModel FMathModel FMathSpec FMathSeries FMathDilog FMathSqrt TextNum FKinRel FKinPoint FMapModel FMapProofs FLogModel FLogSpec.
Local Open Scope R_scope.

Lemma abs_in x m : Rabs x <= m -> - m <= x <= m.
Proof. apply Rabs_le_inv. Qed.
Lemma prod_in x y m n : Rabs x <= m -> Rabs y <= n -> Rabs (x * y) <= m * n.
Proof. intros X Y. rewrite Rabs_mult. apply Rmult_le_compat; auto using Rabs_pos. Qed.
Lemma ln_range s : 0 < s -> Rabs (ln s) <= 100 -> inr 145 s.
Proof.
  intros S H. apply abs_in in H. pose proof VacHadProofs.ln2_bounds. unfold inr. change (- (145))%Z with (-145)%Z.
  rewrite <- (exp_ln s) by exact S. rewrite <- (exp_ln (bpow radix2 (-145))) by apply bpow_gt_0. rewrite <- (exp_ln (bpow radix2 145)) by apply bpow_gt_0. rewrite !ln_bpow.
  split; left; apply exp_increasing; lra.
Qed.
Section Draw.
Variables (log exp' : R -> R) (r p a b L : R).
Hypothesis LIB : log_exp (2 * u0) log exp'.
Hypothesis R0 : 0 < r.
Hypothesis A0 : 0 <= a.
Hypothesis AB : a + r <= (1 - / 2 ^ 40) * (b + r).
Hypothesis LA : Rabs (ln (a + r)) <= L.
Hypothesis LB : Rabs (ln (b + r)) <= L.
Hypothesis L100 : L <= 100.
Hypothesis PF : fmt p.
Hypothesis P : 0 <= p < 1.
Let s t := RN (t + r).
Let U t := log (s t).
Let e1 := (1.1 + 2 * L) * u0.
Lemma L_pos : 0 <= L.
Proof. pose proof (Rabs_pos (ln (a + r))). lra. Qed.
Lemma U_ok t : 0 < t + r -> Rabs (ln (t + r)) <= L -> 0 < s t /\ double (U t) /\ Rabs (U t - ln (t + r)) <= e1.
Proof.
  intros T0 T. pose proof L_pos as L0. assert (I : inr 145 (t + r)) by (apply ln_range; [exact T0|lra]). assert (I2 : inr 145 (s t)) by (apply inr_RN; [lia|exact I]).
  assert (S0 : 0 < s t) by exact (inr_pos _ _ I2). split; [exact S0|].
  assert (D : double (s t)). { split; [apply fmt_RN|]. rewrite Rabs_pos_eq by lra. destruct I2 as (_ & I2). apply Rle_lt_trans with (1 := I2). apply bpow_lt. lia. }
  destruct (le_log _ _ _ LIB (s t) D S0) as (DU & C). split; [exact DU|]. unfold close in C. fold (U t) in C.
  assert (RL : rel 1 (s t) (t + r)). { apply rel_RN. destruct I as (I & _). apply Rle_trans with (2 := I). apply bpow_le. lia. }
  pose proof (rel_num 1 _ _ ltac:(lia) (Rlt_le _ _ T0) RL) as E. cbn [INR] in E. apply abs_in in E.
  assert (Q : Rabs (ln (s t) - ln (t + r)) <= 1.05 * u0).
  { rewrite <- ln_div by lra. set (w := s t / (t + r)). assert (W : 1 - 1.001 * u0 <= w <= 1 + 1.001 * u0).
    { unfold w. split; [apply Rmult_le_reg_r with (t + r)|apply Rmult_le_reg_r with (t + r)]; try exact T0; unfold Rdiv; rewrite Rmult_assoc, Rinv_l by lra; lra. }
    assert (W0 : 0 < w) by lra. pose proof (FMathSqrt.ln_low w W0) as Q1. pose proof (exp_ineq1_le (ln w)) as Q2. rewrite exp_ln in Q2 by exact W0.
    assert (/ w <= / (1 - 1.001 * u0)) by (apply Rinv_le_contravar; lra). apply Rabs_le. lra. }
  pose proof (Rabs_triang_inv (ln (s t)) (ln (t + r))) as T3. pose proof (Rabs_triang (ln (t + r)) (ln (s t) - ln (t + r))) as T4. replace (ln (t + r) + (ln (s t) - ln (t + r))) with (ln (s t)) in T4 by ring.
  apply abs_in in Q. apply abs_in in C. apply Rabs_le. unfold e1. assert (Rabs (ln (s t) - ln (t + r)) <= 1.05 * u0) by (apply Rabs_le; lra). lra.
Qed.
Lemma b_pos : 0 < b + r.
Proof. destruct (Rlt_or_le 0 (b + r)) as [H|H]; [exact H|]. lra. Qed.
Lemma UA : 0 < s a /\ double (U a) /\ Rabs (U a - ln (a + r)) <= e1.
Proof. apply U_ok; [lra|exact LA]. Qed.
Lemma UB : 0 < s b /\ double (U b) /\ Rabs (U b - ln (b + r)) <= e1.
Proof. apply U_ok; [exact b_pos|exact LB]. Qed.
Lemma gap : / 2 ^ 40 <= ln (b + r) - ln (a + r).
Proof.
  rewrite <- ln_div by (pose proof b_pos; lra). pose proof b_pos as B0. assert (W : 0 < (b + r) / (a + r)) by (apply Rdiv_lt_0_compat; lra). pose proof (FMathSqrt.ln_low _ W) as Q.
  replace (/ ((b + r) / (a + r))) with ((a + r) / (b + r)) in Q by (field; lra). assert ((a + r) / (b + r) <= 1 - / 2 ^ 40). { apply Rmult_le_reg_r with (b + r); [exact B0|]. unfold Rdiv. rewrite Rmult_assoc, Rinv_l by lra. lra. } lra.
Qed.
Lemma U_order : U a <= U b.
Proof. destruct UA as (_ & _ & E1). destruct UB as (_ & _ & E2). apply abs_in in E1. apply abs_in in E2. pose proof gap as G. unfold e1 in *. assert (/ 2 ^ 40 = 8192 * u0) by (cbn; lra). lra. Qed.
Lemma R_unfold : f_R log exp' r p (Bnd (Fin a) (Fin b)) =
  let E := exp' (ulerp p (U a) (U b)) in (Fin (RN (E - r)), Fin (RN (E * RN (U b - U a)))).
Proof.
  unfold f_R, f_apply_map, f_log_u. cbn [bmin bmax eadd rnd e_log]. fold (s a) (s b). destruct (rltb_case 0 (s a)) as [(-> & _)|(_ & H)]; [|destruct UA; lra]. destruct (rltb_case 0 (s b)) as [(-> & _)|(_ & H)]; [|destruct UB; lra].
  fold (U a) (U b). unfold mk_bound. cbn [eleb]. unfold rleb. destruct (Rle_dec (U a) (U b)) as [_|N]; [|destruct (N U_order)]. reflexivity.
Qed.
Let v := (1 - p) * ln (a + r) + p * ln (b + r).
Let V := ulerp p (U a) (U b).
Lemma V_ok : Rabs (V - v) <= (1.2 + 5.2 * L) * u0.
Proof.
  destruct UA as (_ & _ & E1). destruct UB as (_ & _ & E2). pose proof L_pos as L0. set (M := L + e1).
  assert (ME : e1 <= 1000 * u0) by (unfold e1; lra). assert (MA : Rabs (U a) <= M) by (pose proof (Rabs_triang (U a - ln (a + r)) (ln (a + r))) as T; replace (U a - ln (a + r) + ln (a + r)) with (U a) in T by ring; unfold M; lra).
  assert (MB : Rabs (U b) <= M) by (pose proof (Rabs_triang (U b - ln (b + r)) (ln (b + r))) as T; replace (U b - ln (b + r) + ln (b + r)) with (U b) in T by ring; unfold M; lra).
  assert (MU : M <= 101) by (unfold M; lra). assert (M0 : 0 <= M) by (pose proof (Rabs_pos (U a)); lra).
  assert (B1 : u0 <= 1 - p) by (pose proof (below_one p PF (proj2 P)); lra).
  assert (RL : rel 1 (RN (1 - p)) (1 - p)). { apply rel_RN. apply Rle_trans with (2 := B1). apply Rle_trans with (bpow radix2 (-53)); [apply bpow_le; lia|cbn; lra]. }
  assert (P1p : 0 <= 1 - p) by lra. pose proof (rel_num 1 _ _ ltac:(lia) P1p RL) as E. cbn [INR] in E. set (q := RN (1 - p)) in *. pose proof eta_u0 as H0. pose proof eta_pos as H1.
  assert (Q : Rabs (q * U a - (1 - p) * U a) <= (1 - p) * (1.001 * u0 * M)). { replace (q * U a - (1 - p) * U a) with ((q - (1 - p)) * U a) by ring. replace ((1 - p) * (1.001 * u0 * M)) with ((1 + / 1000) * u0 * (1 - p) * M) by lra. apply prod_in; [exact E|exact MA]. }
  assert (Q2 : Rabs ((1 - p) * U a - (1 - p) * ln (a + r)) <= (1 - p) * e1). { rewrite <- Rmult_minus_distr_l. apply prod_in; [rewrite Rabs_pos_eq; lra|exact E1]. }
  assert (Q3 : Rabs (p * U b - p * ln (b + r)) <= p * e1). { rewrite <- Rmult_minus_distr_l. apply prod_in; [rewrite Rabs_pos_eq; lra|exact E2]. }
  assert (N1 : Rabs ((1 - p) * U a) <= (1 - p) * M) by (apply prod_in; [rewrite Rabs_pos_eq; lra|exact MA]). assert (N2 : Rabs (p * U b) <= p * M) by (apply prod_in; [rewrite Rabs_pos_eq; lra|exact MB]).
  pose proof (RN_err (q * U a)) as R1. pose proof (RN_err (p * U b)) as R2. set (T1 := RN (q * U a)) in *. set (T2 := RN (p * U b)) in *.
  pose proof (RN_err (T1 + T2)) as R3. change V with (RN (T1 + T2)).
  assert (P1 : (1 - p) * M + p * M = M) by ring. assert (P2 : (1 - p) * e1 + p * e1 = e1) by ring. assert (P0 : 0 <= (1 - p) * M) by (apply Rmult_le_pos; lra). assert (P3 : 0 <= p * M) by (apply Rmult_le_pos; lra).
  replace ((1 - p) * (1.001 * u0 * M)) with (1.001 * u0 * ((1 - p) * M)) in Q by ring. set (X := (1 - p) * M) in *. set (Y := p * M) in *. set (X' := (1 - p) * e1) in *. set (Y' := p * e1) in *.
  assert (K1 : Rabs (q * U a) <= 1.001 * X) by (apply abs_in in Q; apply abs_in in N1; apply Rabs_le; lra).
  assert (K : Rabs (T1 + T2) <= 1.01 * M + 1.01 * u0). { apply abs_in in K1; apply abs_in in N2. assert (Rabs (T1 - q * U a) <= u0 * (1.001 * X) + eta) by (eapply Rle_trans; [exact R1|]; apply Rplus_le_compat_r, Rmult_le_compat_l; [lra|apply Rabs_le; exact K1]). assert (Rabs (T2 - p * U b) <= u0 * Y + eta) by (eapply Rle_trans; [exact R2|]; apply Rplus_le_compat_r, Rmult_le_compat_l; [lra|apply Rabs_le; exact N2]).
    apply abs_in in H. apply abs_in in H2. apply Rabs_le. lra. }
  assert (Rabs (T1 - q * U a) <= u0 * (1.001 * X) + eta) by (eapply Rle_trans; [exact R1|]; apply Rplus_le_compat_r, Rmult_le_compat_l; [lra|exact K1]). assert (Rabs (T2 - p * U b) <= u0 * Y + eta) by (eapply Rle_trans; [exact R2|]; apply Rplus_le_compat_r, Rmult_le_compat_l; [lra|exact N2]).
  assert (Rabs (RN (T1 + T2) - (T1 + T2)) <= u0 * (1.01 * M + 1.01 * u0) + eta) by (eapply Rle_trans; [exact R3|]; apply Rplus_le_compat_r, Rmult_le_compat_l; [lra|exact K]).
  repeat match goal with H : Rabs _ <= _ |- _ => apply abs_in in H end.
  assert (MM : M = L + e1) by reflexivity. assert (EE : e1 = (1.1 + 2 * L) * u0) by reflexivity. unfold v. apply Rabs_le. lra.
Qed.
Lemma v_range : Rabs v <= L.
Proof. apply abs_in in LA. apply abs_in in LB. unfold v. apply Rabs_le. assert (forall w, - L <= w <= L -> forall c, 0 <= c -> - (c * L) <= c * w <= c * L) as H. { intros w W c C. split; [|apply Rmult_le_compat_l; lra]. replace (- (c * L)) with (c * - L) by ring. apply Rmult_le_compat_l; lra. }
  pose proof (H _ LA (1 - p) ltac:(lra)). pose proof (H _ LB p ltac:(lra)). lra. Qed.
Let E := exp' V.
Lemma E_ok : fmt E /\ Rabs (E - exp v) <= u0 * (3.4 + 5.4 * L) * exp v.
Proof.
  pose proof V_ok as VE. pose proof v_range as VR. pose proof L_pos. assert (VV : Rabs V <= 600) by (pose proof (Rabs_triang (V - v) v) as T; replace (V - v + v) with V in T by ring; lra).
  assert (D : double V) by (apply small_double; [apply fmt_RN|lra]). destruct (le_exp _ _ _ LIB V D VV) as ((F & _) & C). fold E in F, C. split; [exact F|]. unfold close in C.
  rewrite (Rabs_pos_eq (exp V)) in C by (left; apply exp_pos). assert (X : exp V = exp v * exp (V - v)) by (rewrite <- exp_plus; f_equal; ring). pose proof (exp_near (V - v) ltac:(lra)) as N.
  assert (N' : Rabs (exp (V - v) - 1) <= 1.03 * ((1.2 + 5.2 * L) * u0)) by lra. clear N. set (z := exp (V - v)) in *. set (w := exp v) in *. assert (W : 0 < w) by apply exp_pos. rewrite X in C.
  assert (G : Rabs (w * z - w) <= w * (1.03 * ((1.2 + 5.2 * L) * u0))). { replace (w * z - w) with (w * (z - 1)) by ring. apply prod_in; [rewrite Rabs_pos_eq; lra|exact N']. }
  assert (G2 : w * z <= w * 1.01). { apply Rmult_le_compat_l; [lra|]. apply abs_in in N'. lra. }
  replace (w * (1.03 * ((1.2 + 5.2 * L) * u0))) with ((1.236 * w + 5.356 * (w * L)) * u0) in G by lra. assert (0 <= w * L) by (apply Rmult_le_pos; lra). replace (u0 * (3.4 + 5.4 * L) * w) with (u0 * (3.4 * w + 5.4 * (w * L))) by ring. set (wL := w * L) in *. apply abs_in in G. apply abs_in in C. apply Rabs_le. lra.
Qed.
Lemma drawn_v : drawn_log r p a b + r = exp v.
Proof. unfold drawn_log, Rpower, v. rewrite exp_plus. ring. Qed.
Lemma drawn_nonneg : 0 <= drawn_log r p a b.
Proof.
  assert (H : ln (a + r) <= v). { unfold v. pose proof gap as G. assert (0 < / 2 ^ 40) by (apply Rinv_0_lt_compat, pow_lt; lra). assert (0 <= p * (ln (b + r) - ln (a + r))) by (apply Rmult_le_pos; lra). lra. }
  pose proof drawn_v as D. assert (a + r <= exp v). { rewrite <- (exp_ln (a + r)) by lra. destruct H as [H|H]; [left; apply exp_increasing; exact H|rewrite H; lra]. } lra.
Qed.
Lemma R_err : exists x, fst (f_R log exp' r p (Bnd (Fin a) (Fin b))) = Fin x /\ Rabs (x - drawn_log r p a b) <= u0 * (5 + 6 * L) * (drawn_log r p a b + r) + eta.
Proof.
  rewrite R_unfold. cbn zeta. cbn [fst]. fold V E. exists (RN (E - r)). split; [reflexivity|]. destruct E_ok as (_ & X). pose proof drawn_v as D. pose proof drawn_nonneg as N. rewrite D. pose proof (RN_err (E - r)) as RE. set (w := exp v) in *.
  pose proof L_pos. assert (0 <= w * L) by (apply Rmult_le_pos; lra). replace (u0 * (3.4 + 5.4 * L) * w) with (u0 * (3.4 * w + 5.4 * (w * L))) in X by ring. replace (u0 * (5 + 6 * L) * w) with (u0 * (5 * w + 6 * (w * L))) by ring.
  assert (WL : w * L <= w * 100) by (apply Rmult_le_compat_l; lra). set (wL := w * L) in *. apply abs_in in X. assert (AE : Rabs (E - r) <= 1.1 * w) by (apply Rabs_le; lra).
  assert (RE2 : Rabs (RN (E - r) - (E - r)) <= u0 * (1.1 * w) + eta) by (eapply Rle_trans; [exact RE|]; apply Rplus_le_compat_r, Rmult_le_compat_l; [lra|exact AE]). apply abs_in in RE2. apply Rabs_le. lra.
Qed.
Lemma R_jac : exists j, snd (f_R log exp' r p (Bnd (Fin a) (Fin b))) = Fin j /\
  Rabs (j - slope_log r p a b) <= u0 * (drawn_log r p a b + r) * (3 + 7 * L + (5 + 6 * L) * ln ((b + r) / (a + r))) + eta.
Proof.
  rewrite R_unfold. cbn zeta. cbn [snd]. fold V E. set (sz := RN (U b - U a)). exists (RN (E * sz)). split; [reflexivity|]. unfold slope_log. rewrite drawn_v. destruct E_ok as (_ & X). pose proof L_pos as L0.
  rewrite ln_div by (pose proof b_pos; lra). pose proof gap as G. set (S := ln (b + r) - ln (a + r)) in *. assert (S0 : 0 < S) by (assert (0 < / 2 ^ 40) by (apply Rinv_0_lt_compat, pow_lt; lra); lra).
  destruct UA as (_ & _ & E1). destruct UB as (_ & _ & E2). pose proof LA as LA'. pose proof LB as LB'. apply abs_in in LA', LB', E1, E2. pose proof eta_u0 as H0. pose proof eta_pos as H1.
  assert (SZ : Rabs (sz - S) <= (2.3 + 6.1 * L) * u0).
  { pose proof (RN_err (U b - U a)) as RE. fold sz in RE. assert (e1 = (1.1 + 2 * L) * u0) by reflexivity. assert (AU : Rabs (U b - U a) <= 2 * L + 2 * e1) by (apply Rabs_le; lra).
    assert (Rabs (sz - (U b - U a)) <= u0 * (2 * L + 2 * e1) + eta) by (eapply Rle_trans; [exact RE|]; apply Rplus_le_compat_r, Rmult_le_compat_l; [lra|exact AU]). apply abs_in in H2. apply Rabs_le. unfold S. lra. }
  assert (S2 : S <= 2 * L) by (unfold S; lra). set (w := exp v) in *. assert (W : 0 < w) by apply exp_pos.
  set (A := (3.4 + 5.4 * L)) in *. assert (HA : 0 <= A <= 544) by (unfold A; lra). assert (ASZ : Rabs sz <= S + 1000 * u0) by (apply abs_in in SZ; apply Rabs_le; lra).
  assert (J1 : Rabs ((E - w) * sz) <= u0 * A * w * (S + 1000 * u0)) by (apply prod_in; assumption).
  assert (J2 : Rabs (w * (sz - S)) <= w * ((2.3 + 6.1 * L) * u0)) by (apply prod_in; [rewrite Rabs_pos_eq; lra|exact SZ]).
  pose proof (RN_err (E * sz)) as RE. assert (EQ : E * sz - w * S = (E - w) * sz + w * (sz - S)) by ring.
  assert (WL : 0 <= w * L) by (apply Rmult_le_pos; lra). assert (WS : 0 <= w * S) by (apply Rmult_le_pos; lra). assert (WLS : 0 <= w * L * S) by (apply Rmult_le_pos; lra).
  replace (u0 * A * w * (S + 1000 * u0)) with (u0 * (3.4 * (w * S) + 5.4 * (w * L * S) + 1000 * u0 * (3.4 * w + 5.4 * (w * L)))) in J1 by (unfold A; lra).
  replace (w * ((2.3 + 6.1 * L) * u0)) with (u0 * (2.3 * w + 6.1 * (w * L))) in J2 by lra.
  replace (u0 * w * (3 + 7 * L + (5 + 6 * L) * S)) with (u0 * (3 * w + 7 * (w * L) + 5 * (w * S) + 6 * (w * L * S))) by ring.
  set (wL := w * L) in *. assert (WL1 : wL <= 100 * w) by (unfold wL; rewrite (Rmult_comm 100); apply Rmult_le_compat_l; lra). assert (WLS1 : wL * S <= 100 * (w * S)). { rewrite <- Rmult_assoc. apply Rmult_le_compat_r; lra. }
  set (wS := w * S) in *. set (wLS := wL * S) in *. apply abs_in in J1, J2.
  assert (JE : Rabs (E * sz) <= 1.1 * wS + 0.1 * w) by (apply Rabs_le; lra).
  assert (RE2 : Rabs (RN (E * sz) - E * sz) <= u0 * (1.1 * wS + 0.1 * w) + eta) by (eapply Rle_trans; [exact RE|]; apply Rplus_le_compat_r, Rmult_le_compat_l; [lra|exact JE]). apply abs_in in RE2. apply Rabs_le. lra.
Qed.
End Draw.
