(** Rounding in the series of the dilogarithm. *)
From Coq Require Import Reals ZArith Lia Lra Psatz.
From Flocq Require Import Core Relative.
From Coquelicot Require Import Coquelicot.
From Verif Require Import ExtModel TextModel TextNum MathModel MathProofs DilogSpec DilogProofs DilogError FMathModel FMathSpec.
Local Open Scope R_scope.
Set Bullet Behavior "Strict Subproofs".
Notation u0 := (/ 9007199254740992).
Notation eta := (bpow radix2 (-1075)).
Lemma RN_err z : Rabs (RN z - z) <= u0 * Rabs z + eta.
Proof.
  destruct (error_N_FLT radix2 (-1074) 53 ltac:(lia) (fun n => negb (Z.even n)) z) as (e & h & He & Hh & _ & E).
  unfold RN. rewrite E. replace (z * (1 + e) + h - z) with (z * e + h) by ring.
  eapply Rle_trans; [apply Rabs_triang|]. rewrite Rabs_mult. apply Rplus_le_compat.
  - rewrite Rmult_comm. apply Rmult_le_compat_r; [apply Rabs_pos|]. eapply Rle_trans; [exact He|].
    unfold bpow. cbn. lra.
  - eapply Rle_trans; [exact Hh|]. replace (/ 2 * bpow radix2 (-1074)) with (bpow radix2 (-1) * bpow radix2 (-1074)) by (cbn; lra). rewrite <- bpow_plus. apply bpow_le. lia.
Qed.
Lemma RN_0 : RN 0 = 0. Proof. unfold RN. apply round_0. typeclasses eauto. Qed.
Lemma eta_pos : 0 < eta. Proof. apply bpow_gt_0. Qed.
(** invariants of the loop, for arguments whose products with the rounding unit are normal *)
Section Loop.
Context (x : R) (Hx : Rabs x <= 1 / 2) (Ha : eta <= u0 * u0 * Rabs x).
Let a := Rabs x.
Lemma a_pos : 0 <= a. Proof. apply Rabs_pos. Qed.
Lemma num_step n p : (1 <= n)%nat -> Rabs (p - x ^ n) <= 4 * u0 * a -> Rabs (RN (p * x) - x ^ S n) <= 4 * u0 * a.
Proof.
  intros Hn H. pose proof a_pos as A. pose proof (RN_err (p * x)) as E. rewrite Rabs_mult in E. fold a in E.
  assert (X : Rabs (x ^ n) <= a). { destruct n as [|n]; [lia|]. rewrite <- RPow_abs. fold a. rewrite <- tech_pow_Rmult. assert (a ^ n <= 1) by (rewrite <- (pow1 n); apply pow_incr; unfold a in *; lra). assert (0 <= a ^ n) by (apply pow_le; lra). nra. }
  assert (P : Rabs p <= a + 4 * u0 * a). { replace p with ((p - x ^ n) + x ^ n) by ring. eapply Rle_trans; [apply Rabs_triang|]. lra. }
  replace (RN (p * x) - x ^ S n) with ((RN (p * x) - p * x) + (p - x ^ n) * x) by (cbn; ring).
  eapply Rle_trans; [apply Rabs_triang|]. rewrite (Rabs_mult (p - x ^ n)). fold a.
  assert (Q : Rabs (p - x ^ n) * a <= 4 * u0 * a * (1 / 2)) by (apply Rmult_le_compat; try apply Rabs_pos; unfold a in *; lra).
  assert (P2 : Rabs p * a <= (a + 4 * u0 * a) * (1 / 2)) by (apply Rmult_le_compat; try apply Rabs_pos; unfold a in *; lra).
  fold a in Ha. lra.
Qed.
Lemma term_err n p : (1 <= n)%nat -> Rabs (p - x ^ n) <= 4 * u0 * a -> Rabs (RN (p / (INR n * INR n)) - x ^ n / (INR n * INR n)) <= 6 * u0 * a * / (INR n * INR n) + u0 * u0 * a.
Proof.
  intros Hn H. pose proof a_pos as A. assert (N : 0 < INR n * INR n) by (assert (0 < INR n) by (apply lt_0_INR; lia); nra). assert (I := Rinv_0_lt_compat _ N).
  assert (X : Rabs (x ^ n) <= a). { destruct n as [|n]; [lia|]. rewrite <- RPow_abs. fold a. rewrite <- tech_pow_Rmult. assert (a ^ n <= 1) by (rewrite <- (pow1 n); apply pow_incr; unfold a in *; lra). assert (0 <= a ^ n) by (apply pow_le; lra). nra. }
  assert (P : Rabs p <= a + 4 * u0 * a). { replace p with ((p - x ^ n) + x ^ n) by ring. eapply Rle_trans; [apply Rabs_triang|]. lra. }
  pose proof (RN_err (p / (INR n * INR n))) as E. unfold Rdiv in *. set (w := / (INR n * INR n)) in *.
  replace (RN (p * w) - x ^ n * w) with ((RN (p * w) - p * w) + (p - x ^ n) * w) by ring.
  eapply Rle_trans; [apply Rabs_triang|]. rewrite (Rabs_mult (p - x ^ n)), (Rabs_pos_eq w) by lra. rewrite Rabs_mult, (Rabs_pos_eq w) in E by lra.
  assert (Rabs (p - x ^ n) * w <= 4 * u0 * a * w) by (apply Rmult_le_compat_r; lra).
  assert (Rabs p * w <= (a + 4 * u0 * a) * w) by (apply Rmult_le_compat_r; lra).
  assert (0 <= a * w) by (apply Rmult_le_pos; lra). fold a in Ha. lra.
Qed.
(** exact partial sums *)
Fixpoint psum (n : nat) : R := match n with O => 0 | S m => psum m + x ^ n / (INR n * INR n) end.
Lemma psum_bound n : Rabs (psum (S n)) <= a * (1 + (1 / 4) * (1 - (1 / 2) ^ n)).
Proof.
  pose proof a_pos as A. induction n as [|n IH]; [cbn [psum INR pow]; replace (0 + x * 1 / (1 * 1)) with x by field; fold a; lra|].
  cbn [psum] in *. eapply Rle_trans; [apply Rabs_triang|].
  assert (T : Rabs (x ^ S (S n) / (INR (S (S n)) * INR (S (S n)))) <= a * ((1 / 4) * (1 / 2) ^ S n)).
  { unfold Rdiv. rewrite Rabs_mult. rewrite <- RPow_abs. fold a. rewrite (Rabs_pos_eq (/ _)).
    2:{ left. apply Rinv_0_lt_compat. assert (0 < INR (S (S n))) by (apply lt_0_INR; lia). nra. }
    rewrite <- tech_pow_Rmult. rewrite Rmult_assoc. apply Rmult_le_compat_l; [lra|]. rewrite Rmult_comm. apply Rmult_le_compat.
    - left. apply Rinv_0_lt_compat. assert (0 < INR (S (S n))) by (apply lt_0_INR; lia). nra.
    - apply pow_le; lra.
    - rewrite Rmult_1_l. apply Rinv_le_contravar; [lra|]. assert (2 <= INR (S (S n))) by (rewrite !S_INR; pose proof (pos_INR n); lra). nra.
    - apply pow_incr. unfold a in *; lra. }
  eapply Rle_trans; [apply Rplus_le_compat; [exact IH|exact T]|]. cbn [pow]. lra.
Qed.
Lemma loop_err : forall fuel n r p, (1 <= n)%nat -> (n + fuel <= 60)%nat -> Rabs (p - x ^ n) <= 4 * u0 * a ->
  Rabs (r - psum (n - 1)) <= (13 + 1.3 * INR (n - 1) - 12 / INR n) * u0 * a ->
  Rabs (f_loop x fuel n r p - psum (n - 1 + fuel)) <= (13 + 1.3 * INR (n - 1 + fuel)) * u0 * a.
Proof.
  pose proof a_pos as A. induction fuel as [|fuel IH]; intros n r p Hn Hf Hp Hr.
  - cbn [f_loop]. rewrite Nat.add_0_r. eapply Rle_trans; [exact Hr|]. assert (0 < / INR n) by (apply Rinv_0_lt_compat, lt_0_INR; lia).
    apply Rmult_le_compat_r; [lra|]. apply Rmult_le_compat_r; [lra|]. unfold Rdiv. lra.
  - cbn [f_loop]. replace (n - 1 + S fuel)%nat with (S n - 1 + fuel)%nat by lia. apply IH; [lia|lia|apply num_step; auto|].
    replace (S n - 1)%nat with (S (n - 1)) by lia. cbn [psum]. replace (S (n - 1)) with n by lia.
    pose proof (term_err n p Hn Hp) as T. set (t := RN (p / (INR n * INR n))) in *. set (t0 := x ^ n / (INR n * INR n)) in *.
    pose proof (RN_err (r + t)) as E. set (s := psum (n - 1)) in *.
    assert (N0 : 1 <= INR n) by (apply (le_INR 1); lia).
    assert (NN : INR n <= 60) by (replace 60 with (INR 60) by (cbn; lra); apply le_INR; lia).
    assert (PB : Rabs (s + t0) <= 1.25 * a).
    { pose proof (psum_bound (n - 1)) as B. cbn [psum] in B. replace (S (n - 1)) with n in B by lia. fold s t0 in B. eapply Rle_trans; [exact B|].
      assert (0 < (1 / 2) ^ (n - 1)) by (apply pow_lt; lra). nra. }
    assert (I2 : / (INR n * INR n) <= 2 * (/ INR n - / INR (S n))).
    { rewrite S_INR. apply Rmult_le_reg_r with (INR n * INR n * (INR n + 1)); [nra|]. field_simplify; [|lra|lra]. lra. }
    assert (I3 : 0 < / INR n <= 1) by (split; [apply Rinv_0_lt_compat; lra|rewrite <- Rinv_1; apply Rinv_le_contravar; lra]).
    assert (I4 : 0 < / INR (S n)) by (apply Rinv_0_lt_compat; rewrite S_INR; lra).
    assert (M : INR (n - 1) = INR n - 1) by (rewrite minus_INR by lia; cbn; ring).
    unfold Rdiv in *. rewrite M in Hr. set (w := / (INR n * INR n)) in *.
    replace (RN (r + t) - (s + t0)) with ((RN (r + t) - (r + t)) + ((r - s) + (t - t0))) by ring.
    assert (W : w <= 1). { unfold w. rewrite <- Rinv_1. apply Rinv_le_contravar; nra. }
    assert (D : Rabs ((r - s) + (t - t0)) <= (13 + 1.3 * (INR n - 1) - 12 * / INR n) * u0 * a + (6 * u0 * a * w + u0 * u0 * a)) by (eapply Rle_trans; [apply Rabs_triang|]; lra).
    assert (RT : Rabs (r + t) <= 1.251 * a).
    { replace (r + t) with ((s + t0) + ((r - s) + (t - t0))) by ring. eapply Rle_trans; [apply Rabs_triang|].
      assert ((13 + 1.3 * (INR n - 1) - 12 * / INR n) * u0 * a <= 100 * u0 * a) by (apply Rmult_le_compat_r; [lra|]; lra).
      assert (6 * u0 * a * w <= 6 * u0 * a * 1) by (apply Rmult_le_compat_l; nra). lra. }
    eapply Rle_trans; [apply Rabs_triang|]. assert (6 * u0 * a * w <= 6 * u0 * a * (2 * (/ INR n - / INR (S n)))) by (apply Rmult_le_compat_l; lra).
    fold a in Ha. lra.
Qed.
End Loop.
