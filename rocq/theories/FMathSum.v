(** The series of the dilogarithm in double arithmetic. *)
From Coq Require Import Reals ZArith Lia Lra Psatz.
From Flocq Require Import Core Relative.
From Coquelicot Require Import Coquelicot.
From Verif Require Import ExtModel TextModel TextNum MathModel MathProofs DilogSpec DilogProofs DilogError FMathModel FMathSpec FMathSeries.
Local Open Scope R_scope.
Set Bullet Behavior "Strict Subproofs".

Lemma half_pow n : (1 / 2) ^ n <= 1.
Proof. pose proof (pow_incr (1 / 2) 1 n ltac:(lra)) as H. rewrite pow1 in H. exact H. Qed.
Lemma loop_psum x fuel : forall n, (1 <= n)%nat -> dilog_loop x fuel n (psum x (n - 1)) (x ^ n) = psum x (n - 1 + fuel).
Proof.
  induction fuel as [|fuel IH]; intros n Hn; [cbn; rewrite Nat.add_0_r; reflexivity|]. cbn [dilog_loop].
  replace (psum x (n - 1) + x ^ n / (INR n * INR n)) with (psum x (S n - 1)).
  2:{ replace (S n - 1)%nat with (S (n - 1)) by lia. cbn [psum]. replace (S (n - 1)) with n by lia. reflexivity. }
  replace (x ^ n * x) with (x ^ S n) by (cbn; ring). rewrite IH by lia. f_equal. lia.
Qed.
Lemma series_psum x N : dilog_series x (N + 1) = psum x N.
Proof. unfold dilog_series. replace (N + 1 - 1)%nat with N by lia. pose proof (loop_psum x N 1 ltac:(lia)) as H. cbn [psum Nat.sub pow] in H. rewrite Rmult_1_r in H. exact H. Qed.
Lemma f_loop_zero x fuel : forall n r, RN r = r -> f_loop x fuel n r 0 = r.
Proof.
  induction fuel as [|fuel IH]; intros n r H; [reflexivity|]. cbn [f_loop]. unfold Rdiv. rewrite !Rmult_0_l, RN_0, Rplus_0_r, H. apply IH; auto.
Qed.
Lemma RN_tiny z : Rabs z < bpow radix2 (-1076) -> RN z = 0.
Proof.
  intros H. destruct (Req_dec z 0) as [->|N]; [apply RN_0|]. unfold RN.
  assert (M : (mag radix2 z <= -1076)%Z) by (apply mag_le_bpow; auto).
  apply (round_N_small radix2 (FLT_exp (-1074) 53) _ z (mag radix2 z)).
  - destruct (mag radix2 z) as (e & E). apply E; auto.
  - unfold FLT_exp. lia.
Qed.
Lemma psum_x x n : Rabs x <= 1 / 2 -> Rabs (psum x (S n) - x) <= Rabs x * Rabs x * (1 - (1 / 2) ^ n).
Proof.
  intros Hx. pose proof (Rabs_pos x) as A. induction n as [|n IH]; [cbn; replace (0 + x * 1 / (1 * 1) - x) with 0 by field; rewrite Rabs_R0; lra|].
  cbn [psum] in *. replace (psum x n + x ^ S n / (INR (S n) * INR (S n)) + x ^ S (S n) / (INR (S (S n)) * INR (S (S n))) - x) with
    ((psum x n + x ^ S n / (INR (S n) * INR (S n)) - x) + x ^ S (S n) / (INR (S (S n)) * INR (S (S n)))) by ring.
  eapply Rle_trans; [apply Rabs_triang|].
  assert (T : Rabs (x ^ S (S n) / (INR (S (S n)) * INR (S (S n)))) <= Rabs x * Rabs x * (1 / 2) ^ S n).
  { assert (I2 : 2 <= INR (S (S n))) by (rewrite !S_INR; pose proof (pos_INR n); lra). unfold Rdiv. rewrite Rabs_mult. rewrite <- RPow_abs. rewrite (Rabs_pos_eq (/ _)).
    2:{ left. apply Rinv_0_lt_compat. nra. }
    rewrite <- !tech_pow_Rmult. rewrite <- (Rmult_assoc (Rabs x)), Rmult_assoc. apply Rmult_le_compat_l; [nra|]. rewrite Rmult_comm. apply Rmult_le_compat.
    - left. apply Rinv_0_lt_compat. nra.
    - apply pow_le; lra.
    - rewrite Rmult_1_l. apply Rinv_le_contravar; nra.
    - apply pow_incr. lra. }
  eapply Rle_trans; [apply Rplus_le_compat; [exact IH|exact T]|]. cbn [pow]. nra.
Qed.
Lemma series_rounding x N : Rabs x <= 1 / 2 -> RN x = x -> (1 <= N <= 59)%nat -> Rabs (f_series x (N + 1) - psum x N) <= (13 + 1.3 * INR N) * u0 * Rabs x.
Proof.
  intros Hx F HN. pose proof (Rabs_pos x) as A. unfold f_series. replace (N + 1 - 1)%nat with N by lia.
  destruct (Rle_lt_dec (bpow radix2 (-900)) (Rabs x)) as [L|L].
  - assert (E : eta <= u0 * u0 * Rabs x).
    { apply Rle_trans with (bpow radix2 (-106) * bpow radix2 (-900)); [rewrite <- bpow_plus; apply bpow_le; lia|].
      replace (u0 * u0) with (bpow radix2 (-106)) by (cbn; lra). apply Rmult_le_compat_l; [apply bpow_ge_0|exact L]. }
    pose proof (loop_err x Hx E N 1 0 x ltac:(lia) ltac:(lia)) as H. cbn [Nat.sub Nat.add psum INR pow] in H. apply H.
    + replace (x - x * 1) with 0 by ring. rewrite Rabs_R0. nra.
    + rewrite Rminus_0_r, Rabs_R0. nra.
  - destruct N as [|n]; [lia|]. cbn [f_loop]. replace (x / (INR 1 * INR 1)) with x by (cbn; field). rewrite F, Rplus_0_l, F.
    rewrite (RN_tiny (x * x)).
    + rewrite f_loop_zero by auto. rewrite Rabs_minus_sym. eapply Rle_trans; [apply psum_x; auto|].
      assert (S1 : Rabs x <= u0). { left. eapply Rlt_le_trans; [exact L|]. replace u0 with (bpow radix2 (-53)) by (cbn; lra). apply bpow_le. lia. }
      assert (0 < (1 / 2) ^ n <= 1) by (split; [apply pow_lt; lra|apply half_pow]).
      apply Rle_trans with (Rabs x * Rabs x * 1); [apply Rmult_le_compat_l; nra|]. pose proof (pos_INR (S n)). nra.
    + rewrite Rabs_mult. apply Rlt_trans with (bpow radix2 (-900) * bpow radix2 (-900)); [apply Rmult_le_0_lt_compat; auto|]. rewrite <- bpow_plus. apply bpow_lt. lia.
Qed.
(** The number of terms. *)
Lemma RN_rel z e : Rabs z <= e -> Rabs (RN z - z) <= u0 * e + eta.
Proof. intros H. pose proof (RN_err z). pose proof (Rabs_pos z). lra. Qed.
Lemma eta_small : eta <= / 1000000000000.
Proof. apply Rle_trans with (bpow radix2 (-40)); [apply bpow_le; lia|cbn; lra]. Qed.
Ltac rnd z e H := let K := fresh in assert (K : Rabs z <= e) by (apply Rabs_le; lra); pose proof (RN_rel z e K) as H; clear K; apply Rabs_le_inv in H.
Lemma ln_53_ge : 3 <= ln 53.
Proof.
  rewrite <- (ln_exp 3). apply ln_le; [apply exp_pos|]. replace 3 with (1 + 1 + 1) by lra. rewrite !exp_plus. pose proof exp_le_3. pose proof (exp_pos 1).
  assert (exp 1 * exp 1 <= 9) by nra. nra.
Qed.
Lemma n_max_bounds (log : R -> R) x : Rabs x <= 1 / 2 -> Rabs (log 53 - ln 53) <= / 1000000 -> exists N v, f_n_max log x = (N + 1)%nat /\ Z.of_nat N = ceil v /\ 56.1 * Rabs x + 15.899 <= v /\ (1 <= N <= 49)%nat.
Proof.
  intros Hx HL. apply Rabs_le_inv in HL. pose proof ln_53 as L1. pose proof ln_53_ge as L2. pose proof eta_small as ES. pose proof eta_pos as EP. pose proof (Rabs_pos x) as XP.
  unfold f_n_max. set (l := log 53) in *.
  rnd 1.4 1.5 H1. rnd (RN 1.4 * 53) 80 H2. rnd (1 - l) 4 H3. rnd (6 * RN (1 - l)) 24 H4. rnd (RN (RN 1.4 * 53) + RN (6 * RN (1 - l))) 100 H5.
  set (A := RN (RN (RN 1.4 * 53) + RN (6 * RN (1 - l)))) in *. assert (HA : 56.15 <= A <= 62.3) by lra.
  assert (AX : 56.15 * Rabs x <= A * Rabs x <= 62.3 * Rabs x) by (split; apply Rmult_le_compat_r; lra).
  pose proof (RN_err (A * Rabs x)) as H6. rewrite (Rabs_pos_eq (A * Rabs x)) in H6 by lra. apply Rabs_le_inv in H6.
  rnd 0.3 1 H7. rnd (RN 0.3 * 53) 16 H8. rnd (RN (A * Rabs x) + RN (RN 0.3 * 53)) 50 H9.
  set (v := RN (RN (A * Rabs x) + RN (RN 0.3 * 53))) in *. exists (Z.to_nat (ceil v)), v.
  assert (V : 56.1 * Rabs x + 15.899 <= v <= 47.5) by lra.
  assert (C1 : (15 < ceil v)%Z) by (apply lt_IZR; pose proof (ceil_ge v); lra).
  assert (C2 : (ceil v < 49)%Z). { apply lt_IZR. unfold ceil. rewrite opp_IZR. pose proof (base_Int_part (- v)). lra. }
  split; [lia|]. split; [lia|]. split; [lra|lia].
Qed.
Lemma cells_53' : cells_ok 52 56100 15899 500 0 = true. Proof. vm_compute. reflexivity. Qed.
Lemma enough_v t v N : 0 <= t <= 1 / 2 -> 56.1 * t + 15.899 <= v -> Z.of_nat N = ceil v -> t ^ N * IZR (2 ^ 52) <= INR (N + 1) * INR (N + 1) * (1 - t).
Proof.
  intros Ht LV EN. assert (I : exists i, (0 <= i < 500)%Z /\ IZR i / 1000 <= t <= IZR (i + 1) / 1000).
  { destruct (Req_dec t (1 / 2)) as [->|NE].
    - exists 499%Z. split; [lia|]. cbn. lra.
    - exists (Int_part (1000 * t)). pose proof (base_Int_part (1000 * t)) as [B1 B2]. rewrite plus_IZR.
      assert (Int_part (1000 * t) < 500)%Z by (apply lt_IZR; lra). assert (-1 < Int_part (1000 * t))%Z by (apply lt_IZR; lra).
      split; [lia|lra]. }
  destruct I as (i & Hi & Hti).
  pose proof (cells_at 52 56100 15899 500 0 i cells_53' ltac:(lia)) as Ci.
  assert (CE : (cell_n 56100 15899 i <= ceil v)%Z).
  { apply ceil_ge_Z; [exact 0%Z|]. rewrite plus_IZR, !mult_IZR. assert (I0 : 0 <= IZR i) by (apply IZR_le; lia). lra. }
  apply (cell_enough 52 56100 15899 i); auto; try lia; try lra.
Qed.
(** For arguments up to one half the loop is within 2^-46 of the series, relative to the argument. *)
Lemma f_series_err (log : R -> R) x : Rabs x <= 1 / 2 -> RN x = x -> Rabs (log 53 - ln 53) <= / 1000000 -> Rabs (f_series x (f_n_max log x) - Li x) <= 80 * u0 * Rabs x.
Proof.
  intros Hx F HL. destruct (n_max_bounds log x Hx HL) as (N & v & -> & EN & LV & HN). pose proof (Rabs_pos x) as P.
  pose proof (enough_v (Rabs x) v N (conj P Hx) LV EN) as T.
  pose proof (series_rounding x N Hx F ltac:(lia)) as R. rewrite <- series_psum in R.
  assert (X : -1 < x < 1) by (apply Rabs_le_inv in Hx; lra).
  pose proof (Li_tail x N X ltac:(lia)) as L.
  assert (B : Rabs (Li x - dilog_series x (N + 1)) <= Rabs x / IZR (2 ^ 52)).
  { eapply Rle_trans; [exact L|]. assert (D0 : 0 < IZR (2 ^ 52)) by (apply IZR_lt; reflexivity).
    assert (I0 : 0 < INR (N + 1)) by (apply lt_0_INR; lia).
    assert (W : 0 < INR (N + 1) * INR (N + 1) * (1 - Rabs x)) by (apply Rmult_lt_0_compat; [nra|lra]).
    rewrite pow_add, pow_1. apply Rmult_le_reg_r with (INR (N + 1) * INR (N + 1) * (1 - Rabs x)); [auto|].
    apply Rmult_le_reg_r with (IZR (2 ^ 52)); [auto|]. unfold Rdiv at 1.
    replace (_ * _ * IZR (2 ^ 52)) with ((Rabs x ^ N * IZR (2 ^ 52)) * Rabs x) by (field; lra).
    replace (Rabs x / IZR (2 ^ 52) * _ * _) with ((INR (N + 1) * INR (N + 1) * (1 - Rabs x)) * Rabs x) by (field; lra).
    apply Rmult_le_compat_r; auto. }
  replace (f_series x (N + 1) - Li x) with ((f_series x (N + 1) - dilog_series x (N + 1)) - (Li x - dilog_series x (N + 1))) by ring.
  eapply Rle_trans; [apply Rabs_triang|]. rewrite Rabs_Ropp. assert (NI : INR N <= 49) by (replace 49 with (INR 49) by (cbn; lra); apply le_INR; lia).
  assert ((13 + 1.3 * INR N) * u0 * Rabs x <= (13 + 1.3 * 49) * u0 * Rabs x) by (apply Rmult_le_compat_r; lra).
  change (IZR (2 ^ 52)) with 4503599627370496 in B. lra.
Qed.
