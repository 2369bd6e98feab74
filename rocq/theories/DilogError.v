(** Truncation error of the dilogarithm. *)
From Coq Require Import Reals Lra Lia Psatz Bool ZArith QArith Qreals.
From Coquelicot Require Import Coquelicot.
From Verif Require Import ExtModel BoundProofs MathModel MathProofs DilogSpec DilogProofs.
Set Bullet Behavior "Strict Subproofs".
Local Open Scope R_scope.

(** Tail of a series dominated by a geometric one. *)
Lemma tail_bound (c : nat -> R) (w x T : R) (N : nat) : -1 < x < 1 -> (0 < N)%nat -> 0 <= w ->
  is_series (fun n => x ^ (n + 1) * c n) T -> (forall n, (N <= n)%nat -> Rabs (c n) <= w) ->
  Rabs (T - sum_f_R0 (fun n => x ^ (n + 1) * c n) (N - 1)) <= w * Rabs x ^ (N + 1) / (1 - Rabs x).
Proof.
  intros Hx HN Hw HS Hc. set (f := fun n => x ^ (n + 1) * c n) in *.
  assert (A : Rabs x < 1) by (apply Rabs_def1; lra). pose proof (Rabs_pos x) as P.
  assert (EX : ex_series f) by (eexists; apply HS).
  replace T with (Series f) by (apply is_series_unique; exact HS).
  rewrite (Series_incr_n f N) by auto. replace (pred N) with (N - 1)%nat by lia.
  replace (sum_f_R0 f (N - 1) + Series (fun k => f (N + k)%nat) - sum_f_R0 f (N - 1)) with (Series (fun k => f (N + k)%nat)) by ring.
  set (g := fun k => Rabs x ^ (N + 1) * w * Rabs x ^ k).
  assert (B : forall k, 0 <= Rabs (f (N + k)%nat) <= g k).
  { intros k. split; [apply Rabs_pos|]. unfold f, g. rewrite Rabs_mult, <- RPow_abs.
    replace (N + k + 1)%nat with (N + 1 + k)%nat by lia. rewrite pow_add, Rmult_assoc. rewrite (Rmult_assoc (Rabs x ^ (N + 1)) w). apply Rmult_le_compat_l; [apply pow_le; auto|].
    rewrite Rmult_comm. apply Rmult_le_compat_r; [apply pow_le; auto|]. apply Hc. lia. }
  assert (G : is_series g (Rabs x ^ (N + 1) * w * / (1 - Rabs x))).
  { apply (is_series_scal_l (Rabs x ^ (N + 1) * w) (fun k => Rabs x ^ k)). apply is_series_geom. rewrite Rabs_Rabsolu. auto. }
  assert (E2 : ex_series (fun k => Rabs (f (N + k)%nat))).
  { apply (ex_series_le (V := R_CompleteNormedModule) _ g); [|eexists; exact G]. intros k. change (Rabs (Rabs (f (N + k)%nat)) <= g k). rewrite Rabs_Rabsolu. apply B. }
  eapply Rle_trans; [apply Series_Rabs, E2|]. eapply Rle_trans; [apply (Series_le _ g B); eexists; exact G|].
  rewrite (is_series_unique _ _ G). right. unfold Rdiv. ring.
Qed.

Lemma Li_is x : -1 < x < 1 -> is_series (fun n => x ^ (n + 1) * / (INR (S n) * INR (S n))) (Li x).
Proof.
  intros H. rewrite (Li_series x H). unfold Li2_series.
  assert (C : forall k, INR (S k) <> 0) by (intros k; apply not_0_INR; lia).
  apply (is_series_ext (fun n => x ^ S n / INR (S n) ^ 2)).
  { intros n. replace (n + 1)%nat with (S n) by lia. toR. field. apply C. }
  apply Series_correct.
  pose proof (CV_radius_inside a2 x (in_cv _ _ cv_a2 H)) as E. apply ex_pseries_R in E. apply ex_series_incr_1 in E.
  eapply ex_series_ext; [|exact E]. intros n. unfold a2, b2, b1, PS_Int, PS_decr_1, ones. toR. field. apply C.
Qed.
Lemma b1_is x : -1 < x < 1 -> is_series (fun n => x ^ (n + 1) * / INR (S n)) (- ln (1 - x)).
Proof.
  intros H. rewrite <- (ln_series x H). unfold PSeries.
  assert (C : forall k, INR (S k) <> 0) by (intros k; apply not_0_INR; lia).
  pose proof (CV_radius_inside b1 x (in_cv _ _ cv_b1 H)) as E. apply ex_pseries_R in E. rewrite Series_incr_1 by exact E.
  change (b1 0%nat) with 0. rewrite Rmult_0_l, Rplus_0_l.
  apply (is_series_ext (fun k => b1 (S k) * x ^ S k)).
  { intros n. replace (n + 1)%nat with (S n) by lia. unfold b1, PS_Int, ones. toR. field. apply C. }
  apply Series_correct. apply (ex_series_incr_1 (fun k => b1 k * x ^ k)). exact E.
Qed.

Lemma Li_tail x N : -1 < x < 1 -> (0 < N)%nat ->
  Rabs (Li x - dilog_series x (N + 1)) <= Rabs x ^ (N + 1) / (INR (N + 1) * INR (N + 1) * (1 - Rabs x)).
Proof.
  intros Hx HN. rewrite dilog_series_sum by lia. replace (N + 1 - 2)%nat with (N - 1)%nat by lia.
  rewrite (sum_eq _ (fun n => x ^ (n + 1) * / (INR (S n) * INR (S n)))).
  2:{ intros i _. replace (i + 1)%nat with (S i) by lia. field. apply not_0_INR. lia. }
  assert (P : 0 < INR (N + 1)) by (apply lt_0_INR; lia).
  eapply Rle_trans; [apply (tail_bound (fun n => / (INR (S n) * INR (S n))) (/ (INR (N + 1) * INR (N + 1)))); auto|].
  - left. apply Rinv_0_lt_compat. nra.
  - apply Li_is. auto.
  - intros n Hn. assert (Q : INR (N + 1) <= INR (S n)) by (apply le_INR; lia). rewrite Rabs_right.
    + apply Rinv_le_contravar; nra.
    + apply Rle_ge. left. apply Rinv_0_lt_compat. nra.
  - right. field. assert (Rabs x < 1) by (apply Rabs_def1; lra). lra.
Qed.

(** The number of terms is enough: cells of width 1/1000. *)
Section Cells.
Variables (d A B : Z).   (* slope and offset in thousandths *)
Definition cell_n (i : Z) : Z := (- ((- (A * i + 1000 * B)) / 1000000))%Z.
Definition cell_ok (i : Z) : bool :=
  let n := cell_n i in
  ((0 <? n) && ((i + 1) ^ n * 1000 * 2 ^ d <=? (n + 1) * (n + 1) * (1000 - (i + 1)) * 1000 ^ n))%Z.
Fixpoint cells_ok (k : nat) (i : Z) : bool := match k with O => true | S k' => cell_ok i && cells_ok k' (i + 1)%Z end.
Lemma cells_at k : forall i j, cells_ok k i = true -> (i <= j < i + Z.of_nat k)%Z -> cell_ok j = true.
Proof.
  induction k as [|k IH]; intros i j H R; [lia|]. cbn [cells_ok] in H. apply andb_true_iff in H. destruct H as [H1 H2].
  destruct (Z.eq_dec j i) as [->|N]; [auto|]. apply (IH (i + 1)%Z); [auto|lia].
Qed.
Lemma pow_IZR a n : (0 <= n)%Z -> IZR (a ^ n) = IZR a ^ Z.to_nat n.
Proof. intros H. rewrite <- (Z2Nat.id n H) at 1. rewrite pow_IZR. reflexivity. Qed.
Lemma cell_enough i N t : (0 <= i)%Z -> (0 <= d)%Z -> cell_ok i = true -> IZR i / 1000 <= t <= IZR (i + 1) / 1000 -> t < 1 -> (i + 1 < 1000)%Z ->
  (cell_n i <= Z.of_nat N)%Z -> t ^ N * IZR (2 ^ d) <= INR (N + 1) * INR (N + 1) * (1 - t).
Proof.
  intros Hi Hd C Ht T1 I1 HN. unfold cell_ok in C. set (n := cell_n i) in *. apply andb_true_iff in C. destruct C as [C0 C].
  apply Z.ltb_lt in C0. apply Z.leb_le, IZR_le in C. rewrite !mult_IZR, !minus_IZR, !(pow_IZR _ n) in C by lia.
  set (m := Z.to_nat n) in *. set (s := IZR (i + 1)) in *. assert (I0 : 0 <= IZR i) by (apply IZR_le; auto).
  assert (S0 : 0 < s) by (apply IZR_lt; lia).
  assert (S1 : s < 1000) by (apply IZR_lt; auto).
  assert (E1 : t ^ N <= (s / 1000) ^ m).
  { apply Rle_trans with (t ^ m).
    - replace N with (m + (N - m))%nat by (unfold m; lia). rewrite pow_add. rewrite <- (Rmult_1_r (t ^ m)) at 2. apply Rmult_le_compat_l; [apply pow_le; lra|].
      rewrite <- (pow1 (N - m)). apply pow_incr; lra.
    - apply pow_incr. lra. }
  assert (P0 : 0 < IZR (2 ^ d)) by (apply IZR_lt; apply Z.pow_pos_nonneg; lia).
  assert (K : 0 < 1000 ^ m) by (apply pow_lt; lra).
  assert (E2 : (s / 1000) ^ m * IZR (2 ^ d) <= IZR (n + 1) * IZR (n + 1) * (1 - s / 1000)).
  { unfold Rdiv. rewrite Rpow_mult_distr, pow_inv by lra. apply Rmult_le_reg_l with (1000 ^ m * 1000); [lra|].
    apply Rle_trans with (s ^ m * 1000 * IZR (2 ^ d)); [right; field; lra|]. eapply Rle_trans; [exact C|]. right. field. }
  assert (E3 : IZR (n + 1) <= INR (N + 1)) by (rewrite INR_IZR_INZ; apply IZR_le; lia).
  assert (E4 : 0 < IZR (n + 1)) by (apply IZR_lt; lia).
  apply Rle_trans with ((s / 1000) ^ m * IZR (2 ^ d)); [apply Rmult_le_compat_r; lra|].
  eapply Rle_trans; [exact E2|]. apply Rmult_le_compat; [nra|lra|nra|lra].
Qed.
End Cells.

Lemma ceil_ge r : r <= IZR (ceil r).
Proof. unfold ceil. rewrite opp_IZR. pose proof (base_Int_part (- r)). lra. Qed.
Lemma ceil_ge_Z r (k z : Z) : IZR k <= r * 1000000 -> (- ((- k) / 1000000) <= ceil r)%Z.
Proof.
  intros H. pose proof (ceil_ge r) as C. assert (IZR k <= IZR (ceil r * 1000000)) as L by (rewrite mult_IZR; lra). apply le_IZR in L.
  assert (- ceil r <= (- k) / 1000000)%Z by (apply Z.div_le_lower_bound; lia). lia.
Qed.

(** Enough terms, for a mantissa of [d] bits. *)
Lemma enough d A B t : (0 < d)%Z -> (0 <= A)%Z -> cells_ok d A B 500 0 = true ->
  IZR A / 1000 <= 1.4 * IZR d + 6 * (1 - ln (IZR d)) -> IZR B / 1000 <= 0.3 * IZR d -> 0 <= t <= 1 / 2 ->
  let N := (dilog_n_max d t - 1)%nat in (0 < N)%nat /\ dilog_n_max d t = (N + 1)%nat /\ t ^ N * IZR (2 ^ d) <= INR (N + 1) * INR (N + 1) * (1 - t).
Proof.
  intros Hd HA C LA LB Ht. set (sl := 1.4 * IZR d + 6 * (1 - ln (IZR d))) in *.
  assert (I : exists i, (0 <= i < 500)%Z /\ IZR i / 1000 <= t <= IZR (i + 1) / 1000).
  { destruct (Req_dec t (1 / 2)) as [->|N].
    - exists 499%Z. split; [lia|]. cbn. lra.
    - exists (Int_part (1000 * t)). pose proof (base_Int_part (1000 * t)) as [B1 B2]. rewrite plus_IZR.
      assert (Int_part (1000 * t) < 500)%Z by (apply lt_IZR; lra). assert (-1 < Int_part (1000 * t))%Z by (apply lt_IZR; lra).
      split; [lia|lra]. }
  destruct I as (i & Hi & Hti).
  pose proof (cells_at d A B 500 0 i C ltac:(lia)) as Ci.
  unfold dilog_n_max. fold sl. rewrite (Rabs_right t) by lra.
  assert (CE : (cell_n A B i <= ceil (sl * t + 0.3 * IZR d))%Z).
  { apply ceil_ge_Z; [exact 0%Z|]. rewrite plus_IZR, !mult_IZR.
    assert (A0 : 0 <= IZR A) by (apply IZR_le; auto). assert (I0 : 0 <= IZR i) by (apply IZR_le; lia).
    assert (IZR A / 1000 * (IZR i / 1000) <= sl * t) by (apply Rmult_le_compat; lra). lra. }
  assert (C0 : (0 < cell_n A B i)%Z) by (unfold cell_ok in Ci; apply andb_true_iff in Ci; apply Z.ltb_lt, Ci).
  set (c := ceil (sl * t + 0.3 * IZR d)) in *. cbv zeta. split; [lia|]. split; [lia|].
  apply (cell_enough d A B i); auto; try lia; try lra.
Qed.
Lemma cells_24 : cells_ok 24 20400 7200 500 0 = true. Proof. vm_compute. reflexivity. Qed.
Lemma cells_53 : cells_ok 53 56200 15900 500 0 = true. Proof. vm_compute. reflexivity. Qed.
Lemma cells_64 : cells_ok 64 70600 19200 500 0 = true. Proof. vm_compute. reflexivity. Qed.

(** Logarithms of the mantissa sizes. *)
Lemma exp_ge_sq u : 0 <= u -> 1 + u + u * u / 2 <= exp u.
Proof.
  intros H. destruct (Req_dec u 0) as [->|N]; [rewrite exp_0; lra|].
  destruct (MVT_cor2 (fun t => exp t - t * t / 2 - t) (fun t => exp t - t - 1) 0 u ltac:(lra)) as (c & E & Hc).
  - intros c Hc. apply is_derive_Reals. auto_derive; [auto|field].
  - pose proof (exp_ineq1_le c). rewrite exp_0 in E. assert (0 <= (exp c - c - 1) * (u - 0)) by (apply Rmult_le_pos; lra). lra.
Qed.
Lemma exp_pow_n k u : exp (INR k * u) = exp u ^ k.
Proof. induction k; [cbn; rewrite Rmult_0_l; apply exp_0|]. rewrite S_INR, Rmult_plus_distr_r, exp_plus, IHk, Rmult_1_l. cbn. ring. Qed.
Lemma ln_le_by v u k : 0 < v -> 0 <= u -> v <= (1 + u + u * u / 2) ^ k -> ln v <= INR k * u.
Proof.
  intros Hv Hu H. assert (E : v <= exp (INR k * u)).
  { eapply Rle_trans; [exact H|]. rewrite exp_pow_n. apply pow_incr. split; [nra|]. apply exp_ge_sq; auto. }
  rewrite <- (ln_exp (INR k * u)). apply ln_le; auto.
Qed.

Lemma ln_24 : ln 24 <= 3.2.
Proof. eapply Rle_trans; [apply (ln_le_by 24 (1 / 5) 16); [lra|lra|cbn; lra]|cbn; lra]. Qed.
Lemma ln_53 : ln 53 <= 4.
Proof. eapply Rle_trans; [apply (ln_le_by 53 (1 / 8) 32); [lra|lra|cbn; lra]|cbn; lra]. Qed.
Lemma ln_64 : ln 64 <= 25 / 6.
Proof.
  assert (L : ln 2 <= 25 / 36) by (eapply Rle_trans; [apply (ln_le_by 2 (25 / 288) 8); [lra|lra|cbn; lra]|cbn; lra]).
  replace 64 with (2 ^ 6) by (cbn; lra). rewrite ln_pow by lra. cbn. lra.
Qed.

Lemma enough_terms d t : mantissa d -> 0 <= t <= 1 / 2 ->
  let N := (dilog_n_max d t - 1)%nat in (0 < N)%nat /\ dilog_n_max d t = (N + 1)%nat /\ t ^ N * IZR (2 ^ d) <= INR (N + 1) * INR (N + 1) * (1 - t).
Proof.
  pose proof ln_24. pose proof ln_53. pose proof ln_64.
  intros [->|[->| ->]] Ht.
  - apply (enough 24 20400 7200 t ltac:(lia) ltac:(lia) cells_24); lra.
  - apply (enough 53 56200 15900 t ltac:(lia) ltac:(lia) cells_53); lra.
  - apply (enough 64 70600 19200 t ltac:(lia) ltac:(lia) cells_64); lra.
Qed.
Lemma n_max_abs d x : dilog_n_max d (Rabs x) = dilog_n_max d x.
Proof. unfold dilog_n_max. rewrite Rabs_Rabsolu. reflexivity. Qed.
Lemma series_error d x : mantissa d -> -0.5 <= x <= 0.5 -> Rabs (dilog_series x (dilog_n_max d x) - Li x) <= Rabs x / IZR (2 ^ d).
Proof.
  intros M Hx. assert (A : Rabs x <= 1 / 2) by (apply Rabs_le; lra). pose proof (Rabs_pos x) as P.
  destruct (enough_terms d (Rabs x) M (conj P A)) as (N0 & E & T). rewrite n_max_abs in *. set (N := (dilog_n_max d x - 1)%nat) in *.
  rewrite E. rewrite Rabs_minus_sym. eapply Rle_trans; [apply Li_tail; [lra|auto]|].
  assert (D0 : 0 < IZR (2 ^ d)) by (apply IZR_lt; destruct M as [->|[->| ->]]; reflexivity).
  assert (I0 : 0 < INR (N + 1)) by (apply lt_0_INR; lia).
  assert (W : 0 < INR (N + 1) * INR (N + 1) * (1 - Rabs x)) by (apply Rmult_lt_0_compat; [nra|lra]).
  rewrite pow_add, pow_1. apply Rmult_le_reg_r with (INR (N + 1) * INR (N + 1) * (1 - Rabs x)); [auto|].
  apply Rmult_le_reg_r with (IZR (2 ^ d)); [auto|]. unfold Rdiv at 1.
  replace (_ * _ * IZR (2 ^ d)) with ((Rabs x ^ N * IZR (2 ^ d)) * Rabs x) by (field; lra).
  replace (Rabs x / IZR (2 ^ d) * _ * _) with ((INR (N + 1) * INR (N + 1) * (1 - Rabs x)) * Rabs x) by (field; lra).
  apply Rmult_le_compat_r; auto.
Qed.

(** The constant. *)
Fixpoint qsum (p : positive -> Q) (n : nat) (k : positive) (w : Q) : Q :=
  match n with O => 0%Q | S n' => Qred (w * p k + qsum p n' (Pos.succ k) (Qred (w * (1 # 2))))%Q end.
Lemma Q2R_red q : Q2R (Qred q) = Q2R q. Proof. apply Qeq_eqR, Qred_correct. Qed.
Lemma sum_shift (f : nat -> R) n : sum_f_R0 f (S n) = f 0%nat + sum_f_R0 (fun i => f (S i)) n.
Proof. induction n; [reflexivity|]. rewrite tech5, IHn. cbn. ring. Qed.
Lemma qsum_is p n : forall k w, Q2R (qsum p (S n) k w) = sum_f_R0 (fun i => Q2R w * (1 / 2) ^ i * Q2R (p (Pos.of_nat (Pos.to_nat k + i)))) n.
Proof.
  induction n as [|n IH]; intros k w.
  - cbn [qsum sum_f_R0]. rewrite Q2R_red, Q2R_plus, Q2R_mult, Nat.add_0_r, Pos2Nat.id, pow_O. unfold Q2R at 3. cbn. field.
  - rewrite sum_shift. remember (S n) as m. cbn [qsum]. subst m. rewrite Q2R_red, Q2R_plus, Q2R_mult, IH, Nat.add_0_r, Pos2Nat.id, pow_O.
    f_equal; [ring|]. apply sum_eq. intros i _. rewrite Q2R_red, Q2R_mult. replace (Q2R (1 # 2)) with (1 / 2) by (unfold Q2R; cbn; lra).
    replace (Pos.to_nat (Pos.succ k) + i)%nat with (Pos.to_nat k + S i)%nat by (rewrite Pos2Nat.inj_succ; lia). cbn [pow]. ring.
Qed.
Definition q_li : Q := qsum (fun k => 1 # (k * k))%Q 150 1 (1 # 2).
Definition q_ln : Q := qsum (fun k => 1 # k)%Q 150 1 (1 # 2).
Lemma Q2R_inv k : Q2R (1 # k) = / IZR (Zpos k). Proof. unfold Q2R. cbn. ring. Qed.
Lemma pow_half n : (1 / 2) ^ n = / 2 ^ n. Proof. unfold Rdiv. rewrite Rpow_mult_distr, pow1, pow_inv by lra. ring. Qed.
Lemma INR_of_nat n : IZR (Zpos (Pos.of_nat (S n))) = INR (S n).
Proof. rewrite INR_IZR_INZ. f_equal. rewrite <- (Nat2Pos.id (S n)) at 2 by lia. rewrite positive_nat_Z. reflexivity. Qed.
Lemma li_half : Rabs (Li (1 / 2) - Q2R q_li) <= / 2 ^ 150.
Proof.
  unfold q_li. rewrite qsum_is.
  rewrite (sum_eq _ (fun n => (1 / 2) ^ (n + 1) * / (INR (S n) * INR (S n)))).
  2:{ intros i _. change (Pos.to_nat 1 + i)%nat with (S i). replace (Q2R (1 # 2)) with (1 / 2) by (unfold Q2R; cbn; lra). rewrite Q2R_inv. set (q := Pos.of_nat (S i)). rewrite (Pos2Z.inj_mul q q), mult_IZR. unfold q. rewrite INR_of_nat.
      rewrite pow_add, pow_1. ring. }
  match goal with |- context [sum_f_R0 ?f _] => change (sum_f_R0 f 149) with (sum_f_R0 f (150 - 1)) end. eapply Rle_trans; [apply (tail_bound (fun n => / (INR (S n) * INR (S n))) 1); [lra|lia|lra|apply Li_is; lra|]|].
  - intros n _. assert (1 <= INR (S n)) by (change 1 with (INR 1); apply le_INR; lia). rewrite Rabs_right.
    + rewrite <- Rinv_1. apply Rinv_le_contravar; nra.
    + apply Rle_ge. left. apply Rinv_0_lt_compat. nra.
  - rewrite (Rabs_right (1 / 2)) by lra. rewrite pow_add, pow_1, pow_half. right. generalize (/ 2 ^ 150). intros e. field.
Qed.
Lemma ln_2_bounds : 0 < ln 2 <= 1.
Proof. split; [rewrite <- ln_1; apply ln_increasing; lra|]. pose proof (ln_le_sub 2 ltac:(lra)). lra. Qed.
Lemma ln_half : Rabs (ln 2 - Q2R q_ln) <= / 2 ^ 150.
Proof.
  assert (L : ln 2 = - ln (1 - 1 / 2)) by (replace (1 - 1 / 2) with (/ 2) by field; rewrite ln_Rinv by lra; ring).
  rewrite L. unfold q_ln. rewrite qsum_is.
  rewrite (sum_eq _ (fun n => (1 / 2) ^ (n + 1) * / INR (S n))).
  2:{ intros i _. change (Pos.to_nat 1 + i)%nat with (S i). replace (Q2R (1 # 2)) with (1 / 2) by (unfold Q2R; cbn; lra). rewrite Q2R_inv, INR_of_nat.
      rewrite pow_add, pow_1. ring. }
  match goal with |- context [sum_f_R0 ?f _] => change (sum_f_R0 f 149) with (sum_f_R0 f (150 - 1)) end. eapply Rle_trans; [apply (tail_bound (fun n => / INR (S n)) 1); [lra|lia|lra|apply b1_is; lra|]|].
  - intros n _. assert (1 <= INR (S n)) by (change 1 with (INR 1); apply le_INR; lia). rewrite Rabs_right.
    + rewrite <- Rinv_1. apply Rinv_le_contravar; lra.
    + apply Rle_ge. left. apply Rinv_0_lt_compat. lra.
  - rewrite (Rabs_right (1 / 2)) by lra. rewrite pow_add, pow_1, pow_half. right. generalize (/ 2 ^ 150). intros e. field.
Qed.

Definition q_c : Q := 16449340668482264364724151666460251892189499012067984377355582293700074704032008738336289006197587053040043189623371906796287247 # (10 ^ 127).
Lemma c_check : (Qle_bool (q_c - (2 * q_li + q_ln * q_ln)) (1 # 2 ^ 146) && Qle_bool ((2 * q_li + q_ln * q_ln) - q_c) (1 # 2 ^ 146))%Q = true.
Proof. vm_compute. reflexivity. Qed.
Lemma q_c_is : Q2R q_c = dilog_c.
Proof.
  assert (E : Zpos (Qden q_c) = (10 ^ 127)%Z) by (vm_compute; reflexivity).
  unfold Q2R. rewrite E. unfold dilog_c, Rdiv, q_c, Qnum. reflexivity.
Qed.
Lemma c_close : Rabs (dilog_c - c0) <= / 2 ^ 140.
Proof.
  pose proof c_check as C. apply andb_true_iff in C. destruct C as [C1 C2]. apply Qle_bool_iff, Qle_Rle in C1. apply Qle_bool_iff, Qle_Rle in C2.
  rewrite !Q2R_minus, Q2R_plus, !Q2R_mult in C1, C2.
  replace (Q2R (1 # 2 ^ 146)) with (/ 2 ^ 146) in C1, C2 by (unfold Q2R; cbn; lra).
  replace (Q2R 2) with 2 in C1, C2 by (unfold Q2R; cbn; lra). rewrite q_c_is in C1, C2.
  pose proof li_half as H1. pose proof ln_half as H2. set (l := Li (1 / 2)) in *. set (ql := Q2R q_li) in *. set (qn := Q2R q_ln) in *.
  assert (E1 : 0 < / 2 ^ 150) by (apply Rinv_0_lt_compat, pow_lt; lra). assert (E2 : / 2 ^ 146 = 16 * / 2 ^ 150) by (cbn; lra). assert (E3 : / 2 ^ 140 = 1024 * / 2 ^ 150) by (cbn; lra).
  assert (E4 : / 2 ^ 150 <= 1) by (cbn; lra).
  rewrite E2 in C1, C2. rewrite E3. clear E2 E3. revert C1 C2 H1 H2 E1 E4. generalize (/ 2 ^ 150). intros e C1 C2 H1 H2 E1 E4.
  apply Rabs_le_between in H1. apply Rabs_le_between in H2. pose proof ln_2_bounds as B. unfold c0. fold l.
  apply Rabs_le. assert (Rabs (ln 2 * ln 2 - qn * qn) <= 4 * e) as Q.
  { replace (ln 2 * ln 2 - qn * qn) with ((ln 2 - qn) * (2 * ln 2 - (ln 2 - qn))) by ring. rewrite Rabs_mult. rewrite Rmult_comm. apply Rmult_le_compat; try apply Rabs_pos; apply Rabs_le; lra. }
  apply Rabs_le_between in Q. lra.
Qed.

Lemma reduce_c c x : let '(a, b, x') := dilog_reduce c x in let '(a2, b2, x2) := dilog_reduce c0 x in
  a = a2 /\ x' = x2 /\ Rabs a = 1 /\ Rabs (b - b2) <= 2 * Rabs (c - c0).
Proof.
  assert (M : Rabs (-1) = 1) by (rewrite Rabs_left; lra). assert (P1 : Rabs 1 = 1) by (rewrite Rabs_right; lra). pose proof (Rabs_pos (c - c0)) as P.
  unfold dilog_reduce. repeat match goal with |- context [if ?b then _ else _] => destruct b end; repeat split; auto.
  - replace (_ - _) with (2 * (c - c0)) by ring. rewrite Rabs_mult, (Rabs_right 2) by lra. lra.
  - replace (_ - _) with (c - c0) by ring. lra.
  - replace (_ - _) with (c - c0) by ring. lra.
  - rewrite Rminus_eq_0, Rabs_R0. lra.
  - rewrite Rminus_eq_0, Rabs_R0. lra.
  - replace (_ - _) with (- (c - c0)) by ring. rewrite Rabs_Ropp. lra.
Qed.
Lemma dilog_error d D x : mantissa d -> is_dilog D -> Rabs (dilog d x - D x) <= / 2 * / IZR (2 ^ d) + / 2 ^ 138.
Proof.
  intros M HD. rewrite (dilog_unique D dilog_full HD full_is_dilog). unfold dilog, dilog_impl, dilog_full.
  pose proof (reduce_c dilog_c x) as RC. pose proof (dilog_reduce_range dilog_c x) as RR.
  destruct (dilog_reduce dilog_c x) as [[a b] x']. destruct (dilog_reduce c0 x) as [[a2 b2] x2]. destruct RC as (-> & -> & A & B).
  pose proof (series_error d x2 M RR) as E. pose proof c_close as C.
  replace (_ - _) with (a2 * (dilog_series x2 (dilog_n_max d x2) - Li x2) + (b - b2)) by ring.
  eapply Rle_trans; [apply Rabs_triang|]. rewrite Rabs_mult, A, Rmult_1_l.
  assert (P2 : 0 < / IZR (2 ^ d)) by (apply Rinv_0_lt_compat, IZR_lt; destruct M as [->|[->| ->]]; reflexivity).
  assert (X : Rabs x2 / IZR (2 ^ d) <= / 2 * / IZR (2 ^ d)) by (apply Rmult_le_compat_r; [lra|apply Rabs_le; lra]).
  assert (T : / 2 ^ 138 = 4 * / 2 ^ 140) by (cbn; lra). assert (0 < / 2 ^ 140) by (apply Rinv_0_lt_compat, pow_lt; lra). lra.
Qed.
Lemma dilog_error_small d D x : mantissa d -> is_dilog D -> -0.5 < x <= 0.5 -> Rabs (dilog d x - D x) <= Rabs x / IZR (2 ^ d).
Proof.
  intros M HD H. rewrite (dilog_unique D dilog_full HD full_is_dilog). rewrite full_mid by lra. unfold dilog, dilog_impl, dilog_reduce.
  rewrite (rl_f 2 x), (rl_f 1 x), (rl_f 0.5 x), (rl_t (-0.5) x) by lra. rewrite Rmult_1_l, Rplus_0_r. apply series_error; [auto|lra].
Qed.
