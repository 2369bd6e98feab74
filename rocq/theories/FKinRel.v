(** Relative errors of positive quantities: a product of at most [k] factors within one rounding of 1. *)
From Coq Require Import Reals ZArith Lia Lra Psatz.
From Flocq Require Import Core Relative.
From Verif Require Import ExtModel TextModel TextNum FMathModel FMathSpec FMathSeries.
Local Open Scope R_scope.

Notation bp := (bpow radix2).
Definition inr (n : Z) (x : R) : Prop := bp (- n) <= x <= bp n.
Lemma inr_pos n x : inr n x -> 0 < x.
Proof. intros (H & _). pose proof (bpow_gt_0 radix2 (- n)). lra. Qed.
Lemma inr_le n m x : (n <= m)%Z -> inr n x -> inr m x.
Proof. intros L (A & B). assert (bp (- m) <= bp (- n)) by (apply bpow_le; lia). assert (bp n <= bp m) by (apply bpow_le; lia). split; lra. Qed.
Lemma inr_RN n x : (0 <= n <= 1000)%Z -> inr n x -> inr n (RN x).
Proof.
  intros N (A & B). split.
  - rewrite <- (RN_id (bp (- n))); [apply RN_le; exact A|]. apply generic_format_bpow. unfold FLT_exp. lia.
  - rewrite <- (RN_id (bp n)); [apply RN_le; exact B|]. apply generic_format_bpow. unfold FLT_exp. lia.
Qed.
Lemma inr_mul n m x y : inr n x -> inr m y -> inr (n + m) (x * y).
Proof.
  intros (A & B) (C & D). pose proof (bpow_gt_0 radix2 (- n)). pose proof (bpow_gt_0 radix2 (- m)). split.
  - replace (- (n + m))%Z with (- n + - m)%Z by ring. rewrite bpow_plus. apply Rmult_le_compat; lra.
  - rewrite bpow_plus. apply Rmult_le_compat; lra.
Qed.
Lemma inr_inv n x : inr n x -> inr n (/ x).
Proof.
  intros H. pose proof (inr_pos n x H) as P. destruct H as (A & B). split.
  - rewrite bpow_opp. apply Rinv_le_contravar; assumption.
  - apply Rle_trans with (/ bp (- n)); [apply Rinv_le_contravar; [apply bpow_gt_0|exact A]|]. rewrite <- bpow_opp, Z.opp_involutive. lra.
Qed.
Lemma inr_div n m x y : inr n x -> inr m y -> inr (n + m) (x / y).
Proof. intros A B. apply inr_mul; [exact A|apply inr_inv; exact B]. Qed.
Lemma inr_add n x y : inr n x -> inr n y -> inr (n + 1) (x + y).
Proof.
  intros (A & B) (C & D). pose proof (bpow_gt_0 radix2 (- n)). assert (bp (- (n + 1)) <= bp (- n)) by (apply bpow_le; lia). unfold inr. rewrite (bpow_plus radix2 n 1). change (bp 1) with 2. split; lra.
Qed.
Lemma inr_add0 n x y : 0 <= x -> x <= bp n -> inr n y -> inr (n + 1) (x + y).
Proof.
  intros P U (C & D). assert (bp (- (n + 1)) <= bp (- n)) by (apply bpow_le; lia). unfold inr. rewrite (bpow_plus radix2 n 1). change (bp 1) with 2. split; lra.
Qed.

Definition th (k : nat) (t : R) : Prop := (1 - u0) ^ k <= t <= / (1 - u0) ^ k.
Lemma base_pos k : 0 < (1 - u0) ^ k.
Proof. apply pow_lt. lra. Qed.
Lemma th_pos k t : th k t -> 0 < t.
Proof. intros (H & _). pose proof (base_pos k). lra. Qed.
Lemma th_mul k j s t : th k s -> th j t -> th (k + j) (s * t).
Proof.
  intros (A & B) (C & D). pose proof (base_pos k). pose proof (base_pos j). unfold th. rewrite pow_add. split; [apply Rmult_le_compat; lra|]. rewrite Rinv_mult. apply Rmult_le_compat; lra.
Qed.
Lemma th_inv k t : th k t -> th k (/ t).
Proof.
  intros H. pose proof (th_pos k t H). destruct H as (A & B). pose proof (base_pos k). split.
  - rewrite <- (Rinv_inv ((1 - u0) ^ k)). apply Rinv_le_contravar; assumption.
  - apply Rinv_le_contravar; assumption.
Qed.
Lemma th_le k j t : (k <= j)%nat -> th k t -> th j t.
Proof.
  intros L (A & B). replace j with (k + (j - k))%nat by lia. pose proof (base_pos k) as P. pose proof (base_pos (j - k)) as Q.
  assert (O : (1 - u0) ^ (j - k) <= 1). { apply Rle_trans with (1 ^ (j - k)); [apply pow_incr; lra|rewrite pow1; lra]. }
  assert (E : (1 - u0) ^ (k + (j - k)) <= (1 - u0) ^ k). { rewrite pow_add. rewrite <- (Rmult_1_r ((1 - u0) ^ k)) at 2. apply Rmult_le_compat_l; lra. }
  split; [lra|]. eapply Rle_trans; [exact B|]. apply Rinv_le_contravar; [apply base_pos|exact E].
Qed.
Definition rel (k : nat) (a b : R) : Prop := exists t, th k t /\ a = b * t.
Lemma th_0 : th 0 1.
Proof. split; cbn; lra. Qed.
Lemma rel_refl a : rel 0 a a.
Proof. exists 1. split; [exact th_0|ring]. Qed.
Lemma rel_le k j a b : (k <= j)%nat -> rel k a b -> rel j a b.
Proof. intros L (t & T & E). exists t. split; [exact (th_le k j t L T)|exact E]. Qed.
Lemma rel_trans k j a b c : rel k a b -> rel j b c -> rel (k + j) a c.
Proof. intros (s & S & ->) (t & T & ->). exists (t * s). split; [rewrite Nat.add_comm; apply th_mul; assumption|ring]. Qed.
Lemma rel_mul k j a b c d : rel k a b -> rel j c d -> rel (k + j) (a * c) (b * d).
Proof. intros (s & S & ->) (t & T & ->). exists (s * t). split; [apply th_mul; assumption|ring]. Qed.
Lemma rel_div k j a b c d : rel k a b -> rel j c d -> rel (k + j) (a / c) (b / d).
Proof.
  intros (s & S & ->) (t & T & ->). exists (s * / t). split; [apply th_mul; [|apply th_inv]; assumption|]. unfold Rdiv. rewrite Rinv_mult. ring.
Qed.
Lemma rel_add k a b c d : 0 <= b -> 0 <= d -> rel k a b -> rel k c d -> rel k (a + c) (b + d).
Proof.
  intros B D (s & S & ->) (t & T & ->). destruct (Req_dec (b + d) 0) as [E|E].
  - exists s. split; [exact S|]. assert (b = 0) by lra. assert (d = 0) by lra. subst. ring.
  - exists ((b * s + d * t) / (b + d)). split; [|field; exact E]. assert (P : 0 < / (b + d)) by (apply Rinv_0_lt_compat; lra). destruct S as (S1 & S2). destruct T as (T1 & T2). unfold th, Rdiv. split.
    + apply Rmult_le_reg_r with (b + d); [lra|]. rewrite Rmult_assoc, Rinv_l, Rmult_1_r by lra. nra.
    + apply Rmult_le_reg_r with (b + d); [lra|]. rewrite Rmult_assoc, Rinv_l, Rmult_1_r by lra. nra.
Qed.
Lemma rel_RN x : bp (-1022) <= x -> rel 1 (RN x) x.
Proof.
  intros H. pose proof (bpow_gt_0 radix2 (-1022)) as P. pose proof (relative_error_N_FLT radix2 (-1074) 53 ltac:(reflexivity) (fun t => negb (Z.even t)) x) as E. change (-1074 + 53 - 1)%Z with (-1022)%Z in E.
  rewrite (Rabs_pos_eq x) in E by lra. specialize (E H). change (Rabs (RN x - x) <= / 2 * bp (- 53 + 1) * x) in E. change (- 53 + 1)%Z with (-52)%Z in E. assert (B : bp (-52) = 2 * u0) by (cbn; lra). rewrite B in E.
  exists (RN x / x). split; [|field; lra]. apply Rabs_le_inv in E. assert (I : 0 < / x) by (apply Rinv_0_lt_compat; lra). unfold th, Rdiv. rewrite pow_1. split.
  - apply Rmult_le_reg_r with x; [lra|]. rewrite Rmult_assoc, Rinv_l, Rmult_1_r by lra. lra.
  - apply Rmult_le_reg_r with x; [lra|]. rewrite Rmult_assoc, Rinv_l, Rmult_1_r by lra. assert (1 + u0 <= / (1 - u0)) by lra. assert ((1 + u0) * x <= / (1 - u0) * x) by (apply Rmult_le_compat_r; lra). lra.
Qed.

(** [a] computed, [b] exact, both within 2^-n and 2^n. *)
Definition appr (n : Z) (k : nat) (a b : R) : Prop := inr n a /\ inr n b /\ rel k a b.
Lemma appr_exact n a : inr n a -> appr n 0 a a.
Proof. intros H. split; [exact H|]. split; [exact H|apply rel_refl]. Qed.
Lemma appr_RN n k a b : (0 <= n <= 1000)%Z -> inr n a -> inr n b -> rel k a b -> appr n (S k) (RN a) b.
Proof.
  intros N A B R. split; [apply inr_RN; assumption|]. split; [exact B|]. apply (rel_trans 1 k _ a); [|exact R]. apply rel_RN. apply Rle_trans with (bp (- n)); [apply bpow_le; lia|apply A].
Qed.
Lemma appr_mul n m k j a b c d : (0 <= n + m <= 1000)%Z -> appr n k a b -> appr m j c d -> appr (n + m) (S (k + j)) (RN (a * c)) (b * d).
Proof. intros N (A & B & R) (C & D & Q). apply appr_RN; [exact N|apply inr_mul; assumption|apply inr_mul; assumption|apply rel_mul; assumption]. Qed.
Lemma appr_sq n k a b : (0 <= n + n <= 1000)%Z -> appr n k a b -> appr (n + n) (S (k + k)) (f_sq a) (b * b).
Proof. intros N A. unfold f_sq. apply appr_mul; assumption. Qed.
Lemma appr_div n m k j a b c d : (0 <= n + m <= 1000)%Z -> appr n k a b -> appr m j c d -> appr (n + m) (S (k + j)) (RN (a / c)) (b / d).
Proof. intros N (A & B & R) (C & D & Q). apply appr_RN; [exact N|apply inr_div; assumption|apply inr_div; assumption|apply rel_div; assumption]. Qed.
Lemma appr_add n k a b c d : (0 <= n + 1 <= 1000)%Z -> appr n k a b -> appr n k c d -> appr (n + 1) (S k) (RN (a + c)) (b + d).
Proof.
  intros N (A & B & R) (C & D & Q). apply appr_RN; [exact N|apply inr_add; assumption|apply inr_add; assumption|]. apply rel_add; [left; apply (inr_pos n); assumption|left; apply (inr_pos n); assumption|assumption|assumption].
Qed.
Lemma appr_weak n m k j a b : (n <= m)%Z -> (k <= j)%nat -> appr n k a b -> appr m j a b.
Proof. intros N K (A & B & R). split; [exact (inr_le n m a N A)|]. split; [exact (inr_le n m b N B)|exact (rel_le k j a b K R)]. Qed.
(** In numbers: fewer than 30 roundings. *)
Lemma rel_num k a b : (k <= 30)%nat -> 0 <= b -> rel k a b -> Rabs (a - b) <= (INR k + / 1000) * u0 * b.
Proof.
  intros K B (t & (T1 & T2) & ->). assert (L : 1 - INR k * u0 <= (1 - u0) ^ k).
  { clear -K. induction k as [|k IH]; [cbn; lra|]. specialize (IH ltac:(lia)). rewrite S_INR. cbn [pow]. assert (0 <= INR k <= 30) by (split; [apply pos_INR|]; assert (K' : (k <= 30)%nat) by lia; apply le_INR in K'; replace (INR 30) with 30 in K' by (cbn; lra); exact K').
    assert ((1 - u0) * (1 - INR k * u0) <= (1 - u0) * (1 - u0) ^ k) by (apply Rmult_le_compat_l; lra). nra. }
  assert (KB : 0 <= INR k <= 30). { split; [apply pos_INR|]. apply le_INR in K. replace (INR 30) with 30 in K by (cbn; lra). exact K. }
  assert (P : 0 < 1 - INR k * u0) by lra.
  assert (U : / (1 - u0) ^ k <= 1 + (INR k + / 1000) * u0).
  { apply Rle_trans with (/ (1 - INR k * u0)); [apply Rinv_le_contravar; lra|]. apply Rmult_le_reg_r with (1 - INR k * u0); [exact P|]. rewrite Rinv_l by lra. nra. }
  replace (b * t - b) with (b * (t - 1)) by ring. rewrite Rabs_mult, (Rabs_pos_eq b) by exact B. rewrite (Rmult_comm _ b). apply Rmult_le_compat_l; [exact B|]. apply Rabs_le. lra.
Qed.
