(** Proofs for C100: the constants. *)
From Coq Require Import Reals ZArith Bool Lia Lra Machin Ratan.
From Flocq Require Import Core Relative.
From Verif Require Import TextModel TextNum TextPower FKinPoint ParticleModel ConstModel ConstSpec.
Local Open Scope R_scope.

(** Alternating sums by Horner's rule, as fractions of integers: sum_{j<=k} (-1)^j u^j / (2(i+j)+1) with u = 1/b. *)
Fixpoint hz (b : Z) (k : nat) (i : Z) : Z * Z :=
  match k with
  | O => (1, 2 * i + 1)%Z
  | S k' => let (N, D) := hz b k' (i + 1)%Z in let o := (2 * i + 1)%Z in let e := (b * D)%Z in ((e - o * N), (o * e))%Z
  end.
Definition val (f : Z * Z) : R := IZR (fst f) / IZR (snd f).
Lemma hz_pos b k i : (0 < b)%Z -> (0 <= i)%Z -> (0 < snd (hz b k i))%Z.
Proof.
  intros B. revert i. induction k as [|k IH]; intros i I; cbn [hz]; [cbn [snd]; lia|]. specialize (IH (i + 1)%Z ltac:(lia)). destruct (hz b k (i + 1)) as (N, D). cbn [snd] in *. apply Z.mul_pos_pos; [lia|]. apply Z.mul_pos_pos; lia.
Qed.
Lemma hz_ok b k i : (0 < b)%Z -> (0 <= i)%Z -> val (hz b k i) = sum_f_R0 (fun j => (-1) ^ j * ((/ IZR b) ^ j / (2 * (IZR i + INR j) + 1))) k.
Proof.
  intros B. assert (B' := B). apply IZR_lt in B'. revert i. induction k as [|k IH]; intros i I; assert (I' := I); apply IZR_le in I'.
  - cbn [hz sum_f_R0]. unfold val. cbn [fst snd]. rewrite plus_IZR, mult_IZR, !pow_O. change (INR 0) with 0. field. lra.
  - rewrite decomp_sum by lia. cbn [pred]. rewrite !pow_O. change (INR 0) with 0. pose proof (hz_pos b k (i + 1) B ltac:(lia)) as DP. specialize (IH (i + 1)%Z ltac:(lia)). cbn [hz]. destruct (hz b k (i + 1)) as (N, D). cbn [snd] in DP. apply IZR_lt in DP.
    transitivity (/ (2 * IZR i + 1) - / IZR b * val (N, D)).
    + unfold val. cbn [fst snd]. rewrite minus_IZR, !mult_IZR, plus_IZR, mult_IZR. field. lra.
    + rewrite IH, scal_sum. unfold Rminus. f_equal; [field; lra|].
      replace (- sum_f_R0 (fun i0 => (-1) ^ i0 * ((/ IZR b) ^ i0 / (2 * (IZR (i + 1) + INR i0) + 1)) * / IZR b) k) with (sum_f_R0 (fun i0 => (-1) ^ i0 * ((/ IZR b) ^ i0 / (2 * (IZR (i + 1) + INR i0) + 1)) * / IZR b * -1) k) by (rewrite <- (scal_sum _ k (-1)); ring).
      apply sum_eq. intros j _. rewrite plus_IZR, S_INR. cbn [pow]. pose proof (pos_INR j). field. lra.
Qed.
(** Machin-like series: pi/4 = 2 atan(1/3) + atan(1/7). *)
Lemma pi_sum n : sum_f_R0 (tg_alt PI_2_3_7_tg) n = 2 / 3 * val (hz 9 n 0) + / 7 * val (hz 49 n 0).
Proof.
  rewrite !hz_ok by lia. rewrite !scal_sum, <- plus_sum. apply sum_eq. intros j _. unfold tg_alt, PI_2_3_7_tg, Ratan_seq. rewrite !pow_add, !pow_mult, !pow_1. replace ((/ 3) ^ 2) with (/ 9) by (cbn; lra). replace ((/ 7) ^ 2) with (/ 49) by (cbn; lra).
  rewrite plus_INR, mult_INR. change (INR 2) with 2. change (INR 1) with 1. rewrite Rplus_0_l. pose proof (pos_INR j). set (u := (/ 9) ^ j). set (v := (/ 49) ^ j). set (w := (-1) ^ j). field. lra.
Qed.
Lemma frac_le a b c d : (0 < b)%Z -> (0 < d)%Z -> (a * d <=? c * b)%Z = true -> IZR a / IZR b <= IZR c / IZR d.
Proof.
  intros B D H. apply Z.leb_le, IZR_le in H. rewrite !mult_IZR in H. apply IZR_lt in B, D. apply Rmult_le_reg_r with (IZR b * IZR d); [apply Rmult_lt_0_compat; lra|].
  replace (IZR a / IZR b * (IZR b * IZR d)) with (IZR a * IZR d) by (field; lra). replace (IZR c / IZR d * (IZR b * IZR d)) with (IZR c * IZR b) by (field; lra). exact H.
Qed.
Definition pi_frac (n : nat) : Z * Z := let (a, b) := hz 9 n 0 in let (c, d) := hz 49 n 0 in (14 * (a * d) + 3 * (c * b), 21 * (b * d))%Z.
Lemma pi_frac_ok n : (0 < snd (pi_frac n))%Z /\ sum_f_R0 (tg_alt PI_2_3_7_tg) n = val (pi_frac n).
Proof.
  rewrite pi_sum. unfold pi_frac. pose proof (hz_pos 9 n 0 ltac:(lia) ltac:(lia)) as P. pose proof (hz_pos 49 n 0 ltac:(lia) ltac:(lia)) as Q. destruct (hz 9 n 0) as (a, b), (hz 49 n 0) as (c, d). cbn [snd] in *. split; [lia|]. apply IZR_lt in P, Q. unfold val. cbn [fst snd]. rewrite plus_IZR, !mult_IZR. field. lra.
Qed.
Definition half_unit (c : const) (x : R) : Prop := Rabs (x - literal c) <= / 2 * / IZR (10 ^ decimals c).
(** A number between fractions close enough to the literal. *)
Lemma pi_check : let D := (8 * 10 ^ 127)%Z in let lo := pi_frac 135 in let hi := pi_frac 134 in
  ((2 * digits PI_ - 1) * snd lo <=? fst lo * D)%Z && (fst hi * D <=? (2 * digits PI_ + 1) * snd hi)%Z = true.
Proof. vm_compute. reflexivity. Qed.
Lemma pi_digits : half_unit PI_ PI.
Proof.
  destruct (PI_2_3_7_ineq 67) as (L & U). change (S (2 * 67)) with 135%nat in L. change (2 * 67)%nat with 134%nat in U. destruct (pi_frac_ok 135) as (P1 & E1). destruct (pi_frac_ok 134) as (P2 & E2). rewrite E1 in L. rewrite E2 in U.
  pose proof pi_check as CK. cbv zeta in CK. apply andb_prop in CK. destruct CK as (C1 & C2). set (D := (10 ^ 127)%Z) in *. assert (D0 : (0 < 8 * D)%Z) by reflexivity.
  assert (A : IZR (2 * digits PI_ - 1) / IZR (8 * D) <= val (pi_frac 135)) by (apply frac_le; assumption).
  assert (B : val (pi_frac 134) <= IZR (2 * digits PI_ + 1) / IZR (8 * D)) by (apply frac_le; assumption).
  unfold half_unit, literal. change (10 ^ decimals PI_)%Z with D. rewrite minus_IZR, mult_IZR in A. rewrite plus_IZR, mult_IZR in B. rewrite mult_IZR in A, B. set (n := IZR (digits PI_)) in *.
  assert (DR : 0 < IZR D) by (apply IZR_lt; reflexivity). set (d := IZR D) in *. clearbody d n. clearbody D.
  replace ((2 * n - 1) / (8 * d)) with (n / d / 4 - / d / 8) in A by (field; lra). replace ((2 * n + 1) / (8 * d)) with (n / d / 4 + / d / 8) in B by (field; lra). apply Rabs_le. lra.
Qed.
(** 1/e = sum (-1)^k / k! *)
Fixpoint gz (k : nat) (i : Z) : Z * Z :=
  match k with O => (1, 1)%Z | S k' => let (N, D) := gz k' (i + 1)%Z in let e := ((i + 1) * D)%Z in (e - N, e)%Z end.
Definition e_u (i : nat) : R := / INR (fact i).
Lemma gz_pos k i : (0 <= i)%Z -> (0 < snd (gz k i))%Z.
Proof. revert i. induction k as [|k IH]; intros i I; cbn [gz]; [reflexivity|]. specialize (IH (i + 1)%Z ltac:(lia)). destruct (gz k (i + 1)) as (N, D). cbn [snd] in *. apply Z.mul_pos_pos; lia. Qed.
Lemma gz_ok k m : val (gz k (Z.of_nat m)) = sum_f_R0 (fun j => (-1) ^ j * (INR (fact m) / INR (fact (m + j)))) k.
Proof.
  revert m. induction k as [|k IH]; intros m; pose proof (INR_fact_lt_0 m) as F0.
  - cbn [gz sum_f_R0]. unfold val. cbn [fst snd]. rewrite Nat.add_0_r, pow_O. field. lra.
  - rewrite decomp_sum by lia. cbn [pred]. rewrite pow_O, Nat.add_0_r. specialize (IH (S m)). rewrite Nat2Z.inj_succ in IH. unfold Z.succ in IH. cbn [gz]. pose proof (gz_pos k (Z.of_nat m + 1) ltac:(lia)) as DP. destruct (gz k (Z.of_nat m + 1)) as (N, D). cbn [snd] in DP. apply IZR_lt in DP. pose proof (pos_INR m) as M0.
    transitivity (1 - / (INR m + 1) * val (N, D)).
    + unfold val. cbn [fst snd]. rewrite minus_IZR, !mult_IZR, plus_IZR, <- INR_IZR_INZ. field. lra.
    + rewrite IH, scal_sum. unfold Rminus. f_equal; [field; lra|].
      match goal with |- - sum_f_R0 ?f k = _ => replace (- sum_f_R0 f k) with (sum_f_R0 (fun i => f i * -1) k) by (rewrite <- (scal_sum f k (-1)); ring) end.
      apply sum_eq. intros j _. replace (m + S j)%nat with (S m + j)%nat by lia. change (fact (S m)) with (S m * fact m)%nat. rewrite mult_INR, S_INR. cbn [pow]. pose proof (INR_fact_lt_0 (S m + j)). field. lra.
Qed.
Lemma e_frac k : sum_f_R0 (tg_alt e_u) k = val (gz k 0).
Proof. change 0%Z with (Z.of_nat 0). rewrite (gz_ok k 0). apply sum_eq. intros j _. unfold tg_alt, e_u. cbn [fact plus]. change (INR 1) with 1. unfold Rdiv. ring. Qed.
Lemma e_check : let D := (2 * 10 ^ 127)%Z in let lo := gz 91 0 in let hi := gz 90 0 in
  (D * snd lo <=? fst lo * (2 * digits E_NUM + 1))%Z && (fst hi * (2 * digits E_NUM - 1) <=? D * snd hi)%Z = true.
Proof. vm_compute. reflexivity. Qed.
Lemma e_sum n : sum_f_R0 (tg_alt e_u) (S (2 * n)) <= exp (-1) <= sum_f_R0 (tg_alt e_u) (2 * n).
Proof.
  apply alternated_series_ineq.
  - intros k. unfold e_u. apply Rinv_le_contravar; [apply lt_0_INR, lt_O_fact|]. apply le_INR, fact_le. lia.
  - pose proof (cv_speed_pow_fact 1) as C. eapply Un_cv_ext; [|exact C]. intros k. unfold e_u. rewrite pow1. unfold Rdiv. ring.
  - intros eps He. unfold exp. destruct (exist_exp (-1)) as (l & Hl). cbn [proj1_sig]. destruct (Hl eps He) as (N & HN). exists N. intros k Hk. specialize (HN k Hk). erewrite sum_eq; [exact HN|]. intros i _. unfold tg_alt, e_u. ring.
Qed.
Lemma e_digits : half_unit E_NUM (exp 1).
Proof.
  destruct (e_sum 45) as (L & U). change (S (2 * 45)) with 91%nat in L. change (2 * 45)%nat with 90%nat in U. rewrite e_frac in L. rewrite e_frac in U.
  pose proof e_check as CK. cbv zeta in CK. apply andb_prop in CK. destruct CK as (C1 & C2). set (D := (10 ^ 127)%Z) in *. pose proof (gz_pos 91 0 ltac:(lia)) as P1'. pose proof (gz_pos 90 0 ltac:(lia)) as P2'.
  assert (A : IZR (2 * D) / IZR (2 * digits E_NUM + 1) <= val (gz 91 0)) by (apply frac_le; [reflexivity|assumption|assumption]).
  assert (B : val (gz 90 0) <= IZR (2 * D) / IZR (2 * digits E_NUM - 1)) by (apply frac_le; [assumption|reflexivity|assumption]).
  assert (EX : exp 1 * exp (-1) = 1) by (rewrite <- exp_plus; replace (1 + -1) with 0 by ring; apply exp_0). pose proof (exp_pos 1) as P1.
  unfold half_unit, literal. change (10 ^ decimals E_NUM)%Z with D. rewrite plus_IZR, !mult_IZR in A. rewrite minus_IZR, !mult_IZR in B.
  assert (DR : 0 < IZR D) by (apply IZR_lt; reflexivity). assert (N0 : 2 < IZR (digits E_NUM)) by (apply IZR_lt; reflexivity). set (n := IZR (digits E_NUM)) in *. set (d := IZR D) in *. clearbody d n. clearbody D.
  assert (A' : 2 * d / (2 * n + 1) <= exp (-1)) by lra. assert (B' : exp (-1) <= 2 * d / (2 * n - 1)) by lra. clear A B L U.
  apply (Rmult_le_compat_l (exp 1)) in A'; [|lra]. apply (Rmult_le_compat_l (exp 1)) in B'; [|lra]. rewrite EX in A', B'.
  assert (K1 : 0 < (2 * n + 1) / (2 * d)) by (apply Rdiv_lt_0_compat; lra). assert (K2 : 0 < (2 * n - 1) / (2 * d)) by (apply Rdiv_lt_0_compat; lra).
  apply (Rmult_le_compat_r ((2 * n + 1) / (2 * d))) in A'; [|lra]. apply (Rmult_le_compat_r ((2 * n - 1) / (2 * d))) in B'; [|lra].
  replace (exp 1 * (2 * d / (2 * n + 1)) * ((2 * n + 1) / (2 * d))) with (exp 1) in A' by (field; lra). replace (exp 1 * (2 * d / (2 * n - 1)) * ((2 * n - 1) / (2 * d))) with (exp 1) in B' by (field; lra).
  replace (1 * ((2 * n + 1) / (2 * d))) with (n / d + / 2 * / d) in A' by (field; lra). replace (1 * ((2 * n - 1) / (2 * d))) with (n / d - / 2 * / d) in B' by (field; lra). apply Rabs_le. lra.
Qed.
Lemma sqrt2_digits : half_unit SQRT_2 (sqrt 2).
Proof.
  unfold half_unit, literal. set (D := (10 ^ decimals SQRT_2)%Z). assert (DR : 0 < IZR D) by (apply IZR_lt; reflexivity). set (n := digits SQRT_2).
  assert (A : ((2 * n - 1) * (2 * n - 1) <= 8 * D * D)%Z) by (vm_compute; discriminate). assert (B : (8 * D * D <= (2 * n + 1) * (2 * n + 1))%Z) by (vm_compute; discriminate). assert (N0 : (2 < n)%Z) by reflexivity.
  apply IZR_le in A, B. apply IZR_lt in N0. rewrite !mult_IZR, !minus_IZR, !mult_IZR in A. rewrite !mult_IZR, !plus_IZR, !mult_IZR in B. set (m := IZR n) in *. set (d := IZR D) in *. clearbody m d. clear n D.
  assert (S1 : (m / d - / 2 * / d) <= sqrt 2). { apply Rle_trans with (sqrt ((m / d - / 2 * / d) * (m / d - / 2 * / d))); [rewrite sqrt_square; [lra|]|apply sqrt_le_1_alt].
    - replace (m / d - / 2 * / d) with ((m - / 2) * / d) by (field; lra). apply Rmult_le_pos; [lra|]. left. apply Rinv_0_lt_compat. exact DR.
    - replace ((m / d - / 2 * / d) * (m / d - / 2 * / d)) with ((2 * m - 1) * (2 * m - 1) / (4 * d * d)) by (field; lra). apply Rmult_le_reg_r with (4 * d * d); [nra|]. replace ((2 * m - 1) * (2 * m - 1) / (4 * d * d) * (4 * d * d)) with ((2 * m - 1) * (2 * m - 1)) by (field; lra). lra. }
  assert (S2 : sqrt 2 <= m / d + / 2 * / d). { apply Rle_trans with (sqrt ((m / d + / 2 * / d) * (m / d + / 2 * / d))); [apply sqrt_le_1_alt|rewrite sqrt_square; [lra|]].
    - replace ((m / d + / 2 * / d) * (m / d + / 2 * / d)) with ((2 * m + 1) * (2 * m + 1) / (4 * d * d)) by (field; lra). apply Rmult_le_reg_r with (4 * d * d); [nra|]. replace ((2 * m + 1) * (2 * m + 1) / (4 * d * d) * (4 * d * d)) with ((2 * m + 1) * (2 * m + 1)) by (field; lra). lra.
    - replace (m / d + / 2 * / d) with ((m + / 2) * / d) by (field; lra). apply Rmult_le_pos; [lra|]. left. apply Rinv_0_lt_compat. exact DR. }
  apply Rabs_le. lra.
Qed.
Lemma digits_right c x : meaning c = Some x -> half_unit c x.
Proof. destruct c; cbn; try discriminate; intros [= <-]; [exact pi_digits|exact e_digits|exact sqrt2_digits]. Qed.
