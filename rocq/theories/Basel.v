(** The constant of the dilogarithm: the sum of the inverse squares is pi^2/6. *)
From Coq Require Import Reals Lra Lia.
From Coquelicot Require Import Coquelicot.
From Verif Require Import ExtModel MathModel DilogSpec DilogProofs.
Local Open Scope R_scope.
Set Bullet Behavior "Strict Subproofs".

Ltac toRH E := try match type of E with @eq _ ?a ?b => change (@eq R a b) in E end;
  repeat match type of E with
  | context [@minus ?G ?a ?b] => change (@minus G a b) with (a - b)%R in E
  | context [@plus ?G ?a ?b] => change (@plus G a b) with (a + b)%R in E
  | context [@scal ?K ?V ?a ?b] => change (@scal K V a b) with (a * b)%R in E
  end.
Lemma cos_pow_ex n a b : ex_RInt (fun x => cos x ^ n) a b.
Proof. apply (ex_RInt_continuous (V := R_CompleteNormedModule)). intros x _. apply (ex_derive_continuous (V := R_NormedModule)). auto_derive. auto. Qed.
Lemma sq_cos_pow_ex n a b : ex_RInt (fun x => x ^ 2 * cos x ^ n) a b.
Proof. apply (ex_RInt_continuous (V := R_CompleteNormedModule)). intros x _. apply (ex_derive_continuous (V := R_NormedModule)). auto_derive. auto. Qed.
Definition BI (k : nat) : R := RInt (fun x => cos x ^ (2 * k)) 0 (PI / 2).
Definition BJ (k : nat) : R := RInt (fun x => x ^ 2 * cos x ^ (2 * k)) 0 (PI / 2).

Lemma pow_2S x k : x ^ (2 * S k) = x ^ (2 * k) * x ^ 2.
Proof. replace (2 * S k)%nat with (2 * k + 2)%nat by lia. apply pow_add. Qed.
Lemma ftc (f g : R -> R) a b : (forall x, is_derive f x (g x)) -> (forall x, continuous g x) -> RInt g a b = f b - f a.
Proof.
  intros D C. apply is_RInt_unique. apply (is_RInt_derive (V := R_CompleteNormedModule)); intros; auto.
Qed.
Lemma pow_der k x : is_derive (fun x => cos x ^ (2 * k + 1)) x (- (2 * INR k + 1) * sin x * cos x ^ (2 * k)).
Proof.
  evar_last; [apply (is_derive_pow cos (2 * k + 1) x), is_derive_cos|]. replace (pred (2 * k + 1)) with (2 * k)%nat by lia.
  rewrite plus_INR, mult_INR. change (INR 2) with 2. change (INR 1) with 1. ring.
Qed.
Lemma sin2 x : sin x ^ 2 = 1 - cos x ^ 2.
Proof. pose proof (sin2_cos2 x). unfold Rsqr in *. nra. Qed.
Lemma BI_rec k : (2 * INR k + 2) * BI (S k) = (2 * INR k + 1) * BI k.
Proof.
  assert (E : RInt (fun x => (2 * INR k + 2) * cos x ^ (2 * S k) - (2 * INR k + 1) * cos x ^ (2 * k)) 0 (PI / 2) = 0).
  { rewrite (ftc (fun x => sin x * cos x ^ (2 * k + 1))).
    - rewrite sin_0, cos_PI2, pow_ne_zero by lia. toR. ring.
    - intros x. assert (P := pow_der k x). evar_last; [apply @is_derive_mult; [apply is_derive_sin|exact P|intros; apply Rmult_comm]|].
      toR. rewrite pow_2S, pow_add, pow_1. set (c := cos x ^ (2 * k)). pose proof (sin2 x) as S2.
      replace (cos x * (c * cos x) + sin x * (- (2 * INR k + 1) * sin x * c)) with (cos x ^ 2 * c - (2 * INR k + 1) * (sin x ^ 2) * c) by ring. rewrite S2. ring.
    - intros x. apply (ex_derive_continuous (V := R_NormedModule)). auto_derive. auto. }
  rewrite (RInt_minus (V := R_CompleteNormedModule) (fun x => (2 * INR k + 2) * cos x ^ (2 * S k)) (fun x => (2 * INR k + 1) * cos x ^ (2 * k))) in E.
  2-3: apply (ex_RInt_scal (V := R_NormedModule)), cos_pow_ex.
  rewrite (RInt_scal (V := R_CompleteNormedModule) (fun x => cos x ^ (2 * S k))), (RInt_scal (V := R_CompleteNormedModule) (fun x => cos x ^ (2 * k))) in E by apply cos_pow_ex.
  fold (BI k) (BI (S k)) in E. toRH E. lra.
Qed.
Lemma BJ_rec k : let n := INR k + 1 in BI (S k) = n * (2 * n - 1) * BJ k - 2 * n ^ 2 * BJ (S k).
Proof.
  intros n.
  assert (E : RInt (fun x => (cos x ^ (2 * S k) + (2 * n ^ 2) * (x ^ 2 * cos x ^ (2 * S k))) - n * (2 * n - 1) * (x ^ 2 * cos x ^ (2 * k))) 0 (PI / 2) = 0).
  { rewrite (ftc (fun x => x * (cos x * cos x ^ (2 * k + 1)) + n * x ^ 2 * (sin x * cos x ^ (2 * k + 1)))).
    - rewrite cos_PI2. rewrite pow_ne_zero by lia. toR. ring.
    - intros x. assert (P := pow_der k x).
      evar_last. { apply @is_derive_plus.
      + apply @is_derive_mult; [apply @is_derive_id|apply @is_derive_mult; [apply is_derive_cos|exact P|intros; apply Rmult_comm]|intros; apply Rmult_comm].
      + apply @is_derive_mult; [instantiate (1 := n * (2 * x)); auto_derive; [auto|ring]|apply @is_derive_mult; [apply is_derive_sin|exact P|intros; apply Rmult_comm]|intros; apply Rmult_comm]. }
      toR. change (@one R_Ring) with 1. change (@one R_AbsRing) with 1. rewrite pow_2S, pow_add, pow_1. set (c := cos x ^ (2 * k)). pose proof (sin2 x) as S2. unfold n in *. set (s := sin x) in *. set (q := cos x) in *. clearbody s q c.
      assert (s * s = 1 - q * q) as S3 by (cbn [pow] in S2; lra).
      match goal with |- ?a = ?b => replace a with (1 * (q * (c * q)) + x * (- s * (c * q) + q * (- (2 * INR k + 1) * s * c)) + ((INR k + 1) * (2 * x) * (s * (c * q)) + (INR k + 1) * (x * x) * (q * (c * q) - (2 * INR k + 1) * (s * s) * c))) by ring end.
      rewrite S3. ring.
    - intros x. apply (ex_derive_continuous (V := R_NormedModule)). auto_derive. auto. }
  rewrite (RInt_minus (V := R_CompleteNormedModule) (fun x => cos x ^ (2 * S k) + 2 * n ^ 2 * (x ^ 2 * cos x ^ (2 * S k))) (fun x => n * (2 * n - 1) * (x ^ 2 * cos x ^ (2 * k)))) in E.
  2:{ apply (ex_RInt_plus (V := R_NormedModule)); [apply cos_pow_ex|apply (ex_RInt_scal (V := R_NormedModule)), sq_cos_pow_ex]. }
  2:{ apply (ex_RInt_scal (V := R_NormedModule)), sq_cos_pow_ex. }
  rewrite (RInt_plus (V := R_CompleteNormedModule) (fun x => cos x ^ (2 * S k)) (fun x => 2 * n ^ 2 * (x ^ 2 * cos x ^ (2 * S k)))) in E.
  2: apply cos_pow_ex. 2: apply (ex_RInt_scal (V := R_NormedModule)), sq_cos_pow_ex.
  rewrite (RInt_scal (V := R_CompleteNormedModule) (fun x => x ^ 2 * cos x ^ (2 * S k))), (RInt_scal (V := R_CompleteNormedModule) (fun x => x ^ 2 * cos x ^ (2 * k))) in E by apply sq_cos_pow_ex.
  fold (BI (S k)) (BJ k) (BJ (S k)) in E. toRH E. lra.
Qed.
Lemma BI_pos k : 0 < BI k.
Proof.
  induction k as [|k IH].
  - unfold BI. change (2 * 0)%nat with O. change (0 < RInt (fun _ => 1) 0 (PI / 2)). rewrite (RInt_const (V := R_CompleteNormedModule)). toR. pose proof PI_RGT_0. lra.
  - pose proof (BI_rec k) as R. pose proof (pos_INR k) as K. apply Rmult_lt_reg_l with (2 * INR k + 2); [lra|]. rewrite R, Rmult_0_r. apply Rmult_lt_0_compat; lra.
Qed.
Lemma jordan x : 0 <= x <= PI / 2 -> x <= PI / 2 * sin x.
Proof.
  intros H. pose proof PI_RGT_0 as PP. destruct (Req_dec x 0) as [->|N0]; [rewrite sin_0; lra|]. destruct (Req_dec x (PI / 2)) as [->|N1]; [rewrite sin_PI2; lra|].
  (* slope of the sine decreases *)
  destruct (MVT_cor2 sin cos 0 x) as (a & Ea & Ha); [lra|intros; apply derivable_pt_lim_sin|].
  destruct (MVT_cor2 sin cos x (PI / 2)) as (b & Eb & Hb); [lra|intros; apply derivable_pt_lim_sin|].
  rewrite sin_0 in Ea. rewrite sin_PI2 in Eb. assert (C : cos b <= cos a) by (apply cos_decr_1; lra).
  assert (cos b * (PI / 2 - x) <= cos a * (PI / 2 - x)) by (apply Rmult_le_compat_r; lra).
  assert (M : x * (1 - sin x) <= (PI / 2 - x) * sin x).
  { rewrite Eb. replace (sin x) with (cos a * x) by lra. replace (x * (cos b * (PI / 2 - x))) with (cos b * (PI / 2 - x) * x) by ring. replace ((PI / 2 - x) * (cos a * x)) with (cos a * (PI / 2 - x) * x) by ring.
    apply Rmult_le_compat_r; lra. }
  lra.
Qed.
Lemma BJ_le k : 0 <= BJ k <= PI ^ 2 / 4 * (BI k / (2 * INR k + 2)).
Proof.
  pose proof PI_RGT_0 as PP. pose proof (pos_INR k) as K.
  assert (Q : forall x, 0 <= cos x ^ (2 * k)) by (intros; rewrite pow_mult; apply pow_le, pow2_ge_0).
  split.
  - unfold BJ. replace 0 with (RInt (fun _ : R => 0) 0 (PI / 2)) at 1 by (rewrite (RInt_const (V := R_CompleteNormedModule)); toR; ring).
    apply RInt_le; [lra|apply ex_RInt_const|apply sq_cos_pow_ex|]. intros x _. apply Rmult_le_pos; [apply pow2_ge_0|apply Q].
  - assert (E : BI k / (2 * INR k + 2) = BI k - BI (S k)).
    { pose proof (BI_rec k) as R. assert (BI (S k) = (2 * INR k + 1) * BI k / (2 * INR k + 2)) as -> by (rewrite <- R; field; lra). field. lra. }
    rewrite E. unfold BJ, BI. rewrite <- (RInt_minus (V := R_CompleteNormedModule) (fun x => cos x ^ (2 * k)) (fun x => cos x ^ (2 * S k))) by apply cos_pow_ex.
    rewrite <- (RInt_scal (V := R_CompleteNormedModule) (fun x => minus (cos x ^ (2 * k)) (cos x ^ (2 * S k)))) by (apply (ex_RInt_minus (V := R_NormedModule)); apply cos_pow_ex).
    apply RInt_le; [lra|apply sq_cos_pow_ex|apply (ex_RInt_scal (V := R_NormedModule)), (ex_RInt_minus (V := R_NormedModule)); apply cos_pow_ex|].
    intros x Hx. rewrite pow_2S. change (x ^ 2 * cos x ^ (2 * k) <= PI ^ 2 / 4 * (cos x ^ (2 * k) - cos x ^ (2 * k) * cos x ^ 2)).
    pose proof (jordan x ltac:(lra)) as J. pose proof (sin2 x) as S2.
    assert (x * x <= PI / 2 * sin x * (PI / 2 * sin x)) by (apply Rmult_le_compat; lra).
    specialize (Q x). replace (PI ^ 2 / 4 * (cos x ^ (2 * k) - cos x ^ (2 * k) * cos x ^ 2)) with (PI / 2 * (PI / 2) * (1 - cos x ^ 2) * cos x ^ (2 * k)) by field. rewrite <- S2.
    apply Rmult_le_compat_r; [exact Q|]. cbn [pow]. lra.
Qed.
Definition ratio k := BJ k / BI k.
Lemma ratio_step k : / (INR k + 1) ^ 2 = 2 * (ratio k - ratio (S k)).
Proof.
  pose proof (BI_rec k) as R. pose proof (BJ_rec k) as J. cbv zeta in J. pose proof (BI_pos k). pose proof (BI_pos (S k)). pose proof (pos_INR k).
  assert (E : BI k = (2 * INR k + 2) * BI (S k) / (2 * INR k + 1)) by (rewrite R; field; lra).
  unfold ratio. rewrite E. apply Rmult_eq_reg_l with ((INR k + 1) ^ 2 * BI (S k)); [|apply Rmult_integral_contrapositive_currified; [apply pow_nonzero; lra|lra]].
  transitivity (BI (S k)); [field; lra|]. rewrite J at 1. field. lra.
Qed.
Lemma ratio_0 : ratio 0 = PI ^ 2 / 12.
Proof.
  unfold ratio, BJ, BI. change (2 * 0)%nat with O. change (RInt (fun x => x ^ 2 * 1) 0 (PI / 2) / RInt (fun _ => 1) 0 (PI / 2) = PI ^ 2 / 12). rewrite (RInt_const (V := R_CompleteNormedModule)).
  rewrite (ftc (fun x => x ^ 3 / 3)).
  - toR. field. pose proof PI_RGT_0. lra.
  - intros x. auto_derive; [auto|field].
  - intros x. apply (ex_derive_continuous (V := R_NormedModule)). auto_derive. auto.
Qed.
Lemma partial n : sum_f_R0 (fun k => / (INR k + 1) ^ 2) n = PI ^ 2 / 6 - 2 * ratio (S n).
Proof.
  induction n as [|n IH].
  - cbn [sum_f_R0]. rewrite ratio_step, ratio_0. lra.
  - cbn [sum_f_R0]. rewrite IH, ratio_step. lra.
Qed.
Lemma ratio_le k : 0 <= ratio k <= PI ^ 2 / 4 / (2 * INR k + 2).
Proof.
  destruct (BJ_le k) as [L U]. pose proof (BI_pos k) as P. pose proof (pos_INR k). unfold ratio. split.
  - apply Rmult_le_pos; [exact L|apply Rlt_le, Rinv_0_lt_compat; exact P].
  - apply Rmult_le_reg_r with (BI k); [exact P|]. unfold Rdiv at 1. rewrite Rmult_assoc, Rinv_l, Rmult_1_r by lra.
    replace (PI ^ 2 / 4 / (2 * INR k + 2) * BI k) with (PI ^ 2 / 4 * (BI k / (2 * INR k + 2))) by (field; lra). exact U.
Qed.
Lemma ratio_lim : is_lim_seq ratio 0.
Proof.
  apply (is_lim_seq_le_le (fun _ => 0) _ (fun k => PI ^ 2 / 4 * / (INR (S k)))).
  - intros k. split; [apply ratio_le|]. destruct (ratio_le k) as [_ U]. eapply Rle_trans; [exact U|]. unfold Rdiv at 1. apply Rmult_le_compat_l; [pose proof (pow2_ge_0 PI); lra|].
    pose proof (pos_INR k). apply Rinv_le_contravar; rewrite ?S_INR; lra.
  - apply is_lim_seq_const.
  - replace (Finite 0) with (Rbar_mult (PI ^ 2 / 4) 0) by (cbn; f_equal; ring). apply is_lim_seq_scal_l.
    apply (is_lim_seq_incr_1 (fun k => / INR k)). replace (Finite 0) with (Rbar_inv p_infty) by reflexivity. apply is_lim_seq_inv; [apply is_lim_seq_INR|discriminate].
Qed.
Lemma basel : is_series (fun k => / (INR k + 1) ^ 2) (PI ^ 2 / 6).
Proof.
  change (is_lim_seq (sum_n (fun k => / (INR k + 1) ^ 2)) (PI ^ 2 / 6)). apply (is_lim_seq_ext (fun n => PI ^ 2 / 6 - 2 * ratio (S n))).
  - intros n. rewrite sum_n_Reals, partial. reflexivity.
  - replace (Finite (PI ^ 2 / 6)) with (Finite (PI ^ 2 / 6 - 2 * 0)) by (f_equal; ring). apply is_lim_seq_minus'; [apply is_lim_seq_const|].
    replace (Finite (2 * 0)) with (Rbar_mult 2 0) by reflexivity. apply is_lim_seq_scal_l. apply (is_lim_seq_incr_1 ratio), ratio_lim.
Qed.

Lemma left_le (f g : R -> R) : (forall x, 0 < x < 1 -> f x <= g x) -> continuous f 1 -> continuous g 1 -> f 1 <= g 1.
Proof.
  intros H F G. apply (filterlim_le (F := at_left 1) f g (Finite (f 1)) (Finite (g 1))).
  - unfold at_left, within. apply (filter_imp (fun x => 0 < x)); [intros x X L; apply H; lra|]. apply open_gt. lra.
  - intros P HP. assert (Z := F P HP). unfold filtermap in *. unfold at_left, within. apply (filter_imp (F := locally 1)) with (2 := Z). auto.
  - intros P HP. assert (Z := G P HP). unfold filtermap in *. unfold at_left, within. apply (filter_imp (F := locally 1)) with (2 := Z). auto.
Qed.
Lemma Li_terms x : 0 < x < 1 -> forall n, 0 <= x ^ S n / INR (S n) ^ 2 <= / (INR n + 1) ^ 2.
Proof.
  intros H n. rewrite S_INR. pose proof (pos_INR n). assert (P : 0 < / (INR n + 1) ^ 2) by (apply Rinv_0_lt_compat, pow_lt; lra).
  assert (0 <= x ^ S n <= 1) by (split; [apply pow_le; lra|rewrite <- (pow1 (S n)); apply pow_incr; lra]).
  unfold Rdiv. split; [apply Rmult_le_pos; lra|]. rewrite <- (Rmult_1_l (/ (INR n + 1) ^ 2)) at 2. apply Rmult_le_compat_r; lra.
Qed.
Lemma c0_is : c0 = PI ^ 2 / 6.
Proof.
  apply Rle_antisym.
  - rewrite <- full_one. apply (left_le dilog_full (fun _ => PI ^ 2 / 6)); [|apply full_cont|apply continuous_const].
    intros x H. rewrite full_mid, Li_series by lra. unfold Li2_series. rewrite <- (is_series_unique _ _ basel).
    apply Series_le; [apply Li_terms; exact H|exists (PI ^ 2 / 6); exact basel].
  - assert (L : forall n, sum_f_R0 (fun k => / (INR k + 1) ^ 2) n <= c0).
    { intros n. replace (sum_f_R0 (fun k => / (INR k + 1) ^ 2) n) with (sum_f_R0 (fun k => 1 ^ S k / INR (S k) ^ 2) n).
      2:{ apply sum_eq. intros i _. rewrite pow1, S_INR. unfold Rdiv. ring. }
      rewrite <- full_one. apply (left_le (fun x => sum_f_R0 (fun k => x ^ S k / INR (S k) ^ 2) n) dilog_full); [|clear|apply full_cont].
      - intros x H. rewrite full_mid, Li_series by lra. unfold Li2_series. rewrite <- sum_n_Reals.
        assert (EX : ex_series (fun k => x ^ S k / INR (S k) ^ 2)).
        { apply (ex_series_le (V := R_CompleteNormedModule) _ (fun k => / (INR k + 1) ^ 2)); [|exists (PI ^ 2 / 6); exact basel].
          intros k. pose proof (Li_terms x H k) as T. change (Rabs (x ^ S k / INR (S k) ^ 2) <= / (INR k + 1) ^ 2). rewrite Rabs_right; lra. }
        apply (is_lim_seq_incr_compare (sum_n (fun k => x ^ S k / INR (S k) ^ 2))); [exact (Series_correct _ EX)|].
        intros k. rewrite sum_Sn. pose proof (Li_terms x H (S k)) as T. toR. lra.
      - induction n as [|n IH].
        + cbn [sum_f_R0]. apply (ex_derive_continuous (V := R_NormedModule)). auto_derive. auto.
        + cbn [sum_f_R0]. apply (continuous_plus (V := R_NormedModule)); [exact IH|]. apply (ex_derive_continuous (V := R_NormedModule)). auto_derive. auto. }
    apply (is_lim_seq_le (sum_n (fun k => / (INR k + 1) ^ 2)) (fun _ => c0) (PI ^ 2 / 6) c0); [intros n; rewrite sum_n_Reals; apply L|exact basel|apply is_lim_seq_const].
Qed.
