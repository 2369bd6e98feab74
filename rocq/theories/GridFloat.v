(** The cell index computed in binary64 stays inside the grid. *)
From Coq Require Import Reals ZArith Bool List Lia Lra Psatz.
From Flocq Require Import Core.Core IEEE754.Binary IEEE754.Bits IEEE754.BinarySingleNaN.
From Verif Require Import GridModel GridSpec GridProofs.
Local Open Scope R_scope.

Local Notation fexp := (FLT_exp (-1074) 53).
Local Notation F := (generic_format radix2 fexp).
Local Notation rnd := (round radix2 fexp (Znearest (fun x => negb (Z.even x)))).
#[local] Instance prec53 : Prec_gt_0 53 := eq_refl _.
Ltac fv := auto; try (apply FLT_exp_valid; reflexivity); try apply valid_rnd_N.
Local Notation eps := (bpow radix2 (-53)).
Lemma eps_val : 0 < eps < 1 /\ bpow radix2 53 * eps = 1.
Proof. split; [cbn; lra|]. rewrite <- bpow_plus. reflexivity. Qed.

(** Mantissas are at most 2^53 - 1. *)
Lemma mantissa_max d : F d -> 0 <= d -> d <= (bpow radix2 53 - 1) * ulp radix2 fexp d.
Proof.
  intros Fd H. destruct (Rle_lt_or_eq_dec _ _ H) as [P|<-].
  2:{ apply Rmult_le_pos; [cbn; lra|apply ulp_ge_0]. }
  pose proof (ulp_FLT_gt radix2 (-1074) 53 d) as G. rewrite Rabs_pos_eq in G by auto. destruct eps_val as [E0 E1].
  assert (U : 0 < ulp radix2 fexp d). { apply Rle_lt_trans with (2 := G). change (- (53))%Z with (-53)%Z. nra. }
  assert (EQ : d = IZR (Ztrunc (scaled_mantissa radix2 fexp d)) * ulp radix2 fexp d).
  { rewrite ulp_neq_0 by lra. rewrite Fd at 1. reflexivity. }
  set (m := Ztrunc _) in *. rewrite EQ at 1. apply Rmult_le_compat_r; [lra|].
  change (- (53))%Z with (-53)%Z in G. assert (M : IZR m < bpow radix2 53).
  { apply Rmult_lt_reg_r with (ulp radix2 fexp d); auto. rewrite <- EQ. apply Rmult_lt_reg_r with eps; [lra|]. replace (bpow radix2 53 * ulp radix2 fexp d * eps) with (ulp radix2 fexp d * (bpow radix2 53 * eps)) by ring. rewrite E1. lra. }
  change (bpow radix2 53) with (IZR (2 ^ 53)) in *. apply lt_IZR in M. rewrite <- minus_IZR. apply IZR_le. lia.
Qed.
Lemma ratio_max d w : F d -> F w -> 0 <= d < w -> d / w <= 1 - eps.
Proof.
  intros Fd Fw [H0 H1]. destruct eps_val as [E0 E1]. pose proof (succ_le_lt radix2 fexp d w Fd Fw H1) as S. rewrite succ_eq_pos in S by auto.
  pose proof (mantissa_max d Fd H0) as M. set (u := ulp radix2 fexp d) in *. assert (0 <= u) by apply ulp_ge_0.
  apply Rmult_le_reg_r with w; [lra|]. unfold Rdiv. rewrite Rmult_assoc, Rinv_l by lra.
  assert (X : d * eps <= u * (1 - eps)).
  { replace (u * (1 - eps)) with ((bpow radix2 53 - 1) * u * eps).
    - apply Rmult_le_compat_r; lra.
    - transitivity (u * (bpow radix2 53 * eps - eps)); [ring|]. rewrite E1. ring. }
  assert ((d + u) * (1 - eps) <= w * (1 - eps)) by (apply Rmult_le_compat_r; lra). lra.
Qed.
Lemma rnd_ratio q : q <= 1 - eps -> rnd q <= 1 - eps.
Proof.
  intros H. replace (1 - eps) with (rnd (1 - eps)); [apply round_le; [apply FLT_exp_valid; reflexivity|apply valid_rnd_N|exact H]|].
  apply round_generic; [apply valid_rnd_N|]. replace (1 - eps) with (F2R (Float radix2 (2 ^ 53 - 1) (-53))).
  - apply generic_format_FLT. exists (Float radix2 (2 ^ 53 - 1) (-53)); [reflexivity|cbn; lia|cbn; lia].
  - unfold F2R. cbn [Fnum Fexp]. rewrite minus_IZR. replace (IZR (2 ^ 53)) with (bpow radix2 53) by reflexivity. destruct eps_val as [_ E]. lra.
Qed.
Lemma int_format n : (0 <= n <= 2 ^ 53)%Z -> F (IZR n).
Proof.
  intros H. destruct (Z.eq_dec n (2 ^ 53)) as [ -> |NE].
  - change (IZR (2 ^ 53)) with (bpow radix2 53). apply generic_format_bpow. cbn. lia.
  - replace (IZR n) with (F2R (Float radix2 n 0)) by (unfold F2R; cbn; ring). apply generic_format_FLT. exists (Float radix2 n 0); [reflexivity|cbn -[Z.pow]; lia|cbn; lia].
Qed.
Lemma rnd_below n q : (1 <= n <= 2 ^ 53)%Z -> q <= 1 - eps -> rnd (IZR n * q) < IZR n.
Proof.
  intros Hn Hq. destruct eps_val as [E0 E1]. assert (N1 : 1 <= IZR n) by (apply IZR_le; lia). assert (Fn : F (IZR n)) by (apply int_format; lia).
  set (u := pred radix2 fexp (IZR n)). assert (Fu : F u) by (apply generic_format_pred; [apply FLT_exp_valid; reflexivity|auto]).
  assert (Su : succ radix2 fexp u = IZR n) by (apply succ_pred; fv). assert (Lu : u < IZR n) by (apply pred_lt_id; lra).
  apply Rle_lt_trans with u; [|exact Lu]. apply round_N_le_midp; fv. rewrite Su.
  assert (Pu : bpow radix2 (-1) <= u).
  { unfold u. apply pred_ge_gt; fv; [|cbn; lra]. apply generic_format_bpow. cbn. lia. }
  assert (Uu : ulp radix2 fexp u <= u * bpow radix2 (1 - 53)).
  { rewrite <- (Rabs_pos_eq u) at 2 by (cbn in Pu; lra). apply ulp_FLT_le. rewrite Rabs_pos_eq by (cbn in Pu; lra). apply Rle_trans with (2 := Pu). apply bpow_le. lia. }
  rewrite succ_eq_pos in Su by (cbn in Pu; lra). replace (bpow radix2 (1 - 53)) with (2 * eps) in Uu by (change (1 - 53)%Z with (1 + -53)%Z; rewrite bpow_plus; cbn; lra).
  apply Rle_lt_trans with (IZR n * (1 - eps)); [apply Rmult_le_compat_l; lra|]. assert (u * eps < IZR n * eps) by (apply Rmult_lt_compat_r; lra). lra.
Qed.
Lemma rnd_nonneg x : 0 <= x -> 0 <= rnd x.
Proof. intros H. apply round_ge_generic; auto; [apply FLT_exp_valid; reflexivity|apply valid_rnd_N|apply generic_format_0]. Qed.

Local Notation B := (Binary.B2R 53 1024).
Lemma format_of (x : binary64) : F (B x).
Proof. apply (Binary.generic_format_B2R 53 1024). Qed.
Lemma of_Z_spec n : (0 <= n <= 2 ^ 53)%Z -> B (f_of_Z n) = IZR n /\ f_isfinite (f_of_Z n) = true.
Proof.
  intros H. pose proof (Binary.binary_normalize_correct 53 1024 (eq_refl _) (eq_refl _) mode_NE n 0 false) as C.
  replace (F2R (Float radix2 n 0)) with (IZR n) in C by (unfold F2R; cbn; ring). cbn [round_mode] in C.
  change (SpecFloat.fexp 53 1024) with fexp in C. rewrite (round_generic radix2 fexp _ (IZR n) (int_format n H)) in C.
  rewrite Rlt_bool_true in C; [tauto|]. rewrite Rabs_pos_eq by (apply IZR_le; lia). apply Rle_lt_trans with (IZR (2 ^ 53)); [apply IZR_le; lia|].
  change (IZR (2 ^ 53)) with (bpow radix2 53). apply bpow_lt. lia.
Qed.
Lemma lt_false_ge a b : f_isfinite a = true -> f_isfinite b = true -> f_lt a b = false -> B b <= B a.
Proof.
  intros Fa Fb. unfold f_lt, b64_compare. rewrite Binary.Bcompare_correct by auto. destruct (Rcompare_spec (B a) (B b)); try discriminate; lra.
Qed.
Lemma ge_false_lt a b : f_isfinite a = true -> f_isfinite b = true -> f_ge a b = false -> B a < B b.
Proof.
  intros Fa Fb. unfold f_ge, b64_compare. rewrite Binary.Bcompare_correct by auto. destruct (Rcompare_spec (B a) (B b)); try discriminate; lra.
Qed.
(** Difference of finite numbers: finite, or infinite, never NaN. *)
Lemma sub_nan a b : f_isfinite a = true -> f_isfinite b = true -> f_isnan (f_sub a b) = false.
Proof.
  intros Fa Fb. pose proof (Binary.Bminus_correct 53 1024 (eq_refl _) (eq_refl _) binop_nan_pl64 mode_NE a b Fa Fb) as C. unfold f_isnan, f_sub, b64_minus.
  destruct (Rlt_bool _ _).
  - destruct C as (_ & C & _). destruct (Binary.Bminus _ _ _ _ _ _ a b); auto; discriminate.
  - destruct C as [C _]. destruct (Binary.Bminus _ _ _ _ _ _ a b); auto; discriminate.
Qed.
Definition finite_dim (d : dim binary64) : Prop := f_isfinite (d_lower d) = true /\ f_isfinite (d_upper d) = true /\ (Z.of_nat (d_count d) <= 2 ^ 53 + 1)%Z.
Lemma quotient_small (x w : binary64) : f_isfinite x = true -> f_isfinite w = true -> 0 <= B x < B w ->
  f_isfinite (f_div x w) = true /\ 0 <= B (f_div x w) <= 1 - eps.
Proof.
  intros Fx Fw H. pose proof (Binary.Bdiv_correct 53 1024 (eq_refl _) (eq_refl _) binop_nan_pl64 mode_NE x w ltac:(lra)) as C. cbn [round_mode] in C. change (SpecFloat.fexp 53 1024) with fexp in C.
  pose proof (ratio_max _ _ (format_of x) (format_of w) H) as R. pose proof (rnd_ratio _ R) as R'. destruct eps_val as [E0 _].
  assert (P : 0 <= rnd (B x / B w)). { apply rnd_nonneg. apply Rmult_le_pos; [lra|]. apply Rlt_le, Rinv_0_lt_compat. lra. }
  rewrite Rlt_bool_true in C. 2:{ rewrite Rabs_pos_eq by auto. apply Rle_lt_trans with 1; [lra|]. change 1 with (bpow radix2 0). apply bpow_lt. lia. }
  destruct C as (C1 & C2 & _). unfold f_isfinite, f_div, b64_div. rewrite C2, C1. auto.
Qed.
Lemma product_small n (q : binary64) : (1 <= n <= 2 ^ 53)%Z -> f_isfinite q = true -> 0 <= B q <= 1 - eps ->
  f_isfinite (f_mul (f_of_Z n) q) = true /\ 0 <= B (f_mul (f_of_Z n) q) < IZR n.
Proof.
  intros Hn Fq H. destruct (of_Z_spec n ltac:(lia)) as [En Fn]. pose proof (Binary.Bmult_correct 53 1024 (eq_refl _) (eq_refl _) binop_nan_pl64 mode_NE (f_of_Z n) q) as C. cbn [round_mode] in C. change (SpecFloat.fexp 53 1024) with fexp in C.
  rewrite En in C. assert (N1 : 1 <= IZR n) by (apply IZR_le; lia). assert (P : 0 <= rnd (IZR n * B q)) by (apply rnd_nonneg; apply Rmult_le_pos; lra).
  pose proof (rnd_below n (B q) Hn ltac:(lra)) as L. rewrite Rlt_bool_true in C.
  2:{ rewrite Rabs_pos_eq by auto. apply Rlt_trans with (IZR n); auto. apply Rle_lt_trans with (IZR (2 ^ 53)); [apply IZR_le; lia|]. change (IZR (2 ^ 53)) with (bpow radix2 53). apply bpow_lt. lia. }
  destruct C as (C1 & C2 & _). unfold f_isfinite in *. unfold f_mul, b64_mult. rewrite C2, C1, Fn, Fq. auto.
Qed.
Lemma trunc_range (v : binary64) n : 0 <= B v < IZR n -> (0 <= Binary.Btrunc 53 1024 v < n)%Z.
Proof.
  intros H. pose proof (Binary.Btrunc_correct 53 1024 (eq_refl _) v) as C. unfold round, scaled_mantissa, cexp, FIX_exp, F2R in C. cbn [bpow Z.opp Fnum Fexp] in C. rewrite !Rmult_1_r in C. apply eq_IZR in C. rewrite C.
  rewrite Ztrunc_floor by lra. split; [apply Zfloor_lub; cbn; lra|]. apply lt_IZR. pose proof (Zfloor_lb (B v)). lra.
Qed.
Lemma f_cell_ok x d : finite_dim d -> (2 <= d_count d)%nat -> match f_locate x d with BadCast => False | Outside _ => True | Cell i _ => (i + 2 <= d_count d)%nat end.
Proof.
  intros (FL & FU & HC) H2. unfold f_locate. set (xd := f_sub x (d_lower d)). set (w := f_sub (d_upper d) (d_lower d)).
  destruct (f_isnan xd) eqn:NX; [auto|]. destruct (f_lt xd (f_of_Z 0)) eqn:L; [exact I|]. destruct (f_ge xd w) eqn:G; [exact I|]. cbn [orb].
  assert (NW : f_isnan w = false) by (apply sub_nan; auto). set (n := Z.of_nat (d_count d - 1)). assert (Hn : (1 <= n <= 2 ^ 53)%Z) by (unfold n; lia).
  assert (Q : f_isfinite (f_div xd w) = true /\ 0 <= B (f_div xd w) <= 1 - eps).
  { destruct eps_val as [E0 _]. destruct (f_isfinite xd) eqn:FX.
    - pose proof (lt_false_ge _ _ FX (proj2 (of_Z_spec 0 ltac:(lia))) L) as P. rewrite (proj1 (of_Z_spec 0 ltac:(lia))) in P.
      destruct (f_isfinite w) eqn:FW; [apply quotient_small; auto; split; [exact P|apply ge_false_lt; auto]|].
      (* the width overflowed to an infinity *)
      clear - FX FW NW E0. clearbody xd w. destruct w as [s|s|s pl e|s m e e0]; try discriminate. destruct xd as [s'|s'|s' pl' e'|s' m' e' e0']; try discriminate; cbn; (split; [reflexivity|lra]).
    - exfalso. clear - L G FX NX NW. clearbody xd w. unfold f_isfinite, f_isnan, f_lt, f_ge in *. destruct xd as [s|s|s pl e|s m e e0]; try discriminate.
      destruct s; [discriminate|]. destruct w as [s'|s'|s' pl' e'|s' m' e' e0']; try discriminate; try (destruct s'; discriminate). }
  destruct Q as [Q1 Q2]. destruct (product_small n (f_div xd w) Hn Q1 Q2) as [V1 V2]. set (v := f_mul (f_of_Z n) (f_div xd w)) in *.
  pose proof (trunc_range v n V2) as T. rewrite V1. replace (0 <=? Binary.Btrunc 53 1024 v)%Z with true by (symmetry; apply Z.leb_le; lia).
  replace (Binary.Btrunc 53 1024 v <? 2 ^ 64)%Z with true by (symmetry; apply Z.ltb_lt; lia). cbn [andb]. unfold n in T. lia.
Qed.
