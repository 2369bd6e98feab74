(** Linear interpolation in double arithmetic: how far rounding moves the position in the grid, and the value. *)
From Coq Require Import Reals ZArith Bool List Lia Lra Psatz.
From Flocq Require Import Core.Core Relative Plus_error IEEE754.Binary IEEE754.Bits IEEE754.BinarySingleNaN.
From Verif Require Import GridModel GridFloat FBoundModel FBoundProofs FBoundLerp FGridSpec.
Import ListNotations.
Local Open Scope R_scope.

Local Notation fexp := (FLT_exp (-1074) 53).
Local Notation F := (generic_format radix2 fexp).
Local Notation rnd := (round radix2 fexp (Znearest (fun x => negb (Z.even x)))).
Local Notation B := (Binary.B2R 53 1024).
Local Notation top := (bpow radix2 1024).
Local Notation u := (bpow radix2 (-53)).
Local Notation tiny := (bpow radix2 (-1075)).
#[local] Instance prec_53 : Prec_gt_0 53 := eq_refl _.

(** ** The broken line *)
Section Line.
Context (f : nat -> R) (N : nat) (D : R) (HD : forall k, (k < N)%nat -> Rabs (f (S k) - f k) <= D).
Lemma floor_cell t : 0 <= t < INR N -> exists k, (k < N)%nat /\ Z.to_nat (Zfloor t) = k /\ INR k <= t < INR k + 1.
Proof.
  intros H. assert (Z0 : (0 <= Zfloor t)%Z) by (apply Zfloor_lub; cbn; lra). exists (Z.to_nat (Zfloor t)).
  assert (E : INR (Z.to_nat (Zfloor t)) = IZR (Zfloor t)) by (rewrite INR_IZR_INZ, Z2Nat.id; auto). rewrite E.
  pose proof (Zfloor_lb t). pose proof (Zfloor_ub t). split; [|split; [reflexivity|lra]]. apply INR_lt. rewrite E. lra.
Qed.
Lemma after_node j : forall k t, Z.to_nat (Zfloor t) = (k + j)%nat -> 0 <= t < INR N -> Rabs (polyline f t - f k) <= D * (t - INR k).
Proof.
  induction j as [|j IH]; intros k t E H.
  - destruct (floor_cell t H) as (m & Hm & Em & Im). unfold polyline. rewrite Em. rewrite Em, Nat.add_0_r in E. subst m.
    replace (f k + (t - INR k) * (f (S k) - f k) - f k) with ((t - INR k) * (f (S k) - f k)) by ring. rewrite Rabs_mult, (Rabs_pos_eq (t - INR k)) by lra.
    rewrite (Rmult_comm D). apply Rmult_le_compat_l; [lra|auto].
  - destruct (floor_cell t H) as (m & Hm & Em & Im). assert (Hk : (k < N)%nat) by lia. specialize (IH (S k) t ltac:(lia) H). specialize (HD k Hk). rewrite S_INR in IH.
    replace (polyline f t - f k) with ((polyline f t - f (S k)) + (f (S k) - f k)) by ring. pose proof (Rabs_triang (polyline f t - f (S k)) (f (S k) - f k)). lra.
Qed.
Lemma line_lip_le s t : 0 <= s -> s <= t -> t < INR N -> Rabs (polyline f t - polyline f s) <= D * (t - s).
Proof.
  intros H0 Hst H1. destruct (floor_cell s ltac:(lra)) as (k & Hk & Ek & Ik). destruct (floor_cell t ltac:(lra)) as (m & Hm & Em & Im).
  assert (L : (k <= m)%nat). { rewrite <- Ek, <- Em. apply Z2Nat.inj_le; try (apply Zfloor_lub; cbn; lra). apply Zfloor_le; auto. }
  destruct (Nat.eq_dec k m) as [->|Ne].
  - unfold polyline. rewrite Ek, Em. replace (f m + (t - INR m) * (f (S m) - f m) - (f m + (s - INR m) * (f (S m) - f m))) with ((t - s) * (f (S m) - f m)) by ring.
    rewrite Rabs_mult, (Rabs_pos_eq (t - s)) by lra. rewrite (Rmult_comm D). apply Rmult_le_compat_l; [lra|auto].
  - pose proof (after_node (m - S k) (S k) t ltac:(lia) ltac:(lra)) as A. rewrite S_INR in A.
    assert (C : Rabs (f (S k) - polyline f s) <= D * (INR k + 1 - s)).
    { unfold polyline. rewrite Ek. replace (f (S k) - (f k + (s - INR k) * (f (S k) - f k))) with ((INR k + 1 - s) * (f (S k) - f k)) by ring.
      rewrite Rabs_mult, (Rabs_pos_eq (INR k + 1 - s)) by lra. rewrite (Rmult_comm D). apply Rmult_le_compat_l; [lra|auto]. }
    replace (polyline f t - polyline f s) with ((polyline f t - f (S k)) + (f (S k) - polyline f s)) by ring.
    pose proof (Rabs_triang (polyline f t - f (S k)) (f (S k) - polyline f s)). lra.
Qed.
Lemma line_lip s t : 0 <= s < INR N -> 0 <= t < INR N -> Rabs (polyline f t - polyline f s) <= D * Rabs (t - s).
Proof.
  intros Hs Ht. destruct (Rle_dec s t) as [L|L].
  - rewrite (Rabs_pos_eq (t - s)) by lra. apply line_lip_le; lra.
  - rewrite Rabs_minus_sym, (Rabs_minus_sym t s), (Rabs_pos_eq (s - t)) by lra. apply line_lip_le; lra.
Qed.
End Line.

(** ** Position *)
Lemma diff_err x y : F x -> F y -> Rabs (rnd (x - y) - (x - y)) <= u * Rabs (x - y).
Proof. intros Fx Fy. apply (sum_err x (- y)); auto. apply generic_format_opp. auto. Qed.
Lemma tiny_u : tiny <= u * / 1000000.
Proof.
  apply Rle_trans with (u * bpow radix2 (-53)); [rewrite <- bpow_plus; apply bpow_le; lia|]. apply Rmult_le_compat_l; [apply bpow_ge_0|]. cbn. lra.
Qed.
Lemma u_tiny : 0 < u <= / 1000000. Proof. cbn. lra. Qed.

(** The real-number core. *)
Lemma position_core n l h x : 1 <= n -> F x -> F l -> F h ->
  0 <= rnd (x - l) -> rnd (x - l) < rnd (h - l) ->
  l <= x < h /\ Rabs (rnd (n * rnd (rnd (x - l) / rnd (h - l))) - n * ((x - l) / (h - l))) <= 5 * n * u.
Proof.
  intros Hn Fx Fl Fh P L. pose proof u_tiny as U. pose proof tiny_u as TU. pose proof tiny_pos as T0.
  pose proof (diff_err x l Fx Fl) as E1. pose proof (diff_err h l Fh Fl) as E2.
  set (d := rnd (x - l)) in *. set (w := rnd (h - l)) in *.
  assert (X1 : l <= x). { destruct (Rle_dec l x) as [|C]; auto. exfalso. rewrite (Rabs_left (x - l)) in E1 by lra. apply Rabs_le_inv in E1. nra. }
  assert (X2 : x < h). { destruct (Rlt_dec x h) as [|C]; auto. exfalso. assert (w <= d); [|lra]. unfold w, d. apply rnd_le. lra. }
  split; [lra|]. rewrite (Rabs_pos_eq (x - l)) in E1 by lra. rewrite (Rabs_pos_eq (h - l)) in E2 by lra. apply Rabs_le_inv in E1, E2.
  set (a := x - l) in *. set (b := h - l) in *. assert (Hb : 0 < b) by (unfold b; lra). assert (Hab : 0 <= a < b) by (unfold a, b; lra).
  assert (Hw : 0 < w) by lra.
  set (rho := a / b). assert (Hr : 0 <= rho < 1). { unfold rho. split; [apply Rmult_le_pos; [lra|apply Rlt_le, Rinv_0_lt_compat; auto]|]. apply Rmult_lt_reg_r with b; auto. unfold Rdiv. rewrite Rmult_assoc, Rinv_l; lra. }
  set (q := d / w). assert (Hq : 0 <= q < 1). { unfold q. split; [apply Rmult_le_pos; [lra|apply Rlt_le, Rinv_0_lt_compat; auto]|]. apply Rmult_lt_reg_r with w; auto. unfold Rdiv. rewrite Rmult_assoc, Rinv_l; lra. }
  assert (A : a = rho * b) by (unfold rho; field; lra). assert (Dq : d = q * w) by (unfold q; field; lra).
  assert (Q : Rabs (q - rho) <= 2.01 * u).
  { assert (K : Rabs ((q - rho) * w) <= 2 * u * b).
    { replace ((q - rho) * w) with ((d - a) - rho * (w - b)) by (rewrite Dq, A; ring).
      apply Rabs_le. assert (rho * b <= b) by nra. assert (u * (rho * b) <= u * b) by (apply Rmult_le_compat_l; lra). rewrite A in E1.
      assert (- (u * b) <= rho * (w - b) <= u * b).
      { assert (rho * - (u * b) <= rho * (w - b)) by (apply Rmult_le_compat_l; lra). assert (rho * (w - b) <= rho * (u * b)) by (apply Rmult_le_compat_l; lra).
        assert (0 <= u * b) by (apply Rmult_le_pos; lra). assert (rho * (u * b) <= 1 * (u * b)) by (apply Rmult_le_compat_r; lra). lra. }
      rewrite A. lra. }
    rewrite Rabs_mult, (Rabs_pos_eq w) in K by lra. apply Rmult_le_reg_r with w; [auto|]. apply Rle_trans with (1 := K).
    assert (b <= 1.001 * w). { assert (u * b <= / 1000000 * b) by (apply Rmult_le_compat_r; lra). lra. } 
    apply Rle_trans with (2 * u * (1.001 * w)); [apply Rmult_le_compat_l; lra|]. assert (0 <= u * w) by (apply Rmult_le_pos; lra). lra. }
  pose proof (rnd_err q) as R1. rewrite (Rabs_pos_eq q) in R1 by lra.
  assert (u * q <= u * 1) by (apply Rmult_le_compat_l; lra).
  assert (G : 0 <= rnd q <= 1). { split; [apply rnd_nonneg; lra|]. rewrite <- (rnd_id 1 F1). apply rnd_le. lra. }
  pose proof (rnd_err (n * rnd q)) as R2. rewrite (Rabs_pos_eq (n * rnd q)) in R2 by (apply Rmult_le_pos; lra).
  assert (n * rnd q <= n * 1) by (apply Rmult_le_compat_l; lra). assert (u * (n * rnd q) <= u * (n * 1)) by (apply Rmult_le_compat_l; lra).
  replace (rnd (n * rnd q) - n * rho) with ((rnd (n * rnd q) - n * rnd q) + (n * (rnd q - q) + n * (q - rho))) by ring.
  pose proof (Rabs_triang (rnd (n * rnd q) - n * rnd q) (n * (rnd q - q) + n * (q - rho))) as T1. pose proof (Rabs_triang (n * (rnd q - q)) (n * (q - rho))) as T2.
  rewrite !Rabs_mult, (Rabs_pos_eq n) in T2 by lra.
  assert (n * Rabs (rnd q - q) <= n * (1.01 * u)) by (apply Rmult_le_compat_l; lra). assert (n * Rabs (q - rho) <= n * (2.01 * u)) by (apply Rmult_le_compat_l; lra).
  assert (1 * u <= n * u) by (apply Rmult_le_compat_r; lra). lra.
Qed.

(** What [f_locate] answers for finite points and bounds that do not overflow. *)
Section Locate.
Context (x : binary64) (d : dim binary64) (FX : f_isfinite x = true) (FD : finite_dim d) (C2 : (2 <= d_count d)%nat).
Context (BX : Rabs (B x) <= bpow radix2 1022) (BL : Rabs (B (d_lower d)) <= bpow radix2 1022) (BU : Rabs (B (d_upper d)) <= bpow radix2 1022).
Let l := B (d_lower d). Let h := B (d_upper d). Let X := B x.
Let n := (d_count d - 1)%nat.
Lemma sub_small a b : f_isfinite a = true -> f_isfinite b = true -> Rabs (B a) <= bpow radix2 1022 -> Rabs (B b) <= bpow radix2 1022 ->
  f_isfinite (f_sub a b) = true /\ B (f_sub a b) = rnd (B a - B b).
Proof.
  intros Fa Fb Ha Hb. apply (rounded_small _ _ (sub_rounded a b Fa Fb)).
  apply Rle_lt_trans with (bpow radix2 1023); [|apply bpow_lt; lia]. assert (E : bpow radix2 1023 = 2 * bpow radix2 1022) by (change 1023%Z with (1 + 1022)%Z; rewrite bpow_plus; reflexivity).
  apply Rabs_le_inv in Ha, Hb. assert (G : F (bpow radix2 1023)) by (apply generic_format_bpow; cbn; lia). apply Rabs_le. split.
  - rewrite <- (rnd_id (- bpow radix2 1023)) by (apply generic_format_opp; exact G). apply rnd_le. lra.
  - rewrite <- (rnd_id (bpow radix2 1023) G). apply rnd_le. lra.
Qed.
Definition f_value : binary64 := f_mul (f_of_Z (Z.of_nat n)) (f_div (f_sub x (d_lower d)) (f_sub (d_upper d) (d_lower d))).
Lemma locate_cases :
  (f_locate x d = Outside f_nan /\ (rnd (X - l) < 0 \/ rnd (h - l) <= rnd (X - l))) \/
  (exists i r, f_locate x d = Cell i r /\ 0 <= rnd (X - l) < rnd (h - l) /\
    (i < n)%nat /\ f_isfinite r = true /\ 0 <= B r < 1 /\ INR i + B r = rnd (INR n * rnd (rnd (X - l) / rnd (h - l)))).
Proof.
  destruct FD as (FL & FU & HC). destruct (sub_small x (d_lower d) FX FL BX BL) as [S1 S2]. destruct (sub_small (d_upper d) (d_lower d) FU FL BU BL) as [W1 W2].
  fold X l in S2. fold l h in W2. unfold f_locate. set (xd := f_sub x (d_lower d)) in *. set (w := f_sub (d_upper d) (d_lower d)) in *.
  assert (NX : f_isnan xd = false) by (apply sub_nan; auto). rewrite NX.
  destruct (of_Z_spec 0 ltac:(lia)) as [Z1 Z2]. destruct (f_lt xd (f_of_Z 0)) eqn:L.
  { left. split; [reflexivity|]. left. revert L. unfold f_lt, b64_compare. rewrite Binary.Bcompare_correct by auto. rewrite Z1, S2. destruct (Rcompare_spec (rnd (X - l)) 0); try discriminate; auto. }
  destruct (f_ge xd w) eqn:G.
  { left. split; [reflexivity|]. right. revert G. unfold f_ge, b64_compare. rewrite Binary.Bcompare_correct by auto. rewrite W2, S2. destruct (Rcompare_spec (rnd (X - l)) (rnd (h - l))); try discriminate; intros; lra. }
  right. apply lt_false_ge in L; auto. apply ge_false_lt in G; auto. rewrite Z1, S2 in L. cbn [orb].
  assert (Hn : (1 <= Z.of_nat n <= 2 ^ 53)%Z) by (unfold n; lia).
  destruct (quotient_small xd w S1 W1 ltac:(rewrite S2 in *; lra)) as [Q1 Q2]. destruct (product_small _ _ Hn Q1 Q2) as [V1 V2]. fold n.
  set (v := f_mul (f_of_Z (Z.of_nat n)) (f_div xd w)) in *. pose proof (trunc_range v _ V2) as T. rewrite V1.
  set (k := Binary.Btrunc 53 1024 v) in *.
  replace (0 <=? k)%Z with true by (symmetry; apply Z.leb_le; lia). replace (k <? 2 ^ 64)%Z with true by (symmetry; apply Z.ltb_lt; lia). cbn [andb].
  assert (K : k = Zfloor (B v)).
  { unfold k. pose proof (Binary.Btrunc_correct 53 1024 (eq_refl _) v) as C. unfold round, scaled_mantissa, cexp, FIX_exp, F2R in C. cbn [bpow Z.opp Fnum Fexp] in C. rewrite !Rmult_1_r in C. apply eq_IZR in C. rewrite C. apply Ztrunc_floor. lra. }
  pose proof (Zfloor_lb (B v)) as K1. pose proof (Zfloor_ub (B v)) as K2. rewrite <- K in K1, K2.
  destruct (of_Z_spec k ltac:(lia)) as [O1 O2].
  (* the fractional part is representable *)
  assert (Ffrac : F (B v - IZR k)).
  { destruct (Z.eq_dec k 0) as [->|Nk]; [rewrite Rminus_0_r; apply format_of|].
    pose proof (format_of v) as Fv. apply generic_format_FLT. apply FLT_format_generic in Fv; [|reflexivity]. destruct Fv as [g Hg1 Hg2 Hg3].
    destruct g as [mg eg]. cbn [Fnum Fexp] in Hg2, Hg3. unfold F2R in Hg1. cbn [Fnum Fexp] in Hg1.
    destruct (Z_le_gt_dec 0 eg) as [Pe|Pe].
    - exists (Float radix2 0 0); cbn; [|lia|lia]. unfold F2R. cbn. rewrite Rmult_0_l.
      assert (I : B v = IZR (mg * 2 ^ eg)). { rewrite Hg1, mult_IZR. f_equal. rewrite <- IZR_Zpower by lia. reflexivity. }
      rewrite K, I, Zfloor_IZR. ring.
    - exists (Float radix2 (mg - k * 2 ^ (- eg)) eg); cbn [Fnum Fexp]; [| |lia].
      + unfold F2R. cbn [Fnum Fexp]. rewrite Hg1, minus_IZR, mult_IZR. rewrite Rmult_minus_distr_r. f_equal. rewrite Rmult_assoc.
        replace (IZR (2 ^ (- eg))) with (bpow radix2 (- eg)) by (rewrite <- IZR_Zpower by lia; reflexivity). rewrite <- bpow_plus. replace (- eg + eg)%Z with 0%Z by lia. cbn. ring.
      + assert (Pg : (0 < 2 ^ (- eg))%Z) by (apply Z.pow_pos_nonneg; lia).
        assert (M : IZR mg = B v * IZR (2 ^ (- eg))). { rewrite Hg1, Rmult_assoc. replace (IZR (2 ^ (- eg))) with (bpow radix2 (- eg)) by (rewrite <- IZR_Zpower by lia; reflexivity). rewrite <- bpow_plus. replace (eg + - eg)%Z with 0%Z by lia. cbn. ring. }
        assert (0 <= mg - k * 2 ^ (- eg))%Z. { apply le_IZR. rewrite minus_IZR, mult_IZR, M. rewrite <- Rmult_minus_distr_r. apply Rmult_le_pos; [lra|]. apply IZR_le. lia. }
        rewrite Z.abs_eq by lia. apply Z.le_lt_trans with mg; [nia|]. change (Zpower radix2 53) with (2 ^ 53)%Z in *. lia. }
  destruct (rounded_small _ _ (sub_rounded v (f_of_Z k) V1 O2)) as [R1 R2].
  { rewrite O1, (rnd_id _ Ffrac). rewrite Rabs_pos_eq by lra. pose proof one_top. lra. }
  rewrite O1, (rnd_id _ Ffrac) in R2.
  exists (Z.to_nat k), (f_sub v (f_of_Z k)). split; [reflexivity|]. split; [rewrite S2, W2 in G; lra|]. split; [lia|]. split; [exact R1|]. rewrite R2. split; [lra|].
  rewrite INR_IZR_INZ, Z2Nat.id by lia. replace (IZR k + (B v - IZR k)) with (B v) by ring.
  (* value of the product *)
  destruct (of_Z_spec (Z.of_nat n) ltac:(lia)) as [N1 N2]. unfold v.
  rewrite (rounded_finite _ _ (mul_rounded _ _ N2 Q1) V1), N1. rewrite (rounded_finite _ _ (div_rounded xd w S1 ltac:(rewrite S2 in *; lra)) Q1), S2, W2.
  rewrite INR_IZR_INZ. reflexivity.
Qed.
Lemma locate_position i r : f_locate x d = Cell i r ->
  l <= X < h /\ (i < n)%nat /\ f_isfinite r = true /\ 0 <= B r < 1 /\ Rabs (INR i + B r - position n l h X) <= 5 * INR n * u.
Proof.
  intros E. destruct locate_cases as [(E' & _)|(i' & r' & E' & P & H1 & H2 & H3 & H4)]; rewrite E' in E; [discriminate|]. injection E as -> ->.
  assert (N1 : 1 <= INR n) by (change 1 with (INR 1); apply le_INR; unfold n; lia).
  destruct (position_core (INR n) l h X N1 (format_of x) (format_of (d_lower d)) (format_of (d_upper d)) ltac:(lra) ltac:(lra)) as [I Q].
  rewrite H4. unfold position. auto.
Qed.
(** Points outside are recognised exactly. *)
Lemma locate_outside : X < l \/ h <= X -> f_locate x d = Outside f_nan.
Proof.
  intros H. destruct locate_cases as [(E' & _)|(i' & r' & E' & P & _)]; auto. exfalso.
  assert (N1 : 1 <= INR 1) by (cbn; lra).
  destruct (position_core (INR 1) l h X N1 (format_of x) (format_of (d_lower d)) (format_of (d_upper d)) ltac:(lra) ltac:(lra)) as [I _]. lra.
Qed.
(** Points inside are found unless they are within rounding of the upper end. *)
Lemma locate_inside : l <= X -> X <= h - 3 * u * (h - l) -> l < h -> exists i r, f_locate x d = Cell i r.
Proof.
  intros H1 H2 H3. destruct locate_cases as [(E' & [P|P])|(i' & r' & E' & P & _)]; [exfalso|exfalso|eauto].
  - pose proof (rnd_nonneg (X - l) ltac:(lra)). lra.
  - pose proof u_tiny as U. pose proof (diff_err X l (format_of x) (format_of (d_lower d))) as E1. pose proof (diff_err h l (format_of (d_upper d)) (format_of (d_lower d))) as E2.
    rewrite (Rabs_pos_eq (X - l)) in E1 by lra. rewrite (Rabs_pos_eq (h - l)) in E2 by lra. apply Rabs_le_inv in E1, E2.
    assert (0 < u * (h - l)) by (apply Rmult_lt_0_compat; lra). assert (u * (X - l) <= u * (h - l)) by (apply Rmult_le_compat_l; lra). lra.
Qed.
(** With a power of two of cells and differences that are exact, the nodes are found exactly. *)
Lemma locate_node k i : INR n = bpow radix2 k -> (i < n)%nat -> l < h -> F (h - l) -> F (X - l) -> X - l = INR i / INR n * (h - l) ->
  exists r, f_locate x d = Cell i r /\ f_isfinite r = true /\ B r = 0.
Proof.
  intros Hk Hi Hlh Fw Fx Hx. assert (N1 : 1 <= INR n) by (change 1 with (INR 1); apply le_INR; unfold n; lia).
  assert (I1 : 0 <= INR i) by apply pos_INR. assert (I2 : INR i + 1 <= INR n) by (rewrite <- S_INR; apply le_INR; lia).
  assert (Hn : (Z.of_nat n <= 2 ^ 53)%Z) by (destruct FD as (_ & _ & HC); unfold n; lia).
  assert (Q : 0 <= INR i / INR n < 1). { split; [apply Rmult_le_pos; [lra|apply Rlt_le, Rinv_0_lt_compat; lra]|]. apply Rmult_lt_reg_r with (INR n); [lra|]. unfold Rdiv. rewrite Rmult_assoc, Rinv_l; lra. }
  assert (Fi : F (INR i)) by (rewrite INR_IZR_INZ; apply int_format; lia).
  assert (K0 : (0 <= k <= 53)%Z).
  { split; [apply (le_bpow radix2); rewrite <- Hk; exact N1|]. apply (le_bpow radix2). rewrite <- Hk, INR_IZR_INZ. change (bpow radix2 53) with (IZR (2 ^ 53)). apply IZR_le. exact Hn. }
  assert (Fq : F (INR i / INR n)).
  { apply generic_format_FLT. exists (Float radix2 (Z.of_nat i) (- k)); cbn [Fnum Fexp]; [|change (Zpower radix2 53) with (2 ^ 53)%Z; lia|lia].
    unfold F2R. cbn [Fnum Fexp]. rewrite <- INR_IZR_INZ, bpow_opp, <- Hk. reflexivity. }
  destruct locate_cases as [(E' & [P|P])|(i' & r' & E' & P & H1 & H2 & H3 & H4)].
  - exfalso. rewrite rnd_id, Hx in P by exact Fx. assert (0 <= INR i / INR n * (h - l)) by (apply Rmult_le_pos; lra). lra.
  - exfalso. rewrite !rnd_id, Hx in P by assumption. assert (INR i / INR n * (h - l) < 1 * (h - l)) by (apply Rmult_lt_compat_r; lra). lra.
  - exists r'. rewrite (rnd_id _ Fx), (rnd_id _ Fw), Hx in H4. replace (INR i / INR n * (h - l) / (h - l)) with (INR i / INR n) in H4 by (field; lra).
    rewrite (rnd_id _ Fq) in H4. replace (INR n * (INR i / INR n)) with (INR i) in H4 by (field; lra). rewrite (rnd_id _ Fi) in H4.
    assert (i' = i). { assert (INR i' < INR i + 1) by lra. assert (INR i < INR i' + 1) by lra. rewrite <- S_INR in *. apply INR_lt in H. apply INR_lt in H0. lia. }
    subst i'. split; [exact E'|]. split; [exact H2|lra].
Qed.
End Locate.

(** ** One-dimensional linear views *)
Section View.
Context (data : list binary64) (x : binary64) (d : dim binary64) (FX : f_isfinite x = true) (FD : finite_dim d) (C2 : (2 <= d_count d)%nat).
Context (BX : Rabs (B x) <= bpow radix2 1022) (BL : Rabs (B (d_lower d)) <= bpow radix2 1022) (BU : Rabs (B (d_upper d)) <= bpow radix2 1022).
Context (LD : length data = d_count d).
Let n := (d_count d - 1)%nat.
Let f (k : nat) := nth k data f_nan.
Lemma slice_1 idx : slice_off [d] 0 idx = idx.
Proof. unfold slice_off, total. cbn [fold_left]. rewrite Nat.mul_1_l, Nat.div_same by lia. lia. Qed.
Lemma read_1 k : (k < d_count d)%nat -> read data k = Val (f k).
Proof. intros H. unfold read. rewrite (nth_error_nth' data f_nan) by lia. reflexivity. Qed.
Lemma view_cell i r : f_locate x d = Cell i r -> (i < n)%nat -> f_linear_view data [d] 0 [x] = Val (f_linear (f i) (f (S i)) r).
Proof.
  intros E Hi. unfold f_linear_view. cbn [linear_view]. rewrite E, !slice_1. rewrite !read_1 by (unfold n in Hi; lia). cbn [bind]. rewrite Nat.add_1_r. reflexivity.
Qed.
Context (M D : R) (FV : forall k, (k <= n)%nat -> f_isfinite (f k) = true /\ Rabs (B (f k)) <= M) (MB : M <= bpow radix2 1022)
  (HD : forall k, (k < n)%nat -> Rabs (B (f (S k)) - B (f k)) <= D).
Lemma view_error v : f_linear_view data [d] 0 [x] = Val v -> (exists i r, f_locate x d = Cell i r) ->
  f_isfinite v = true /\
  Rabs (B v - polyline (fun k => B (f k)) (position n (B (d_lower d)) (B (d_upper d)) (B x))) <= 4 * u * M + 5 * INR n * u * D + 4 * tiny.
Proof.
  intros E (i & r & L). destruct (locate_position x d FX FD C2 BX BL BU i r L) as (I & Hi & Fr & Hr & P). fold n in Hi, P. rewrite (view_cell i r L Hi) in E. injection E as <-.
  destruct (FV i ltac:(lia)) as [Fi Mi]. destruct (FV (S i) ltac:(lia)) as [Fj Mj].
  destruct (lerp_err (FBnd (f i) (f (S i))) Fi Fj r Fr ltac:(lra)) as [G K]; cbn [f_min f_max] in *; [lra|lra|].
  change (f_lerp (FBnd (f i) (f (S i))) r) with (f_linear (f i) (f (S i)) r) in *. split; [exact G|].
  set (g := fun k => B (f k)). set (t := position n (B (d_lower d)) (B (d_upper d)) (B x)) in *. set (s := INR i + B r) in *.
  assert (I1 : INR i + 1 <= INR n) by (rewrite <- S_INR; apply le_INR; lia). pose proof (pos_INR i) as I0.
  assert (S0 : 0 <= s < INR n) by (unfold s; lra).
  assert (T0 : 0 <= t < INR n).
  { unfold t, position. set (rho := (B x - B (d_lower d)) / (B (d_upper d) - B (d_lower d))).
    assert (0 <= rho < 1). { unfold rho. split; [apply Rmult_le_pos; [lra|apply Rlt_le, Rinv_0_lt_compat; lra]|]. apply Rmult_lt_reg_r with (B (d_upper d) - B (d_lower d)); [lra|]. unfold Rdiv. rewrite Rmult_assoc, Rinv_l; lra. }
    split; [apply Rmult_le_pos; lra|]. assert (INR n * rho < INR n * 1) by (apply Rmult_lt_compat_l; lra). lra. }
  pose proof (line_lip g n D HD t s T0 S0) as LL.
  assert (Fl : Z.to_nat (Zfloor s) = i). { rewrite (Zfloor_imp (Z.of_nat i)); [apply Nat2Z.id|]. rewrite plus_IZR, <- INR_IZR_INZ. unfold s. lra. }
  assert (PS : polyline g s = (1 - B r) * B (f i) + B r * B (f (S i))). { unfold polyline. rewrite Fl. unfold g, s. ring. }
  rewrite <- PS in K.
  assert (D0 : 0 <= D). { pose proof (HD i Hi). pose proof (Rabs_pos (B (f (S i)) - B (f i))). lra. }
  assert (W : (1 - B r) * Rabs (B (f i)) + B r * Rabs (B (f (S i))) <= M).
  { assert ((1 - B r) * Rabs (B (f i)) <= (1 - B r) * M) by (apply Rmult_le_compat_l; lra). assert (B r * Rabs (B (f (S i))) <= B r * M) by (apply Rmult_le_compat_l; lra). lra. }
  pose proof u_tiny as U. assert (4 * u * ((1 - B r) * Rabs (B (f i)) + B r * Rabs (B (f (S i)))) <= 4 * u * M) by (apply Rmult_le_compat_l; lra).
  assert (D * Rabs (s - t) <= D * (5 * INR n * u)) by (apply Rmult_le_compat_l; lra).
  replace (B (f_linear (f i) (f (S i)) r) - polyline g t) with ((B (f_linear (f i) (f (S i)) r) - polyline g s) + (polyline g s - polyline g t)) by ring.
  pose proof (Rabs_triang (B (f_linear (f i) (f (S i)) r) - polyline g s) (polyline g s - polyline g t)). lra.
Qed.
End View.

(** At the left end of a cell the stored value is returned, if its neighbour is finite. *)
Lemma linear_left f1 f2 r : f_isfinite f1 = true -> f_isfinite f2 = true -> f_isfinite r = true -> B r = 0 -> f_isfinite (f_linear f1 f2 r) = true /\ B (f_linear f1 f2 r) = B f1.
Proof.
  intros Ff Fg Fr Hr. destruct (lerp_rounded (FBnd f1 f2) Ff Fg r Fr ltac:(lra)) as (R & _). unfold part1, part2 in R. cbn [f_min f_max] in R.
  rewrite Hr, Rminus_0_r, (rnd_id 1 F1), Rmult_1_l, Rmult_0_l, round_0, Rplus_0_r in R by fv. rewrite (rnd_id (B f1)) in R by apply format_of.
  change (f_lerp (FBnd f1 f2) r) with (f_linear f1 f2 r) in R. destruct (rounded_small _ _ R) as [A1 A2]; [rewrite (rnd_id (B f1)) by apply format_of; apply finite_top; auto|].
  rewrite (rnd_id (B f1)) in A2 by apply format_of. auto.
Qed.
(** ** Runs on given numbers *)
Lemma bits_inj (a b : binary64) : bits_of_b64 a = bits_of_b64 b -> a = b.
Proof. intros E. rewrite <- (binary_float_of_bits_of_binary_float 52 11 eq_refl eq_refl eq_refl a), <- (binary_float_of_bits_of_binary_float 52 11 eq_refl eq_refl eq_refl b). f_equal. exact E. Qed.
Lemma locate_run x d i : (let v := f_mul (f_of_Z (Z.of_nat (d_count d - 1))) (f_div (f_sub x (d_lower d)) (f_sub (d_upper d) (d_lower d))) in
  f_isnan (f_sub x (d_lower d)) = false /\ f_lt (f_sub x (d_lower d)) (f_of_Z 0) || f_ge (f_sub x (d_lower d)) (f_sub (d_upper d) (d_lower d)) = false /\
  f_isfinite v = true /\ Binary.Btrunc 53 1024 v = Z.of_nat i /\ (Z.of_nat i < 2 ^ 64)%Z) ->
  f_locate x d = Cell i (f_sub (f_mul (f_of_Z (Z.of_nat (d_count d - 1))) (f_div (f_sub x (d_lower d)) (f_sub (d_upper d) (d_lower d)))) (f_of_Z (Z.of_nat i))).
Proof.
  intros (A & E & C & D & G). unfold f_locate. rewrite A, E, C, D. cbn [andb]. replace (0 <=? Z.of_nat i)%Z with true by (symmetry; apply Z.leb_le; lia).
  replace (Z.of_nat i <? 2 ^ 64)%Z with true by (symmetry; apply Z.ltb_lt; lia). cbn [andb]. rewrite Nat2Z.id. reflexivity.
Qed.
Lemma good_finite d : good_dim d -> finite_dim d. Proof. unfold good_dim, moderate, finite_dim. tauto. Qed.
