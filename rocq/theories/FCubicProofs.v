(** Cubic interpolation in double arithmetic. *)
From Coq Require Import Reals ZArith Bool List Lia Lra Psatz.
From Flocq Require Import Core.Core Relative IEEE754.Binary IEEE754.Bits IEEE754.BinarySingleNaN.
From Verif Require Import ExtModel GridModel GridSpec GridProofs GridFloat FBoundModel FBoundProofs FBoundLerp FGridSpec FGridProofs FCubicSpec.
Import ListNotations.
Local Open Scope R_scope.

Local Notation fexp := (FLT_exp (-1074) 53).
Local Notation F := (generic_format radix2 fexp).
Local Notation rnd := (round radix2 fexp (Znearest (fun x => negb (Z.even x)))).
Local Notation B := (Binary.B2R 53 1024).
Local Notation top := (bpow radix2 1024).
Local Notation u := (bpow radix2 (-53)).
Local Notation tiny := (bpow radix2 (-1075)).

(** ** The cubic *)
Ltac lpos := repeat (first [lra | apply Rmult_le_pos]).
Section Cubic.
Context (M f0 f1 f2 f3 : R) (H0 : Rabs f0 <= M) (H1 : Rabs f1 <= M) (H2 : Rabs f2 <= M) (H3 : Rabs f3 <= M).
Lemma wmul w A f : Rabs w <= A -> Rabs f <= M -> Rabs (w * f) <= A * M.
Proof. intros. rewrite Rabs_mult. apply Rmult_le_compat; auto; apply Rabs_pos. Qed.
Lemma hermite_bound r : 0 <= r <= 1 -> Rabs (hermite f0 f1 f2 f3 r) <= 5 / 4 * M.
Proof.
  intros R. assert (M0 : 0 <= M) by (pose proof (Rabs_pos f0); lra).
  set (o := 1 - r). assert (O : 0 <= o <= 1) by (unfold o; lra).
  replace (hermite f0 f1 f2 f3 r) with (2 * o * o * (1 / 2 + r) * f1 + 2 * r * r * (3 / 2 - r) * f2 + (o * (r * o) / 2 * (f2 - f0) - r * (r * o) / 2 * (f3 - f1))) by (unfold hermite, o; field).
  assert (Q : 0 <= r * o <= 1 / 4) by (split; [apply Rmult_le_pos; lra|unfold o; pose proof (pow2_ge_0 (r - 1 / 2)); nra]).
  assert (A1 : 0 <= 2 * o * o * (1 / 2 + r)) by lpos. assert (A2 : 0 <= 2 * r * r * (3 / 2 - r)) by (repeat apply Rmult_le_pos; lra).
  assert (S : 2 * o * o * (1 / 2 + r) + 2 * r * r * (3 / 2 - r) = 1) by (unfold o; field).
  assert (D1 : Rabs (f2 - f0) <= 2 * M) by (apply Rabs_le_inv in H2, H0; apply Rabs_le; lra). assert (D2 : Rabs (f3 - f1) <= 2 * M) by (apply Rabs_le_inv in H3, H1; apply Rabs_le; lra).
  set (w1 := 2 * o * o * (1 / 2 + r)) in *. set (w2 := 2 * r * r * (3 / 2 - r)) in *. set (q := r * o) in *.
  pose proof (wmul w1 w1 f1 ltac:(rewrite Rabs_pos_eq; lra) H1) as B1. pose proof (wmul w2 w2 f2 ltac:(rewrite Rabs_pos_eq; lra) H2) as B2.
  assert (B3 : Rabs (o * q / 2 * (f2 - f0) - r * q / 2 * (f3 - f1)) <= 1 / 4 * M).
  { assert (P1 : 0 <= o * q / 2) by (unfold Rdiv; lpos). assert (P2 : 0 <= r * q / 2) by (unfold Rdiv; repeat apply Rmult_le_pos; lra).
    apply Rabs_le_inv in D1, D2. assert (T1 : - (o * q / 2 * (2 * M)) <= o * q / 2 * (f2 - f0) <= o * q / 2 * (2 * M)) by (split; nra). assert (T2 : - (r * q / 2 * (2 * M)) <= r * q / 2 * (f3 - f1) <= r * q / 2 * (2 * M)) by (split; nra).
    assert (E : o * q / 2 * (2 * M) + r * q / 2 * (2 * M) = q * M) by (unfold o; field). assert (q * M <= 1 / 4 * M) by (apply Rmult_le_compat_r; lra). apply Rabs_le. lra. }
  apply Rabs_le_inv in B1, B2, B3. assert (w1 * M + w2 * M = M) by (rewrite <- Rmult_plus_distr_r, S; ring). apply Rabs_le. lra.
Qed.
Lemma hermite_lip r s : 0 <= r <= 1 -> 0 <= s <= 1 -> Rabs (hermite f0 f1 f2 f3 r - hermite f0 f1 f2 f3 s) <= 4 * M * Rabs (r - s).
Proof.
  intros Hr Hs. set (p := r + s). set (q := r ^ 2 + r * s + s ^ 2).
  replace (hermite f0 f1 f2 f3 r - hermite f0 f1 f2 f3 s) with
    (((- 1 / 2 + p - q / 2) * f0 + ((- 5 / 2 * p + 3 / 2 * q) * f1 + ((1 / 2 + 2 * p - 3 / 2 * q) * f2 + (- p / 2 + q / 2) * f3))) * (r - s)) by (unfold hermite, p, q; field).
  assert (P : 0 <= p <= 2) by (unfold p; lra). assert (Q1 : 3 / 4 * p ^ 2 <= q) by (unfold p, q; pose proof (pow2_ge_0 (r - s)); nra).
  assert (Q2 : q <= 3 / 2 * p). { unfold p, q. assert (r * r <= r) by nra. assert (s * s <= s) by nra. assert (r * s <= (r + s) / 2) by nra. nra. }
  assert (Q0 : 0 <= q) by nra.
  assert (A0 : Rabs (- 1 / 2 + p - q / 2) <= 1 / 2).
  { apply Rabs_le. split; [|nra]. assert (q / 2 <= p); [|lra]. lra. }
  assert (A1 : Rabs (- 5 / 2 * p + 3 / 2 * q) <= 3 / 2) by (pose proof (pow2_ge_0 (p - 10 / 9)); apply Rabs_le; split; lra).
  assert (A2 : Rabs (1 / 2 + 2 * p - 3 / 2 * q) <= 3 / 2) by (pose proof (pow2_ge_0 (p - 8 / 9)); apply Rabs_le; split; lra).
  assert (A3 : Rabs (- p / 2 + q / 2) <= 1 / 2) by (pose proof (pow2_ge_0 (p - 2 / 3)); apply Rabs_le; split; lra).
  rewrite Rabs_mult. apply Rmult_le_compat_r; [apply Rabs_pos|].
  pose proof (wmul _ _ f0 A0 H0) as B0. pose proof (wmul _ _ f1 A1 H1) as B1. pose proof (wmul _ _ f2 A2 H2) as B2. pose proof (wmul _ _ f3 A3 H3) as B3.
  apply Rabs_le_inv in B0, B1, B2, B3. apply Rabs_le. lra.
Qed.
End Cubic.
Lemma hermite_sub a b c d a' b' c' d' r : hermite a b c d r - hermite a' b' c' d' r = hermite (a - a') (b - b') (c - c') (d - d') r.
Proof. unfold hermite. field. Qed.
Lemma hermite_0 a b c d : hermite a b c d 0 = b. Proof. unfold hermite. field. Qed.
Lemma hermite_1 a b c d : hermite a b c d 1 = c. Proof. unfold hermite. field. Qed.

Section Spline.
Context (n : nat) (g : nat -> R) (M : R) (HM : 0 <= M) (Hg : forall k, (k <= n)%nat -> Rabs (g k) <= M).
Lemma node_bound k : Rabs (at_node n g k) <= M.
Proof.
  unfold at_node. destruct (0 <=? k)%Z eqn:E1; [|cbn [andb]; rewrite Rabs_R0; auto]. destruct (k <=? Z.of_nat n)%Z eqn:E2; [|cbn [andb]; rewrite Rabs_R0; auto]. cbn [andb]. apply Hg. apply Z.leb_le in E1, E2. lia.
Qed.
Lemma spline_bound t : Rabs (spline n g t) <= 5 / 4 * M.
Proof. unfold spline. pose proof (Zfloor_lb t). pose proof (Zfloor_ub t). apply hermite_bound; try apply node_bound. lra. Qed.
Let G := at_node n g.
Lemma spline_in k t : IZR k <= t < IZR k + 1 -> spline n g t = hermite (G (k - 1)) (G k) (G (k + 1)) (G (k + 2)) (t - IZR k).
Proof. intros H. unfold spline. rewrite (Zfloor_imp k); [reflexivity|]. rewrite plus_IZR. lra. Qed.
Lemma spline_from k t : IZR k <= t < IZR k + 1 -> Rabs (spline n g t - G k) <= 4 * M * (t - IZR k).
Proof.
  intros H. rewrite (spline_in k t H). rewrite <- (hermite_0 (G (k - 1)) (G k) (G (k + 1)) (G (k + 2))) at 2. 
  rewrite <- (Rabs_pos_eq (t - IZR k)) at 2 by lra. replace (Rabs (t - IZR k)) with (Rabs (t - IZR k - 0)) by (f_equal; ring). apply hermite_lip; try apply node_bound; lra.
Qed.
Lemma spline_to k t : IZR k <= t < IZR k + 1 -> Rabs (G (k + 1) - spline n g t) <= 4 * M * (IZR k + 1 - t).
Proof.
  intros H. rewrite (spline_in k t H). rewrite <- (hermite_1 (G (k - 1)) (G k) (G (k + 1)) (G (k + 2))) at 1.
  replace (IZR k + 1 - t) with (Rabs (1 - (t - IZR k))) by (rewrite Rabs_pos_eq; lra). apply hermite_lip; try apply node_bound; lra.
Qed.
Lemma spline_node k : spline n g (IZR k) = G k.
Proof. rewrite (spline_in k) by lra. rewrite Rminus_diag_eq by reflexivity. apply hermite_0. Qed.
Lemma spline_nodes (m : nat) : forall k, Rabs (G (k + Z.of_nat m) - G k) <= 4 * M * INR m.
Proof.
  induction m as [|m IH]; intros k; [rewrite Z.add_0_r, Rminus_diag_eq, Rabs_R0 by reflexivity; cbn; lra|].
  specialize (IH (k + 1)%Z). replace (k + 1 + Z.of_nat m)%Z with (k + Z.of_nat (S m))%Z in IH by lia. pose proof (spline_to k (IZR k) ltac:(lra)) as T. rewrite spline_node in T.
  rewrite S_INR. replace (G (k + Z.of_nat (S m)) - G k) with ((G (k + Z.of_nat (S m)) - G (k + 1)) + (G (k + 1) - G k)) by ring.
  pose proof (Rabs_triang (G (k + Z.of_nat (S m)) - G (k + 1)) (G (k + 1) - G k)). lra.
Qed.
Lemma spline_lip_le s t : s <= t -> Rabs (spline n g t - spline n g s) <= 4 * M * (t - s).
Proof.
  intros L. set (k := Zfloor s). set (m := Zfloor t). pose proof (Zfloor_lb s) as K1. pose proof (Zfloor_ub s) as K2. pose proof (Zfloor_lb t) as T1. pose proof (Zfloor_ub t) as T2. fold k in K1, K2. fold m in T1, T2.
  assert (KM : (k <= m)%Z) by (apply Zfloor_le; auto). destruct (Z.eq_dec k m) as [E|E].
  - rewrite (spline_in k t) by (rewrite E; lra). rewrite (spline_in k s) by lra. replace (t - s) with (Rabs ((t - IZR k) - (s - IZR k))) by (rewrite Rabs_pos_eq; lra).
    apply hermite_lip; try apply node_bound; rewrite E; split; try lra. rewrite <- E. lra.
  - pose proof (spline_from m t ltac:(lra)) as A. pose proof (spline_to k s ltac:(lra)) as C. pose proof (spline_nodes (Z.to_nat (m - (k + 1))) (k + 1)) as D.
    rewrite Z2Nat.id in D by lia. replace (k + 1 + (m - (k + 1)))%Z with m in D by lia. rewrite INR_IZR_INZ, Z2Nat.id, minus_IZR, plus_IZR in D by lia.
    replace (spline n g t - spline n g s) with ((spline n g t - G m) + ((G m - G (k + 1)) + (G (k + 1) - spline n g s))) by ring.
    pose proof (Rabs_triang (spline n g t - G m) ((G m - G (k + 1)) + (G (k + 1) - spline n g s))). pose proof (Rabs_triang (G m - G (k + 1)) (G (k + 1) - spline n g s)). lra.
Qed.
Lemma spline_lip s t : Rabs (spline n g t - spline n g s) <= 4 * M * Rabs (t - s).
Proof.
  destruct (Rle_dec s t) as [L|L].
  - rewrite (Rabs_pos_eq (t - s)) by lra. apply spline_lip_le; auto.
  - rewrite Rabs_minus_sym, (Rabs_minus_sym t s), (Rabs_pos_eq (s - t)) by lra. apply spline_lip_le; lra.
Qed.
End Spline.

(** ** Rounding of the expression *)
(** [z] is finite and stands for [v], of magnitude at most [A S], up to [e] roundings of [S] *)
Definition ap (S : R) (z : binary64) (v A e : R) : Prop := f_isfinite z = true /\ Rabs v <= A * S /\ Rabs (B z - v) <= e * u * S.
Lemma u15 : 0 < u <= / 1000000000000000. Proof. cbn. lra. Qed.
Definition scale (S : R) : Prop := bpow radix2 (-900) <= S <= bpow radix2 1001.
Lemma scale_tiny S : scale S -> 0 < S /\ tiny <= / 1000000 * (u * S).
Proof.
  intros [H _]. pose proof (bpow_gt_0 radix2 (-900)). split; [lra|]. apply Rle_trans with (/ 1000000 * (u * bpow radix2 (-900))).
  - rewrite <- bpow_plus. apply Rle_trans with (bpow radix2 (-20) * bpow radix2 (-53 + -900)); [rewrite <- bpow_plus; apply bpow_le; lia|]. apply Rmult_le_compat_r; [apply bpow_ge_0|]. cbn. lra.
  - apply Rmult_le_compat_l; [lra|]. apply Rmult_le_compat_l; [apply bpow_ge_0|lra].
Qed.
Lemma small_top S r : scale S -> Rabs r <= 100 * S -> Rabs (rnd r) < top.
Proof.
  intros HS H. pose proof (scale_tiny S HS) as [P T]. destruct HS as [_ HS]. pose proof (rnd_err r) as E. pose proof u15 as U.
  assert (Rabs (rnd r) <= 200 * S). { replace (rnd r) with ((rnd r - r) + r) by ring. pose proof (Rabs_triang (rnd r - r) r). assert (u * Rabs r <= 1 / 2 * Rabs r) by (apply Rmult_le_compat_r; [apply Rabs_pos|lra]).
    assert (u * S <= 1 * S) by (apply Rmult_le_compat_r; lra). lra. }
  apply Rle_lt_trans with (1 := H0). apply Rle_lt_trans with (bpow radix2 8 * bpow radix2 1001); [|rewrite <- bpow_plus; apply bpow_lt; lia].
  apply Rmult_le_compat; [lra|lra|cbn; lra|exact HS].
Qed.
Lemma scale_1 : scale 1. Proof. split; change 1 with (bpow radix2 0); apply bpow_le; lia. Qed.
Lemma near_bound S v w A e : 0 <= S -> 0 <= e <= 100 -> Rabs v <= A * S -> Rabs (w - v) <= e * u * S -> Rabs w <= (A + / 1000000) * S.
Proof.
  intros P E H1 H2. replace w with ((w - v) + v) by ring. pose proof (Rabs_triang (w - v) v). pose proof u15.
  assert (e * u <= / 1000000) by (apply Rle_trans with (100 * u); [apply Rmult_le_compat_r; lra|lra]). assert (e * u * S <= / 1000000 * S) by (apply Rmult_le_compat_r; lra). lra.
Qed.
Lemma ap_mul S a b v w A C e k : scale S -> 0 <= A <= 4 -> 0 <= C <= 4 -> 0 <= e <= 100 -> 0 <= k <= 100 ->
  ap 1 a v A e -> ap S b w C k -> ap S (f_mul a b) (v * w) (A * C) (e * C + A * k + A * C + / 100).
Proof.
  intros HS HA HC He Hk (Fa & Va & Ea) (Fb & Vb & Eb). pose proof (scale_tiny S HS) as [P T]. pose proof u15 as U.
  pose proof (near_bound 1 v (B a) A e ltac:(lra) He Va Ea) as Ba. pose proof (near_bound S w (B b) C k ltac:(lra) Hk Vb Eb) as Bb.
  assert (X : Rabs (B a * B b) <= (A + / 1000000) * 1 * ((C + / 1000000) * S)) by (rewrite Rabs_mult; apply Rmult_le_compat; auto; apply Rabs_pos).
  assert (AC : (A + / 1000000) * (C + / 1000000) <= A * C + / 100000) by nra. assert (AC16 : 0 <= A * C <= 16) by nra.
  assert (X' : Rabs (B a * B b) <= (A * C + / 100000) * S). { apply Rle_trans with (1 := X). replace ((A + / 1000000) * 1 * ((C + / 1000000) * S)) with ((A + / 1000000) * (C + / 1000000) * S) by ring. apply Rmult_le_compat_r; lra. }
  destruct (rounded_small _ _ (mul_rounded a b Fa Fb)) as [R1 R2]. { apply (small_top S); auto. apply Rle_trans with (1 := X'). apply Rmult_le_compat_r; lra. }
  split; [exact R1|]. split.
  - rewrite Rabs_mult. replace (A * C * S) with (A * 1 * (C * S)) by ring. apply Rmult_le_compat; auto; apply Rabs_pos.
  - rewrite R2. pose proof (rnd_err (B a * B b)) as E. 
    assert (E1 : Rabs ((B a - v) * B b) <= e * u * ((C + / 1000000) * S)) by (rewrite Rabs_mult; apply Rmult_le_compat; try apply Rabs_pos; auto; lra).
    assert (E2 : Rabs (v * (B b - w)) <= A * (k * u * S)) by (rewrite Rabs_mult; apply Rmult_le_compat; try apply Rabs_pos; auto; lra).
    replace (rnd (B a * B b) - v * w) with ((rnd (B a * B b) - B a * B b) + ((B a - v) * B b + v * (B b - w))) by ring.
    pose proof (Rabs_triang (rnd (B a * B b) - B a * B b) ((B a - v) * B b + v * (B b - w))). pose proof (Rabs_triang ((B a - v) * B b) (v * (B b - w))).
    assert (u * Rabs (B a * B b) <= u * ((A * C + / 100000) * S)) by (apply Rmult_le_compat_l; lra).
    assert (uS : 0 < u * S) by (apply Rmult_lt_0_compat; lra).
    assert (e * u * ((C + / 1000000) * S) <= (e * C + / 10000) * (u * S)).
    { replace (e * u * ((C + / 1000000) * S)) with (e * (C + / 1000000) * (u * S)) by ring. apply Rmult_le_compat_r; lra. }
    replace ((e * C + A * k + A * C + / 100) * u * S) with ((e * C + A * k + A * C + / 100) * (u * S)) by ring. lra.
Qed.
Lemma ap_plus S a b v w A C e k (plus : binary64 -> binary64 -> binary64) (sg : R) : (sg = 1 \/ sg = -1) ->
  (forall x y, f_isfinite x = true -> f_isfinite y = true -> rounded (B x + sg * B y) (plus x y)) ->
  scale S -> 0 <= A <= 20 -> 0 <= C <= 20 -> 0 <= e <= 100 -> 0 <= k <= 100 ->
  ap S a v A e -> ap S b w C k -> ap S (plus a b) (v + sg * w) (A + C) (e + k + A + C + / 100).
Proof.
  intros Hsg Hp HS HA HC He Hk (Fa & Va & Ea) (Fb & Vb & Eb). pose proof (scale_tiny S HS) as [P T]. pose proof u15 as U.
  pose proof (near_bound S v (B a) A e ltac:(lra) He Va Ea) as Ba. pose proof (near_bound S w (B b) C k ltac:(lra) Hk Vb Eb) as Bb.
  assert (X : Rabs (B a + sg * B b) <= (A + C + / 100000) * S). { apply Rabs_le_inv in Ba, Bb. apply Rabs_le. destruct Hsg as [-> | ->]; lra. }
  destruct (rounded_small _ _ (Hp a b Fa Fb)) as [R1 R2]. { apply (small_top S); auto. apply Rle_trans with (1 := X). apply Rmult_le_compat_r; lra. }
  split; [exact R1|]. split; [apply Rabs_le_inv in Va, Vb; apply Rabs_le; destruct Hsg as [-> | ->]; lra|]. rewrite R2. pose proof (rnd_err (B a + sg * B b)) as E.
  assert (u * Rabs (B a + sg * B b) <= u * ((A + C + / 100000) * S)) by (apply Rmult_le_compat_l; lra). assert (uS : 0 < u * S) by (apply Rmult_lt_0_compat; lra).
  replace ((e + k + A + C + / 100) * u * S) with ((e + k + A + C + / 100) * (u * S)) by ring.
  replace (e * u * S) with (e * (u * S)) in Ea by ring. replace (k * u * S) with (k * (u * S)) in Eb by ring.
  apply Rabs_le_inv in Ea, Eb, E. apply Rabs_le. destruct Hsg as [-> | ->]; lra.
Qed.
Lemma ap_add S a b v w A C e k : scale S -> 0 <= A <= 20 -> 0 <= C <= 20 -> 0 <= e <= 100 -> 0 <= k <= 100 -> ap S a v A e -> ap S b w C k -> ap S (f_add a b) (v + w) (A + C) (e + k + A + C + / 100).
Proof. intros. replace (v + w) with (v + 1 * w) by ring. apply ap_plus; auto. intros. rewrite Rmult_1_l. apply add_rounded; auto. Qed.
Lemma ap_sub S a b v w A C e k : scale S -> 0 <= A <= 20 -> 0 <= C <= 20 -> 0 <= e <= 100 -> 0 <= k <= 100 -> ap S a v A e -> ap S b w C k -> ap S (f_sub a b) (v - w) (A + C) (e + k + A + C + / 100).
Proof. intros. replace (v - w) with (v + (-1) * w) by ring. apply ap_plus; auto. intros x y Fx Fy. replace (B x + -1 * B y) with (B x - B y) by ring. apply sub_rounded; auto. Qed.
Lemma ap_weak S a v v' A A' e e' : 0 <= S -> v = v' -> Rabs v' <= A' * S -> e <= e' -> ap S a v A e -> ap S a v' A' e'.
Proof. intros P <- H L (Fa & _ & Ea). split; [auto|]. split; [auto|]. apply Rle_trans with (1 := Ea). apply Rmult_le_compat_r; auto. apply Rmult_le_compat_r; [apply bpow_ge_0|auto]. Qed.
Lemma ap_exact S a A : f_isfinite a = true -> Rabs (B a) <= A * S -> ap S a (B a) A 0.
Proof. intros H1 H2. split; [auto|]. split; [auto|]. rewrite Rminus_diag_eq, Rabs_R0 by reflexivity. lra. Qed.
Lemma ap_const S a v A : B a = v -> f_isfinite a = true -> Rabs v <= A * S -> ap S a v A 0.
Proof. intros <-. apply ap_exact. Qed.
Ltac side W := specialize (W ltac:(lra) ltac:(lra) ltac:(lra) ltac:(lra)).
Ltac mulap H X Y := pose proof (fun c1 c2 c3 c4 => ap_mul _ _ _ _ _ _ _ _ _ H c1 c2 c3 c4 X Y) as W; side W.
Ltac addap H X Y := pose proof (fun c1 c2 c3 c4 => ap_add _ _ _ _ _ _ _ _ _ H c1 c2 c3 c4 X Y) as W; side W.
Ltac subap H X Y := pose proof (fun c1 c2 c3 c4 => ap_sub _ _ _ _ _ _ _ _ _ H c1 c2 c3 c4 X Y) as W; side W.

Lemma f_cubic_err S a b c d x : scale S -> f_isfinite a = true -> f_isfinite b = true -> f_isfinite c = true -> f_isfinite d = true -> f_isfinite x = true ->
  Rabs (B a) <= S -> Rabs (B b) <= S -> Rabs (B c) <= S -> Rabs (B d) <= S -> 0 <= B x <= 1 ->
  f_isfinite (f_cubic a b c d x) = true /\ Rabs (B (f_cubic a b c d x) - hermite (B a) (B b) (B c) (B d) (B x)) <= 62 * u * S.
Proof.
  intros HS Fa Fb Fc Fd Fx Ba Bb Bc Bd Hx. pose proof (scale_tiny S HS) as [P _]. pose proof scale_1 as H1. set (r := B x) in *.
  pose proof (of_Z_spec 1 ltac:(lia)) as (Z1 & F1'). pose proof (of_Z_spec 2 ltac:(lia)) as (Z2 & F2').
  assert (Eh : B (f_half 1) = 1 / 2) by (vm_compute; lra). assert (E3 : B (f_half 3) = 3 / 2) by (vm_compute; lra).
  assert (A1 : ap 1 (f_of_Z 1) 1 1 0) by (apply ap_const; auto; rewrite Rabs_pos_eq; lra).
  assert (A2 : ap 1 (f_of_Z 2) 2 2 0) by (apply ap_const; auto; rewrite Rabs_pos_eq; lra).
  assert (Ah : ap 1 (f_half 1) (1 / 2) (1 / 2) 0) by (apply ap_const; auto; rewrite Rabs_pos_eq; lra).
  assert (A3 : ap 1 (f_half 3) (3 / 2) (3 / 2) 0) by (apply ap_const; auto; rewrite Rabs_pos_eq; lra).
  assert (Ax : ap 1 x r 1 0) by (apply ap_exact; auto; fold r; rewrite Rabs_pos_eq; lra).
  assert (Va : ap S a (B a) 1 0) by (apply ap_exact; auto; lra). assert (Vb : ap S b (B b) 1 0) by (apply ap_exact; auto; lra).
  assert (Vc : ap S c (B c) 1 0) by (apply ap_exact; auto; lra). assert (Vd : ap S d (B d) 1 0) by (apply ap_exact; auto; lra).
  unfold f_cubic. cbv zeta.
  (* the sums of weights are rounded relatively to their own size *)
  assert (One : ap 1 (f_sub (f_of_Z 1) x) (1 - r) 1 1).
  { destruct (complement x Fx ltac:(fold r; lra)) as (C1 & C2 & C3). split; [exact C1|]. split; [rewrite Rabs_pos_eq; lra|]. rewrite C2. fold r.
    pose proof (diff_err 1 r F1 (format_of x)) as E. rewrite (Rabs_pos_eq (1 - r)) in E by lra. pose proof u15. assert (u * (1 - r) <= u * 1) by (apply Rmult_le_compat_l; lra). lra. }
  set (o := 1 - r) in *. set (fo := f_sub (f_of_Z 1) x) in *. assert (Ho : 0 <= o <= 1) by (unfold o; lra).
  assert (Hal : ap 1 (f_add (f_half 1) x) (1 / 2 + r) (3 / 2) (5 / 2)).
  { addap H1 Ah Ax. refine (ap_weak _ _ _ _ _ _ _ _ _ eq_refl _ _ W); try lra. rewrite Rabs_pos_eq; lra. }
  assert (Thr : ap 1 (f_sub (f_half 3) x) (3 / 2 - r) (3 / 2) 3).
  { subap H1 A3 Ax. refine (ap_weak _ _ _ _ _ _ _ _ _ eq_refl _ _ W); try lra. rewrite Rabs_pos_eq; lra. }
  assert (oo : 0 <= o * o <= 1) by (split; nra). assert (rr : 0 <= r * r <= 1) by (split; nra).
  (* the weights *)
  assert (W1 : ap 1 (f_mul (f_mul (f_mul (f_of_Z 2) fo) fo) (f_add (f_half 1) x)) (2 * o * o * (1 / 2 + r)) 1 21).
  { mulap H1 A2 One. rename W into U1. mulap H1 U1 One. rename W into U2. mulap H1 U2 Hal. refine (ap_weak _ _ _ _ _ _ _ _ _ eq_refl _ _ W); try lra.
    rewrite Rabs_pos_eq; [|lpos]. assert (0 <= r * r * (3 - 2 * r)) by (repeat apply Rmult_le_pos; lra). assert (2 * o * o * (1 / 2 + r) = 1 - r * r * (3 - 2 * r)) by (unfold o; field). lra. }
  assert (D1 : ap 1 (f_mul (f_mul (f_mul (f_half 1) fo) fo) x) (1 / 2 * o * o * r) (1 / 2) (27 / 10)).
  { mulap H1 Ah One. rename W into U1. mulap H1 U1 One. rename W into U2. mulap H1 U2 Ax. refine (ap_weak _ _ _ _ _ _ _ _ _ eq_refl _ _ W); try lra.
    rewrite Rabs_pos_eq; [|lpos]. replace (1 / 2 * o * o * r) with (1 / 2 * ((o * o) * r)) by ring. assert (o * o * r <= 1) by nra. lra. }
  assert (W2 : ap 1 (f_mul (f_mul (f_mul (f_of_Z 2) x) x) (f_sub (f_half 3) x)) (2 * r * r * (3 / 2 - r)) 1 16).
  { mulap H1 A2 Ax. rename W into U1. mulap H1 U1 Ax. rename W into U2. mulap H1 U2 Thr. refine (ap_weak _ _ _ _ _ _ _ _ _ eq_refl _ _ W); try lra.
    rewrite Rabs_pos_eq; [|lpos]. assert (0 <= o * o * (3 - 2 * o)) by (repeat apply Rmult_le_pos; lra). assert (2 * r * r * (3 / 2 - r) = 1 - o * o * (3 - 2 * o)) by (unfold o; field). lra. }
  assert (D2 : ap 1 (f_mul (f_mul (f_mul (f_half 1) x) x) fo) (1 / 2 * r * r * o) (1 / 2) (22 / 10)).
  { mulap H1 Ah Ax. rename W into U1. mulap H1 U1 Ax. rename W into U2. mulap H1 U2 One. refine (ap_weak _ _ _ _ _ _ _ _ _ eq_refl _ _ W); try lra.
    rewrite Rabs_pos_eq; [|lpos]. replace (1 / 2 * r * r * o) with (1 / 2 * ((r * r) * o)) by ring. assert (r * r * o <= 1) by nra. lra. }
  subap HS Vc Va. rename W into G1. subap HS Vd Vb. rename W into G2.
  mulap HS W1 Vb. rename W into T1. mulap HS D1 G1. rename W into T2. mulap HS W2 Vc. rename W into T3. mulap HS D2 G2. rename W into T4.
  addap HS T1 T2. rename W into S1. addap HS S1 T3. rename W into S2. subap HS S2 T4. rename W into S3.
  destruct S3 as (Q1 & _ & Q2). split; [exact Q1|]. 
  replace (hermite (B a) (B b) (B c) (B d) r) with (2 * o * o * (1 / 2 + r) * B b + 1 / 2 * o * o * r * (B c - B a) + 2 * r * r * (3 / 2 - r) * B c - 1 / 2 * r * r * o * (B d - B b)) by (unfold hermite, o; field).
  apply Rle_trans with (1 := Q2). apply Rmult_le_compat_r; [lra|]. apply Rmult_le_compat_r; [apply bpow_ge_0|]. lra.
Qed.

(** ** Several axes *)
Lemma spline_nd_bound ns : forall ts f M, 0 <= M -> (forall js, Forall2 (fun n j => (j <= n)%nat) ns js -> Rabs (f js) <= M) -> length ts = length ns ->
  Rabs (spline_nd ns ts f) <= (5 / 4) ^ length ns * M.
Proof.
  induction ns as [|n ns IH]; intros ts f M HM H L; destruct ts as [|t ts]; try discriminate; cbn [spline_nd length pow].
  - rewrite Rmult_1_l. apply H. constructor.
  - rewrite Rmult_assoc. assert (0 <= (5 / 4) ^ length ns * M) by (apply Rmult_le_pos; [apply pow_le; lra|auto]). apply spline_bound; [auto|]. intros k Hk. apply IH; auto.
Qed.
Lemma spline_cell n g i r : (i < n)%nat -> 0 <= r < 1 ->
  spline n g (INR i + r) = hermite (if (i =? 0)%nat then 0 else g (i - 1)%nat) (g i) (g (i + 1)%nat) (if (n - 1 <=? i)%nat then 0 else g (i + 2)%nat) r.
Proof.
  intros Hi Hr. rewrite (spline_in n g (Z.of_nat i)) by (rewrite <- INR_IZR_INZ; lra). rewrite <- INR_IZR_INZ. replace (INR i + r - INR i) with r by ring. unfold at_node.
  replace (0 <=? Z.of_nat i)%Z with true by (symmetry; apply Z.leb_le; lia). replace (Z.of_nat i <=? Z.of_nat n)%Z with true by (symmetry; apply Z.leb_le; lia).
  replace (0 <=? Z.of_nat i + 1)%Z with true by (symmetry; apply Z.leb_le; lia). replace (Z.of_nat i + 1 <=? Z.of_nat n)%Z with true by (symmetry; apply Z.leb_le; lia).
  replace (0 <=? Z.of_nat i + 2)%Z with true by (symmetry; apply Z.leb_le; lia). replace (Z.of_nat i - 1 <=? Z.of_nat n)%Z with true by (symmetry; apply Z.leb_le; lia).
  cbn [andb]. rewrite andb_true_r. rewrite Nat2Z.id. replace (Z.to_nat (Z.of_nat i + 1)) with (i + 1)%nat by lia. replace (Z.to_nat (Z.of_nat i + 2)) with (i + 2)%nat by lia. replace (Z.to_nat (Z.of_nat i - 1)) with (i - 1)%nat by lia.
  f_equal.
  - destruct (Nat.eqb_spec i 0); destruct (Z.leb_spec 0 (Z.of_nat i - 1)); auto; lia.
  - destruct (Nat.leb_spec (n - 1) i); destruct (Z.leb_spec (Z.of_nat i + 2) (Z.of_nat n)); auto; lia.
Qed.
Lemma tri3 a b c d : Rabs (a - d) <= Rabs (a - b) + (Rabs (b - c) + Rabs (c - d)).
Proof. replace (a - d) with ((a - b) + ((b - c) + (c - d))) by ring. pose proof (Rabs_triang (a - b) ((b - c) + (c - d))). pose proof (Rabs_triang (b - c) (c - d)). lra. Qed.
Lemma total_budget P M w b n : 625 / 10 * (w * (P * M)) + 5 / 4 * (P * b * w * M) + 4 * (P * M) * (5 * n * w) = 5 / 4 * P * (50 + 16 * n + b) * w * M.
Proof. field. Qed.
Lemma budget_pos ns : 0 <= budget ns.
Proof. induction ns as [|n ns IH]; cbn [budget]; [lra|]. pose proof (pos_INR n). lra. Qed.

Definition f_holds (data : list binary64) (off : nat) (counts : list nat) (v : list nat -> binary64) : Prop :=
  forall is, in_grid counts is -> nth_error data (off + flat counts is) = Some (v is).
Lemma f_holds_slice data off c cs v i : f_holds data off (c :: cs) v -> (i < c)%nat -> f_holds data (off + i * size_of cs) cs (fun js => v (i :: js)).
Proof. intros H Hi js J. rewrite <- (H (i :: js)) by (constructor; auto). f_equal. cbn. fold (size_of cs). lia. Qed.
Lemma in_cells dims js : Forall (fun d => (2 <= d_count d)%nat) dims -> Forall2 (fun n j => (j <= n)%nat) (map cells dims) js -> in_grid (counts_of dims) js.
Proof.
  intros H. revert js. induction H as [|d dims H HF IH]; intros js J; inversion J as [|? j ? js' J1 J2]; subst; constructor.
  - unfold cells in J1. lia.
  - apply IH. auto.
Qed.
Lemma f_cubic_view_err data M : bpow radix2 (-900) <= M -> forall dims off xs v,
  Forall good_dim dims -> Forall2 clearly_inside dims xs -> f_holds data off (counts_of dims) v ->
  (forall is, in_grid (counts_of dims) is -> f_isfinite (v is) = true /\ Rabs (B (v is)) <= M) ->
  (5 / 4) ^ length dims * M <= bpow radix2 1000 -> budget (map cells dims) <= bpow radix2 40 ->
  exists z, f_cubic_view data dims off xs = Val z /\ f_isfinite z = true /\
    Rabs (B z - spline_nd (map cells dims) (map (fun p => place (fst p) (snd p)) (combine dims xs)) (fun is => B (v is))) <= (5 / 4) ^ length dims * budget (map cells dims) * u * M.
Proof.
  intros HM0. pose proof (bpow_gt_0 radix2 (-900)) as P900. assert (M0 : 0 <= M) by lra. pose proof u15 as U.
  induction dims as [|d dims IH]; intros off xs v HG HX HD HV HP HB; inversion HX as [|? x ? xs' X0 XS]; subst.
  - exists (v []). cbn. assert (G0 : in_grid [] []) by constructor. pose proof (HD [] G0) as E. cbn in E. rewrite Nat.add_0_r in E. unfold read. rewrite E. destruct (HV [] G0) as [F1 F2]. split; [auto|]. split; [auto|].
    rewrite Rminus_diag_eq, Rabs_R0 by reflexivity. lra.
  - inversion HG as [|? ? G0 GS]; subst. cbn [map combine spline_nd length pow budget fst snd] in *.
    set (ns := map cells dims) in *. set (ts := map (fun p => place (fst p) (snd p)) (combine dims xs')) in *. set (P := (5 / 4) ^ length dims) in *. set (b := budget ns) in *. set (n := cells d) in *.
    assert (P1 : 1 <= P) by (apply pow_R1_Rle; lra). pose proof (budget_pos ns : 0 <= b) as b0. pose proof (pos_INR n) as n0.
    assert (PM : 0 <= P * M) by (apply Rmult_le_pos; lra). assert (PMb : P * M <= bpow radix2 1000) by lra.
    destruct X0 as (MX & LH & IN). pose proof (good_finite d G0) as FD. pose proof G0 as ((FL & BL) & (FU & BU) & C2 & C3). destruct MX as (FX & BX).
    destruct (locate_inside x d FX FD C2 BX BL BU (proj1 IN) (proj2 IN) LH) as (i & r & EL).
    destruct (locate_position x d FX FD C2 BX BL BU i r EL) as (_ & Hi & Fr & Hr & HPos). fold (cells d) in Hi, HPos. fold n in Hi, HPos. match type of HPos with Rabs (_ - ?p) <= _ => change p with (place d x) in HPos end.
    assert (SZ : forall k, slice_off (d :: dims) off k = (off + k * size_of (counts_of dims))%nat) by (intros; apply slice_step; lia).
    assert (PL : forall k, (k <= n)%nat -> exists z, f_cubic_view data dims (slice_off (d :: dims) off k) xs' = Val z /\ f_isfinite z = true /\
      Rabs (B z - spline_nd ns ts (fun js => B (v (k :: js)))) <= P * b * u * M).
    { intros k Hk. rewrite SZ. apply (IH _ _ (fun js => v (k :: js))); auto; [| |lra].
      - apply (f_holds_slice data off (d_count d) (counts_of dims) v k HD). unfold n, cells in Hk. lia.
      - intros js J. apply HV. constructor; [unfold n, cells in Hk; lia|exact J]. }
    set (g := fun k => spline_nd ns ts (fun js => B (v (k :: js)))) in *.
    assert (LEN : length ts = length ns). { unfold ts, ns. rewrite !map_length, combine_length. clear - XS. induction XS as [|? ? ? ? _ _ IH]; cbn; congruence. }
    assert (GB : forall k, (k <= n)%nat -> Rabs (g k) <= P * M).
    { intros k Hk. unfold g, P. rewrite <- (map_length cells dims). fold ns. apply spline_nd_bound; auto. intros js J. apply HV. constructor; [unfold n, cells in Hk; lia|]. apply in_cells; [|exact J].
      clear - GS. induction GS as [|d dims H _ IH]; constructor; auto. apply H. }
    set (eps := P * b * u * M) in *.
    assert (bu : b * u <= / 1000). { apply Rle_trans with (bpow radix2 40 * u); [apply Rmult_le_compat_r; lra|]. rewrite <- bpow_plus. cbn. lra. }
    assert (EP : 0 <= eps <= / 1000 * (P * M)). { unfold eps. replace (P * b * u * M) with (b * u * (P * M)) by ring. split; [repeat apply Rmult_le_pos; lra|apply Rmult_le_compat_r; auto]. }
    (* the four planes *)
    assert (Q : forall k (c : bool), (c = false -> (k <= n)%nat) -> exists z, (if c then Val (f_of_Z 0) else f_cubic_view data dims (slice_off (d :: dims) off k) xs') = Val z /\ f_isfinite z = true /\
      Rabs (B z - (if c then 0 else g k)) <= eps /\ Rabs (if c then 0 else g k) <= P * M).
    { intros k [] Hk; [|destruct (PL k (Hk eq_refl)) as (z & A1 & A2 & A3); exists z; pose proof (GB k (Hk eq_refl)); auto].
      exists (f_of_Z 0). destruct (of_Z_spec 0 ltac:(lia)) as [Z1 Z2]. rewrite Z1. split; [auto|]. split; [auto|]. rewrite Rminus_0_r, Rabs_R0. split; lra. }
    destruct (Q (i - 1)%nat (i =? 0)%nat ltac:(intros; lia)) as (z0 & E0 & F0 & D0 & B0). destruct (Q i false ltac:(intros; lia)) as (z1 & E1 & F1 & D1 & B1).
    destruct (Q (i + 1)%nat false ltac:(intros; lia)) as (z2 & E2 & F2 & D2 & B2).
    destruct (Q (i + 2)%nat (d_count d - 2 <=? i)%nat) as (z3 & E3 & F3 & D3 & B3). { intros H. apply Nat.leb_gt in H. unfold n, cells. lia. }
    exists (f_cubic z0 z1 z2 z3 r). unfold f_cubic_view in *. cbn [cubic_view]. rewrite EL. rewrite E0, E1, E2, E3. cbn [bind]. split; [reflexivity|].
    set (S := P * M + eps). assert (HS : scale S). { split; unfold S; [assert (1 * M <= P * M) by (apply Rmult_le_compat_r; lra); lra|]. replace 1001%Z with (1 + 1000)%Z by lia. rewrite bpow_plus. change (bpow radix2 1) with 2. lra. }
    assert (BZ : forall z w, Rabs (B z - w) <= eps -> Rabs w <= P * M -> Rabs (B z) <= S). { intros z w H1 H2. unfold S. replace (B z) with ((B z - w) + w) by ring. pose proof (Rabs_triang (B z - w) w). lra. }
    destruct (f_cubic_err S z0 z1 z2 z3 r HS F0 F1 F2 F3 Fr (BZ _ _ D0 B0) (BZ _ _ D1 B1) (BZ _ _ D2 B2) (BZ _ _ D3 B3) ltac:(lra)) as [K1 K2]. split; [exact K1|].
    set (zz := f_cubic z0 z1 z2 z3 r) in *. set (g0 := if (i =? 0)%nat then 0 else g (i - 1)%nat) in *. set (g3 := if (d_count d - 2 <=? i)%nat then 0 else g (i + 2)%nat) in *. cbv iota in D1, D2, B1, B2.
    pose proof (hermite_bound eps (B z0 - g0) (B z1 - g i) (B z2 - g (i + 1)%nat) (B z3 - g3) D0 D1 D2 D3 (B r) ltac:(lra)) as K3. rewrite <- hermite_sub in K3.
    pose proof (spline_lip n g (P * M) PM GB (place d x) (INR i + B r)) as K4. rewrite (spline_cell n g i (B r) Hi Hr) in K4.
    replace (n - 1)%nat with (d_count d - 2)%nat in K4 by (unfold n, cells; lia). fold g0 g3 in K4.
    assert (K5 : 4 * (P * M) * Rabs (INR i + B r - place d x) <= 4 * (P * M) * (5 * INR n * u)) by (apply Rmult_le_compat_l; lra).
    set (h1 := hermite (B z0) (B z1) (B z2) (B z3) (B r)) in *. set (h2 := hermite g0 (g i) (g (i + 1)%nat) g3 (B r)) in *. fold g. set (sp := spline n g (place d x)) in *.
    pose proof (tri3 (B zz) h1 h2 sp).
    assert (uPM : 0 <= u * (P * M)) by (apply Rmult_le_pos; lra).
    assert (K6 : 62 * u * S <= 625 / 10 * (u * (P * M))). { unfold S. assert (u * eps <= u * (/ 1000 * (P * M))) by (apply Rmult_le_compat_l; lra). lra. }
    apply Rle_trans with (1 := H). apply Rle_trans with (62 * u * S + 5 / 4 * eps + 4 * (P * M) * (5 * INR n * u)); [lra|]. apply Rle_trans with (625 / 10 * (u * (P * M)) + 5 / 4 * eps + 4 * (P * M) * (5 * INR n * u)); [lra|].
    apply Req_le. unfold eps. exact (total_budget P M u b (INR n)).
Qed.

(** In exact arithmetic the view is the spline. *)
Lemma cubic_spline data : forall axes off x f, Forall proper axes -> holds_at data off (map ax_count axes) f -> Forall2 inside axes x ->
  e_cubic_view data (map dim_of axes) off (map Fin x) =
    Val (Fin (spline_nd (map (fun a => (ax_count a - 1)%nat) axes) (map (fun p => position (ax_count (fst p) - 1) (ax_lower (fst p)) (ax_upper (fst p)) (snd p)) (combine axes x)) f)).
Proof.
  induction axes as [|a axes IH]; intros off x f HP HD HX; inversion HX as [|? x0 ? xs X0 XS]; subst.
  - cbn. pose proof (HD [] (Forall2_nil _)) as E. cbn in E. replace (off + 0)%nat with off in E by lia. unfold read. rewrite E. auto.
  - inversion HP as [|? ? HA HP']; subst. destruct (locate_in a HA x0 X0) as (i & r & E & I & R0 & EX). unfold e_cubic_view in *. cbn [map cubic_view combine spline_nd fst snd]. rewrite E. cbn [dim_of d_count].
    rewrite !slice_step by (cbn; destruct HA; lia). rewrite counts_map.
    assert (G : forall j, (j < ax_count a)%nat -> _) by (intros j Hj; exact (IH (off + j * size_of (map ax_count axes))%nat xs _ HP' (holds_slice data off (ax_count a) (map ax_count axes) f j HD Hj) XS)). cbv beta in G.
    set (ns := map (fun a => (ax_count a - 1)%nat) axes) in *. set (ts := map _ (combine axes xs)) in *. set (g := fun k => spline_nd ns ts (fun js => f (k :: js))) in *.
    assert (EP : position (ax_count a - 1) (ax_lower a) (ax_upper a) x0 = INR i + r).
    { rewrite EX. unfold position, node, spacing. destruct HA as [H1 H2]. assert (0 < INR (ax_count a - 1)) by (apply lt_0_INR; lia). field. split; lra. }
    rewrite EP, (spline_cell (ax_count a - 1) g i r ltac:(lia) R0). rewrite (G i) by lia. rewrite (G (i + 1)%nat) by lia.
    replace (ax_count a - 1 - 1)%nat with (ax_count a - 2)%nat by lia. fold (g i) (g (i + 1)%nat).
    assert (E0 : (if (i =? 0)%nat then Val (Fin 0) else cubic_view e_locate e_cubic (Fin 0) data (map dim_of axes) (off + (i - 1) * size_of (map ax_count axes)) (map Fin xs)) = Val (Fin (if (i =? 0)%nat then 0 else g (i - 1)%nat))).
    { destruct (Nat.eqb_spec i 0); [auto|]. apply G. lia. }
    assert (E3 : (if (ax_count a - 2 <=? i)%nat then Val (Fin 0) else cubic_view e_locate e_cubic (Fin 0) data (map dim_of axes) (off + (i + 2) * size_of (map ax_count axes)) (map Fin xs)) = Val (Fin (if (ax_count a - 2 <=? i)%nat then 0 else g (i + 2)%nat))).
    { destruct (Nat.leb_spec (ax_count a - 2) i); [auto|]. apply G. lia. }
    rewrite E0, E3. cbn [bind]. rewrite e_cubic_fin. do 2 f_equal. unfold hermite, g. field.
Qed.

(** ** Runs on given numbers *)
Lemma view_bits_of (o : outcome binary64) w : match o with Val z => Some (bits_of_b64 z) | _ => None end = Some (bits_of_b64 w) -> o = Val w.
Proof. destruct o as [z|]; [|discriminate]. intros H. injection H as H. f_equal. apply bits_inj. exact H. Qed.
