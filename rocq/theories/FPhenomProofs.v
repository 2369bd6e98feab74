(** The running coupling in double arithmetic. *)
From Coq Require Import Reals ZArith Bool List Lia Lra.
From Flocq Require Import Core.Core Relative IEEE754.Binary IEEE754.Bits IEEE754.BinarySingleNaN.
From Verif Require Import ExtModel GridModel GridSpec GridProofs GridFloat FBoundModel FBoundProofs FBoundLerp FGridSpec FGridProofs FCubicSpec FCubicProofs
  XsModel PhenomModel PhenomProofs DefaultProofs FPhenomModel FPhenomSpec.
Import ListNotations.
Local Open Scope R_scope.

Local Notation fexp := (FLT_exp (-1074) 53).
Local Notation F := (generic_format radix2 fexp).
Local Notation rnd := (round radix2 fexp (Znearest (fun x => negb (Z.even x)))).
Local Notation B := (Binary.B2R 53 1024).
Local Notation top := (bpow radix2 1024).
Local Notation u := (bpow radix2 (-53)).
Local Notation tiny := (bpow radix2 (-1075)).

(** ** Errors in units of [u * S], up to a million of them *)
Lemma near_bound' S v w A e : 0 <= S -> 0 <= e <= 1000000 -> Rabs v <= A * S -> Rabs (w - v) <= e * u * S -> Rabs w <= (A + / 1000000000) * S.
Proof.
  intros P E H1 H2. replace w with ((w - v) + v) by ring. pose proof (Rabs_triang (w - v) v). pose proof u15.
  assert (e * u <= / 1000000000) by (apply Rle_trans with (1000000 * u); [apply Rmult_le_compat_r; lra|lra]). assert (e * u * S <= / 1000000000 * S) by (apply Rmult_le_compat_r; lra). lra.
Qed.
Lemma gmul S1 S2 a b v w A C e k : scale (S1 * S2) -> 0 < S1 -> 0 < S2 -> 0 <= A <= 4 -> 0 <= C <= 4 -> 0 <= e <= 1000000 -> 0 <= k <= 1000000 ->
  ap S1 a v A e -> ap S2 b w C k -> ap (S1 * S2) (f_mul a b) (v * w) (A * C) (e * C + A * k + A * C + / 100).
Proof.
  intros HS P1 P2 HA HC He Hk (Fa & Va & Ea) (Fb & Vb & Eb). set (S := S1 * S2) in *. pose proof (scale_tiny S HS) as [P T]. pose proof u15 as U.
  pose proof (near_bound' S1 v (B a) A e ltac:(lra) He Va Ea) as Ba. pose proof (near_bound' S2 w (B b) C k ltac:(lra) Hk Vb Eb) as Bb.
  assert (X : Rabs (B a * B b) <= (A + / 1000000000) * S1 * ((C + / 1000000000) * S2)) by (rewrite Rabs_mult; apply Rmult_le_compat; auto; apply Rabs_pos).
  assert (AC : (A + / 1000000000) * (C + / 1000000000) <= A * C + / 100000000) by nra. assert (AC16 : 0 <= A * C <= 16) by nra.
  assert (X' : Rabs (B a * B b) <= (A * C + / 100000000) * S). { apply Rle_trans with (1 := X). replace ((A + / 1000000000) * S1 * ((C + / 1000000000) * S2)) with ((A + / 1000000000) * (C + / 1000000000) * S) by (unfold S; ring). apply Rmult_le_compat_r; lra. }
  destruct (rounded_small _ _ (mul_rounded a b Fa Fb)) as [R1 R2]. { apply (small_top S); auto. apply Rle_trans with (1 := X'). apply Rmult_le_compat_r; lra. }
  split; [exact R1|]. split.
  - rewrite Rabs_mult. replace (A * C * S) with (A * S1 * (C * S2)) by (unfold S; ring). apply Rmult_le_compat; auto; apply Rabs_pos.
  - rewrite R2. pose proof (rnd_err (B a * B b)) as E.
    assert (eu : 0 <= e * u * S1) by (repeat apply Rmult_le_pos; lra). assert (AS : 0 <= A * S1) by (apply Rmult_le_pos; lra).
    assert (E1 : Rabs ((B a - v) * B b) <= e * u * S1 * ((C + / 1000000000) * S2)) by (rewrite Rabs_mult; apply Rmult_le_compat; try apply Rabs_pos; auto).
    assert (E2 : Rabs (v * (B b - w)) <= A * S1 * (k * u * S2)) by (rewrite Rabs_mult; apply Rmult_le_compat; try apply Rabs_pos; auto).
    replace (rnd (B a * B b) - v * w) with ((rnd (B a * B b) - B a * B b) + ((B a - v) * B b + v * (B b - w))) by ring.
    pose proof (Rabs_triang (rnd (B a * B b) - B a * B b) ((B a - v) * B b + v * (B b - w))). pose proof (Rabs_triang ((B a - v) * B b) (v * (B b - w))).
    assert (u * Rabs (B a * B b) <= u * ((A * C + / 100000000) * S)) by (apply Rmult_le_compat_l; lra).
    assert (uS : 0 < u * S) by (apply Rmult_lt_0_compat; lra).
    assert (e * u * S1 * ((C + / 1000000000) * S2) <= (e * C + / 1000) * (u * S)).
    { replace (e * u * S1 * ((C + / 1000000000) * S2)) with (e * (C + / 1000000000) * (u * S)) by (unfold S; ring). apply Rmult_le_compat_r; lra. }
    replace (A * S1 * (k * u * S2)) with (A * k * (u * S)) in E2 by (unfold S; ring).
    replace ((e * C + A * k + A * C + / 100) * u * S) with ((e * C + A * k + A * C + / 100) * (u * S)) by ring. lra.
Qed.
Lemma gadd S a b v w A C e k : scale S -> 0 <= A <= 20 -> 0 <= C <= 20 -> 0 <= e <= 1000000 -> 0 <= k <= 1000000 ->
  ap S a v A e -> ap S b w C k -> ap S (f_add a b) (v + w) (A + C) (e + k + A + C + / 100).
Proof.
  intros HS HA HC He Hk (Fa & Va & Ea) (Fb & Vb & Eb). pose proof (scale_tiny S HS) as [P T]. pose proof u15 as U.
  pose proof (near_bound' S v (B a) A e ltac:(lra) He Va Ea) as Ba. pose proof (near_bound' S w (B b) C k ltac:(lra) Hk Vb Eb) as Bb.
  assert (X : Rabs (B a + B b) <= (A + C + / 100000) * S). { apply Rabs_le_inv in Ba, Bb. apply Rabs_le. lra. }
  destruct (rounded_small _ _ (add_rounded a b Fa Fb)) as [R1 R2]. { apply (small_top S); auto. apply Rle_trans with (1 := X). apply Rmult_le_compat_r; lra. }
  split; [exact R1|]. split; [apply Rabs_le_inv in Va, Vb; apply Rabs_le; lra|]. rewrite R2. pose proof (rnd_err (B a + B b)) as E.
  assert (u * Rabs (B a + B b) <= u * ((A + C + / 100000) * S)) by (apply Rmult_le_compat_l; lra). assert (uS : 0 < u * S) by (apply Rmult_lt_0_compat; lra).
  replace ((e + k + A + C + / 100) * u * S) with ((e + k + A + C + / 100) * (u * S)) by ring.
  replace (e * u * S) with (e * (u * S)) in Ea by ring. replace (k * u * S) with (k * (u * S)) in Eb by ring.
  apply Rabs_le_inv in Ea, Eb, E. apply Rabs_le. lra.
Qed.
Lemma gdiv S a v A e c w k : scale S -> 0 <= A <= 4 -> 0 <= e <= 1000000 -> 0 <= k <= 10 -> 1 <= w -> f_isfinite c = true -> Rabs (B c - w) <= k * u * w ->
  ap S a v A e -> ap S (f_div a c) (v / w) (A / w) ((e + A * k + A) / w + / 100).
Proof.
  intros HS HA He Hk Hw Fc Hc (Fa & Va & Ea). pose proof (scale_tiny S HS) as [P T]. pose proof u15 as U.
  assert (ku : 0 <= k * u <= / 100000000000000) by (split; [apply Rmult_le_pos; lra|apply Rle_trans with (10 * u); [apply Rmult_le_compat_r; lra|lra]]).
  assert (kw : k * u * w <= / 100000000000000 * w) by (apply Rmult_le_compat_r; lra). pose proof (Rabs_le_inv _ _ Hc) as Hc'.
  assert (Bc : (1 - / 100000000000000) * w <= B c) by lra. assert (Pc : 0 < B c) by lra.
  assert (Iw : 0 < / w <= 1) by (split; [apply Rinv_0_lt_compat; lra|rewrite <- Rinv_1; apply Rinv_le_contravar; lra]).
  assert (Ic : 0 < / B c <= (1 + / 1000000000000) * / w).
  { split; [apply Rinv_0_lt_compat; auto|]. apply Rmult_le_reg_r with (B c); [auto|]. rewrite Rinv_l by lra.
    apply Rle_trans with ((1 + / 1000000000000) * / w * ((1 - / 100000000000000) * w)); [|apply Rmult_le_compat_l; [apply Rmult_le_pos; lra|auto]].
    replace ((1 + / 1000000000000) * / w * ((1 - / 100000000000000) * w)) with ((1 + / 1000000000000) * (1 - / 100000000000000) * (/ w * w)) by ring. rewrite Rinv_l by lra. lra. }
  pose proof (near_bound' S v (B a) A e ltac:(lra) He Va Ea) as Ba. set (q := B a / B c).
  assert (Q : Rabs q <= (A + / 100000000) * / w * S).
  { unfold q, Rdiv. rewrite Rabs_mult, (Rabs_pos_eq (/ B c)) by lra. apply Rle_trans with ((A + / 1000000000) * S * ((1 + / 1000000000000) * / w)); [apply Rmult_le_compat; try apply Rabs_pos; lra|].
    replace ((A + / 1000000000) * S * ((1 + / 1000000000000) * / w)) with ((A + / 1000000000) * (1 + / 1000000000000) * (/ w * S)) by ring. rewrite (Rmult_assoc (A + / 100000000)). apply Rmult_le_compat_r; [apply Rmult_le_pos; lra|lra]. }
  assert (wS : 0 < / w * S <= S) by (split; [apply Rmult_lt_0_compat; lra|rewrite <- (Rmult_1_l S) at 2; apply Rmult_le_compat_r; lra]).
  destruct (rounded_small _ _ (div_rounded a c Fa Pc)) as [R1 R2]. { fold q. apply (small_top S); auto. apply Rle_trans with (1 := Q). rewrite Rmult_assoc. apply Rle_trans with (5 * (/ w * S)); [apply Rmult_le_compat_r; lra|lra]. }
  split; [exact R1|]. split.
  - unfold Rdiv. rewrite Rabs_mult, (Rabs_pos_eq (/ w)) by lra. replace (A * / w * S) with (A * S * / w) by ring. apply Rmult_le_compat_r; lra.
  - rewrite R2. fold q. pose proof (rnd_err q) as E.
    assert (D : q - v / w = (B a - v) * / B c + v * / w * ((w - B c) * / B c)) by (unfold q; field; lra).
    assert (E1 : Rabs ((B a - v) * / B c) <= e * u * S * ((1 + / 1000000000000) * / w)) by (rewrite Rabs_mult, (Rabs_pos_eq (/ B c)) by lra; apply Rmult_le_compat; try apply Rabs_pos; lra).
    assert (E2 : Rabs (v * / w * ((w - B c) * / B c)) <= A * S * / w * (k * u * w * ((1 + / 1000000000000) * / w))).
    { rewrite (Rabs_mult (v * / w)), (Rabs_mult v), (Rabs_mult (w - B c)), (Rabs_pos_eq (/ w)), (Rabs_pos_eq (/ B c)) by lra. rewrite (Rabs_minus_sym w).
      apply Rmult_le_compat; try (apply Rmult_le_pos; try apply Rabs_pos; lra); [apply Rmult_le_compat_r; lra|apply Rmult_le_compat; try apply Rabs_pos; lra]. }
    replace (A * S * / w * (k * u * w * ((1 + / 1000000000000) * / w))) with (A * k * (1 + / 1000000000000) * (u * (/ w * S)) * (/ w * w)) in E2 by ring. rewrite Rinv_l, Rmult_1_r in E2 by lra.
    replace (e * u * S * ((1 + / 1000000000000) * / w)) with (e * (1 + / 1000000000000) * (u * (/ w * S))) in E1 by ring.
    replace (rnd q - v / w) with ((rnd q - q) + (q - v / w)) by ring. rewrite D.
    pose proof (Rabs_triang (rnd q - q) ((B a - v) * / B c + v * / w * ((w - B c) * / B c))). pose proof (Rabs_triang ((B a - v) * / B c) (v * / w * ((w - B c) * / B c))).
    assert (u * Rabs q <= u * ((A + / 100000000) * / w * S)) by (apply Rmult_le_compat_l; lra). set (y := u * (/ w * S)) in *. assert (Y : 0 < y) by (apply Rmult_lt_0_compat; lra).
    assert (yS : y <= u * S) by (apply Rmult_le_compat_l; lra).
    replace (u * ((A + / 100000000) * / w * S)) with ((A + / 100000000) * y) in H1 by (unfold y; ring).
    replace (((e + A * k + A) / w + / 100) * u * S) with ((e + A * k + A) * y + / 100 * (u * S)) by (unfold y; field; lra).
    assert (Ak : 0 <= A * k <= 40) by (split; [apply Rmult_le_pos; lra|apply Rle_trans with (4 * 10); [apply Rmult_le_compat; lra|lra]]).
    assert (e * / 1000000000000 * y <= / 1000000 * y) by (apply Rmult_le_compat_r; lra). assert (A * k * / 1000000000000 * y <= / 1000000 * y) by (apply Rmult_le_compat_r; lra). lra.
Qed.
Lemma rescale S S' a v A e A' e' : 0 < S' -> A * S <= A' * S' -> e * S <= e' * S' -> ap S a v A e -> ap S' a v A' e'.
Proof.
  intros P H1 H2 (Fa & Va & Ea). split; [auto|]. split; [lra|]. apply Rle_trans with (1 := Ea). pose proof u15.
  replace (e * u * S) with (u * (e * S)) by ring. replace (e' * u * S') with (u * (e' * S')) by ring. apply Rmult_le_compat_l; lra.
Qed.

(** ** One step of the table *)
Lemma scale_of S : / 1000000000 <= S <= 1000000000 -> scale S.
Proof.
  intros [H1 H2]. split.
  - apply Rle_trans with (2 := H1). apply Rle_trans with (bpow radix2 (-30)); [apply bpow_le; lia|cbn; lra].
  - apply Rle_trans with (1 := H2). apply Rle_trans with (bpow radix2 30); [cbn; lra|apply bpow_le; lia].
Qed.
Ltac gm S1 S2 X Y := pose proof (fun c0 c1 c2 c3 c4 c5 c6 => gmul S1 S2 _ _ _ _ _ _ _ _ c0 c1 c2 c3 c4 c5 c6 X Y) as W;
  specialize (W ltac:(apply scale_of; lra) ltac:(lra) ltac:(lra) ltac:(lra) ltac:(lra) ltac:(lra) ltac:(lra)).
Ltac ga S X Y := pose proof (fun c0 c1 c2 c3 c4 => gadd S _ _ _ _ _ _ _ _ c0 c1 c2 c3 c4 X Y) as W;
  specialize (W ltac:(apply scale_of; lra) ltac:(lra) ltac:(lra) ltac:(lra) ltac:(lra)).
Ltac rs W := refine (rescale _ _ _ _ _ _ _ _ _ _ _ W); lra.

Lemma const_ap S z A : 0 < S -> (0 <= z <= 100)%Z -> Rabs (IZR z) <= A * S -> ap S (f_of_Z z) (IZR z) A 0.
Proof. intros P H1 H2. destruct (of_Z_spec z) as [E F]; [lia|]. apply ap_const; auto. Qed.
Lemma step_val : Rabs (B f_step - / 100) <= u * / 100 /\ f_isfinite f_step = true.
Proof. split; [|reflexivity]. assert (E : B f_step = 5764607523034235 * bpow radix2 (-59)) by (vm_compute; lra). rewrite E. apply Rabs_le. cbn. lra. Qed.
Lemma step_ap : ap (/ 100) f_step (/ 100) 1 1.
Proof. destruct step_val as [E F]. split; [exact F|]. split; [rewrite Rabs_pos_eq; lra|lra]. Qed.
Lemma half_ap : ap 1 (f_half 1) (1 / 2) (1 / 2) 0.
Proof. apply ap_const; [vm_compute; lra|reflexivity|rewrite Rabs_pos_eq; lra]. Qed.
Lemma beta0_ap : ap 1 f_BETA_0 (4 / 3) (4 / 3) 3.
Proof.
  split; [reflexivity|]. split; [rewrite Rabs_pos_eq; lra|]. assert (E : B f_BETA_0 = 6004799503160661 * bpow radix2 (-52)) by (vm_compute; lra). rewrite E. apply Rabs_le. cbn. lra.
Qed.

Section Step.
Context (pi : binary64) (Fpi : f_isfinite pi = true) (Hpi : Rabs (B pi - PI) <= 4 * u).
Lemma pi4 : ap 16 (f_mul (f_of_Z 4) pi) (4 * PI) (8 / 10) 2.
Proof.
  pose proof PI3 as P3. pose proof PI_32 as P32. assert (C4 : ap 4 (f_of_Z 4) 4 1 0) by (apply const_ap; [lra|lia|rewrite Rabs_pos_eq; lra]).
  assert (Cp : ap 4 pi PI (8 / 10) 1) by (split; [auto|]; split; [rewrite Rabs_pos_eq; lra|lra]).
  gm 4 4 C4 Cp. replace 16 with (4 * 4) by lra. rs W.
Qed.
Lemma pi4_rel : f_isfinite (f_mul (f_of_Z 4) pi) = true /\ Rabs (B (f_mul (f_of_Z 4) pi) - 4 * PI) <= 3 * u * (4 * PI).
Proof. destruct pi4 as (A1 & _ & A2). split; [exact A1|]. pose proof PI3. pose proof u15. apply Rle_trans with (1 := A2). assert (u * 3 <= u * PI) by (apply Rmult_le_compat_l; lra). lra. Qed.
Definition SB : R := 16 / 1000000.
Lemma beta_err a : f_isfinite a = true -> 0 <= B a <= 1 / 100 -> ap SB (f_beta_qed pi a) (beta_qed (B a)) (12 / 10) 20.
Proof.
  intros Fa Ha. pose proof PI3 as P3. pose proof PI_32 as P32. destruct pi4_rel as [F4 E4].
  assert (Ca : ap (/ 100) a (B a) 1 0) by (apply ap_exact; [auto|rewrite Rabs_pos_eq; lra]).
  pose proof (gdiv (/ 100) a (B a) 1 0 (f_mul (f_of_Z 4) pi) (4 * PI) 3 ltac:(apply scale_of; lra) ltac:(lra) ltac:(lra) ltac:(lra) ltac:(lra) F4 E4 Ca) as X0.
  set (ar := f_div a (f_mul (f_of_Z 4) pi)) in *. set (x := B a / (4 * PI)) in *.
  assert (I4 : 0 < / (4 * PI) <= / 12) by (split; [apply Rinv_0_lt_compat; lra|apply Rinv_le_contravar; lra]).
  assert (Cx : ap (/ 1000) ar x (84 / 100) (36 / 10)) by (refine (rescale _ _ _ _ _ _ _ _ _ _ _ X0); [lra|unfold Rdiv; lra|unfold Rdiv; lra]).
  assert (C3 : ap 1 (f_of_Z 3) 3 3 0) by (apply const_ap; [lra|lia|rewrite Rabs_pos_eq; lra]). assert (C1 : ap 1 (f_of_Z 1) 1 1 0) by (apply const_ap; [lra|lia|rewrite Rabs_pos_eq; lra]).
  gm 1 (/ 1000) C3 Cx. assert (U1 : ap 1 (f_mul (f_of_Z 3) ar) (3 * x) (3 / 1000) (15 / 1000)) by rs W. clear W.
  ga 1 C1 U1. rename W into U2. assert (U3 : ap 1 (f_add (f_of_Z 1) (f_mul (f_of_Z 3) ar)) (1 + 3 * x) (101 / 100) (105 / 100)) by rs U2.
  gm 16 1 pi4 beta0_ap. assert (V1 : ap 16 (f_mul (f_mul (f_of_Z 4) pi) f_BETA_0) (4 * PI * (4 / 3)) (107 / 100) 7) by rs W. clear W.
  gm 16 1 V1 U3. assert (V2 : ap 16 (f_mul (f_mul (f_mul (f_of_Z 4) pi) f_BETA_0) (f_add (f_of_Z 1) (f_mul (f_of_Z 3) ar))) (4 * PI * (4 / 3) * (1 + 3 * x)) (11 / 10) 10) by rs W. clear W.
  gm 16 (/ 1000) V2 Cx. rename W into V3. assert (V3' : ap (16 / 1000) (f_mul (f_mul (f_mul (f_mul (f_of_Z 4) pi) f_BETA_0) (f_add (f_of_Z 1) (f_mul (f_of_Z 3) ar))) ar) (4 * PI * (4 / 3) * (1 + 3 * x) * x) 1 14) by rs V3.
  gm (16 / 1000) (/ 1000) V3' Cx. unfold f_beta_qed. cbv zeta. fold ar.
  replace (beta_qed (B a)) with (4 * PI * (4 / 3) * (1 + 3 * x) * x * x) by (unfold beta_qed, BETA_0, NF; cbv zeta; fold x; field).
  refine (rescale _ _ _ _ _ _ _ _ _ _ _ W); unfold SB; lra.
Qed.
Lemma beta_lip a b : 0 <= a <= 1 / 100 -> 0 <= b <= 1 / 100 -> Rabs (beta_qed a - beta_qed b) <= 23 / 10000 * Rabs (a - b).
Proof.
  intros Ha Hb. pose proof PI3 as P3. set (x := a / (4 * PI)). set (y := b / (4 * PI)).
  assert (I4 : 0 < / (4 * PI) <= / 12) by (split; [apply Rinv_0_lt_compat; lra|apply Rinv_le_contravar; lra]).
  assert (Hx : 0 <= x <= / 1200) by (unfold x, Rdiv; split; [apply Rmult_le_pos; lra|apply Rle_trans with (1 / 100 * / 12); [apply Rmult_le_compat; lra|lra]]).
  assert (Hy : 0 <= y <= / 1200) by (unfold y, Rdiv; split; [apply Rmult_le_pos; lra|apply Rle_trans with (1 / 100 * / 12); [apply Rmult_le_compat; lra|lra]]).
  replace (beta_qed a - beta_qed b) with ((a - b) * (4 / 3 * ((x + y) + 3 * (x * x + x * y + y * y)))) by (unfold beta_qed, BETA_0, NF, x, y; cbv zeta; field; lra).
  rewrite Rabs_mult, Rmult_comm. apply Rmult_le_compat_r; [apply Rabs_pos|].
  assert (0 <= x * x <= / 1200 * / 1200) by (split; [apply Rmult_le_pos; lra|apply Rmult_le_compat; lra]). assert (0 <= x * y <= / 1200 * / 1200) by (split; [apply Rmult_le_pos; lra|apply Rmult_le_compat; lra]).
  assert (0 <= y * y <= / 1200 * / 1200) by (split; [apply Rmult_le_pos; lra|apply Rmult_le_compat; lra]). rewrite Rabs_pos_eq; lra.
Qed.
Lemma beta_range a : 0 <= a <= 1 / 100 -> 0 <= beta_qed a <= 3 / 100000.
Proof.
  intros Ha. pose proof (beta_lip a 0 Ha ltac:(lra)) as L. assert (beta_qed 0 = 0) as Z by (unfold beta_qed; cbv zeta; unfold Rdiv; ring). rewrite Z in L. rewrite !Rminus_0_r in L.
  rewrite (Rabs_pos_eq a) in L by lra. apply Rabs_le_inv in L. split; [|]. 2: lra.
  unfold beta_qed, BETA_0, NF. cbv zeta. pose proof PI3. assert (0 <= a / (4 * PI)) by (apply Rmult_le_pos; [lra|apply Rlt_le, Rinv_0_lt_compat; lra]). set (y := a / (4 * PI)) in *; clearbody y; lpos.
Qed.
Lemma beta_next a hs h p v : f_isfinite a = true -> 1 / 1000 <= B a <= 1 / 127 -> ap (/ 100) hs h 1 2 -> 0 <= h <= 1 / 100 -> ap SB p v 2 23 -> 0 <= v <= 3 / 100000 ->
  ap SB (f_beta_qed pi (f_add a (f_mul hs p))) (beta_qed (B a + h * v)) 2 23 /\ 0 <= B a + h * v <= 1 / 100.
Proof.
  intros Fa Ha Hs Hh Hp Hv. pose proof u15 as U. assert (HV : 0 <= h * v <= 1 / 100 * (3 / 100000)) by (split; [apply Rmult_le_pos; lra|apply Rmult_le_compat; lra]). split; [|lra].
  assert (P : ap (16 / 1000000) p v 2 23) by exact Hp. gm (/ 100) (16 / 1000000) Hs P. assert (M : ap (/ 100) (f_mul hs p) (h * v) (1 / 10000) (1 / 1000)) by rs W. clear W.
  assert (Ca : ap (/ 100) a (B a) (8 / 10) 0) by (apply ap_exact; [auto|rewrite Rabs_pos_eq; lra]).
  ga (/ 100) Ca M. destruct W as (F1 & _ & E1). set (arg := f_add a (f_mul hs p)) in *. pose proof (Rabs_le_inv _ _ E1) as E1'.
  assert (R : 0 <= B arg <= 1 / 100) by lra. destruct (beta_err arg F1 R) as (F2 & _ & E2). split; [exact F2|]. pose proof (beta_range (B a + h * v) ltac:(lra)) as BR.
  split; [rewrite Rabs_pos_eq; unfold SB; lra|]. pose proof (beta_lip (B arg) (B a + h * v) R ltac:(lra)) as L.
  replace (B (f_beta_qed pi arg) - beta_qed (B a + h * v)) with ((B (f_beta_qed pi arg) - beta_qed (B arg)) + (beta_qed (B arg) - beta_qed (B a + h * v))) by ring.
  pose proof (Rabs_triang (B (f_beta_qed pi arg) - beta_qed (B arg)) (beta_qed (B arg) - beta_qed (B a + h * v))). unfold SB in *. lra.
Qed.
Lemma rk4_err a : f_isfinite a = true -> 1 / 1000 <= B a <= 1 / 127 ->
  f_isfinite (f_rk4 pi a) = true /\ Rabs (B (f_rk4 pi a) - rk4 (B a)) <= 102 / 100 * u * / 127.
Proof.
  intros Fa Ha. assert (HS : ap (/ 100) f_step (1 / 100) 1 2) by (refine (ap_weak _ _ _ _ _ _ _ _ _ _ _ _ step_ap); try lra; rewrite Rabs_pos_eq; lra).
  gm 1 (/ 100) half_ap step_ap. assert (HH : ap (/ 100) (f_mul (f_half 1) f_step) (1 / 2 * / 100) 1 2) by rs W. clear W.
  pose proof (beta_err a Fa ltac:(lra)) as P1'. pose proof (beta_range (B a) ltac:(lra)) as R1.
  assert (P1 : ap SB (f_beta_qed pi a) (beta_qed (B a)) 2 23) by (refine (rescale _ _ _ _ _ _ _ _ _ _ _ P1'); unfold SB; lra).
  destruct (beta_next a _ _ _ _ Fa Ha HH ltac:(lra) P1 R1) as [P2 A2]. pose proof (beta_range _ A2) as R2.
  destruct (beta_next a _ _ _ _ Fa Ha HH ltac:(lra) P2 R2) as [P3 A3]. pose proof (beta_range _ A3) as R3.
  destruct (beta_next a _ _ _ _ Fa Ha HS ltac:(lra) P3 R3) as [P4 A4]. pose proof (beta_range _ A4) as R4.
  unfold f_rk4. cbv zeta. set (p1 := f_beta_qed pi a) in *. set (p2 := f_beta_qed pi (f_add a (f_mul (f_mul (f_half 1) f_step) p1))) in *.
  set (p3 := f_beta_qed pi (f_add a (f_mul (f_mul (f_half 1) f_step) p2))) in *. set (p4 := f_beta_qed pi (f_add a (f_mul f_step p3))) in *.
  unfold rk4. cbv zeta. replace (1 / 2 * step) with (1 / 2 * / 100) by (unfold step; lra). replace step with (1 / 100) by reflexivity.
  set (v1 := beta_qed (B a)) in *. set (v2 := beta_qed (B a + 1 / 2 * / 100 * v1)) in *. set (v3 := beta_qed (B a + 1 / 2 * / 100 * v2)) in *. set (v4 := beta_qed (B a + 1 / 100 * v3)) in *.
  unfold SB in *. assert (C2 : ap 1 (f_of_Z 2) 2 2 0) by (apply const_ap; [lra|lia|rewrite Rabs_pos_eq; lra]).
  gm 1 (16 / 1000000) C2 P2. assert (D2 : ap (16 / 1000000) (f_mul (f_of_Z 2) p2) (2 * v2) 4 51) by rs W. clear W.
  gm 1 (16 / 1000000) C2 P3. assert (D3 : ap (16 / 1000000) (f_mul (f_of_Z 2) p3) (2 * v3) 4 51) by rs W. clear W.
  ga (16 / 1000000) P1 D2. rename W into S1. ga (16 / 1000000) S1 D3. rename W into S2. ga (16 / 1000000) S2 P4. rename W into S3. set (sum := f_add (f_add (f_add p1 (f_mul (f_of_Z 2) p2)) (f_mul (f_of_Z 2) p3)) p4) in *.
  assert (S3' : ap (64 / 1000000) sum (v1 + 2 * v2 + 2 * v3 + v4) 3 48) by rs S3.
  gm (/ 100) (64 / 1000000) HS S3'. rename W into G. destruct (of_Z_spec 6 ltac:(lia)) as [E6 F6].
  assert (G' : ap (/ 100 * (64 / 1000000)) (f_mul f_step sum) (1 / 100 * (v1 + 2 * v2 + 2 * v3 + v4)) 3 60) by rs G.
  pose proof (gdiv (/ 100 * (64 / 1000000)) _ _ 3 60 (f_of_Z 6) 6 0 ltac:(apply scale_of; lra) ltac:(lra) ltac:(lra) ltac:(lra) ltac:(lra) F6 ltac:(rewrite E6, Rminus_diag_eq, Rabs_R0 by reflexivity; lra) G') as Q.
  assert (Q' : ap (/ 127) (f_div (f_mul f_step sum) (f_of_Z 6)) (1 / 100 * (v1 + 2 * v2 + 2 * v3 + v4) / 6) (1 / 10000) (1 / 1000)) by rs Q.
  assert (Ca : ap (/ 127) a (B a) 1 0) by (apply ap_exact; [auto|rewrite Rabs_pos_eq; lra]).
  ga (/ 127) Ca Q'. destruct W as (Z1 & _ & Z2). split; [exact Z1|]. apply Rle_trans with (1 := Z2). pose proof u15. apply Rmult_le_compat_r; [lra|]. apply Rmult_le_compat_r; lra.
Qed.
End Step.
Lemma rk4_lip a b : 0 <= a <= 1 / 127 -> 0 <= b <= 1 / 127 -> Rabs (rk4 a - rk4 b) <= (1 + 25 / 1000000) * Rabs (a - b).
Proof.
  intros Ha Hb. unfold rk4. cbv zeta. set (d := Rabs (a - b)). assert (d0 : 0 <= d) by apply Rabs_pos.
  assert (N : forall h v w, 0 <= h <= 1 / 100 -> 0 <= v <= 3 / 100000 -> 0 <= w <= 3 / 100000 -> Rabs (v - w) <= 24 / 10000 * d ->
    0 <= beta_qed (a + h * v) <= 3 / 100000 /\ 0 <= beta_qed (b + h * w) <= 3 / 100000 /\ Rabs (beta_qed (a + h * v) - beta_qed (b + h * w)) <= 24 / 10000 * d).
  { intros h v w Hh Hv Hw L. assert (V : 0 <= h * v <= 1 / 100 * (3 / 100000)) by (split; [apply Rmult_le_pos; lra|apply Rmult_le_compat; lra]). assert (V' : 0 <= h * w <= 1 / 100 * (3 / 100000)) by (split; [apply Rmult_le_pos; lra|apply Rmult_le_compat; lra]).
    split; [apply beta_range; lra|]. split; [apply beta_range; lra|]. apply Rle_trans with (1 := beta_lip (a + h * v) (b + h * w) ltac:(lra) ltac:(lra)).
    replace (a + h * v - (b + h * w)) with ((a - b) + h * (v - w)) by ring. pose proof (Rabs_triang (a - b) (h * (v - w))) as T. rewrite (Rabs_mult h), (Rabs_pos_eq h) in T by lra. fold d in T.
    assert (h * Rabs (v - w) <= 1 / 100 * (24 / 10000 * d)) by (apply Rmult_le_compat; try lra; apply Rabs_pos). lra. }
  pose proof (beta_range a ltac:(lra)) as R1. pose proof (beta_range b ltac:(lra)) as R1'. pose proof (beta_lip a b ltac:(lra) ltac:(lra)) as L1. fold d in L1.
  assert (HS : 0 <= 1 / 2 * step <= 1 / 100) by (unfold step; lra). assert (HS' : 0 <= step <= 1 / 100) by (unfold step; lra).
  destruct (N _ _ _ HS R1 R1' ltac:(lra)) as (R2 & R2' & L2). destruct (N _ _ _ HS R2 R2' L2) as (R3 & R3' & L3). destruct (N _ _ _ HS' R3 R3' L3) as (R4 & R4' & L4).
  set (v1 := beta_qed a) in *. set (w1 := beta_qed b) in *. set (v2 := beta_qed (a + 1 / 2 * step * v1)) in *. set (w2 := beta_qed (b + 1 / 2 * step * w1)) in *.
  set (v3 := beta_qed (a + 1 / 2 * step * v2)) in *. set (w3 := beta_qed (b + 1 / 2 * step * w2)) in *. set (v4 := beta_qed (a + step * v3)) in *. set (w4 := beta_qed (b + step * w3)) in *.
  replace (a + step * (v1 + 2 * v2 + 2 * v3 + v4) / 6 - (b + step * (w1 + 2 * w2 + 2 * w3 + w4) / 6)) with ((a - b) + step / 6 * ((v1 - w1) + 2 * (v2 - w2) + 2 * (v3 - w3) + (v4 - w4))) by field.
  pose proof (Rabs_triang (a - b) (step / 6 * ((v1 - w1) + 2 * (v2 - w2) + 2 * (v3 - w3) + (v4 - w4)))) as T. fold d in T. rewrite (Rabs_mult (step / 6)), (Rabs_pos_eq (step / 6)) in T by (unfold step; lra).
  assert (Rabs (v1 - w1 + 2 * (v2 - w2) + 2 * (v3 - w3) + (v4 - w4)) <= 6 * (24 / 10000 * d)). { apply Rabs_le_inv in L1, L2, L3, L4. apply Rabs_le. lra. }
  assert (step / 6 * Rabs (v1 - w1 + 2 * (v2 - w2) + 2 * (v3 - w3) + (v4 - w4)) <= step / 6 * (6 * (24 / 10000 * d))) by (apply Rmult_le_compat_l; [unfold step; lra|auto]). unfold step in *. lra.
Qed.

(** ** The table *)
Lemma ln_near x y k : 0 < y -> 0 <= k <= 1 / 2 -> Rabs (x - y) <= k * y -> Rabs (ln x - ln y) <= 2 * k.
Proof.
  intros P K H. apply Rabs_le_inv in H. assert (ky : k * y <= 1 / 2 * y) by (apply Rmult_le_compat_r; lra). assert (Px : 0 < x) by lra.
  assert (L : forall t, 0 < t -> ln t <= t - 1). { intros t Pt. pose proof (exp_ineq1_le (ln t)) as E. rewrite exp_ln in E by auto. lra. }
  assert (D : forall a b, 0 < a -> 0 < b -> ln (a / b) = ln a - ln b). { intros a b Pa Pb. unfold Rdiv. rewrite ln_mult, ln_Rinv; auto; try lra. apply Rinv_0_lt_compat; auto. }
  pose proof (L (x / y) ltac:(apply Rdiv_lt_0_compat; auto)) as L1. pose proof (L (y / x) ltac:(apply Rdiv_lt_0_compat; auto)) as L2. rewrite D in L1, L2 by auto.
  assert (x / y - 1 <= k). { apply Rmult_le_reg_r with y; [auto|]. replace ((x / y - 1) * y) with (x - y) by (field; lra). lra. }
  assert (y / x - 1 <= 2 * k). { apply Rmult_le_reg_r with x; [auto|]. replace ((y / x - 1) * x) with (y - x) by (field; lra). assert (k * (1 / 2 * y) <= k * x) by (apply Rmult_le_compat_l; lra). lra. }
  apply Rabs_le. lra.
Qed.
Lemma ln_mono x y : 0 < x -> x <= y -> ln x <= ln y.
Proof. intros P [H| ->]; [left; apply ln_increasing; auto|right; reflexivity]. Qed.
Lemma mass_log : - 8 <= ln MASS_E < 0.
Proof.
  pose proof mass_pos as M. split; [|rewrite <- ln_1; apply ln_increasing; lra].
  assert (E1 : 259 / 100 <= exp 1).
  { assert (H : 11 / 10 <= exp (1 / 10)) by (pose proof (exp_ineq1_le (1 / 10)); lra).
    replace 1 with (INR 10 * (1 / 10)) by (rewrite INR_IZR_INZ; cbn; lra).
    assert (P : forall n, exp (INR n * (1 / 10)) = exp (1 / 10) ^ n).
    { induction n as [|n IH]; [cbn; rewrite Rmult_0_l, exp_0; reflexivity|]. rewrite S_INR, Rmult_plus_distr_r, exp_plus, IH, Rmult_1_l. cbn [pow]. ring. }
    rewrite P. apply Rle_trans with ((11 / 10) ^ 10); [lra|]. apply pow_incr. lra. }
  assert (P : forall n, exp (INR n) = exp 1 ^ n). { induction n as [|n IH]; [cbn; apply exp_0|]. rewrite S_INR, exp_plus, IH. cbn [pow]. ring. }
  assert (E8 : 2000 <= exp 8). { replace 8 with (INR 8) by (rewrite INR_IZR_INZ; reflexivity). rewrite P. apply Rle_trans with ((259 / 100) ^ 8); [lra|]. apply pow_incr. lra. }
  rewrite <- (ln_exp (- 8)). apply Rlt_le, ln_increasing; [apply exp_pos|]. replace (-8) with (Ropp 8) by lra. rewrite exp_Ropp. apply Rle_lt_trans with (/ 2000); [apply Rinv_le_contravar; lra|]. unfold MASS_E. lra.
Qed.
Lemma INR_2200 n : (n <= 2200)%nat -> 0 <= INR n <= 2200.
Proof. intros H. split; [apply pos_INR|]. replace 2200 with (INR 2200); [apply le_INR; lia|]. rewrite INR_IZR_INZ. reflexivity. Qed.
Lemma A_low n : (n <= 2200)%nat -> 1 / 138 <= A n.
Proof.
  intros Hn. pose proof PI3. assert (H0 : A 0 = ALPHA_QED_0) by reflexivity. assert (X 0 <= X n). { clear - Hn. induction n as [|n IH]; [lra|]. rewrite dX_S. pose proof (dX_pos n ltac:(lia)). specialize (IH ltac:(lia)). lra. }
  rewrite A_X. assert (4 * PI * X 0 <= 4 * PI * X n) by (apply Rmult_le_compat_l; lra). rewrite <- (A_X 0), H0 in H2. unfold ALPHA_QED_0 in H2. lra.
Qed.
Section Table.
Context (pi mass_e alpha_0 : binary64) (log : binary64 -> binary64).
Context (Hpi : f_isfinite pi = true /\ Rabs (B pi - PI) <= 4 * u) (Hme : within 2 mass_e MASS_E) (Ha0 : within 3 alpha_0 ALPHA_QED_0) (HL : good_log log).
Definition FA (n : nat) : binary64 := Nat.iter n (f_rk4 pi) alpha_0.
Definition FL (n : nat) : binary64 := Nat.iter n (fun l => f_add l f_step) (f_mul (f_of_Z 2) (log mass_e)).
Lemma FA_err n : (n <= 2200)%nat -> f_isfinite (FA n) = true /\ Rabs (B (FA n) - A n) <= (3 + 11 / 10 * INR n) * u * / 127.
Proof.
  pose proof u15 as U. destruct Hpi as [Fp Ep]. induction n as [|n IH]; intros Hn.
  - destruct Ha0 as [F0 E0]. split; [exact F0|]. change (A 0) with ALPHA_QED_0. change (FA 0) with alpha_0. change (INR 0) with 0. apply Rle_trans with (1 := E0). unfold ALPHA_QED_0. rewrite Rabs_pos_eq by lra. lra.
  - destruct (IH ltac:(lia)) as [Fn En]. pose proof (INR_2200 n ltac:(lia)) as N. pose proof (A_up n ltac:(lia)) as AU. pose proof (A_low n ltac:(lia)) as AL.
    assert (NU : 0 <= INR n * u <= 2200 * u) by (split; [apply Rmult_le_pos; lra|apply Rmult_le_compat_r; lra]). pose proof (Rabs_le_inv _ _ En) as En'.
    assert (R : 1 / 1000 <= B (FA n) <= 1 / 127) by lra. destruct (rk4_err pi Fp Ep (FA n) Fn R) as [F1 E1]. split; [exact F1|]. change (FA (S n)) with (f_rk4 pi (FA n)). change (A (S n)) with (rk4 (A n)).
    pose proof (rk4_lip (B (FA n)) (A n) ltac:(lra) ltac:(lra)) as L. replace (B (f_rk4 pi (FA n)) - rk4 (A n)) with ((B (f_rk4 pi (FA n)) - rk4 (B (FA n))) + (rk4 (B (FA n)) - rk4 (A n))) by ring.
    pose proof (Rabs_triang (B (f_rk4 pi (FA n)) - rk4 (B (FA n))) (rk4 (B (FA n)) - rk4 (A n))). rewrite S_INR. lra.
Qed.
Lemma FL_0 : f_isfinite (FL 0) = true /\ Rabs (B (FL 0) - T 0) <= 100 * u.
Proof.
  pose proof u15 as U. pose proof mass_pos as M. pose proof mass_log as ML. destruct Hme as [Fm Em]. rewrite (Rabs_pos_eq MASS_E) in Em by lra.
  pose proof (ln_near (B mass_e) MASS_E (2 * u) ltac:(lra) ltac:(lra) Em) as LN. apply Rabs_le_inv in Em. assert (Pm : 0 < B mass_e). { assert (2 * u * MASS_E <= 1 / 2 * MASS_E) by (apply Rmult_le_compat_r; lra). lra. }
  destruct (HL mass_e Fm Pm) as [Fl El]. apply Rabs_le_inv in LN. assert (LB : Rabs (ln (B mass_e)) <= 81 / 10) by (apply Rabs_le; lra).
  assert (El' : Rabs (B (log mass_e) - ln (B mass_e)) <= 4 * u * (91 / 10)). { apply Rle_trans with (1 := El). apply Rmult_le_compat_l; lra. } apply Rabs_le_inv in El'.
  assert (C2 : ap 2 (f_of_Z 2) 2 1 0) by (apply const_ap; [lra|lia|rewrite Rabs_pos_eq; lra]). assert (Cl : ap 8 (log mass_e) (B (log mass_e)) (102 / 100) 0) by (apply ap_exact; [auto|apply Rabs_le; lra]).
  gm 2 8 C2 Cl. destruct W as (Q1 & _ & Q2). split; [exact Q1|]. unfold T. change (INR 0) with 0. change (FL 0) with (f_mul (f_of_Z 2) (log mass_e)). apply Rabs_le_inv in Q2. apply Rabs_le. lra.
Qed.
Lemma FL_err n : (n <= 2200)%nat -> f_isfinite (FL n) = true /\ Rabs (B (FL n) - T n) <= (100 + 25 * INR n) * u.
Proof.
  pose proof u15 as U. induction n as [|n IH]; intros Hn; [change (INR 0) with 0; destruct FL_0 as [Q1 Q2]; split; [exact Q1|lra]|].
  destruct (IH ltac:(lia)) as [Fn En]. pose proof (INR_2200 n ltac:(lia)) as N. pose proof mass_log as ML. assert (NU : 0 <= INR n * u <= 2200 * u) by (split; [apply Rmult_le_pos; lra|apply Rmult_le_compat_r; lra]).
  apply Rabs_le_inv in En. assert (TB : - 16 <= T n <= 22) by (unfold T, step; lra).
  assert (Cl : ap 24 (FL n) (B (FL n)) 1 0) by (apply ap_exact; [auto|apply Rabs_le; lra]). assert (Cs : ap 24 f_step (/ 100) (1 / 1000) (1 / 1000)) by (refine (rescale _ _ _ _ _ _ _ _ _ _ _ step_ap); lra).
  ga 24 Cl Cs. destruct W as (Q1 & _ & Q2). change (FL (S n)) with (f_add (FL n) f_step). split; [exact Q1|]. rewrite T_S, S_INR. unfold step. apply Rabs_le_inv in Q2. apply Rabs_le. lra.
Qed.
Lemma fle_spec a b : f_isfinite a = true -> f_isfinite b = true -> f_le a b = true <-> B a <= B b.
Proof.
  intros Fa Fb. unfold f_le, b64_compare. rewrite Binary.Bcompare_correct by auto. destruct (Rcompare_spec (B a) (B b)); split; intros; try discriminate; try lra; auto.
Qed.
Lemma least (p : nat -> bool) N : p N = false -> exists m, (m <= N)%nat /\ p m = false /\ forall n, (n < m)%nat -> p n = true.
Proof.
  revert p. induction N as [|N IH]; intros p H.
  - exists 0%nat. split; [lia|]. split; [auto|]. intros n Hn. lia.
  - destruct (p 0%nat) eqn:E0.
    + destruct (IH (fun n => p (S n)) H) as (m & M1 & M2 & M3). exists (S m). split; [lia|]. split; [auto|]. intros [|n] Hn; [auto|apply M3; lia].
    + exists 0%nat. split; [lia|]. split; [auto|]. intros n Hn. lia.
Qed.
Lemma log_100 : f_isfinite (log (f_of_Z 100)) = true /\ Rabs (B (log (f_of_Z 100)) - ln 100) <= 100 * u /\ 3 < ln 100 < 21.
Proof.
  pose proof u15 as U. destruct (of_Z_spec 100 ltac:(lia)) as [E F]. destruct (HL (f_of_Z 100) F ltac:(rewrite E; lra)) as [Fl El]. rewrite E in El. split; [exact Fl|].
  pose proof span_up as SU. pose proof mass_log as ML. unfold Q_SQ_MAX in *.
  assert (L3 : 3 < ln 100). { rewrite <- (ln_exp 3). apply ln_increasing; [apply exp_pos|]. replace 3 with (1 + 1 + 1) by lra. rewrite !exp_plus. pose proof exp_le_3. pose proof (exp_pos 1).
    assert (exp 1 * exp 1 <= 3 * 3) by (apply Rmult_le_compat; lra). assert (exp 1 * exp 1 * exp 1 <= 3 * 3 * 3) by (apply Rmult_le_compat; try lra; apply Rmult_le_pos; lra). lra. }
  split; [|lra]. apply Rle_trans with (1 := El). rewrite Rabs_pos_eq by lra. assert (u * ln 100 <= u * 21) by (apply Rmult_le_compat_l; lra). lra.
Qed.
Definition stops (m : nat) : Prop := f_le (FL m) (log (f_of_Z 100)) = false /\ forall n, (n < m)%nat -> f_le (FL n) (log (f_of_Z 100)) = true.
Lemma stops_exists : exists m, stops m /\ (300 <= m <= 2110)%nat.
Proof.
  pose proof u15 as U. destruct log_100 as (F & E & R). apply Rabs_le_inv in E. pose proof span_up as SU. pose proof span_low as SL. unfold Q_SQ_MAX in *.
  assert (Q : forall n, (n <= 2200)%nat -> f_isfinite (FL n) = true /\ Rabs (B (FL n) - T n) <= / 1000).
  { intros n Hn. destruct (FL_err n Hn) as [G1 G2]. split; [auto|]. apply Rle_trans with (1 := G2). pose proof (INR_2200 n Hn). assert (INR n * u <= 2200 * u) by (apply Rmult_le_compat_r; lra). lra. }
  destruct (least (fun n => f_le (FL n) (log (f_of_Z 100))) 2110) as (m & M1 & M2 & M3).
  - destruct (Q 2110%nat ltac:(lia)) as [G1 G2]. apply Rabs_le_inv in G2. destruct (f_le (FL 2110) (log (f_of_Z 100))) eqn:L; [|reflexivity]. exfalso. apply fle_spec in L; auto.
    unfold T, step in G2. assert (IN : INR 2110 = 2110) by (rewrite INR_IZR_INZ; reflexivity). rewrite IN in G2. lra.
  - exists m. split; [split; auto|]. split; [|lia]. destruct (le_lt_dec 300 m) as [|L]; [auto|]. exfalso. destruct (Q m ltac:(lia)) as [G1 G2]. apply Rabs_le_inv in G2.
    assert (f_le (FL m) (log (f_of_Z 100)) = true); [|congruence]. apply fle_spec; auto. assert (IM : INR m <= 299) by (replace 299 with (INR 299) by (rewrite INR_IZR_INZ; reflexivity); apply le_INR; lia). unfold T, step in G2. lra.
Qed.
Lemma f_grow_stops m n fuel : stops m -> (n <= m + 7)%nat -> (m + 7 - n <= fuel)%nat ->
  f_grow pi log fuel (f_of_Z 100) (map FL (down n)) (map FA (down n)) = Some (map FL (down (m + 7)), map FA (down (m + 7))).
Proof.
  intros [E1 E2]. remember (m + 7 - n)%nat as d eqn:Ed. revert n fuel Ed. induction d as [|d IH]; intros n fuel Ed Hn Hf.
  - assert (n = m + 7)%nat as -> by lia.
    assert (AG : (match map FL (down (m + 7)) with l0 :: _ => if (length (map FL (down (m + 7))) <? 8)%nat then true
                 else match nth_error (map FL (down (m + 7))) 7 with Some l => f_le l (log (f_of_Z 100)) | None => false end | [] => false end) = false).
    { rewrite map_length, down_length. replace (S (m + 7) <? 8)%nat with false by (symmetry; apply Nat.ltb_ge; lia).
      rewrite nth_error_map, down_nth by lia. cbn [option_map]. replace (m + 7 - 7)%nat with m by lia. rewrite E1. destruct (map FL (down (m + 7))); reflexivity. }
    destruct fuel; cbn [f_grow]; rewrite AG; reflexivity.
  - destruct fuel as [|fuel]; [lia|].
    assert (AG : (match map FL (down n) with l0 :: _ => if (length (map FL (down n)) <? 8)%nat then true
                 else match nth_error (map FL (down n)) 7 with Some l => f_le l (log (f_of_Z 100)) | None => false end | [] => false end) = true).
    { rewrite map_length, down_length. replace (map FL (down n)) with (FL n :: tl (map FL (down n))) at 1 by (destruct n; reflexivity).
      destruct (Nat.ltb_spec (S n) 8) as [|L]; [reflexivity|]. rewrite nth_error_map, down_nth by lia. cbn [option_map]. apply E2. lia. }
    cbn [f_grow]. rewrite AG. specialize (IH (S n) fuel ltac:(lia) ltac:(lia) ltac:(lia)). rewrite <- IH. cbn [down map]. destruct n; reflexivity.
Qed.
Lemma f_grid_is m fuel : stops m -> (m + 7 <= fuel)%nat -> f_alpha_grid pi mass_e alpha_0 log fuel = Some (map FA (seq 0 (m + 8)), [Dim (m + 8) (FL 0) (FL (m + 7))]).
Proof.
  intros E F. unfold f_alpha_grid. change [f_mul (f_of_Z 2) (log mass_e)] with (map FL (down 0)). change [alpha_0] with (map FA (down 0)). rewrite (f_grow_stops m 0 fuel E) by lia. rewrite <- !map_rev, down_rev.
  replace (S (m + 7)) with (m + 8)%nat by lia. rewrite map_length, down_length.
  replace (hd_error (map FL (seq 0 (m + 8)))) with (Some (FL 0)) by (replace (m + 8)%nat with (S (m + 7)) by lia; reflexivity).
  replace (hd_error (map FL (down (m + 7)))) with (Some (FL (m + 7))) by (replace (m + 7)%nat with (S (m + 6)) by lia; reflexivity).
  replace (S (m + 7)) with (m + 8)%nat by lia. reflexivity.
Qed.
(** ** Values *)
Lemma spline_diff n g k M t : 0 <= M -> (forall j, (j <= n)%nat -> Rabs (g j - k j) <= M) -> Rabs (spline n g t - spline n k t) <= 5 / 4 * M.
Proof.
  intros M0 H. unfold spline. rewrite hermite_sub. pose proof (Zfloor_lb t). pose proof (Zfloor_ub t).
  assert (N : forall j, Rabs (at_node n g j - at_node n k j) <= M).
  { intros j. unfold at_node. destruct (0 <=? j)%Z eqn:E1; [|cbn [andb]; rewrite Rminus_0_r, Rabs_R0; auto]. destruct (j <=? Z.of_nat n)%Z eqn:E2; [|cbn [andb]; rewrite Rminus_0_r, Rabs_R0; auto]. cbn [andb]. apply H. apply Z.leb_le in E1, E2. lia. }
  apply hermite_bound; try apply N. lra.
Qed.
Lemma place_err N l h x L X : 0 < N -> l <= x <= h -> l < h -> forall H, H - L = N / 100 -> forall e1 e2, Rabs ((x - l) - (X - L)) <= e1 -> Rabs ((h - l) - (H - L)) <= e2 ->
  Rabs (N * ((x - l) / (h - l)) - (X - L) / step) <= 100 * e1 + 100 * e2.
Proof.
  intros PN Hx Hl H HH e1 e2 E1 E2. set (rho := (x - l) / (h - l)). assert (R : 0 <= rho <= 1).
  { unfold rho. split; [apply Rmult_le_pos; [lra|apply Rlt_le, Rinv_0_lt_compat; lra]|]. apply Rmult_le_reg_r with (h - l); [lra|]. unfold Rdiv. rewrite Rmult_assoc, Rinv_l; lra. }
  replace (N * rho - (X - L) / step) with (100 * ((x - l) - (X - L)) + rho * (100 * ((H - L) - (h - l)))) by (rewrite HH; unfold rho, step; field; lra).
  pose proof (Rabs_triang (100 * ((x - l) - (X - L))) (rho * (100 * ((H - L) - (h - l))))) as T1. rewrite !Rabs_mult, (Rabs_pos_eq rho), (Rabs_pos_eq 100) in T1 by lra. rewrite (Rabs_minus_sym (H - L)) in T1.
  assert (rho * (100 * Rabs (h - l - (H - L))) <= 1 * (100 * e2)) by (apply Rmult_le_compat; try lra; apply Rmult_le_pos; [lra|apply Rabs_pos]). lra.
Qed.
Lemma low_value m q : stops m -> (m <= 2110)%nat -> f_isfinite q = true -> MASS_E ^ 2 * (1 + bpow radix2 (-40)) <= B q <= 100 ->
  exists z, f_alpha_low log (map FA (seq 0 (m + 8)), [Dim (m + 8) (FL 0) (FL (m + 7))]) q = Val z /\ f_isfinite z = true /\
    Rabs (B z - spline (m + 7) A ((ln (B q) - 2 * ln MASS_E) / step)) <= bpow radix2 (-35).
Proof.
  intros HM Hm Fq Hq. pose proof u15 as U. pose proof mass_pos as M. pose proof mass_log as ML. destruct log_100 as (F100 & E100 & R100). apply Rabs_le_inv in E100.
  set (d := Dim (m + 8) (FL 0) (FL (m + 7))). set (N := INR (m + 7)). assert (HN : 7 <= N <= 2117).
  { unfold N. split; [change 7 with (IZR 7); replace (IZR 7) with (INR 7) by (rewrite INR_IZR_INZ; reflexivity); apply le_INR; lia|]. replace 2117 with (INR 2117) by (rewrite INR_IZR_INZ; reflexivity). apply le_INR; lia. }
  destruct FL_0 as [FL0 EL0]. apply Rabs_le_inv in EL0. destruct (FL_err (m + 7) ltac:(lia)) as [FLm ELm]. fold N in ELm. destruct (FL_err m ltac:(lia)) as [FLm0 ELm0]. pose proof (INR_2200 m ltac:(lia)) as Nm.
  assert (NU : N * u <= 2117 * u) by (apply Rmult_le_compat_r; lra). assert (NU' : INR m * u <= 2200 * u) by (apply Rmult_le_compat_r; lra).
  assert (ELm' : Rabs (B (FL (m + 7)) - T (m + 7)) <= 54000 * u) by lra. apply Rabs_le_inv in ELm', ELm0.
  assert (T0 : T 0 = 2 * ln MASS_E) by (unfold T; change (INR 0) with 0; ring). assert (TN : T (m + 7) = T 0 + N / 100) by (unfold T, step; change (INR 0) with 0; fold N; lra).
  assert (Tm : T (m + 7) = T m + 7 / 100). { unfold T, step. rewrite plus_INR. replace (INR 7) with 7 by (rewrite INR_IZR_INZ; reflexivity). lra. }
  set (Xq := ln (B q)). set (dl := bpow radix2 (-40)) in *. assert (DL : dl = 8192 * u) by (unfold dl; cbn; lra). assert (Pm : 0 < MASS_E ^ 2) by (apply pow_lt; lra). assert (Pq : 0 < MASS_E ^ 2 * (1 + dl)) by (apply Rmult_lt_0_compat; lra).
  assert (LD : 4096 * u <= ln (1 + dl)).
  { pose proof (exp_ineq1_le (- ln (1 + dl))) as E. rewrite exp_Ropp, exp_ln in E by lra. assert (/ (1 + dl) <= 1 - dl / 2); [|lra].
    apply Rmult_le_reg_r with (1 + dl); [lra|]. rewrite Rinv_l by lra. assert (dl * dl <= dl * / 2) by (apply Rmult_le_compat_l; lra). lra. }
  assert (HX : T 0 + 4096 * u <= Xq <= ln 100).
  { rewrite T0. unfold Xq. split; [|apply ln_mono; lra]. apply Rle_trans with (ln (MASS_E ^ 2 * (1 + dl))); [|apply ln_mono; lra].
    rewrite ln_mult by lra. replace (MASS_E ^ 2) with (MASS_E * MASS_E) by ring. rewrite ln_mult by lra. lra. }
  destruct (HL q Fq ltac:(lra)) as [Fx Ex]. fold Xq in Ex. assert (XB : Rabs Xq <= 21) by (apply Rabs_le; lra).
  assert (Ex' : Rabs (B (log q) - Xq) <= 100 * u). { apply Rle_trans with (1 := Ex). assert (u * Rabs Xq <= u * 21) by (apply Rmult_le_compat_l; lra). lra. } apply Rabs_le_inv in Ex'.
  assert (SM : B (log (f_of_Z 100)) < B (FL m)). { destruct HM as [H1 _]. apply Rnot_le_lt. intros H2. apply fle_spec in H2; auto. congruence. }
  set (l := B (FL 0)) in *. set (h := B (FL (m + 7))) in *. set (x := B (log q)) in *.
  assert (BIG : 100 <= bpow radix2 1022). { apply Rle_trans with (bpow radix2 7); [cbn; lra|apply bpow_le; lia]. }
  assert (MI : Rabs x <= bpow radix2 1022) by (apply Rle_trans with 100; [apply Rabs_le; lra|auto]).
  assert (Mll : Rabs l <= bpow radix2 1022) by (apply Rle_trans with 100; [apply Rabs_le; lra|auto]). assert (Mh : Rabs h <= bpow radix2 1022) by (apply Rle_trans with 100; [apply Rabs_le; lra|auto]).
  assert (G : good_dim d). { unfold good_dim, moderate, d. cbn [d_lower d_upper d_count]. repeat split; auto; lia. }
  assert (I : clearly_inside d (log q)).
  { unfold clearly_inside, moderate. cbv zeta. cbn [d d_lower d_upper]. fold l h x. split; [auto|]. split; [lra|]. split; [lra|]. assert (u * (h - l) <= u * 60) by (apply Rmult_le_compat_l; lra). lra. }
  set (data := map FA (seq 0 (m + 8))). set (v := fun is : list nat => FA (hd 0%nat is)).
  assert (HD : f_holds data 0 (counts_of [d]) v).
  { intros is J. inversion J as [|? i ? js J1 J2]; subst. inversion J2; subst. cbn in J1. unfold v. cbn [hd]. cbn [counts_of map flat fold_right d d_count]. replace (0 + (i * 1 + 0))%nat with i by lia.
    unfold data. rewrite nth_error_map, nth_error_nth' with (d := 0%nat) by (rewrite seq_length; lia). rewrite seq_nth by lia. reflexivity. }
  assert (VA : forall k, (k <= m + 7)%nat -> f_isfinite (FA k) = true /\ Rabs (B (FA k) - A k) <= 20 * u /\ Rabs (B (FA k)) <= / 126).
  { intros k Hk. destruct (FA_err k ltac:(lia)) as [Q1 Q2]. pose proof (INR_2200 k ltac:(lia)). pose proof (A_up k ltac:(lia)). pose proof (A_low k ltac:(lia)). assert (INR k * u <= 2200 * u) by (apply Rmult_le_compat_r; lra).
    split; [auto|]. assert (Q3 : Rabs (B (FA k) - A k) <= 20 * u) by lra. split; [auto|]. apply Rabs_le_inv in Q3. apply Rabs_le. lra. }
  assert (HV : forall is, in_grid (counts_of [d]) is -> f_isfinite (v is) = true /\ Rabs (B (v is)) <= / 126).
  { intros is J. inversion J as [|? i ? js J1 J2]; subst. cbn in J1. unfold v. cbn [hd]. destruct (VA i ltac:(lia)) as (Q1 & _ & Q2). auto. }
  assert (C : cells d = (m + 7)%nat) by (unfold cells; cbn [d d_count]; lia).
  destruct (f_cubic_view_err data (/ 126)) with (dims := [d]) (off := 0%nat) (xs := [log q]) (v := v) as (z & Z1 & Z2 & Z3); auto.
  { apply Rle_trans with (bpow radix2 (-7)); [apply bpow_le; lia|cbn; lra]. }
  { cbn [length pow]. apply Rle_trans with 1; [lra|]. change 1 with (bpow radix2 0). apply bpow_le; lia. }
  { cbn [map budget]. rewrite C. fold N. apply Rle_trans with (bpow radix2 16); [cbn; lra|apply bpow_le; lia]. }
  exists z. split; [exact Z1|]. split; [exact Z2|]. cbn [map combine fst snd spline_nd budget length pow] in Z3. rewrite C in Z3. fold N in Z3. cbn [v hd] in Z3.
  set (g := fun k => B (FA k)) in *. change (spline (m + 7) (fun k : nat => B (v [k])) (place d (log q))) with (spline (m + 7) g (place d (log q))) in Z3.
  assert (PE : Rabs (place d (log q) - (Xq - T 0) / step) <= 100 * (200 * u) + 100 * (54100 * u)).
  { unfold place, position. rewrite C. fold N. cbn [d d_lower d_upper]. fold l h x. apply (place_err N l h x (T 0) Xq) with (H := T (m + 7)); try lra; apply Rabs_le; lra. }
  pose proof (spline_lip (m + 7) g (/ 126) ltac:(lra) (fun k Hk => proj2 (proj2 (VA k Hk))) ((Xq - T 0) / step) (place d (log q))) as SLi.
  pose proof (spline_diff (m + 7) g A (20 * u) ((Xq - T 0) / step) ltac:(lra) (fun k Hk => proj1 (proj2 (VA k Hk)))) as SD.
  rewrite <- T0. pose proof (tri3 (B z) (spline (m + 7) g (place d (log q))) (spline (m + 7) g ((Xq - T 0) / step)) (spline (m + 7) A ((Xq - T 0) / step))) as TT.
  replace (bpow radix2 (-35)) with (262144 * u) by (change (-35)%Z with (18 + -53)%Z; rewrite bpow_plus; f_equal; cbn; lra).
  assert (BU : 5 / 4 * 1 * (50 + 16 * N + 0) * u * / 126 <= 400 * u). { replace (5 / 4 * 1 * (50 + 16 * N + 0) * u * / 126) with (5 / 4 * / 126 * 50 * u + 5 / 4 * / 126 * 16 * (N * u)) by ring. lra. }
  lra.
Qed.
End Table.
