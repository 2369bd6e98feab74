(** Error of the three-point formula near R = 0. *)
From Coq Require Import Reals Lra Psatz.
From Coquelicot Require Import Coquelicot.
From Verif Require Import MathModel HadModel.
Local Open Scope R_scope.
Set Bullet Behavior "Strict Subproofs".

Lemma taylor2 f K h t : (forall s, 0 <= s <= 2 * h -> forall n, (n <= 3)%nat -> ex_derive_n f n s) ->
  (forall s, 0 <= s <= 2 * h -> Rabs (Derive_n f 3 s) <= K) -> 0 <= t <= 2 * h ->
  Rabs (f t - (f 0 + Derive_n f 1 0 * t + Derive_n f 2 0 / 2 * (t * t))) <= K / 6 * (t * t * t).
Proof.
  intros D B [H0 H1]. destruct (Req_dec t 0) as [->|n].
  { replace (f 0 - _) with 0 by ring. rewrite Rabs_R0. lra. }
  destruct (Taylor_Lagrange f 2 0 t) as (z & Hz & E); [lra| |].
  { intros s Hs k Hk. apply D; [lra|exact Hk]. }
  replace (f t - _) with (t * t * t / 6 * Derive_n f 3 z).
  - rewrite Rabs_mult. assert (Z := B z ltac:(lra)). assert (0 <= t * t * t) by (repeat apply Rmult_le_pos; lra).
    rewrite Rabs_right by lra. apply Rle_trans with (t * t * t / 6 * K); [apply Rmult_le_compat_l; lra|lra].
  - rewrite E. unfold sum_f_R0, fact. simpl INR. simpl pow. change (Derive_n f 0 0) with (f 0). field.
Qed.
Lemma diff_R_error f K R h : 0 < R <= h ->
  (forall s, 0 <= s <= 2 * h -> forall n, (n <= 3)%nat -> ex_derive_n f n s) ->
  (forall s, 0 <= s <= 2 * h -> Rabs (Derive_n f 3 s) <= K) ->
  Rabs (diff_R R h (f 0) (f h) (f (2 * h)) - (f R - f 0) / R) <= 7 / 6 * K * (h * h).
Proof.
  intros HR D B. assert (Hh : 0 < h) by lra.
  set (a := Derive_n f 1 0). set (b := Derive_n f 2 0 / 2).
  set (r := fun t => f t - (f 0 + a * t + b * (t * t))).
  assert (T : forall t, 0 <= t <= 2 * h -> Rabs (r t) <= K / 6 * (t * t * t)) by (intros t Ht; apply (taylor2 f K h t D B Ht)).
  assert (K0 : 0 <= K) by (eapply Rle_trans; [apply Rabs_pos|apply (B 0); lra]).
  replace (diff_R R h (f 0) (f h) (f (2 * h)) - (f R - f 0) / R)
    with ((2 - R / h) / h * r h + (R / h - 1) / (2 * h) * r (2 * h) + - / R * r R)
    by (unfold r, diff_R; cbv zeta; field; lra).
  assert (X : 0 <= R / h <= 1).
  { split; [apply Rmult_le_pos; [lra|left; apply Rinv_0_lt_compat; lra]|]. apply Rmult_le_reg_r with h; auto. unfold Rdiv. rewrite Rmult_assoc, Rinv_l by lra. lra. }
  assert (T1 := T h ltac:(lra)). assert (T2 := T (2 * h) ltac:(lra)). assert (T3 := T R ltac:(lra)).
  eapply Rle_trans; [apply Rabs_triang|]. eapply Rle_trans; [apply Rplus_le_compat_r, Rabs_triang|]. rewrite !Rabs_mult.
  assert (A1 : Rabs ((2 - R / h) / h) <= 2 / h).
  { rewrite Rabs_right; [apply Rmult_le_compat_r; [left; apply Rinv_0_lt_compat; auto|lra]|].
    apply Rle_ge, Rmult_le_pos; [lra|left; apply Rinv_0_lt_compat; auto]. }
  assert (A2 : Rabs ((R / h - 1) / (2 * h)) <= 1 / (2 * h)).
  { unfold Rdiv at 1. rewrite Rabs_mult. rewrite (Rabs_right (/ (2 * h))) by (apply Rle_ge; left; apply Rinv_0_lt_compat; lra).
    apply Rmult_le_compat_r; [left; apply Rinv_0_lt_compat; lra|]. rewrite Rabs_left1 by lra. lra. }
  assert (A3 : Rabs (- / R) = / R) by (rewrite Rabs_Ropp; apply Rabs_right; apply Rle_ge; left; apply Rinv_0_lt_compat; lra).
  rewrite A3. assert (I : 0 <= / R) by (left; apply Rinv_0_lt_compat; lra).
  assert (P1 : Rabs ((2 - R / h) / h) * Rabs (r h) <= 2 / h * (K / 6 * (h * h * h))) by (apply Rmult_le_compat; auto using Rabs_pos).
  assert (P2 : Rabs ((R / h - 1) / (2 * h)) * Rabs (r (2 * h)) <= 1 / (2 * h) * (K / 6 * (2 * h * (2 * h) * (2 * h)))) by (apply Rmult_le_compat; auto using Rabs_pos).
  assert (P3 : / R * Rabs (r R) <= / R * (K / 6 * (R * R * R))) by (apply Rmult_le_compat_l; auto).
  replace (2 / h * (K / 6 * (h * h * h))) with (K * (h * h) / 3) in P1 by (field; lra).
  replace (1 / (2 * h) * (K / 6 * (2 * h * (2 * h) * (2 * h)))) with (2 / 3 * K * (h * h)) in P2 by (field; lra).
  replace (/ R * (K / 6 * (R * R * R))) with (K / 6 * (R * R)) in P3 by (field; lra).
  assert (P4 : K / 6 * (R * R) <= K / 6 * (h * h)) by (apply Rmult_le_compat_l; [lra|apply Rmult_le_compat; lra]).
  lra.
Qed.
