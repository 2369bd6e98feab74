(** One step of the table is accurate to second order in the change of the coupling. *)
From Coq Require Import Reals Lra.
From Coquelicot Require Import Coquelicot.
From Verif Require Import PhenomModel PhenomSpec.
Set Bullet Behavior "Strict Subproofs".
Local Open Scope R_scope.

Section Step.
Variables (x : R).
Hypothesis Hx : 0 < x <= 1 / 1000.
Let w := x / 75.
Let a := 1 + 3 * x.
Let m := 2 * a + 3 * x.
Definition q (e : R) := (1 + e) * (1 + e) * (1 + 3 * x * (1 + e)).
Let nn e := a + 6 * x + 3 * x * e.
Lemma q_is e : q e = a + e * m + e * e * nn e.
Proof. unfold q, m, nn, a. ring. Qed.
Definition q1 := q 0.
Definition e2 := w * q1 / 2.
Definition q2 := q e2.
Definition e3 := w * q2 / 2.
Definition q3 := q e3.
Definition e4 := w * q3.
Definition q4 := q e4.
Definition s := (q1 + 2 * q2 + 2 * q3 + q4) / 6.
Lemma w_bounds : 0 < w <= 1 / 75000.
Proof. unfold w. lra. Qed.
Lemma a_bounds : 1 < a <= 1003 / 1000.
Proof. unfold a. lra. Qed.
Lemma m_bounds : 2 * a < m <= 2 * a + 3 / 1000.
Proof. unfold m. lra. Qed.
Lemma q_bounds e : 0 <= e <= 1 / 10000 -> exists n, q e = a + e * m + e * e * n /\ a <= n <= 102 / 100.
Proof.
  intros He. exists (nn e). split; [apply q_is|]. unfold nn. pose proof a_bounds.
  assert (0 <= x * e <= 1 / 1000 * (1 / 10000)) by (split; [apply Rmult_le_pos; lra|apply Rmult_le_compat; lra]).
  replace (3 * x * e) with (3 * (x * e)) by ring. lra.
Qed.
Lemma mul_le p r P Q : 0 <= p <= P -> 0 <= r <= Q -> 0 <= p * r <= P * Q.
Proof. intros [A B] [C D]. split; [apply Rmult_le_pos; assumption|apply Rmult_le_compat; assumption]. Qed.
Lemma s_bounds : exists rho, s = a + w * a * m / 2 + rho /\ 0 <= rho <= 2 * (w * w).
Proof.
  pose proof w_bounds as W. pose proof a_bounds as A. pose proof m_bounds as M.
  assert (Q1 : q1 = a) by (unfold q1, q, a; ring).
  assert (WA := mul_le w a _ _ ltac:(split; [apply Rlt_le|]; apply W) (conj (Rlt_le _ _ (Rlt_trans _ _ _ Rlt_0_1 (proj1 A))) (proj2 A))).
  assert (E2 : e2 = w * a / 2) by (unfold e2; rewrite Q1; reflexivity).
  destruct (q_bounds e2) as (n2 & H2 & N2); [rewrite E2; lra|].
  (* w-multiples *)
  assert (B2 : 0 <= e2 <= 51 / 100 * w).
  { rewrite E2. split; [lra|]. assert (w * a <= w * (102 / 100)) by (apply Rmult_le_compat_l; lra). lra. }
  assert (B2' : 0 <= e2 * m <= (51 / 100 * w) * (201 / 100)) by (apply mul_le; lra).
  assert (B2'' : 0 <= e2 * e2 <= (51 / 100 * w) * (51 / 100 * w)) by (apply mul_le; lra).
  assert (B2n : 0 <= e2 * e2 * n2 <= (51 / 100 * w) * (51 / 100 * w) * (102 / 100)) by (apply mul_le; lra).
  assert (WW : 0 <= w * w <= w * (1 / 75000)) by (split; [apply Rmult_le_pos; lra|apply Rmult_le_compat_l; lra]).
  assert (WW' : (51 / 100 * w) * (51 / 100 * w) = 2601 / 10000 * (w * w)) by field.
  assert (D3 : exists d3, e3 = w * a / 2 + d3 /\ 0 <= d3 <= 55 / 100 * (w * w)).
  { exists (w * (e2 * m + e2 * e2 * n2) / 2). split; [unfold e3, q2; rewrite H2; field|].
    assert (0 <= w * (e2 * m + e2 * e2 * n2) <= w * (11 / 10 * w)); [|lra].
    split; [apply Rmult_le_pos; lra|apply Rmult_le_compat_l; lra]. }
  destruct D3 as (d3 & E3 & D3).
  assert (B3 : 0 <= e3 <= 52 / 100 * w).
  { rewrite E3. assert (w * a <= w * (1003 / 1000)) by (apply Rmult_le_compat_l; lra). lra. }
  destruct (q_bounds e3) as (n3 & H3 & N3); [lra|].
  assert (B3' : 0 <= e3 * m <= (52 / 100 * w) * (201 / 100)) by (apply mul_le; lra).
  assert (B3'' : 0 <= e3 * e3 <= (52 / 100 * w) * (52 / 100 * w)) by (apply mul_le; lra).
  assert (B3n : 0 <= e3 * e3 * n3 <= (52 / 100 * w) * (52 / 100 * w) * (102 / 100)) by (apply mul_le; lra).
  assert (WW3 : (52 / 100 * w) * (52 / 100 * w) = 2704 / 10000 * (w * w)) by field.
  assert (D4 : exists d4, e4 = w * a + d4 /\ 0 <= d4 <= 11 / 10 * (w * w)).
  { exists (w * (e3 * m + e3 * e3 * n3)). split; [unfold e4, q3; rewrite H3; ring|].
    assert (0 <= w * (e3 * m + e3 * e3 * n3) <= w * (11 / 10 * w)); [|lra].
    split; [apply Rmult_le_pos; lra|apply Rmult_le_compat_l; lra]. }
  destruct D4 as (d4 & E4 & D4).
  assert (B4 : 0 <= e4 <= 102 / 100 * w).
  { rewrite E4. assert (w * a <= w * (1003 / 1000)) by (apply Rmult_le_compat_l; lra). lra. }
  destruct (q_bounds e4) as (n4 & H4 & N4); [lra|].
  assert (B4'' : 0 <= e4 * e4 <= (102 / 100 * w) * (102 / 100 * w)) by (apply mul_le; lra).
  assert (B4n : 0 <= e4 * e4 * n4 <= (102 / 100 * w) * (102 / 100 * w) * (102 / 100)) by (apply mul_le; lra).
  assert (WW4 : (102 / 100 * w) * (102 / 100 * w) = 10404 / 10000 * (w * w)) by field.
  exists ((m * (2 * d3 + d4) + (2 * (e2 * e2 * n2) + 2 * (e3 * e3 * n3) + e4 * e4 * n4)) / 6). split.
  - unfold s. rewrite Q1. unfold q2, q3, q4. rewrite H2, H3, H4.
    replace (e2 * m) with (w * a / 2 * m) by (rewrite E2; ring).
    replace (e3 * m) with ((w * a / 2 + d3) * m) by (rewrite <- E3; ring).
    replace (e4 * m) with ((w * a + d4) * m) by (rewrite <- E4; ring). field.
  - assert (MD : 0 <= m * (2 * d3 + d4) <= (201 / 100) * (22 / 10 * (w * w))) by (apply mul_le; lra). lra.
Qed.
Lemma s_range : a <= s <= a * (1 + 2 * w).
Proof.
  pose proof w_bounds as W. pose proof a_bounds as A. pose proof m_bounds as M. destruct s_bounds as (r & -> & B).
  assert (WA : 0 <= w * a) by (apply Rmult_le_pos; lra).
  assert (w * 1 <= w * a) by (apply Rmult_le_compat_l; lra).
  assert (w * a * 1 <= w * a * m / 2 <= w * a * (202 / 200)).
  { replace (w * a * m / 2) with (w * a * (m / 2)) by field. split; apply Rmult_le_compat_l; lra. }
  assert (w * w <= 1 / 75000 * (w * a)).
  { apply Rle_trans with (1 / 75000 * w); [apply Rmult_le_compat_r; lra|lra]. }
  replace (a * (1 + 2 * w)) with (a + 2 * (w * a)) by ring. lra.
Qed.
Definition D := w * s.
Lemma D_bounds : 0 < D <= 102 / 100 * w.
Proof.
  pose proof w_bounds as W. pose proof a_bounds as A. pose proof m_bounds as M. destruct s_bounds as (r & E & B). unfold D.
  assert (WA : 0 <= w * a <= 1 / 75000 * (1003 / 1000)) by (apply mul_le; lra).
  assert (WAM : 0 <= w * a * m <= 1 / 75000 * (1003 / 1000) * (201 / 100)) by (apply mul_le; lra).
  assert (WW : 0 <= w * w <= 1 / 75000 * (1 / 75000)) by (apply mul_le; lra).
  split; [apply Rmult_lt_0_compat; lra|]. rewrite (Rmult_comm (102 / 100)). apply Rmult_le_compat_l; lra.
Qed.
Lemma rk4_is : rk4 (4 * PI * x) = 4 * PI * (x * (1 + D)).
Proof.
  pose proof PI_neq0 as P. unfold rk4, beta_qed, BETA_0, NF, step, D, s, q4, e4, q3, e3, q2, e2, q1, q. cbv zeta. unfold w. field. exact P.
Qed.

(** The integrand of the evolution time over one step. *)
Lemma g_low e : 0 <= e <= 1 / 10000 -> 1 / a - m / (a * a) * e <= / q e.
Proof.
  intros He. pose proof a_bounds as A. pose proof m_bounds as M. destruct (q_bounds e He) as (n & -> & N).
  assert (0 < a + e * m + e * e * n).
  { assert (0 <= e * m) by (apply Rmult_le_pos; lra). assert (0 <= e * e * n) by (apply Rmult_le_pos; [apply Rle_0_sqr|lra]). lra. }
  apply Rmult_le_reg_r with ((a * a) * (a + e * m + e * e * n)); [apply Rmult_lt_0_compat; [apply Rmult_lt_0_compat|]; lra|].
  replace ((1 / a - m / (a * a) * e) * (a * a * (a + e * m + e * e * n))) with (a * a + e * e * (a * n - m * m - m * n * e)) by (field; lra).
  replace (/ (a + e * m + e * e * n) * (a * a * (a + e * m + e * e * n))) with (a * a) by (field; lra).
  assert (a * n <= 1003 / 1000 * (102 / 100)) by (apply Rmult_le_compat; lra).
  assert (2 * 2 <= m * m) by (apply Rmult_le_compat; lra).
  assert (0 <= m * n * e) by (repeat apply Rmult_le_pos; lra).
  assert (0 <= e * e) by apply Rle_0_sqr. assert (e * e * (a * n - m * m - m * n * e) <= e * e * 0) by (apply Rmult_le_compat_l; lra). lra.
Qed.
Lemma g_high e : 0 <= e <= 1 / 10000 -> / q e <= 1 / a - m / (a * a) * e + 4 * (e * e).
Proof.
  intros He. pose proof a_bounds as A. pose proof m_bounds as M. destruct (q_bounds e He) as (n & -> & N).
  assert (0 < a + e * m + e * e * n).
  { assert (0 <= e * m) by (apply Rmult_le_pos; lra). assert (0 <= e * e * n) by (apply Rmult_le_pos; [apply Rle_0_sqr|lra]). lra. }
  apply Rmult_le_reg_r with ((a * a) * (a + e * m + e * e * n)); [apply Rmult_lt_0_compat; [apply Rmult_lt_0_compat|]; lra|].
  replace ((1 / a - m / (a * a) * e + 4 * (e * e)) * (a * a * (a + e * m + e * e * n)))
    with (a * a + e * e * (a * n - m * m + 4 * (a * a * a) + e * (m * (4 * (a * a) - n)) + 4 * (a * a) * n * (e * e))) by (field; lra).
  replace (/ (a + e * m + e * e * n) * (a * a * (a + e * m + e * e * n))) with (a * a) by (field; lra).
  assert (1 * 1 <= a * n) by (apply Rmult_le_compat; lra).
  assert (m * m <= 201 / 100 * (201 / 100)) by (apply Rmult_le_compat; lra).
  assert (1 * 1 <= a * a) by (apply Rmult_le_compat; lra). assert (1 * 1 <= a * a * a) by (apply Rmult_le_compat; lra).
  assert (0 <= m * (4 * (a * a) - n)) by (apply Rmult_le_pos; lra).
  assert (0 <= e * (m * (4 * (a * a) - n))) by (apply Rmult_le_pos; lra).
  assert (0 <= e * e) by apply Rle_0_sqr.
  assert (0 <= 4 * (a * a) * n * (e * e)) by (repeat apply Rmult_le_pos; lra).
  match goal with |- _ <= _ + e * e * ?t => assert (0 <= e * e * t) by (apply Rmult_le_pos; [assumption|lra]) end. lra.
Qed.
Section Time.
Variable Phi : R -> R.
Hypothesis HP : evolution_time beta_two_loop Phi.
Let G e := Phi (4 * PI * (x * (1 + e))).
Lemma G_derive e : 0 <= e -> is_derive G e (75 / (100 * x) * / q e).
Proof.
  intros He. pose proof PI_RGT_0 as P.
  assert (0 < 4 * PI * (x * (1 + e))) by (apply Rmult_lt_0_compat; [lra|apply Rmult_lt_0_compat; lra]).
  replace (75 / (100 * x) * / q e) with (scal (4 * PI * x) (/ beta_two_loop (4 * PI * (x * (1 + e))))).
  - unfold G. apply (is_derive_comp Phi (fun e => 4 * PI * (x * (1 + e)))); [apply HP; assumption|]. auto_derive; [exact I|]. ring.
  - unfold scal. cbn. unfold mult. cbn. unfold beta_two_loop, q.
    assert (0 < 1 + 3 * x * (1 + e)) by (assert (0 <= x * (1 + e)) by (apply Rmult_le_pos; lra); lra).
    field. repeat split; try lra.
Qed.
Lemma incr (f g : R -> R) d : 0 <= d -> (forall t, 0 <= t <= d -> is_derive f t (g t)) -> (forall t, 0 <= t <= d -> 0 <= g t) -> f 0 <= f d.
Proof.
  intros Hd Hf Hg. destruct (MVT_gen f 0 d g) as (c & Hc & E).
  - rewrite Rmin_left, Rmax_right by lra. intros t Ht. apply Hf. lra.
  - rewrite Rmin_left, Rmax_right by lra. intros t Ht. apply derivable_continuous_pt. exists (g t). apply is_derive_Reals. apply Hf. lra.
  - rewrite Rmin_left, Rmax_right in Hc by lra. pose proof (Rmult_le_pos _ _ (Hg c Hc) Hd). rewrite Rminus_0_r in E. lra.
Qed.
Lemma step_time : Rabs (Phi (rk4 (4 * PI * x)) - Phi (4 * PI * x) - step) <= step * (4 * (w * w)).
Proof.
  pose proof w_bounds as W. pose proof a_bounds as A. pose proof m_bounds as M. pose proof D_bounds as DB. destruct s_bounds as (r & Es & Br).
  rewrite rk4_is. change (Phi (4 * PI * (x * (1 + D)))) with (G D).
  replace (Phi (4 * PI * x)) with (G 0) by (unfold G; f_equal; ring).
  set (c := 75 / (100 * x)). assert (C : 0 < c) by (unfold c; apply Rdiv_lt_0_compat; lra).
  assert (CW : c * w = step) by (unfold c, w, step; field; lra).
  assert (L : c * (D / a - m / (2 * (a * a)) * (D * D)) <= G D - G 0).
  { pose proof (incr (fun t => G t - c * (t / a - m / (2 * (a * a)) * (t * t))) (fun t => c * (/ q t - (1 / a - m / (a * a) * t))) D (Rlt_le _ _ (proj1 DB))) as H.
    cbv beta in H. assert (c * (0 / a - m / (2 * (a * a)) * (0 * 0)) = 0) by (field; lra). cut (G 0 - c * (0 / a - m / (2 * (a * a)) * (0 * 0)) <= G D - c * (D / a - m / (2 * (a * a)) * (D * D))); [lra|].
    apply H.
    - intros t Ht. replace (c * (/ q t - (1 / a - m / (a * a) * t))) with (minus (75 / (100 * x) * / q t) (c * (1 / a - m / (a * a) * t))) by (unfold minus, plus, opp; cbn; fold c; ring).
      apply @is_derive_minus; [apply G_derive; lra|]. auto_derive; [exact I|]. field. lra.
    - intros t Ht. apply Rmult_le_pos; [lra|]. pose proof (g_low t ltac:(lra)). lra. }
  assert (U : G D - G 0 <= c * (D / a - m / (2 * (a * a)) * (D * D) + 4 / 3 * (D * D * D))).
  { pose proof (incr (fun t => c * (t / a - m / (2 * (a * a)) * (t * t) + 4 / 3 * (t * t * t)) - G t) (fun t => c * ((1 / a - m / (a * a) * t + 4 * (t * t)) - / q t)) D (Rlt_le _ _ (proj1 DB))) as H.
    cbv beta in H. assert (c * (0 / a - m / (2 * (a * a)) * (0 * 0) + 4 / 3 * (0 * 0 * 0)) = 0) by (field; lra).
    cut (c * (0 / a - m / (2 * (a * a)) * (0 * 0) + 4 / 3 * (0 * 0 * 0)) - G 0 <= c * (D / a - m / (2 * (a * a)) * (D * D) + 4 / 3 * (D * D * D)) - G D); [lra|].
    apply H.
    - intros t Ht. replace (c * ((1 / a - m / (a * a) * t + 4 * (t * t)) - / q t)) with (minus (c * (1 / a - m / (a * a) * t + 4 * (t * t))) (75 / (100 * x) * / q t)) by (unfold minus, plus, opp; cbn; fold c; ring).
      apply @is_derive_minus; [|apply G_derive; lra]. auto_derive; [exact I|]. field. lra.
    - intros t Ht. apply Rmult_le_pos; [lra|]. pose proof (g_high t ltac:(lra)). lra. }
  (* D / a = w (1 + u), u = w m / 2 + r / a *)
  set (u := w * m / 2 + r / a).
  assert (Da : D / a = w * (1 + u)) by (unfold D, u; rewrite Es; field; lra).
  assert (WM : 0 <= w * m <= w * (201 / 100)) by (split; [apply Rmult_le_pos|apply Rmult_le_compat_l]; lra).
  assert (WW : 0 <= w * w <= w * (1 / 75000)) by (split; [apply Rmult_le_pos; lra|apply Rmult_le_compat_l; lra]).
  assert (RA : 0 <= r / a <= r).
  { split; [apply Rmult_le_pos; [lra|left; apply Rinv_0_lt_compat; lra]|]. rewrite <- (Rmult_1_r r) at 2. apply Rmult_le_compat_l; [lra|]. rewrite <- Rinv_1. apply Rinv_le_contravar; lra. }
  assert (UB : 0 <= u <= 101 / 100 * w) by (unfold u; lra).
  assert (ED : D / a - m / (2 * (a * a)) * (D * D) = w * (1 + u) - m / 2 * (w * w) * ((1 + u) * (1 + u))).
  { rewrite <- Da. replace (m / (2 * (a * a)) * (D * D)) with (m / 2 * ((D / a) * (D / a))) by (field; lra). rewrite Da. ring. }
  assert (ER : w * (1 + u) - m / 2 * (w * w) * ((1 + u) * (1 + u)) = w + w * (r / a) - m / 2 * (w * w) * (2 * u + u * u)) by (unfold u; field; lra).
  assert (UU : 0 <= u * u <= 1 / 1000 * w) by (assert (0 <= u * u <= (101 / 100 * w) * (101 / 100 * w)) by (apply mul_le; lra); lra).
  assert (T1 : 0 <= m / 2 * (w * w) * (2 * u + u * u) <= (102 / 100 * (w * w)) * (203 / 100 * w)).
  { apply mul_le; [|lra]. split; [apply Rmult_le_pos; lra|apply Rmult_le_compat_r; lra]. }
  assert (T2 : 0 <= w * (r / a) <= w * (2 * (w * w))) by (split; [apply Rmult_le_pos; lra|apply Rmult_le_compat_l; lra]).
  assert (T3 : 0 <= D * D * D <= (102 / 100 * w) * (102 / 100 * w) * (102 / 100 * w)) by (apply mul_le; [apply mul_le; lra|lra]).
  assert (W3 : 0 <= w * w * w) by (apply Rmult_le_pos; lra).
  rewrite ED, ER in L, U. rewrite <- CW.
  assert (L' : c * (w - 4 * (w * w * w)) <= G D - G 0) by (eapply Rle_trans; [apply Rmult_le_compat_l; [lra|]|exact L]; lra).
  assert (U' : G D - G 0 <= c * (w + 4 * (w * w * w))) by (eapply Rle_trans; [exact U|apply Rmult_le_compat_l; lra]).
  apply Rabs_le. replace (c * w * (4 * (w * w))) with (c * (4 * (w * w * w))) by ring. rewrite Rmult_minus_distr_l in L'. rewrite Rmult_plus_distr_l in U'. lra.
Qed.
Lemma q_range e : 0 <= e <= 1 / 10000 -> a <= q e <= a * (1 + 21 / 10 * e).
Proof.
  intros He. pose proof a_bounds as A. pose proof m_bounds as M. destruct (q_bounds e He) as (n & -> & N).
  assert (0 <= e * m <= e * (2 * a + 3 / 1000)) by (split; [apply Rmult_le_pos|apply Rmult_le_compat_l]; lra).
  assert (0 <= e * e <= 1 / 10000 * e) by (split; [apply Rle_0_sqr|apply Rmult_le_compat_r; lra]).
  assert (0 <= e * e * n <= (1 / 10000 * e) * (102 / 100)) by (apply mul_le; lra).
  assert (e * 1 <= e * a) by (apply Rmult_le_compat_l; lra). lra.
Qed.
(** A fraction of a step. *)
Lemma part_time th : 0 <= th <= 1 -> Rabs (Phi (4 * PI * (x * (1 + th * D))) - Phi (4 * PI * x) - step * th) <= step * (3 / 100000).
Proof.
  intros Ht. pose proof w_bounds as W. pose proof a_bounds as A. pose proof D_bounds as DB. pose proof s_range as SR.
  change (Phi (4 * PI * (x * (1 + th * D)))) with (G (th * D)).
  replace (Phi (4 * PI * x)) with (G 0) by (unfold G; f_equal; ring).
  set (c := 75 / (100 * x)). assert (C : 0 < c) by (unfold c; apply Rdiv_lt_0_compat; lra).
  assert (CW : c * w = step) by (unfold c, w, step; field; lra).
  set (e := th * D). assert (E0 : 0 <= e <= D).
  { unfold e. split; [apply Rmult_le_pos; lra|]. rewrite <- (Rmult_1_l D) at 2. apply Rmult_le_compat_r; lra. }
  assert (AQ : 0 < a * (1 + 21 / 10 * D)) by (apply Rmult_lt_0_compat; lra).
  set (lo := / (a * (1 + 21 / 10 * D))). assert (LO : 0 < lo) by (unfold lo; apply Rinv_0_lt_compat; exact AQ).
  assert (L : c * lo * e <= G e - G 0).
  { pose proof (incr (fun t => G t - c * lo * t) (fun t => c * (/ q t - lo)) e (proj1 E0)) as H. cbv beta in H. cut (G 0 - c * lo * 0 <= G e - c * lo * e); [lra|]. apply H.
    - intros t T. replace (c * (/ q t - lo)) with (minus (75 / (100 * x) * / q t) (c * lo)) by (unfold minus, plus, opp; cbn; fold c; ring).
      apply @is_derive_minus; [apply G_derive; lra|]. auto_derive; [exact I|]. ring.
    - intros t T. apply Rmult_le_pos; [lra|]. destruct (q_range t ltac:(lra)) as [Q1 Q2]. unfold lo.
      assert (/ (a * (1 + 21 / 10 * D)) <= / q t); [|lra]. apply Rinv_le_contravar; [lra|]. eapply Rle_trans; [exact Q2|]. apply Rmult_le_compat_l; lra. }
  assert (U : G e - G 0 <= c * / a * e).
  { pose proof (incr (fun t => c * / a * t - G t) (fun t => c * (/ a - / q t)) e (proj1 E0)) as H. cbv beta in H. cut (c * / a * 0 - G 0 <= c * / a * e - G e); [lra|]. apply H.
    - intros t T. replace (c * (/ a - / q t)) with (minus (c * / a) (75 / (100 * x) * / q t)) by (unfold minus, plus, opp; cbn; fold c; ring).
      apply @is_derive_minus; [|apply G_derive; lra]. auto_derive; [exact I|]. ring.
    - intros t T. apply Rmult_le_pos; [lra|]. destruct (q_range t ltac:(lra)) as [Q1 Q2].
      assert (/ q t <= / a); [|lra]. apply Rinv_le_contravar; lra. }
  assert (SA : 1 <= s / a <= 1 + 2 * w).
  { split; apply Rmult_le_reg_r with a; try lra; unfold Rdiv; rewrite Rmult_assoc, Rinv_l by lra; lra. }
  assert (U' : c * / a * e = step * th * (s / a)) by (rewrite <- CW; unfold e, D; field; lra).
  assert (L' : c * lo * e = step * th * (s / a) * / (1 + 21 / 10 * D)) by (rewrite <- CW; unfold e, lo, D; field; split; [|lra]; fold D; lra).
  assert (I1 : 1 - 21 / 10 * D <= / (1 + 21 / 10 * D)).
  { apply Rmult_le_reg_r with (1 + 21 / 10 * D); [lra|]. rewrite Rinv_l by lra. assert (0 <= D * D) by apply Rle_0_sqr. lra. }
  assert (ST : 0 <= step * th <= step) by (unfold step; lra).
  assert (B1 : step * th * (s / a) <= step * th * (1 + 2 * w)) by (apply Rmult_le_compat_l; lra).
  assert (B2 : step * th * 1 <= step * th * (s / a)) by (apply Rmult_le_compat_l; lra).
  assert (B3 : step * th * (1 - 21 / 10 * D) <= step * th * (s / a) * / (1 + 21 / 10 * D)) by (apply Rmult_le_compat; lra).
  assert (B4 : step * th * (2 * w) <= step * (3 / 100000)) by (apply Rmult_le_compat; lra).
  assert (B5 : step * th * (21 / 10 * D) <= step * (3 / 100000)) by (apply Rmult_le_compat; lra).
  rewrite L' in L. rewrite U' in U. apply Rabs_le. lra.
Qed.
End Time.
End Step.
