(** C67: running of the electromagnetic coupling.  C82: hadronic vacuum polarization. *)
From Coq Require Import Reals List Lia Lra.
From Coquelicot Require Import Coquelicot.
From Verif Require Import ExtModel XsModel PhenomModel PhenomSpec PhenomRK PhenomProofs PhenomFinal VacHadProofs.
Local Open Scope R_scope.

(** The loop that fills the table ends, whatever bound above a fixed number is put on its rounds, and always with the
    same table. From one table spacing above the electron mass up to Q^2 = 100 the coupling solves the two-loop
    equation with alpha(m_e^2) = 1/137.03599, to better than 10^-6 in ln Q^2. *)
Theorem C67_two_loop_running : exists rounds grid, (forall fuel, (rounds <= fuel)%nat -> alpha_qed_grid fuel = Some grid) /\
  forall Q_sq, MASS_E ^ 2 * exp (1 / 100) <= Q_sq <= 100 ->
    exists alpha, alpha_qed grid (Fin Q_sq) = Some (Fin alpha) /\ 0 < alpha <= 1 / 127 /\
      forall Phi, evolution_time beta_two_loop Phi -> Rabs (Phi alpha - Phi ALPHA_QED_0 - ln (Q_sq / MASS_E ^ 2)) <= 1 / 10 ^ 6.
Proof.
  destruct ends_exists as (m & E & M). exists (m + 7)%nat, (grid_of m). split; [intros fuel F; exact (grid_is m fuel E F)|].
  intros Q H. exact (running m Q E (proj2 M) H).
Qed.
Print Assumptions C67_two_loop_running.
(** Above 100 it solves the one-loop equation from the value at 100. The upper end is beyond every double. *)
Theorem C67_one_loop_running : exists rounds grid, (forall fuel, (rounds <= fuel)%nat -> alpha_qed_grid fuel = Some grid) /\
  forall Q_sq, 100 <= Q_sq <= 100 * exp 1000 ->
    exists alpha_100 alpha, alpha_qed grid (Fin 100) = Some (Fin alpha_100) /\ alpha_qed grid (Fin Q_sq) = Some (Fin alpha) /\ 0 < alpha_100 <= alpha /\
      forall Phi, evolution_time beta_one_loop Phi -> Phi alpha - Phi alpha_100 = ln (Q_sq / 100).
Proof.
  destruct ends_exists as (m & E & M). exists (m + 7)%nat, (grid_of m). split; [intros fuel F; exact (grid_is m fuel E F)|].
  intros Q H. exact (continuation m Q E (proj2 M) H).
Qed.
Print Assumptions C67_one_loop_running.
(** Finite and continuous everywhere above the electron mass, also where the two branches meet. *)
Theorem C67_continuous : exists rounds grid, (forall fuel, (rounds <= fuel)%nat -> alpha_qed_grid fuel = Some grid) /\
  forall Q_sq, MASS_E ^ 2 < Q_sq < 100 * exp 1000 ->
    (exists alpha, alpha_qed grid (Fin Q_sq) = Some (Fin alpha)) /\ continuous (fun Q_sq => number (alpha_qed grid (Fin Q_sq))) Q_sq.
Proof.
  destruct ends_exists as (m & E & M). exists (m + 7)%nat, (grid_of m). split; [intros fuel F; exact (grid_is m fuel E F)|].
  intros Q H. exact (continuous_running m Q E (proj2 M) H).
Qed.
Print Assumptions C67_continuous.
(** Violated in the first cell of the table: the interpolation takes the missing neighbour to be zero. At
    Q^2 = m_e^2 exp(1/300) the coupling is more than 5% too large: reaching that value would take ln Q^2 to 50. *)
Theorem C67_first_cell_refuted : exists rounds grid, (forall fuel, (rounds <= fuel)%nat -> alpha_qed_grid fuel = Some grid) /\
  exists Q_sq alpha, MASS_E ^ 2 < Q_sq < MASS_E ^ 2 * exp (1 / 100) /\ alpha_qed grid (Fin Q_sq) = Some (Fin alpha) /\ 105 / 100 * ALPHA_QED_0 < alpha /\
    ln (Q_sq / MASS_E ^ 2) = 1 / 300 /\ forall Phi, evolution_time beta_two_loop Phi -> 50 < Phi alpha - Phi ALPHA_QED_0.
Proof.
  destruct ends_exists as (m & E & M). exists (m + 7)%nat, (grid_of m). split; [intros fuel F; exact (grid_is m fuel E F)|].
  destruct (first_cell m E) as (v & V & B & T). exists (MASS_E ^ 2 * exp (1 / 300)), v. pose proof mm_pos as MP.
  assert (E1 : 1 < exp (1 / 300)) by (pose proof (exp_increasing 0 (1 / 300) ltac:(lra)) as E1; rewrite exp_0 in E1; exact E1). assert (E2 : exp (1 / 300) < exp (1 / 100)) by (apply exp_increasing; lra).
  split; [split; [rewrite <- (Rmult_1_r (MASS_E ^ 2)) at 1|]; apply Rmult_lt_compat_l; lra|]. split; [exact V|]. split; [exact B|]. split; [|exact T].
  replace (MASS_E ^ 2 * exp (1 / 300) / MASS_E ^ 2) with (exp (1 / 300)) by (field; unfold MASS_E; lra). apply ln_exp.
Qed.
Print Assumptions C67_first_cell_refuted.
(** Violated below the electron mass: not a number, in particular for the default argument Q^2 = 0. *)
Theorem C67_default_refuted : exists rounds grid, (forall fuel, (rounds <= fuel)%nat -> alpha_qed_grid fuel = Some grid) /\
  alpha_qed_default grid = Some NaN /\ forall Q_sq, Q_sq < MASS_E ^ 2 -> alpha_qed grid (Fin Q_sq) = Some NaN.
Proof.
  destruct ends_exists as (m & E & M). exists (m + 7)%nat, (grid_of m). split; [intros fuel F; exact (grid_is m fuel E F)|].
  split; [apply under; apply mm_pos|intros Q H; exact (under m Q H)].
Qed.
Print Assumptions C67_default_refuted.
(** The loop has one outcome, so the tables above are the same table. *)
Theorem C67_one_table r r' g g' : (forall fuel, (r <= fuel)%nat -> alpha_qed_grid fuel = Some g) -> (forall fuel, (r' <= fuel)%nat -> alpha_qed_grid fuel = Some g') -> g = g'.
Proof. intros H H'. pose proof (H (r + r')%nat ltac:(lia)) as A1. rewrite (H' (r + r')%nat ltac:(lia)) in A1. congruence. Qed.
Print Assumptions C67_one_table.

(** C82: hadronic vacuum polarization. *)
Theorem C82_positive_increasing Q_sq Q_sq' : 0 <= Q_sq < Q_sq' -> 0 < delta_vac_had Q_sq < delta_vac_had Q_sq'.
Proof. intros H. split; [apply vac_pos; lra|apply had_up, had_mono; exact H]. Qed.
Print Assumptions C82_positive_increasing.
(** The three fits agree to 1% where they meet. *)
Theorem C82_joints Q_sq : (99 / 100 <= Q_sq < 1 -> 99 / 100 * delta_vac_had 1 < delta_vac_had Q_sq < delta_vac_had 1) /\
  (639 / 10 <= Q_sq < 64 -> 99 / 100 * delta_vac_had 64 < delta_vac_had Q_sq < delta_vac_had 64).
Proof. split; intros H; (split; [apply had_scale'; first [apply near_1; lra|apply near_64; lra]|apply had_up, had_mono; lra]). Qed.
Print Assumptions C82_joints.
(** Not continuous there: every value below a joint is at least 0.3% (0.6%) below the value at the joint. *)
Theorem C82_continuous_refuted : (forall Q_sq, 0 <= Q_sq < 1 -> delta_vac_had Q_sq < (1 - 3 / 1000) * delta_vac_had 1) /\
  (forall Q_sq, 0 <= Q_sq < 64 -> delta_vac_had Q_sq < (1 - 6 / 1000) * delta_vac_had 64).
Proof. split; intros Q H; apply had_scale; [apply below_1; exact H|apply below_64; exact H]. Qed.
Print Assumptions C82_continuous_refuted.

(** Antiderivatives of the kind quantified over exist. *)
Example ex_two_loop : evolution_time beta_two_loop (fun alpha => let x := alpha / (4 * PI) in 3 / 4 * (- (1 / x) - 3 * ln x + 3 * ln (1 + 3 * x))).
Proof.
  intros a Ha. pose proof PI3 as P. assert (X : 0 < a / (4 * PI)) by (apply Rdiv_lt_0_compat; lra). cbv zeta.
  auto_derive; [unfold Rdiv in X; repeat split; lra|]. unfold beta_two_loop. field. repeat split; lra.
Qed.
Example ex_one_loop : evolution_time beta_one_loop (fun alpha => - (3 * PI / alpha)).
Proof. intros a Ha. pose proof PI3 as P. auto_derive; [lra|]. unfold beta_one_loop. field. lra. Qed.
(** Q^2 = 1, 4 and 1000 are in the ranges of the theorems. *)
Example ex_ranges : MASS_E ^ 2 * exp (1 / 100) <= 1 <= 100 /\ MASS_E ^ 2 < 4 < 100 * exp 1000 /\ 100 <= 1000 <= 100 * exp 1000.
Proof. pose proof edge_below. pose proof mm_pos. pose proof (exp_ineq1_le 1000). lra. Qed.
Example ex_vac : 0 < delta_vac_had (1 / 2) < delta_vac_had 2.
Proof. apply C82_positive_increasing. lra. Qed.
