(** C100: constants, masses, charges and names. *)
From Coq Require Import Reals ZArith Lia Lra String.
From Flocq Require Import Core.
From Verif Require Import TextModel ParticleModel ConstModel ConstSpec ConstProofs ConstNear.
Local Open Scope R_scope.

(** Every digit written of pi, e and the square root of two is right, the last one being rounded. *)
Theorem C100_digits c x : meaning c = Some x -> Rabs (x - literal c) <= / 2 * / IZR (10 ^ decimals c).
Proof. exact (digits_right c x). Qed.
Print Assumptions C100_digits.
(** The constants are the doubles nearest to the numbers they stand for, although they are rounded twice. *)
Theorem C100_doubles p emin c : long_double p emin -> constant p emin c = RN (literal c) /\ forall x, meaning c = Some x -> constant p emin c = RN x.
Proof.
  intros L. rewrite (constant_is p emin c L). split; [symmetry; apply near_lit|intros x X; symmetry; apply near_meaning; exact X].
  unfold Rminus. rewrite Rplus_opp_r, Rabs_R0. apply Rmult_le_pos; [left; apply Rinv_0_lt_compat, IZR_lt; reflexivity|apply Rle_trans with (2 := proj1 (lit_range c)), bpow_ge_0].
Qed.
Print Assumptions C100_doubles.
(** Masses are the measured ones, within the uncertainty of the measurement. *)
Theorem C100_masses p emin : long_double p emin ->
  (forall l, agrees (lepton_mass p emin l) (measured_lepton l)) /\ (forall n, agrees (nucleus_mass p emin n) (measured_nucleus n)) /\ (forall h, agrees (hadron_mass p emin h) (measured_hadron h)).
Proof.
  intros L. split; [|split]; intros a; destruct a; unfold lepton_mass, nucleus_mass, hadron_mass, measured_lepton, measured_nucleus, measured_hadron; rewrite ?constant_is by exact L;
    try (apply agrees_lit; unfold literal; cbn [digits decimals]; let v := eval vm_compute in (2 ^ 53)%Z in change (2 ^ 53)%Z with v;
      match goal with |- context [(10 ^ ?k)%Z] => let v := eval vm_compute in (10 ^ k)%Z in change (10 ^ k)%Z with v end; unfold Rabs; destruct Rcase_abs; lra).
  unfold agrees. cbn [fst snd]. rewrite Rmult_0_r, Rminus_0_r, Rabs_R0. lra.
Qed.
Print Assumptions C100_masses.
(** The other theorems take the masses as decimals; the program has them with one rounding. *)
Theorem C100_model p emin : long_double p emin ->
  (forall l, lepton_mass p emin l = RN (mass_l l)) /\ (forall n, nucleus_mass p emin n = RN (mass_n n)) /\ (forall h, hadron_mass p emin h = RN (mass_h h)).
Proof.
  intros L. split; [|split]; intros a; destruct a; unfold lepton_mass, nucleus_mass, hadron_mass, mass_l, mass_n, mass_h;
    try (match goal with |- constant _ _ ?c = _ => destruct (C100_doubles p emin c L) as (E & _); rewrite E; f_equal; unfold literal; cbn [digits decimals];
      match goal with |- context [(10 ^ ?k)%Z] => let v := eval vm_compute in (10 ^ k)%Z in change (10 ^ k)%Z with v end; lra end).
  unfold RN. rewrite round_0; [reflexivity|apply valid_rnd_N].
Qed.
Print Assumptions C100_model.
(** The tables fit together: antiparticles have the same mass and the opposite charge; the neutron is heavier than what it decays to,
    the deuteron lighter than its parts and charged like them; the phi decays to kaons, the charged pion to a muon but not to a tau. *)
Theorem C100_tables p emin : long_double p emin ->
  (forall h h', anti h = Some h' -> hadron_mass p emin h = hadron_mass p emin h' /\ charge_h h + charge_h h' = 0) /\
  nucleus_mass p emin P_ + lepton_mass p emin ParticleModel.E_ < nucleus_mass p emin N_ /\
  nucleus_mass p emin D_ < nucleus_mass p emin P_ + nucleus_mass p emin N_ < nucleus_mass p emin D_ + 0.0023 /\
  charge_n D_ = charge_n P_ + charge_n N_ /\ charge_n N_ = charge_n P_ + charge_l ParticleModel.E_ /\
  hadron_mass p emin K_P + hadron_mass p emin K_M < hadron_mass p emin PHI /\ lepton_mass p emin MU < hadron_mass p emin PI_P < lepton_mass p emin TAU /\ (forall l, charge_l l = -1) /\ (forall h, charge_h h = 0 <-> anti h = Some h \/ h = K_0).
Proof.
  intros L. destruct (C100_masses p emin L) as (ML & MN & MH). unfold agrees in *.
  pose proof (Rabs_le_inv _ _ (MN P_)) as HP. pose proof (Rabs_le_inv _ _ (MN N_)) as HN. pose proof (Rabs_le_inv _ _ (MN D_)) as HD. pose proof (Rabs_le_inv _ _ (ML ParticleModel.E_)) as HE. pose proof (Rabs_le_inv _ _ (ML MU)) as HM. pose proof (Rabs_le_inv _ _ (ML TAU)) as HT.
  pose proof (Rabs_le_inv _ _ (MH K_P)) as HK. pose proof (Rabs_le_inv _ _ (MH K_M)) as HK'. pose proof (Rabs_le_inv _ _ (MH PHI)) as HF. pose proof (Rabs_le_inv _ _ (MH PI_P)) as HPI. cbn [measured_lepton measured_nucleus measured_hadron fst snd] in *.
  split; [|split; [lra|split; [lra|split; [unfold charge_n; lra|split; [unfold charge_n, charge_l; lra|split; [lra|split; [lra|split; [reflexivity|]]]]]]]].
  - intros h h' A. destruct h; cbn in A; try discriminate A; injection A as <-; cbn; split; try reflexivity; lra.
  - intros h. split.
    + destruct h; cbn; intros H; try lra; auto.
    + destruct h; cbn; intros [H|H]; try discriminate; reflexivity.
Qed.
Print Assumptions C100_tables.
(** Names tell particles apart, except for the two kinds of electrons. *)
Theorem C100_names :
  (forall a b, nucleus_name a = nucleus_name b -> a = b) /\ (forall a b, hadron_name a = hadron_name b -> a = b) /\
  (forall a b, lepton_name a = lepton_name b -> a = b \/ (mass_l a <= mass_l ParticleModel.E_ /\ mass_l b <= mass_l ParticleModel.E_)).
Proof.
  split; [|split]; intros a b; destruct a, b; intros H; try discriminate H; try reflexivity; try (left; reflexivity); right; cbn; lra.
Qed.
Print Assumptions C100_names.
(** Long doubles as on x86, as in IEEE quadruple precision, and the same as double. *)
Example C100_example : long_double 64 (-16445) /\ long_double 113 (-16494) /\ long_double 53 (-1074) /\ constant 64 (-16445) PI_ = RN PI /\ constant 64 (-16445) PI_ <> PI.
Proof.
  assert (L : long_double 64 (-16445)) by (left; lia). split; [exact L|]. split; [left; lia|]. split; [right; lia|]. destruct (C100_doubles 64 (-16445) PI_ L) as (_ & H). split; [apply H; reflexivity|].
  intros E. pose proof (C100_digits PI_ PI eq_refl) as D. rewrite <- E, (constant_is 64 (-16445) PI_ L) in D. apply Rabs_le_inv in D. destruct D as (_ & D). unfold dval, literal in D. cbn [dbl fst snd] in D.
  assert (B : bpow radix2 (-51) = / IZR (2 ^ 51)) by reflexivity. rewrite B in D. set (T := (10 ^ decimals PI_)%Z) in D. assert (T0 : 0 < IZR T) by (apply IZR_lt; reflexivity). assert (U0 : 0 < IZR (2 ^ 51)) by (apply IZR_lt; reflexivity).
  pose proof (Rabs_le_inv _ _ (dval_near PI_)) as _. pose proof (C100_digits PI_ PI eq_refl) as D'. rewrite <- E, (constant_is 64 (-16445) PI_ L) in D'. apply Rabs_le_inv in D'. destruct D' as (D' & _). unfold dval, literal in D'. cbn [dbl fst snd] in D'. rewrite B in D'. fold T in D'.
  apply (Rmult_le_compat_r (2 * IZR T * IZR (2 ^ 51))) in D'; [|apply Rlt_le, Rmult_lt_0_compat; [lra|exact U0]].
  replace (- (/ 2 * / IZR T) * (2 * IZR T * IZR (2 ^ 51))) with (- IZR (2 ^ 51)) in D' by (field; lra).
  replace ((7074237752028440 * / IZR (2 ^ 51) - IZR (digits PI_) / IZR T) * (2 * IZR T * IZR (2 ^ 51))) with (2 * 7074237752028440 * IZR T - 2 * IZR (digits PI_) * IZR (2 ^ 51)) in D' by (field; lra).
  rewrite <- opp_IZR, <- !mult_IZR, <- minus_IZR in D'. apply le_IZR in D'. revert D'. vm_compute. intros X. apply X. reflexivity.
Qed.
