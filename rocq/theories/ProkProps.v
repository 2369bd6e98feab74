(** C46: the built-in structure functions against the built-in distributions. *)
From Coq Require Import Reals ZArith Lra.
From Verif Require Import SfModel TmdModel ProkModel ProkSpec ProkProofs.
Local Open Scope R_scope.

(** For sixteen of the eighteen structure functions the two sets agree, whatever the tables hold. *)
Theorem C46_sets_agree_partial d n h x z Q_sq ph_t_sq : 0 < x -> 0 < z -> 0 < Q_sq -> 0 <= ph_t_sq ->
  n <> F_UT_sin_2phih_m_phis -> n <> F_UT_sin_phis ->
  GaussianWwTmdSfSet MASS_P pion_mass (ProkudinTmdSet d) n (h, x, z, Q_sq, ph_t_sq) = ProkudinSfSet d n (h, x, z, Q_sq, ph_t_sq).
Proof. intros X Z Q P. exact (sets_agree d h x z Q_sq ph_t_sq X Z Q P n). Qed.
Print Assumptions C46_sets_agree_partial.
(** The same for the general Gaussian formulas evaluated on the set. *)
Theorem C46_general_agree_partial d n h x z Q_sq ph_t_sq : 0 < x -> 0 < z -> 0 < Q_sq -> 0 <= ph_t_sq ->
  n <> F_UT_sin_2phih_m_phis -> n <> F_UT_sin_phis ->
  GaussianTmdSfSet MASS_P pion_mass (gww_as_gaussian_set MASS_P (ProkudinTmdSet d)) n (h, x, z, Q_sq, ph_t_sq) = ProkudinSfSet d n (h, x, z, Q_sq, ph_t_sq).
Proof. exact (general_agree d n h x z Q_sq ph_t_sq). Qed.
Print Assumptions C46_general_agree_partial.
(** The other two differ: at zero transverse momentum for every z, whenever the sum over the flavors does not vanish; *)
Theorem C46_sin_phis_refuted d h x z Q_sq : 0 < x -> 0 < z -> 0 < Q_sq -> flavors (t_xh1 d) (t_H1perp d) h x z Q_sq <> 0 ->
  GaussianWwTmdSfSet MASS_P pion_mass (ProkudinTmdSet d) F_UT_sin_phis (h, x, z, Q_sq, 0) <> ProkudinSfSet d F_UT_sin_phis (h, x, z, Q_sq, 0).
Proof. exact (sin_phis_differ d h x z Q_sq). Qed.
Print Assumptions C46_sin_phis_refuted.
(** at every nonzero transverse momentum for z up to 1/2. *)
Theorem C46_sin_2phih_m_phis_refuted d h x z Q_sq ph_t_sq : 0 < x -> 0 < z <= 1/2 -> 0 < Q_sq -> 0 < ph_t_sq -> flavors (t_xh1Tperp d) (t_H1perp d) h x z Q_sq <> 0 ->
  GaussianWwTmdSfSet MASS_P pion_mass (ProkudinTmdSet d) F_UT_sin_2phih_m_phis (h, x, z, Q_sq, ph_t_sq) <> ProkudinSfSet d F_UT_sin_2phih_m_phis (h, x, z, Q_sq, ph_t_sq).
Proof. exact (sin_2phih_differ d h x z Q_sq ph_t_sq). Qed.
Print Assumptions C46_sin_2phih_m_phis_refuted.
(** Where the difference comes from: the same sums, with other widths in front. *)
Theorem C46_widths d h x z Q_sq ph_t_sq : 0 < x -> 0 < z -> 0 < Q_sq -> 0 <= ph_t_sq ->
  exists c : R,
  GaussianWwTmdSfSet MASS_P pion_mass (ProkudinTmdSet d) F_UT_sin_2phih_m_phis (h, x, z, Q_sq, ph_t_sq) = c - k2 HT_MEAN h z Q_sq ph_t_sq * flavors (t_xh1Tperp d) (t_H1perp d) h x z Q_sq /\
  ProkudinSfSet d F_UT_sin_2phih_m_phis (h, x, z, Q_sq, ph_t_sq) = c - k2 PRETZ_MEAN h z Q_sq ph_t_sq * flavors (t_xh1Tperp d) (t_H1perp d) h x z Q_sq /\
  GaussianWwTmdSfSet MASS_P pion_mass (ProkudinTmdSet d) F_UT_sin_phis (h, x, z, Q_sq, ph_t_sq) = k0 HT_MEAN HT_MEAN h z Q_sq ph_t_sq * flavors (t_xh1 d) (t_H1perp d) h x z Q_sq /\
  ProkudinSfSet d F_UT_sin_phis (h, x, z, Q_sq, ph_t_sq) = k0 H1_MEAN PRETZ_MEAN h z Q_sq ph_t_sq * flavors (t_xh1 d) (t_H1perp d) h x z Q_sq.
Proof. exact (both_values d h x z Q_sq ph_t_sq). Qed.
Print Assumptions C46_widths.
(** Charges: three quarks in a row make a proton (two up, one down) and a neutron (one up, two down), the strange quark is charged like the down quark,
    antiquarks are opposite. *)
Theorem C46_charges d : let c := gwcharge (ProkudinTmdSet d) in
  2 * c 0%nat + c 1%nat = 1 /\ c 0%nat + 2 * c 1%nat = 0 /\ c 2%nat = c 1%nat /\ (forall fl, (fl < 3)%nat -> c (fl + 3)%nat = - c fl) /\ gwflavor_count (ProkudinTmdSet d) = 6%nat.
Proof. exact (charges d). Qed.
Print Assumptions C46_charges.
(** Example: tables for which the sums over the flavors do not vanish. *)
Definition ex_tables : tables :=
  mk_tables (fun i _ _ => if Z.eqb i 8 then 1 else 0) (fun fl _ _ => match fl with O => 1 | _ => 0 end) (fun _ _ _ => 0)
    (fun _ _ _ => 0) (fun _ _ _ => 0) (fun _ _ _ => 0) (fun fl _ _ => match fl with O => 1 | _ => 0 end).
Example ex_nonzero : flavors (t_xh1 ex_tables) (t_H1perp ex_tables) PI_P (1/2) (1/4) 1 <> 0 /\ flavors (t_xh1Tperp ex_tables) (t_H1perp ex_tables) PI_P (1/2) (1/4) 1 <> 0
  /\ ProkudinSfSet ex_tables F_UUT (PI_P, 1/2, 1/4, 1, 1/4) <> 0.
Proof. exact ex_sums. Qed.
