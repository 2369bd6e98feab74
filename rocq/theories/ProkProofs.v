(** Proofs for C46. *)
From Coq Require Import Reals ZArith List Lra Psatz.
From Verif Require Import SfModel TmdModel ProkModel ProkSpec.
Import ListNotations.
Local Open Scope R_scope.

(** * Constants *)
Lemma F1_pos : 0 < F1_MEAN. Proof. unfold F1_MEAN; lra. Qed.
Lemma G1_pos : 0 < G1_MEAN. Proof. unfold G1_MEAN, F1_MEAN; lra. Qed.
Lemma D1_pos : 0 < D1_MEAN. Proof. unfold D1_MEAN; lra. Qed.
Lemma H1_pos : 0 < H1_MEAN. Proof. unfold H1_MEAN; lra. Qed.
Lemma HT_pos : 0 < HT_MEAN. Proof. unfold HT_MEAN; lra. Qed.
Lemma CO_val : COLLINS_MEAN = 3/17. Proof. unfold COLLINS_MEAN, D1_MEAN, COLLINS_M_SQ; field. Qed.
Lemma CO_pos : 0 < COLLINS_MEAN. Proof. rewrite CO_val; lra. Qed.
Lemma SI_pos : 0 < SIVERS_MEAN. Proof. replace SIVERS_MEAN with (19/176) by (unfold SIVERS_MEAN, F1_MEAN, SIVERS_M_1_SQ; field); lra. Qed.
Lemma BM_pos : 0 < BM_MEAN. Proof. replace BM_MEAN with (17/118) by (unfold BM_MEAN, F1_MEAN, BM_M_1_SQ; field); lra. Qed.
Lemma PZ_val : PRETZ_MEAN = 9/86. Proof. unfold PRETZ_MEAN, F1_MEAN, PRETZ_M_TT_SQ; field. Qed.
Lemma PZ_pos : 0 < PRETZ_MEAN. Proof. rewrite PZ_val; lra. Qed.
Lemma MP_pos : 0 < MASS_P. Proof. unfold MASS_P; lra. Qed.
Lemma mh_pos h : 0 < pion_mass h. Proof. unfold pion_mass, MASS_PI; lra. Qed.
Lemma CE_pos : 0 < CE. Proof. apply exp_pos. Qed.
Lemma sqrt_CE : sqrt (2 * CE) = 2 * sqrt (CE / 2).
Proof.
  pose proof CE_pos as E. replace (2 * CE) with ((2 * 2) * (CE / 2)) by field. rewrite sqrt_mult by lra. rewrite sqrt_square by lra. reflexivity.
Qed.
Lemma COM_pos : 0 < COLLINS_M. Proof. apply sqrt_lt_R0. unfold COLLINS_M_SQ; lra. Qed.
Lemma SIM_pos : 0 < SIVERS_M_1. Proof. apply sqrt_lt_R0. unfold SIVERS_M_1_SQ; lra. Qed.
Lemma BMM_pos : 0 < BM_M_1. Proof. apply sqrt_lt_R0. unfold BM_M_1_SQ; lra. Qed.
Lemma PZM_pos : 0 < PRETZ_M_TT_SQ. Proof. unfold PRETZ_M_TT_SQ; lra. Qed.
Lemma lambda_pos z a b : 0 < a -> 0 < b -> 0 < lambda z a b.
Proof. intros A B. unfold lambda. pose proof (Rle_0_sqr z) as Z. unfold Rsqr in Z. pose proof (Rmult_le_pos _ _ Z (Rlt_le _ _ A)). lra. Qed.

(** * Sums over the flavors *)
Lemma sum_scale n c f g : (forall i, f i = c * g i) -> sum_flavors n f = c * sum_flavors n g.
Proof. intros H. induction n as [|n IH]; cbn; [ring|]. rewrite IH, H. ring. Qed.
Ltac fold_t := change s_xf1 with t_xf1; change s_D1 with t_D1; change s_xg1 with t_xg1; change s_xh1 with t_xh1; change s_collins with t_collins.
Section Sets.
Context (d : tables) (h : pion) (x z Q_sq p : R) (X0 : 0 < x) (Z0 : 0 < z) (Q0 : 0 < Q_sq) (P0 : 0 <= p).
Let S := gww_as_gaussian_set MASS_P (ProkudinTmdSet d).
Let conv w t f := convolve_gaussian MASS_P (pion_mass h) S w t f h x z Q_sq p.
(** The convolution of two functions with finite widths. *)
Lemma conv_form w t f mt mf (F : nat -> R -> R -> R) (D : pion -> nat -> R -> R -> R) a b :
  (forall fl, mean_tmd S t fl = Some mt) -> (forall fl, mean_ff S f fl = Some mf) -> (forall fl, rtmd S t fl x Q_sq = a * F fl x Q_sq) -> (forall fl, rff S f h fl z Q_sq = b * D h fl z Q_sq) ->
  conv w t f = a * b * gaussian_weight MASS_P (pion_mass h) w mt mf (lambda z mt mf) z p * G p (lambda z mt mf) * flavors F D h x z Q_sq.
Proof.
  intros MT MF FE DE. unfold conv, convolve_gaussian, flavors. change (gflavor_count S) with NUM_FLAVORS. apply sum_scale. intros fl.
  unfold gaussian_term. rewrite MT, MF, FE, DE. cbn [mean_sum]. replace (mf + z * z * mt) with (lambda z mt mf) by (unfold lambda; ring). change (gcharge S fl) with (pcharge fl). unfold G. ring.
Qed.
Lemma conv_none w t f : (forall fl, mean_tmd S t fl = None) -> conv w t f = 0.
Proof. intros N. unfold conv, convolve_gaussian. rewrite (sum_scale _ 0 _ (fun _ => 0)); [ring|]. intros i. unfold gaussian_term. rewrite N. ring. Qed.
Lemma flavors_scale f f' D D' a b : (forall fl, f fl x Q_sq = a * f' fl x Q_sq) -> (forall fl, D h fl z Q_sq = b * D' h fl z Q_sq) -> flavors f D h x z Q_sq = a * b * flavors f' D' h x z Q_sq.
Proof. intros F E. unfold flavors. apply sum_scale. intros i. rewrite F, E. ring. Qed.
(** * The moments of ProkudinSfSet in terms of the functions of ProkudinTmdSet *)
Lemma same_H1perp fl : s_H1perpM1 d h fl z Q_sq = COLLINS_MEAN / (2 * (z * z) * (pion_mass h * pion_mass h)) * t_H1perp d h fl z Q_sq.
Proof.
  unfold s_H1perpM1; fold_t; unfold t_H1perp. rewrite sqrt_CE. pose proof D1_pos. pose proof COM_pos. pose proof (mh_pos h). field. repeat split; lra.
Qed.
Lemma same_f1Tperp fl : s_xf1TperpM1 d fl x Q_sq = SIVERS_MEAN / (2 * (MASS_P * MASS_P)) * t_xf1Tperp d fl x Q_sq.
Proof. unfold s_xf1TperpM1; fold_t; unfold t_xf1Tperp. rewrite sqrt_CE. pose proof F1_pos. pose proof SIM_pos. pose proof MP_pos. field. repeat split; lra. Qed.
Lemma same_h1perp fl : s_xh1perpM1 d fl x Q_sq = BM_MEAN / (2 * (MASS_P * MASS_P)) * t_xh1perp d fl x Q_sq.
Proof. unfold s_xh1perpM1; fold_t; unfold t_xh1perp. rewrite sqrt_CE. pose proof F1_pos. pose proof BMM_pos. pose proof MP_pos. field. repeat split; lra. Qed.
Lemma same_h1Lperp fl : s_xh1LperpM1 d fl x Q_sq = H1_MEAN / (2 * (MASS_P * MASS_P)) * t_xh1Lperp d fl x Q_sq.
Proof. unfold s_xh1LperpM1, t_xh1Lperp. pose proof H1_pos. pose proof MP_pos. destruct fl as [|[|fl]]; field; repeat split; lra. Qed.
Lemma same_h1Tperp fl : s_xh1TperpM2 d fl x Q_sq = PRETZ_MEAN * PRETZ_MEAN / (2 * (MASS_P * MASS_P * (MASS_P * MASS_P))) * t_xh1Tperp d fl x Q_sq.
Proof. unfold s_xh1TperpM2; fold_t; unfold t_xh1Tperp. pose proof F1_pos. pose proof PZM_pos. pose proof MP_pos. field. repeat split; lra. Qed.
Lemma same_gT fl : t_xg1Tperp d fl x Q_sq = 2 * (MASS_P * MASS_P) / G1_MEAN * x * s_xgT d fl x Q_sq.
Proof. unfold t_xg1Tperp, s_xgT. pose proof G1_pos. field. lra. Qed.
(** * The structure functions *)
Let tset n := GaussianWwTmdSfSet MASS_P pion_mass (ProkudinTmdSet d) n (h, x, z, Q_sq, p).
Let sset n := ProkudinSfSet d n (h, x, z, Q_sq, p).
Ltac wid := intros fl; reflexivity.
Ltac plain := intros fl; symmetry; apply Rmult_1_l.
Ltac go :=
  unfold gaussian_weight; cbv zeta;
  pose proof (sqrt_lt_R0 _ Q0) as SQ; pose proof (sqrt_sqrt p P0) as SP; pose proof MP_pos as MP; pose proof (mh_pos h) as MH;
  pose proof F1_pos; pose proof G1_pos; pose proof D1_pos; pose proof H1_pos; pose proof HT_pos; pose proof CO_pos; pose proof SI_pos; pose proof BM_pos; pose proof PZ_pos;
  repeat match goal with |- context [G p ?l] => generalize (G p l); intro end;
  repeat match goal with |- context [flavors ?f ?D h x z Q_sq] => generalize (flavors f D h x z Q_sq); intro end;
  repeat match goal with |- context [lambda z ?a ?b] => let L := fresh "l" in let E := fresh "LP" in
    assert (E : 0 < lambda z a b) by (apply lambda_pos; assumption); set (L := lambda z a b) in *; clearbody L end;
  set (q := sqrt p) in *; set (Q := sqrt Q_sq) in *; set (mh := pion_mass h) in *;
  set (PP := p) in *; clearbody PP q Q mh;
  rewrite <- ?SP; field; repeat split; apply Rgt_not_eq; assumption.
Lemma sin3_cube a b c : (a * b / c) ^ 3 = a * b / c * (a * b / c) * (a * b / c). Proof. ring. Qed.
Lemma sets_agree n : n <> F_UT_sin_2phih_m_phis -> n <> F_UT_sin_phis -> tset n = sset n.
Proof.
  intros N1 N2. unfold tset, sset, GaussianWwTmdSfSet, ProkudinSfSet. destruct n; try contradiction; cbn [GaussianWwTmdSfSet_F]; cbv zeta; try reflexivity.
  - change (conv W0 T_f1 FF_D1 = G p (lambda z F1_MEAN D1_MEAN) * flavors (t_xf1 d) (t_D1 d) h x z Q_sq).
    rewrite (conv_form W0 T_f1 FF_D1 F1_MEAN D1_MEAN (t_xf1 d) (t_D1 d) 1 1) by (wid || plain). unfold gaussian_weight. ring.
  - change (2 * MASS_P * x / sqrt Q_sq * (conv WA1 T_h FF_H1perp - conv WB1 T_fperp FF_D1) = -2 * F1_MEAN / sqrt Q_sq * sqrt p * (z / lambda z F1_MEAN D1_MEAN) * G p (lambda z F1_MEAN D1_MEAN) * flavors (t_xf1 d) (t_D1 d) h x z Q_sq).
    rewrite (conv_none WA1 T_h) by wid. rewrite (conv_form WB1 T_fperp FF_D1 F1_MEAN D1_MEAN (t_xf1 d) (t_D1 d) (/ x) 1) by (wid || plain || (intros fl; cbn; unfold Rdiv; ring)). go.
  - change (conv WAB2 T_h1perp FF_H1perp = 4 * MASS_P * pion_mass h * p * (z / lambda z BM_MEAN COLLINS_MEAN * (z / lambda z BM_MEAN COLLINS_MEAN)) * G p (lambda z BM_MEAN COLLINS_MEAN) * flavors (s_xh1perpM1 d) (s_H1perpM1 d) h x z Q_sq).
    rewrite (conv_form WAB2 T_h1perp FF_H1perp BM_MEAN COLLINS_MEAN (t_xh1perp d) (t_H1perp d) 1 1) by (wid || plain). rewrite (flavors_scale _ _ _ _ _ _ same_h1perp same_H1perp). go.
  - change (2 * MASS_P * x / sqrt Q_sq * conv WA1 T_hL FF_H1perp = -8 * MASS_P * pion_mass h * z * sqrt p / (sqrt Q_sq * lambda z H1_MEAN COLLINS_MEAN) * G p (lambda z H1_MEAN COLLINS_MEAN) * flavors (s_xh1LperpM1 d) (s_H1perpM1 d) h x z Q_sq).
    rewrite (conv_form WA1 T_hL FF_H1perp H1_MEAN COLLINS_MEAN (t_xh1Lperp d) (t_H1perp d) (- 2 * (H1_MEAN / (2 * MASS_P * MASS_P)) / x) 1) by (wid || plain || (intros fl; cbn; unfold gw_M1, Rdiv; cbn; ring)). rewrite (flavors_scale _ _ _ _ _ _ same_h1Lperp same_H1perp). go.
  - change (conv WAB2 T_h1Lperp FF_H1perp = 4 * MASS_P * pion_mass h * p * (z / lambda z H1_MEAN COLLINS_MEAN * (z / lambda z H1_MEAN COLLINS_MEAN)) * G p (lambda z H1_MEAN COLLINS_MEAN) * flavors (s_xh1LperpM1 d) (s_H1perpM1 d) h x z Q_sq).
    rewrite (conv_form WAB2 T_h1Lperp FF_H1perp H1_MEAN COLLINS_MEAN (t_xh1Lperp d) (t_H1perp d) 1 1) by (wid || plain). rewrite (flavors_scale _ _ _ _ _ _ same_h1Lperp same_H1perp). go.
  - change (- conv WB1 T_f1Tperp FF_D1 = -2 * MASS_P * z * sqrt p / lambda z SIVERS_MEAN D1_MEAN * G p (lambda z SIVERS_MEAN D1_MEAN) * flavors (s_xf1TperpM1 d) (t_D1 d) h x z Q_sq).
    rewrite (conv_form WB1 T_f1Tperp FF_D1 SIVERS_MEAN D1_MEAN (t_xf1Tperp d) (t_D1 d) 1 1) by (wid || plain). rewrite (flavors_scale _ _ _ (t_D1 d) _ 1 same_f1Tperp) by plain. go.
  - change (conv W3 T_h1Tperp FF_H1perp = 2 * (MASS_P * MASS_P) * pion_mass h * (z * sqrt p / lambda z PRETZ_MEAN COLLINS_MEAN) ^ 3 * G p (lambda z PRETZ_MEAN COLLINS_MEAN) * flavors (s_xh1TperpM2 d) (s_H1perpM1 d) h x z Q_sq).
    rewrite (conv_form W3 T_h1Tperp FF_H1perp PRETZ_MEAN COLLINS_MEAN (t_xh1Tperp d) (t_H1perp d) 1 1) by (wid || plain). rewrite (flavors_scale _ _ _ _ _ _ same_h1Tperp same_H1perp). go.
  - change (conv WA1 T_h1 FF_H1perp = 2 * pion_mass h * z * sqrt p / lambda z H1_MEAN COLLINS_MEAN * G p (lambda z H1_MEAN COLLINS_MEAN) * flavors (t_xh1 d) (s_H1perpM1 d) h x z Q_sq).
    rewrite (conv_form WA1 T_h1 FF_H1perp H1_MEAN COLLINS_MEAN (t_xh1 d) (t_H1perp d) 1 1) by (wid || plain). rewrite (flavors_scale (t_xh1 d) (t_xh1 d) _ _ 1 _ ltac:(plain) same_H1perp). go.
  - change (conv W0 T_g1 FF_D1 = G p (lambda z G1_MEAN D1_MEAN) * flavors (t_xg1 d) (t_D1 d) h x z Q_sq).
    rewrite (conv_form W0 T_g1 FF_D1 G1_MEAN D1_MEAN (t_xg1 d) (t_D1 d) 1 1) by (wid || plain). unfold gaussian_weight. ring.
  - change (- (2 * MASS_P * x / sqrt Q_sq) * conv WB1 T_gLperp FF_D1 = -2 * G1_MEAN * z * sqrt p / (sqrt Q_sq * lambda z G1_MEAN D1_MEAN) * G p (lambda z G1_MEAN D1_MEAN) * flavors (t_xg1 d) (t_D1 d) h x z Q_sq).
    rewrite (conv_form WB1 T_gLperp FF_D1 G1_MEAN D1_MEAN (t_xg1 d) (t_D1 d) (/ x) 1) by (wid || plain || (intros fl; cbn; unfold Rdiv; ring)). go.
  - change (conv WB1 T_g1Tperp FF_D1 = 2 * MASS_P * x * z * sqrt p / lambda z G1_MEAN D1_MEAN * G p (lambda z G1_MEAN D1_MEAN) * flavors (s_xgT d) (t_D1 d) h x z Q_sq).
    rewrite (conv_form WB1 T_g1Tperp FF_D1 G1_MEAN D1_MEAN (s_xgT d) (t_D1 d) (2 * (MASS_P * MASS_P) / G1_MEAN * x) 1) by (wid || plain || (intros fl; cbn; apply same_gT)). go.
  - change (- (2 * MASS_P * x / sqrt Q_sq) * conv WC2 T_gTperp FF_D1 = -2 * G1_MEAN * MASS_P * x * p * (z / lambda z G1_MEAN D1_MEAN * (z / lambda z G1_MEAN D1_MEAN)) / sqrt Q_sq * G p (lambda z G1_MEAN D1_MEAN) * flavors (s_xgT d) (t_D1 d) h x z Q_sq).
    rewrite (conv_form WC2 T_gTperp FF_D1 G1_MEAN D1_MEAN (s_xgT d) (t_D1 d) (2 * (MASS_P * MASS_P) / G1_MEAN * x / x) 1) by (wid || plain || (intros fl; cbn; rewrite same_gT; unfold Rdiv; ring)). go.
  - change (- (2 * MASS_P * x / sqrt Q_sq) * conv W0 T_gT FF_D1 = -2 * MASS_P * x / sqrt Q_sq * G p (lambda z G1_MEAN D1_MEAN) * flavors (s_xgT d) (t_D1 d) h x z Q_sq).
    rewrite (conv_form W0 T_gT FF_D1 G1_MEAN D1_MEAN (s_xgT d) (t_D1 d) (G1_MEAN / (2 * MASS_P * MASS_P) * (2 * (MASS_P * MASS_P) / G1_MEAN * x) / x) 1) by (wid || plain || (intros fl; cbn; unfold gw_M1; cbn; rewrite same_gT; unfold Rdiv; ring)). go.
Qed.
(** The two that are coded with other widths. *)
Lemma sin_phis_values : tset F_UT_sin_phis = 2 / sqrt Q_sq * (HT_MEAN * COLLINS_MEAN / (pion_mass h * lambda z HT_MEAN COLLINS_MEAN) * (1 - p / lambda z HT_MEAN COLLINS_MEAN) * G p (lambda z HT_MEAN COLLINS_MEAN)) * flavors (t_xh1 d) (t_H1perp d) h x z Q_sq
  /\ sset F_UT_sin_phis = 2 / sqrt Q_sq * (H1_MEAN * COLLINS_MEAN / (pion_mass h * lambda z PRETZ_MEAN COLLINS_MEAN) * (1 - p / lambda z PRETZ_MEAN COLLINS_MEAN) * G p (lambda z PRETZ_MEAN COLLINS_MEAN)) * flavors (t_xh1 d) (t_H1perp d) h x z Q_sq.
Proof.
  split.
  - change (2 * MASS_P * x / sqrt Q_sq * (conv W0 T_fT FF_D1 - 1 / 2 * conv WB2 T_hT FF_H1perp + 1 / 2 * conv WB2 T_hTperp FF_H1perp) = 2 / sqrt Q_sq * (HT_MEAN * COLLINS_MEAN / (pion_mass h * lambda z HT_MEAN COLLINS_MEAN) * (1 - p / lambda z HT_MEAN COLLINS_MEAN) * G p (lambda z HT_MEAN COLLINS_MEAN)) * flavors (t_xh1 d) (t_H1perp d) h x z Q_sq).
    rewrite (conv_none W0 T_fT) by wid.
    rewrite (conv_form WB2 T_hT FF_H1perp HT_MEAN COLLINS_MEAN (fun fl x Q => t_xh1 d fl x Q + gw_M1 MASS_P (fun _ => PRETZ_MEAN) (t_xh1Tperp d) fl x Q) (t_H1perp d) (- / x) 1) by (wid || plain || (intros fl; cbn; unfold Rdiv; ring)).
    rewrite (conv_form WB2 T_hTperp FF_H1perp HT_MEAN COLLINS_MEAN (fun fl x Q => t_xh1 d fl x Q - gw_M1 MASS_P (fun _ => PRETZ_MEAN) (t_xh1Tperp d) fl x Q) (t_H1perp d) (/ x) 1) by (wid || plain || (intros fl; cbn; unfold Rdiv; ring)).
    replace (flavors (fun fl x Q => t_xh1 d fl x Q + gw_M1 MASS_P (fun _ => PRETZ_MEAN) (t_xh1Tperp d) fl x Q) (t_H1perp d) h x z Q_sq) with (flavors (t_xh1 d) (t_H1perp d) h x z Q_sq + flavors (gw_M1 MASS_P (fun _ => PRETZ_MEAN) (t_xh1Tperp d)) (t_H1perp d) h x z Q_sq) by (unfold flavors; cbn [sum_flavors NUM_FLAVORS]; ring).
    replace (flavors (fun fl x Q => t_xh1 d fl x Q - gw_M1 MASS_P (fun _ => PRETZ_MEAN) (t_xh1Tperp d) fl x Q) (t_H1perp d) h x z Q_sq) with (flavors (t_xh1 d) (t_H1perp d) h x z Q_sq - flavors (gw_M1 MASS_P (fun _ => PRETZ_MEAN) (t_xh1Tperp d)) (t_H1perp d) h x z Q_sq) by (unfold flavors; cbn [sum_flavors NUM_FLAVORS]; ring).
    go.
  - change (8 * (MASS_P * MASS_P) * pion_mass h * (z * z) / (sqrt Q_sq * lambda z PRETZ_MEAN COLLINS_MEAN) * (1 - p / lambda z PRETZ_MEAN COLLINS_MEAN) * G p (lambda z PRETZ_MEAN COLLINS_MEAN) * flavors (s_xh1M1 d) (s_H1perpM1 d) h x z Q_sq = 2 / sqrt Q_sq * (H1_MEAN * COLLINS_MEAN / (pion_mass h * lambda z PRETZ_MEAN COLLINS_MEAN) * (1 - p / lambda z PRETZ_MEAN COLLINS_MEAN) * G p (lambda z PRETZ_MEAN COLLINS_MEAN)) * flavors (t_xh1 d) (t_H1perp d) h x z Q_sq).
    rewrite (flavors_scale (s_xh1M1 d) (t_xh1 d) (s_H1perpM1 d) (t_H1perp d) (H1_MEAN / (2 * (MASS_P * MASS_P))) _ (fun fl => eq_refl) same_H1perp). go.
Qed.
Lemma sin_2phih_values : exists c, tset F_UT_sin_2phih_m_phis = c - 2 * p / sqrt Q_sq * (HT_MEAN * COLLINS_MEAN / (pion_mass h * lambda z HT_MEAN COLLINS_MEAN ^ 2) * G p (lambda z HT_MEAN COLLINS_MEAN)) * (PRETZ_MEAN / (2 * MASS_P * MASS_P) * flavors (t_xh1Tperp d) (t_H1perp d) h x z Q_sq)
  /\ sset F_UT_sin_2phih_m_phis = c - 2 * p / sqrt Q_sq * (PRETZ_MEAN * COLLINS_MEAN / (pion_mass h * lambda z PRETZ_MEAN COLLINS_MEAN ^ 2) * G p (lambda z PRETZ_MEAN COLLINS_MEAN)) * (PRETZ_MEAN / (2 * MASS_P * MASS_P) * flavors (t_xh1Tperp d) (t_H1perp d) h x z Q_sq).
Proof.
  exists (2 * MASS_P * p / sqrt Q_sq * (SIVERS_MEAN * (z / lambda z SIVERS_MEAN D1_MEAN * (z / lambda z SIVERS_MEAN D1_MEAN)) * G p (lambda z SIVERS_MEAN D1_MEAN) * (SIVERS_MEAN / (2 * (MASS_P * MASS_P)) * flavors (t_xf1Tperp d) (t_D1 d) h x z Q_sq))). split.
  - unfold tset, GaussianWwTmdSfSet. cbn [GaussianWwTmdSfSet_F]. match goal with |- _ = ?r => change (2 * MASS_P * x / sqrt Q_sq * (1 / 2 * conv WAB2 T_hT FF_H1perp + 1 / 2 * conv WAB2 T_hTperp FF_H1perp + conv WC2 T_fTperp FF_D1) = r) end.
    rewrite (conv_form WAB2 T_hT FF_H1perp HT_MEAN COLLINS_MEAN (fun fl x Q => t_xh1 d fl x Q + gw_M1 MASS_P (fun _ => PRETZ_MEAN) (t_xh1Tperp d) fl x Q) (t_H1perp d) (- / x) 1) by (wid || plain || (intros fl; cbn; unfold Rdiv; ring)).
    rewrite (conv_form WAB2 T_hTperp FF_H1perp HT_MEAN COLLINS_MEAN (fun fl x Q => t_xh1 d fl x Q - gw_M1 MASS_P (fun _ => PRETZ_MEAN) (t_xh1Tperp d) fl x Q) (t_H1perp d) (/ x) 1) by (wid || plain || (intros fl; cbn; unfold Rdiv; ring)).
    rewrite (conv_form WC2 T_fTperp FF_D1 SIVERS_MEAN D1_MEAN (t_xf1Tperp d) (t_D1 d) (/ x) 1) by (wid || plain || (intros fl; cbn; unfold Rdiv; ring)).
    replace (flavors (fun fl x Q => t_xh1 d fl x Q + gw_M1 MASS_P (fun _ => PRETZ_MEAN) (t_xh1Tperp d) fl x Q) (t_H1perp d) h x z Q_sq) with (flavors (t_xh1 d) (t_H1perp d) h x z Q_sq + PRETZ_MEAN / (2 * MASS_P * MASS_P) * flavors (t_xh1Tperp d) (t_H1perp d) h x z Q_sq) by (unfold flavors, gw_M1; cbn [sum_flavors NUM_FLAVORS]; ring).
    replace (flavors (fun fl x Q => t_xh1 d fl x Q - gw_M1 MASS_P (fun _ => PRETZ_MEAN) (t_xh1Tperp d) fl x Q) (t_H1perp d) h x z Q_sq) with (flavors (t_xh1 d) (t_H1perp d) h x z Q_sq - PRETZ_MEAN / (2 * MASS_P * MASS_P) * flavors (t_xh1Tperp d) (t_H1perp d) h x z Q_sq) by (unfold flavors, gw_M1; cbn [sum_flavors NUM_FLAVORS]; ring).
    go.
  - unfold sset, ProkudinSfSet. cbv zeta. fold_t. rewrite (flavors_scale _ _ _ (t_D1 d) _ 1 same_f1Tperp) by plain. rewrite (flavors_scale _ _ _ _ _ _ same_h1Tperp same_H1perp). go.
Qed.
End Sets.
(** * The two functions differ *)
Ltac posm := repeat match goal with |- 0 < _ * _ => apply Rmult_lt_0_compat end; lra.
Lemma sin_phis_differ d h x z Q_sq : 0 < x -> 0 < z -> 0 < Q_sq -> flavors (t_xh1 d) (t_H1perp d) h x z Q_sq <> 0 ->
  GaussianWwTmdSfSet MASS_P pion_mass (ProkudinTmdSet d) F_UT_sin_phis (h, x, z, Q_sq, 0) <> ProkudinSfSet d F_UT_sin_phis (h, x, z, Q_sq, 0).
Proof.
  intros X Z Q F E. destruct (sin_phis_values d h x z Q_sq 0 X Z Q (Rle_refl 0)) as (A & B). rewrite A, B in E. clear A B.
  apply (Rmult_eq_reg_r _ _ _) in E; [|exact F]. apply (Rmult_eq_reg_l _ _ _) in E; [|apply Rgt_not_eq; apply Rmult_lt_0_compat; [lra|apply Rinv_0_lt_compat, sqrt_lt_R0, Q]].
  unfold G in E. pose proof (lambda_pos z _ _ PZ_pos CO_pos) as L1. assert (LL : lambda z PRETZ_MEAN COLLINS_MEAN < lambda z HT_MEAN COLLINS_MEAN).
  { unfold lambda. rewrite PZ_val. unfold HT_MEAN. pose proof (Rmult_lt_0_compat _ _ Z Z). lra. }
  set (l := lambda z PRETZ_MEAN COLLINS_MEAN) in *. set (l' := lambda z HT_MEAN COLLINS_MEAN) in *. clearbody l l'.
  assert (E0 : forall m, exp (- 0 / m) = 1) by (intros m; unfold Rdiv; rewrite Ropp_0, Rmult_0_l; apply exp_0). rewrite !E0 in E. pose proof CO_pos as C. pose proof (mh_pos h) as M. pose proof PI_RGT_0 as P.
  assert (K : HT_MEAN * (l * l) = H1_MEAN * (l' * l')).
  { apply (Rmult_eq_reg_r (COLLINS_MEAN / (pion_mass h * PI * (l * l) * (l' * l')))); [|apply Rgt_not_eq; apply Rdiv_lt_0_compat; [exact C|posm]].
    transitivity (HT_MEAN * COLLINS_MEAN / (pion_mass h * l') * (1 - 0 / l') * (1 / (PI * l'))); [field; repeat split; lra|]. rewrite E. field. repeat split; lra. }
  unfold HT_MEAN, H1_MEAN in K. assert (l * l < l' * l') by (apply Rmult_le_0_lt_compat; lra). assert (0 < l * l) by posm. lra.
Qed.
Lemma sin_2phih_differ d h x z Q_sq p : 0 < x -> 0 < z <= 1/2 -> 0 < Q_sq -> 0 < p -> flavors (t_xh1Tperp d) (t_H1perp d) h x z Q_sq <> 0 ->
  GaussianWwTmdSfSet MASS_P pion_mass (ProkudinTmdSet d) F_UT_sin_2phih_m_phis (h, x, z, Q_sq, p) <> ProkudinSfSet d F_UT_sin_2phih_m_phis (h, x, z, Q_sq, p).
Proof.
  intros X (Z & Z1) Q PP F E. destruct (sin_2phih_values d h x z Q_sq p X Z Q (Rlt_le _ _ PP)) as (c & A & B). rewrite A, B in E. clear A B.
  apply Rplus_eq_reg_l in E. apply Ropp_eq_compat in E. rewrite !Ropp_involutive in E.
  pose proof PZ_pos as ZP. pose proof MP_pos as MP.
  apply (Rmult_eq_reg_r _ _ _) in E; [|apply Rmult_integral_contrapositive_currified; [apply Rgt_not_eq; apply Rdiv_lt_0_compat; [exact ZP|posm]|exact F]].
  apply (Rmult_eq_reg_l _ _ _) in E; [|apply Rgt_not_eq; apply Rdiv_lt_0_compat; [lra|apply sqrt_lt_R0, Q]].
  unfold G in E. pose proof (lambda_pos z _ _ PZ_pos CO_pos) as L1.
  assert (ZZ : 0 < z * z <= 1/4) by (split; [apply Rmult_lt_0_compat; lra|replace (1/4) with (1/2 * (1/2)) by lra; apply Rmult_le_compat; lra]).
  assert (LL : lambda z PRETZ_MEAN COLLINS_MEAN < lambda z HT_MEAN COLLINS_MEAN <= 11/10 * lambda z PRETZ_MEAN COLLINS_MEAN).
  { unfold lambda. rewrite PZ_val, CO_val. unfold HT_MEAN. lra. }
  set (l := lambda z PRETZ_MEAN COLLINS_MEAN) in *. set (l' := lambda z HT_MEAN COLLINS_MEAN) in *. clearbody l l'. destruct LL as (LA & LB).
  assert (EX : exp (- p / l) < exp (- p / l')).
  { apply exp_increasing. unfold Rdiv. rewrite <- !Ropp_mult_distr_l. apply Ropp_lt_contravar. apply Rmult_lt_compat_l; [exact PP|]. apply Rinv_lt_contravar; [apply Rmult_lt_0_compat; lra|exact LA]. }
  pose proof (exp_pos (- p / l)) as X1. set (e := exp (- p / l)) in *. set (e' := exp (- p / l')) in *. clearbody e e'. pose proof CO_pos as C. pose proof (mh_pos h) as M. pose proof PI_RGT_0 as P.
  assert (K : HT_MEAN * (l * l * l) * e' = PRETZ_MEAN * (l' * l' * l') * e).
  { apply (Rmult_eq_reg_r (COLLINS_MEAN / (pion_mass h * PI * (l * l * l) * (l' * l' * l')))); [|apply Rgt_not_eq; apply Rdiv_lt_0_compat; [exact C|posm]].
    transitivity (HT_MEAN * COLLINS_MEAN / (pion_mass h * l' ^ 2) * (e' / (PI * l'))); [field; repeat split; lra|]. rewrite E. field. repeat split; lra. }
  assert (CU : l' * l' * l' <= 1331/1000 * (l * l * l)).
  { replace (1331/1000 * (l * l * l)) with (11/10 * l * (11/10 * l) * (11/10 * l)) by field. assert (0 <= l' * l') by (apply Rmult_le_pos; lra). apply Rmult_le_compat; [assumption|lra| |exact LB]. apply Rmult_le_compat; lra. }
  rewrite PZ_val in K. unfold HT_MEAN in K. assert (L3 : 0 < l * l * l) by (posm).
  assert (K1 : 9/86 * (l' * l' * l') * e <= 9/86 * (1331/1000 * (l * l * l)) * e) by (apply Rmult_le_compat_r; lra).
  assert (K2 : 15/100 * (l * l * l) * e < 15/100 * (l * l * l) * e') by (apply Rmult_lt_compat_l; lra).
  assert (K3 : 9/86 * (1331/1000 * (l * l * l)) * e <= 15/100 * (l * l * l) * e) by (apply Rmult_le_compat_r; lra). lra.
Qed.
From Verif Require Import TmdProofs.
Lemma general_agree d n h x z Q_sq p : 0 < x -> 0 < z -> 0 < Q_sq -> 0 <= p -> n <> F_UT_sin_2phih_m_phis -> n <> F_UT_sin_phis ->
  GaussianTmdSfSet MASS_P pion_mass (gww_as_gaussian_set MASS_P (ProkudinTmdSet d)) n (h, x, z, Q_sq, p) = ProkudinSfSet d n (h, x, z, Q_sq, p).
Proof. intros X Z Q P N1 N2. rewrite gww_sets. apply sets_agree; assumption. Qed.
Lemma both_values d h x z Q_sq p : 0 < x -> 0 < z -> 0 < Q_sq -> 0 <= p -> exists c : R,
  GaussianWwTmdSfSet MASS_P pion_mass (ProkudinTmdSet d) F_UT_sin_2phih_m_phis (h, x, z, Q_sq, p) = c - k2 HT_MEAN h z Q_sq p * flavors (t_xh1Tperp d) (t_H1perp d) h x z Q_sq /\
  ProkudinSfSet d F_UT_sin_2phih_m_phis (h, x, z, Q_sq, p) = c - k2 PRETZ_MEAN h z Q_sq p * flavors (t_xh1Tperp d) (t_H1perp d) h x z Q_sq /\
  GaussianWwTmdSfSet MASS_P pion_mass (ProkudinTmdSet d) F_UT_sin_phis (h, x, z, Q_sq, p) = k0 HT_MEAN HT_MEAN h z Q_sq p * flavors (t_xh1 d) (t_H1perp d) h x z Q_sq /\
  ProkudinSfSet d F_UT_sin_phis (h, x, z, Q_sq, p) = k0 H1_MEAN PRETZ_MEAN h z Q_sq p * flavors (t_xh1 d) (t_H1perp d) h x z Q_sq.
Proof.
  intros X Z Q P. destruct (sin_2phih_values d h x z Q_sq p X Z Q P) as (c & A & B). destruct (sin_phis_values d h x z Q_sq p X Z Q P) as (C & D).
  exists c. rewrite A, B, C, D. unfold k2, k0. split; [ring|]. split; [ring|]. split; ring.
Qed.
(** An example. *)
Lemma ex_sums (d := mk_tables (fun i _ _ => if Z.eqb i 8 then 1 else 0) (fun fl _ _ => match fl with O => 1 | _ => 0 end) (fun _ _ _ => 0)
    (fun _ _ _ => 0) (fun _ _ _ => 0) (fun _ _ _ => 0) (fun fl _ _ => match fl with O => 1 | _ => 0 end)) :
  flavors (t_xh1 d) (t_H1perp d) PI_P (1/2) (1/4) 1 <> 0 /\ flavors (t_xh1Tperp d) (t_H1perp d) PI_P (1/2) (1/4) 1 <> 0 /\ ProkudinSfSet d F_UUT (PI_P, 1/2, 1/4, 1, 1/4) <> 0.
Proof.
  assert (RP : forall a b, 0 < Rpower a b) by (intros; apply exp_pos).
  assert (T0 : 0 < t_H1perp d PI_P 0 (1/4) 1).
  { unfold t_H1perp. cbn [t_D1 i_D1_pi_plus d t_collins]. pose proof CE_pos. pose proof COM_pos. pose proof CO_pos. pose proof D1_pos. pose proof (mh_pos PI_P). unfold COLLINS_N_FAV, Rdiv.
    repeat match goal with |- 0 < _ * _ => apply Rmult_lt_0_compat end; try apply RP; try lra; try (apply Rinv_0_lt_compat; lra). apply sqrt_lt_R0; lra. }
  assert (TS : forall fl, (0 < fl)%nat -> t_H1perp d PI_P fl (1/4) 1 = 0) by (intros [|fl] L; [lia|]; unfold t_H1perp; cbn [t_D1 i_D1_pi_plus d]; ring).
  split; [|split].
  - unfold flavors. cbn [sum_flavors NUM_FLAVORS]. rewrite !(TS (S _)) by lia. cbn [pcharge]. assert (H : 0 < t_xh1 d 0 (1/2) 1); [|apply Rgt_not_eq; assert (0 < t_xh1 d 0 (1/2) 1 * t_H1perp d PI_P 0 (1/4) 1) by (apply Rmult_lt_0_compat; assumption); lra].
    unfold t_xh1. cbn [i_sb d H1_N six nth]. repeat match goal with |- 0 < _ * _ => apply Rmult_lt_0_compat end; try apply RP; try lra.
  - unfold flavors. cbn [sum_flavors NUM_FLAVORS]. rewrite !(TS (S _)) by lia. cbn [pcharge]. assert (H : 0 < t_xh1Tperp d 0 (1/2) 1); [|apply Rgt_not_eq; assert (0 < t_xh1Tperp d 0 (1/2) 1 * t_H1perp d PI_P 0 (1/4) 1) by (apply Rmult_lt_0_compat; assumption); lra].
    unfold t_xh1Tperp. cbn [PRETZ_N six nth t_xf1 t_xg1 parton i_g1 d Z.eqb Pos.eqb]. pose proof CE_pos. pose proof MP_pos. pose proof PZM_pos. pose proof PZ_pos. pose proof F1_pos. unfold Rdiv.
    repeat match goal with |- 0 < _ * _ => apply Rmult_lt_0_compat end; try apply RP; try lra; try (apply Rinv_0_lt_compat; lra). unfold t_xg1; cbn [i_g1 d]; lra.
  - unfold ProkudinSfSet. cbv zeta. apply Rgt_not_eq. apply Rmult_lt_0_compat.
    + unfold G. pose proof (lambda_pos (1/4) _ _ F1_pos D1_pos). pose proof PI_RGT_0. apply Rdiv_lt_0_compat; [apply exp_pos|apply Rmult_lt_0_compat; assumption].
    + fold_t. unfold flavors. cbn [sum_flavors NUM_FLAVORS pcharge t_xf1 t_D1 parton i_D1_pi_plus d Z.eqb Pos.eqb]. lra.
Qed.
Lemma charges d : let c := gwcharge (ProkudinTmdSet d) in
  2 * c 0%nat + c 1%nat = 1 /\ c 0%nat + 2 * c 1%nat = 0 /\ c 2%nat = c 1%nat /\ (forall fl, (fl < 3)%nat -> c (fl + 3)%nat = - c fl) /\ gwflavor_count (ProkudinTmdSet d) = 6%nat.
Proof.
  cbn. split; [lra|]. split; [lra|]. split; [lra|]. split; [|reflexivity]. intros fl H. destruct fl as [|[|[|fl]]]; cbn; try lra. lia.
Qed.
