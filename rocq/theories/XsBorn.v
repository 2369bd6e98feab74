(** The Born cross-section as a sum of azimuthal modulations. *)
From Coq Require Import Reals Lra Psatz.
From Verif Require Import ExtModel MathModel MathProofs BoundModel VecModel TransModel VecTac FrameBase KinModel KinEqs KinSpec KinProofs
  SfModel CutModel LepModel HadModel XsModel XsProofs XsSpec.
Local Open Scope R_scope.

Section B.
Variables M m mh Mth E ux uz q0 qz Eh pt pl phih phi : R.
Local Notation Qs := (qz * qz - q0 * q0).
Hypothesis OK : ev_ok M m mh E ux uz q0 qz Eh pt pl.
Hypothesis Hpt' : 0 < pt.
Hypothesis Hpl' : 0 < pl.
Variable k : kin.
Hypothesis K : kin_at M m mh Mth E ux uz q0 qz Eh pt pl phih phi k.
Let c := cos phih.
Let s := sin phih.
Let w := sqrt Qs.
Let kp := kap ux uz.
Lemma w_sq : w * w = Qs. Proof. apply sqrt_sqrt. pose proof (Hsp _ _ _ _ _ _ _ _ _ _ _ OK). lra. Qed.
Lemma w_pos : 0 < w. Proof. apply sqrt_lt_R0. apply (Hsp _ _ _ _ _ _ _ _ _ _ _ OK). Qed.
Lemma uz' : uz = (2 * E * q0 + Qs) / (2 * qz). Proof. apply (uz_eq _ _ _ _ _ _ _ _ _ _ _ OK). Qed.
Lemma kp_pos : 0 < kp. Proof. apply (kap_pos _ _ _ _ _ _ _ _ _ _ _ OK). Qed.
Lemma kp_sq : kp * kp = ux * ux + uz * uz. Proof. apply kap_sq. Qed.

Definition unit_coeff : R := 2 * M * E * sq (2 * M * q0) / (8 * M * pl * (4 * (M * M) * (kp * kp))).
(** Common factor 1/(x y Q^2) y^2/2 (1 + gamma^2/2x) S^2/lambda_S. *)
Definition common : R := M * E * q0 * (q0 + M) / (Qs * Qs * (kp * kp)).
Definition kappa := (2 * E - q0) * (2 * E - q0) / (qz * qz).
Definition flux_T := (kappa + 1 - 4 * (m * m) / Qs) / 2.
Definition flux_L := (kappa - 1) / 2.
Definition flux_TT := 2 * (ux * ux) / Qs.
Definition flux_LT := (2 * E - q0) * 2 * ux / (qz * Qs) * w.
Definition flux_LT' := E / kp * (2 * ux / Qs * w).
Definition flux_T' := E / kp * ((2 * E - q0) / qz - 4 * (m * m) / Qs * qz / (2 * E)).
Lemma born_coeff_at ph : born_coeff (Born k ph) = sq (p_alpha_qed ph) * unit_coeff.
Proof.
  unfold Born, unit_coeff. cbn [born_coeff]. rewrite (at_S _ _ _ _ _ _ _ _ _ _ _ _ _ _ _ K), (at_S_x _ _ _ _ _ _ _ _ _ _ _ _ _ _ _ K), (at_M _ _ _ _ _ _ _ _ _ _ _ _ _ _ _ K), (at_ph_l _ _ _ _ _ _ _ _ _ _ _ _ _ _ _ K), (at_lambda_S _ _ _ _ _ _ _ _ _ _ _ _ _ _ _ K).
  rewrite kp_sq. unfold Rdiv. ring.
Qed.

Ltac ats := rewrite ?(at_S _ _ _ _ _ _ _ _ _ _ _ _ _ _ _ K), ?(at_S_x _ _ _ _ _ _ _ _ _ _ _ _ _ _ _ K), ?(at_S_p _ _ _ _ _ _ _ _ _ _ _ _ _ _ _ K), ?(at_X _ _ _ _ _ _ _ _ _ _ _ _ _ _ _ K),
  ?(at_M _ _ _ _ _ _ _ _ _ _ _ _ _ _ _ K), ?(at_m _ _ _ _ _ _ _ _ _ _ _ _ _ _ _ K), ?(at_mh _ _ _ _ _ _ _ _ _ _ _ _ _ _ _ K), ?(at_z _ _ _ _ _ _ _ _ _ _ _ _ _ _ _ K),
  ?(at_ph_t_sq _ _ _ _ _ _ _ _ _ _ _ _ _ _ _ K), ?(at_ph_t _ _ _ _ _ _ _ _ _ _ _ _ _ _ _ K), ?(at_Q_sq _ _ _ _ _ _ _ _ _ _ _ _ _ _ _ K), ?(at_Q _ _ _ _ _ _ _ _ _ _ _ _ _ _ _ K),
  ?(at_lambda_Y _ _ _ _ _ _ _ _ _ _ _ _ _ _ _ K), ?(at_lambda_Y_sqrt _ _ _ _ _ _ _ _ _ _ _ _ _ _ _ K), ?(at_lambda_S_sqrt _ _ _ _ _ _ _ _ _ _ _ _ _ _ _ K),
  ?(at_lambda_2 _ _ _ _ _ _ _ _ _ _ _ _ _ _ _ K), ?(at_lambda_3 _ _ _ _ _ _ _ _ _ _ _ _ _ _ _ K), ?(at_V_1 _ _ _ _ _ _ _ _ _ _ _ _ _ _ _ K), ?(at_V_2 _ _ _ _ _ _ _ _ _ _ _ _ _ _ _ K),
  ?(at_V_p _ _ _ _ _ _ _ _ _ _ _ _ _ _ _ K), ?(at_V_m _ _ _ _ _ _ _ _ _ _ _ _ _ _ _ K), ?(at_vol_phi_h _ _ _ _ _ _ _ _ _ _ _ _ _ _ _ K), ?(at_C_1 _ _ _ _ _ _ _ _ _ _ _ _ _ _ _ K).
Ltac fin := fold kp; unfold unit_coeff, common, flux_T, flux_L, flux_TT, flux_LT, flux_LT', flux_T', kappa, sq;
  rewrite <- ?(Hk1 _ _ _ _ _ _ _ _ _ _ _ OK), <- ?(Hph _ _ _ _ _ _ _ _ _ _ _ OK), ?uz'; fold c s w; clearbody c s w kp;
  pose proof (HM _ _ _ _ _ _ _ _ _ _ _ OK); pose proof (Hq0 _ _ _ _ _ _ _ _ _ _ _ OK); pose proof (Hqz _ _ _ _ _ _ _ _ _ _ _ OK);
  pose proof (Hsp _ _ _ _ _ _ _ _ _ _ _ OK); pose proof (HE _ _ _ _ _ _ _ _ _ _ _ OK).
Ltac side := repeat split; lra.

Lemma born_uu_at fL fT f1 f2 : let lep := LepBornBaseUU k in let had := make_had_base_uu k (mkBaseUU fL fT f1 f2) in
  unit_coeff * (lb1 lep * h10 had + lb2 lep * h20 had + lb3 lep * h30 had + lb4 lep * h40 had) =
  common * (flux_T * fT + flux_L * fL + flux_LT * c * f1 + flux_TT * (2 * c * c - 1) * f2).
Proof.
  cbv zeta. unfold LepBornBaseUU, make_had_base_uu. cbv zeta. cbn [lb1 lb2 lb3 lb4 h10 h20 h30 h40 uu_F_UUL uu_F_UUT uu_F_UU_cos_phih uu_F_UU_cos_2phih].
  ats. pose proof kp_pos as KP. fin. field. side.
Qed.

Lemma born_ul_at f1 f2 : let lep := LepBornBaseUP k in let had := make_had_base_ul k (mkBaseUL f1 f2) in
  unit_coeff * (lb6 lep * h63 had + lb8 lep * h83 had) = common * (flux_LT * s * f1 + flux_TT * (2 * s * c) * f2).
Proof.
  cbv zeta. unfold LepBornBaseUP, make_had_base_ul. cbv zeta. cbn [lb6 lb8 h63 h83 ul_F_UL_sin_phih ul_F_UL_sin_2phih].
  ats. pose proof kp_pos as KP. fin. field. side.
Qed.
Lemma born_ut1_at fL fT f2 f3 fs fp : let lep := LepBornBaseUP k in let had := make_had_base_ut k (mkBaseUT fL fT f2 f3 fs fp) in
  unit_coeff * (lb6 lep * h61 had + lb8 lep * h81 had) = common * (flux_TT * (2 * s * c) * (fp + f3) + flux_LT * s * (fs + f2)).
Proof.
  cbv zeta. unfold LepBornBaseUP, make_had_base_ut. cbv zeta.
  cbn [lb6 lb8 h61 h81 ut_F_UTL_sin_phih_m_phis ut_F_UTT_sin_phih_m_phis ut_F_UT_sin_2phih_m_phis ut_F_UT_sin_3phih_m_phis ut_F_UT_sin_phis ut_F_UT_sin_phih_p_phis].
  ats. pose proof kp_pos as KP. fin. field. side.
Qed.
Lemma born_ut2_at fL fT f2 f3 fs fp : let lep := LepBornBaseUU k in let had := make_had_base_ut k (mkBaseUT fL fT f2 f3 fs fp) in
  unit_coeff * (lb1 lep * h12 had + lb2 lep * h22 had + lb3 lep * h32 had + lb4 lep * h42 had) =
  common * (- (flux_T * fT + flux_L * fL) + flux_TT * (2 * c * c - 1) * (fp - f3) + flux_LT * c * (fs - f2)).
Proof.
  cbv zeta. unfold LepBornBaseUU, make_had_base_ut. cbv zeta.
  cbn [lb1 lb2 lb3 lb4 h12 h22 h32 h42 ut_F_UTL_sin_phih_m_phis ut_F_UTT_sin_phih_m_phis ut_F_UT_sin_2phih_m_phis ut_F_UT_sin_3phih_m_phis ut_F_UT_sin_phis ut_F_UT_sin_phih_p_phis].
  ats. pose proof kp_pos as KP. fin. field. side.
Qed.
Lemma born_lu_at f1 : let lep := LepBornBaseLU k in let had := make_had_base_lu k (mkBaseLU f1) in
  unit_coeff * lb5 lep * h50 had = common * (flux_LT' * s * f1).
Proof.
  cbv zeta. unfold LepBornBaseLU, make_had_base_lu. cbv zeta. cbn [lb5 h50 lu_F_LU_sin_phih].
  ats. pose proof kp_pos as KP. fin. field. side.
Qed.
Lemma born_ll_at f0 f1 : let lep := LepBornBaseLP k in let had := make_had_base_ll k (mkBaseLL f0 f1) in
  unit_coeff * (lb7 lep * h73 had + lb9 lep * h93 had) = common * (flux_T' * f0 + flux_LT' * c * f1).
Proof.
  cbv zeta. unfold LepBornBaseLP, make_had_base_ll. cbv zeta. cbn [lb7 lb9 h73 h93 ll_F_LL ll_F_LL_cos_phih].
  ats. pose proof kp_pos as KP. fin. field. side.
Qed.
Lemma born_lt1_at f1 f2 fs : let lep := LepBornBaseLP k in let had := make_had_base_lt k (mkBaseLT f1 f2 fs) in
  unit_coeff * (lb7 lep * h71 had + lb9 lep * h91 had) = common * (flux_T' * f1 + flux_LT' * c * (fs + f2)).
Proof.
  cbv zeta. unfold LepBornBaseLP, make_had_base_lt. cbv zeta. cbn [lb7 lb9 h71 h91 lt_F_LT_cos_phih_m_phis lt_F_LT_cos_2phih_m_phis lt_F_LT_cos_phis].
  ats. pose proof kp_pos as KP. fin. field. side.
Qed.
Lemma born_lt2_at f1 f2 fs : let lep := LepBornBaseLU k in let had := make_had_base_lt k (mkBaseLT f1 f2 fs) in
  unit_coeff * lb5 lep * h52 had = - (common * (flux_LT' * s * (fs - f2))).
Proof.
  cbv zeta. unfold LepBornBaseLU, make_had_base_lt. cbv zeta. cbn [lb5 h52 lt_F_LT_cos_phih_m_phis lt_F_LT_cos_2phih_m_phis lt_F_LT_cos_phis].
  ats. pose proof kp_pos as KP. fin. field. side.
Qed.

(** The fluxes in terms of x, y and the masses. *)
Lemma kappa_eq : (2 - q0 / E) ^ 2 / ((q0 / E) ^ 2 * (1 + Qs / (q0 * q0))) = kappa.
Proof. unfold kappa. pose proof (Hq0 _ _ _ _ _ _ _ _ _ _ _ OK). pose proof (HE _ _ _ _ _ _ _ _ _ _ _ OK). pose proof (Hqz _ _ _ _ _ _ _ _ _ _ _ OK). field. repeat split; try lra.
  replace (q0 * q0 + (qz * qz - q0 * q0)) with (qz * qz) by ring. apply Rgt_not_eq. apply Rmult_lt_0_compat; lra. Qed.
Lemma kappa_rel : kappa - 1 - 4 * (m * m) / Qs = 4 * (ux * ux) / Qs.
Proof. unfold kappa. rewrite <- (Hk1 _ _ _ _ _ _ _ _ _ _ _ OK), uz'. pose proof (Hqz _ _ _ _ _ _ _ _ _ _ _ OK). pose proof (Hsp _ _ _ _ _ _ _ _ _ _ _ OK). field. lra. Qed.
Lemma sqrt_kappa : sqrt kappa = (2 * E - q0) / qz.
Proof.
  pose proof (Hqz _ _ _ _ _ _ _ _ _ _ _ OK). pose proof (HE _ _ _ _ _ _ _ _ _ _ _ OK). pose proof (HE2 _ _ _ _ _ _ _ _ _ _ _ OK).
  apply sqrt_sq_eq; [|unfold kappa; field; lra]. left. apply Rdiv_lt_0_compat; lra.
Qed.
Lemma sqrt_kappa' : sqrt (kappa - 1 - 4 * (m * m) / Qs) = 2 * ux / Qs * w.
Proof.
  rewrite kappa_rel. pose proof (Hux _ _ _ _ _ _ _ _ _ _ _ OK). pose proof (Hsp _ _ _ _ _ _ _ _ _ _ _ OK). pose proof w_pos. pose proof w_sq as W2.
  apply sqrt_sq_eq. { apply Rmult_le_pos; [|lra]. left. apply Rdiv_lt_0_compat; lra. }
  transitivity (4 * (ux * ux) / (Qs * Qs) * (w * w)); [rewrite W2; field; lra|field; lra].
Qed.

Lemma gamma_at : gamma_sq (Qs / (2 * M * q0)) Qs M = Qs / (q0 * q0).
Proof. unfold gamma_sq. pose proof (HM _ _ _ _ _ _ _ _ _ _ _ OK). pose proof (Hq0 _ _ _ _ _ _ _ _ _ _ _ OK). pose proof (Hsp _ _ _ _ _ _ _ _ _ _ _ OK). field. repeat split; lra. Qed.
Lemma S_at : Qs / (Qs / (2 * M * q0) * (q0 / E)) = 2 * M * E.
Proof. pose proof (HM _ _ _ _ _ _ _ _ _ _ _ OK). pose proof (Hq0 _ _ _ _ _ _ _ _ _ _ _ OK). pose proof (Hsp _ _ _ _ _ _ _ _ _ _ _ OK). pose proof (HE _ _ _ _ _ _ _ _ _ _ _ OK). field. repeat split; lra. Qed.
Lemma lS_at : (2 * M * E) ^ 2 - 4 * M ^ 2 * m ^ 2 = 4 * (M * M) * (kp * kp).
Proof. rewrite kp_sq. replace (m ^ 2) with (m * m) by ring. rewrite <- (Hk1 _ _ _ _ _ _ _ _ _ _ _ OK). ring. Qed.
Lemma lS_sqrt_at : sqrt (4 * (M * M) * (kp * kp)) = 2 * M * kp.
Proof. pose proof kp_pos. pose proof (HM _ _ _ _ _ _ _ _ _ _ _ OK). apply sqrt_sq_eq; [|ring]. apply Rmult_le_pos; lra. Qed.
Lemma lY_at : 2 * M * E * (q0 / E) * sqrt (1 + Qs / (q0 * q0)) = 2 * M * qz.
Proof.
  pose proof (Hqz _ _ _ _ _ _ _ _ _ _ _ OK). pose proof (HE _ _ _ _ _ _ _ _ _ _ _ OK). pose proof (Hq0 _ _ _ _ _ _ _ _ _ _ _ OK).
  rewrite (sqrt_sq_eq (1 + Qs / (q0 * q0)) (qz / q0)); [field; lra| |field; lra]. left. apply Rdiv_lt_0_compat; lra.
Qed.
Lemma fluxes_at : massive_fluxes (q0 / E) (Qs / (q0 * q0)) (4 * m ^ 2 / Qs) (2 * M * E) (4 * (M * M) * (kp * kp)) (2 * M * qz) =
  Fluxes flux_T flux_L flux_TT flux_LT flux_LT' flux_T'.
Proof.
  unfold massive_fluxes. cbv zeta. rewrite kappa_eq, lS_sqrt_at. replace (m ^ 2) with (m * m) by ring.
  pose proof kp_pos as KP. pose proof (HM _ _ _ _ _ _ _ _ _ _ _ OK). pose proof (HE _ _ _ _ _ _ _ _ _ _ _ OK). pose proof (Hqz _ _ _ _ _ _ _ _ _ _ _ OK). pose proof (Hsp _ _ _ _ _ _ _ _ _ _ _ OK).
  f_equal.
  - rewrite kappa_rel. unfold flux_TT. field. lra.
  - rewrite sqrt_mult_alt, sqrt_kappa, sqrt_kappa'; [unfold flux_LT; field; lra|]. unfold kappa. apply Rmult_le_pos; [apply Rle_0_sqr|]. left. apply Rinv_0_lt_compat, Rmult_lt_0_compat; lra.
  - rewrite sqrt_kappa'. unfold flux_LT'. field. repeat split; lra.
  - rewrite sqrt_kappa. unfold flux_T'. field. repeat split; lra.
Qed.
Variable sf : sf_set sf_point.
Lemma born_at ph lambda_e S_L S_T phi_S :
  born sf k ph lambda_e (V3 (S_T * cos (phi_S - phih)) (S_T * sin (phi_S - phih)) S_L) =
  massive_sidis (p_alpha_qed ph) (kx k) (ky k) (kQ_sq k) (kM k) (km k) (fun n => sf n (point_of k)) lambda_e S_L S_T phih phi_S.
Proof.
  rewrite born_full. cbv zeta. set (p := point_of k). unfold massive_sidis. cbv zeta.
  rewrite (at_x _ _ _ _ _ _ _ _ _ _ _ _ _ _ _ K), (at_y _ _ _ _ _ _ _ _ _ _ _ _ _ _ _ K), (at_Q_sq _ _ _ _ _ _ _ _ _ _ _ _ _ _ _ K), (at_M _ _ _ _ _ _ _ _ _ _ _ _ _ _ _ K), (at_m _ _ _ _ _ _ _ _ _ _ _ _ _ _ _ K).
  rewrite gamma_at, S_at, lS_at, lY_at, fluxes_at.
  unfold born_base_uu, born_base_ul, born_base_ut1, born_base_ut2, born_base_lu, born_base_ll, born_base_lt1, born_base_lt2, sf_base_uu, sf_base_ul, sf_base_ut, sf_base_lu, sf_base_ll, sf_base_lt.
  rewrite born_coeff_at. set (a := p_alpha_qed ph).
  pose proof (born_uu_at (sf F_UUL p) (sf F_UUT p) (sf F_UU_cos_phih p) (sf F_UU_cos_2phih p)) as UU.
  pose proof (born_ul_at (sf F_UL_sin_phih p) (sf F_UL_sin_2phih p)) as UL.
  pose proof (born_ut1_at (sf F_UTL_sin_phih_m_phis p) (sf F_UTT_sin_phih_m_phis p) (sf F_UT_sin_2phih_m_phis p) (sf F_UT_sin_3phih_m_phis p) (sf F_UT_sin_phis p) (sf F_UT_sin_phih_p_phis p)) as UT1.
  pose proof (born_ut2_at (sf F_UTL_sin_phih_m_phis p) (sf F_UTT_sin_phih_m_phis p) (sf F_UT_sin_2phih_m_phis p) (sf F_UT_sin_3phih_m_phis p) (sf F_UT_sin_phis p) (sf F_UT_sin_phih_p_phis p)) as UT2.
  pose proof (born_lu_at (sf F_LU_sin_phih p)) as LU.
  pose proof (born_ll_at (sf F_LL p) (sf F_LL_cos_phih p)) as LL.
  pose proof (born_lt1_at (sf F_LT_cos_phih_m_phis p) (sf F_LT_cos_2phih_m_phis p) (sf F_LT_cos_phis p)) as LT1.
  pose proof (born_lt2_at (sf F_LT_cos_phih_m_phis p) (sf F_LT_cos_2phih_m_phis p) (sf F_LT_cos_phis p)) as LT2.
  cbv zeta in *. cbn [x3 y3 z3]. rewrite !(Rmult_assoc (sq a) unit_coeff). rewrite UU, UL, UT1, UT2, LL, LT1, (Rmult_assoc (sq a) (unit_coeff * _)), (Rmult_assoc (sq a) (unit_coeff * _)), LU, LT2.
  unfold modulations. cbn [f_T f_L f_TT f_LT f_LT' f_T']. 
  replace (phi_S - phih) with (- (phih - phi_S)) by ring. rewrite cos_neg, sin_neg.
  set (d := phih - phi_S).
  assert (PC : a ^ 2 / (Qs / (2 * M * q0) * (q0 / E) * Qs) * ((q0 / E) ^ 2 / 2) * (1 + Qs / (q0 * q0) / (2 * (Qs / (2 * M * q0)))) * ((2 * M * E) ^ 2 / (4 * (M * M) * (kp * kp))) = sq a * common).
  { unfold common, sq. pose proof kp_pos as KP. pose proof (HM _ _ _ _ _ _ _ _ _ _ _ OK). pose proof (Hq0 _ _ _ _ _ _ _ _ _ _ _ OK). pose proof (Hsp _ _ _ _ _ _ _ _ _ _ _ OK). pose proof (HE _ _ _ _ _ _ _ _ _ _ _ OK).
    field. repeat split; lra. }
  rewrite PC. clear PC UU UL UT1 UT2 LU LL LT1 LT2.
  replace (phih + phi_S) with (2 * phih - d) by (unfold d; ring). replace (3 * phih - phi_S) with (2 * phih + d) by (unfold d; ring).
  replace phi_S with (phih - d) at 3 by (unfold d; ring). 
  replace (2 * phih - phi_S) with (phih + d) by (unfold d; ring). replace phi_S with (phih - d) by (unfold d; ring).
  rewrite !sin_plus, !sin_minus, !cos_plus, !cos_minus, !sin_2a, !cos_2a_cos. fold c s. 
  assert (CS : c * c + s * s = 1) by (pose proof (sin2_cos2 phih) as C2; unfold Rsqr in C2; fold c s in C2; lra).
  clearbody a d. ring.
Qed.
End B.

(** Without lepton mass the fluxes are those of the textbook. *)
Lemma sqrt_scale a b r : 0 < r -> b = r * r * a -> sqrt b = r * sqrt a.
Proof.
  intros Hr ->. destruct (Rle_lt_dec 0 a) as [Ha|Ha].
  - rewrite sqrt_mult_alt; [rewrite sqrt_square; lra|]. apply Rmult_le_pos; lra.
  - rewrite (sqrt_neg_0 a), sqrt_neg_0; [ring| |lra]. assert (0 < r * r * - a) by (repeat apply Rmult_lt_0_compat; lra). lra.
Qed.
Lemma massive_zero alpha x y Q_sq M F lambda_e S_L S_T phi_h phi_S : 0 < x -> 0 < y < 1 -> 0 < Q_sq -> 0 < M ->
  massive_sidis alpha x y Q_sq M 0 F lambda_e S_L S_T phi_h phi_S = textbook_sidis alpha x y Q_sq M F lambda_e S_L S_T phi_h phi_S.
Proof.
  intros Hx Hy HQ HM. unfold massive_sidis, textbook_sidis. cbv zeta. set (g2 := gamma_sq x Q_sq M).
  assert (Hg : 0 < g2). { unfold g2, gamma_sq. apply Rdiv_lt_0_compat; auto. apply pow_lt. repeat apply Rmult_lt_0_compat; lra. }
  set (S := Q_sq / (x * y)). assert (HS : 0 < S) by (apply Rdiv_lt_0_compat; [auto|apply Rmult_lt_0_compat; lra]).
  replace (S ^ 2 - 4 * M ^ 2 * 0 ^ 2) with (S * S) by ring. set (lY := S * y * sqrt (1 + g2)).
  set (ka := (2 - y) ^ 2 / (y ^ 2 * (1 + g2))).
  assert (Y2 : 0 < y ^ 2) by (apply pow_lt; lra).
  assert (YG : 0 < y ^ 2 * (1 + g2)) by (apply Rmult_lt_0_compat; lra).
  assert (Hka : 0 < ka). { apply Rdiv_lt_0_compat; auto. apply pow_lt. lra. }
  assert (D : 0 < 1 - y + y ^ 2 / 2 + g2 * y ^ 2 / 4). { assert (0 < g2 * y ^ 2) by (apply Rmult_lt_0_compat; auto). lra. }
  assert (EK : epsilon y g2 = (ka - 1) / (ka + 1)).
  { unfold epsilon, ka. field. repeat split; lra. }
  set (eps := epsilon y g2) in *.
  assert (E1 : 1 - eps = 2 / (ka + 1)) by (rewrite EK; field; lra).
  assert (E2 : 1 + eps = 2 * ka / (ka + 1)) by (rewrite EK; field; lra).
  assert (FL : massive_fluxes y g2 (4 * 0 ^ 2 / Q_sq) S (S * S) lY =
    let f := textbook_fluxes eps in let r := (ka + 1) / 2 in Fluxes (r * f_T f) (r * f_L f) (r * f_TT f) (r * f_LT f) (r * f_LT' f) (r * f_T' f)).
  { unfold massive_fluxes, textbook_fluxes. cbv zeta. cbn [f_T f_L f_TT f_LT f_LT' f_T']. fold ka.
    replace (4 * 0 ^ 2 / Q_sq) with 0 by (field; lra). rewrite Rminus_0_r. rewrite sqrt_square by lra.
    assert (HR : 0 < (ka + 1) / 2) by lra.
    assert (S1 : sqrt (ka * (ka - 1 - 0)) = (ka + 1) / 2 * sqrt (2 * eps * (1 + eps))) by (apply sqrt_scale; [auto|rewrite E2, EK; field; lra]).
    assert (S2 : sqrt (ka - 1 - 0) = (ka + 1) / 2 * sqrt (2 * eps * (1 - eps))) by (apply sqrt_scale; [auto|rewrite E1, EK; field; lra]).
    assert (S3 : sqrt ka = (ka + 1) / 2 * sqrt (1 - eps ^ 2)) by (apply sqrt_scale; [auto|rewrite EK; field; lra]).
    rewrite S1, S2, S3, EK. f_equal; field; lra. }
  rewrite FL. cbv zeta. rewrite E1. unfold modulations. cbn [f_T f_L f_TT f_LT f_LT' f_T'].
  clearbody eps lY. clear FL E1 E2 EK D. clearbody g2 S ka. field. repeat split; lra.
Qed.
