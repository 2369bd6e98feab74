(** Values of all kinematic fields for a physical event. *)
From Coq Require Import Reals Lra Psatz.
From Verif Require Import ExtModel MathModel MathProofs ParticleModel VecModel TransModel VecTac FrameBase KinModel KinEqs KinSpec.
Local Open Scope R_scope.

Lemma sqrt_sq_eq a b : 0 <= b -> a = b * b -> sqrt a = b.
Proof. intros H ->. apply sqrt_square. auto. Qed.
Lemma half_R : 0.5 = / 2.
Proof. lra. Qed.

Section Ev.
Variables M m mh Mth E ux uz q0 qz Eh pt pl phih phi : R.
Local Notation Qs := (qz * qz - q0 * q0).
Definition kap := sqrt (ux * ux + uz * uz).

(** All fields of Kinematics in terms of the components of an event. *)
Record kin_at (k : kin) : Prop := KinAt {
  at_S : kS k = 2 * M * E;
  at_M : kM k = M;
  at_m : km k = m;
  at_mh : kmh k = mh;
  at_Mth : kMth k = Mth;
  at_x : kx k = Qs / (2 * M * q0);
  at_y : ky k = q0 / E;
  at_z : kz k = Eh / q0;
  at_ph_t_sq : kph_t_sq k = pt * pt;
  at_phi_h : kphi_h k = phih;
  at_phi : kphi k = phi;
  at_phi_q : kphi_q k = wrap_angle (PI - phi);
  at_cos_phi_h : kcos_phi_h k = cos phih;
  at_sin_phi_h : ksin_phi_h k = sin phih;
  at_cos_phi : kcos_phi k = cos phi;
  at_sin_phi : ksin_phi k = sin phi;
  at_cos_phi_q : kcos_phi_q k = - cos phi;
  at_sin_phi_q : ksin_phi_q k = sin phi;
  at_Q_sq : kQ_sq k = Qs;
  at_Q : kQ k = sqrt Qs;
  at_X : kX k = 2 * M * (E - q0);
  at_S_x : kS_x k = 2 * M * q0;
  at_S_p : kS_p k = 2 * M * (2 * E - q0);
  at_lambda_S : klambda_S k = 4 * (M * M) * (ux * ux + uz * uz);
  at_lambda_X : klambda_X k = 4 * (M * M) * (ux * ux + (uz - qz) * (uz - qz));
  at_lambda_Y : klambda_Y k = 4 * (M * M) * (qz * qz);
  at_lambda_1 : klambda_1 k = 4 * (M * M) * (qz * qz) * (ux * ux);
  at_lambda_S_sqrt : klambda_S_sqrt k = 2 * M * kap;
  at_lambda_X_sqrt : klambda_X_sqrt k = 2 * M * sqrt (ux * ux + (uz - qz) * (uz - qz));
  at_lambda_Y_sqrt : klambda_Y_sqrt k = 2 * M * qz;
  at_lambda_1_sqrt : klambda_1_sqrt k = 2 * M * qz * ux;
  at_ph_0 : kph_0 k = Eh;
  at_ph_t : kph_t k = pt;
  at_ph_l : kph_l k = pl;
  at_q_0 : kq_0 k = q0;
  at_q_t : kq_t k = qz * ux / kap;
  at_q_l : kq_l k = qz * uz / kap;
  at_k2_0 : kk2_0 k = E - q0;
  at_k2_l : kk2_l k = (ux * ux + uz * (uz - qz)) / kap;
  at_k2_t : kk2_t k = qz * ux / kap;
  at_k1_t : kk1_t k = ux;
  at_V_1 : kV_1 k = 2 * (E * Eh - uz * pl - ux * pt * cos phih);
  at_V_2 : kV_2 k = 2 * ((E - q0) * Eh - (uz - qz) * pl - ux * pt * cos phih);
  at_V_p : kV_p k = (2 * E - q0) * Eh - (2 * uz - qz) * pl - 2 * ux * pt * cos phih;
  at_V_m : kV_m k = q0 * Eh - qz * pl;
  at_t : kt k = mh * mh - Qs - 2 * (q0 * Eh - qz * pl);
  at_W_sq : kW_sq k = M * M + 2 * M * q0 - Qs;
  at_mx_sq : kmx_sq k = (M + q0 - Eh) * (M + q0 - Eh) - pt * pt - (qz - pl) * (qz - pl);
  at_mx : kmx k = sqrt ((M + q0 - Eh) * (M + q0 - Eh) - pt * pt - (qz - pl) * (qz - pl));
  at_lambda_2 : klambda_2 k = (q0 * Eh - qz * pl) * (q0 * Eh - qz * pl) + mh * mh * Qs;
  at_lambda_3 : klambda_3 k = q0 * Eh - qz * pl + Eh / q0 * Qs;
  at_lambda_2_sqrt : klambda_2_sqrt k = sqrt ((q0 * Eh - qz * pl) * (q0 * Eh - qz * pl) + mh * mh * Qs);
  at_lambda_3_sqrt : klambda_3_sqrt k = sqrt (q0 * Eh - qz * pl + Eh / q0 * Qs);
  at_vol_phi_h : kvol_phi_h k = - M * qz * ux * pt * sin phih;
  at_C_1 : kC_1 k = 4 * M * pl * (Qs + Qs / q0 * M) / (Qs * Qs * Qs * Qs) }.

Record ev_ok : Prop := EvOk {
  HM : 0 < M; Hm : 0 <= m; Hmh : 0 <= mh;
  Hk1 : E * E - ux * ux - uz * uz = m * m;
  Huz : 2 * uz * qz = 2 * E * q0 + Qs;
  Hph : Eh * Eh - pt * pt - pl * pl = mh * mh;
  Hux : 0 < ux; Hq0 : 0 < q0; Hqz : 0 < qz; Hsp : 0 < Qs; HE : 0 < E; HE2 : 0 < E - q0; HEh : 0 < Eh; Hpt : 0 <= pt; Hpl : 0 <= pl }.
Hypothesis OK : ev_ok.
Lemma kap_sq : kap * kap = ux * ux + uz * uz.
Proof. apply sqrt_sqrt. nra. Qed.
Lemma kap_pos : 0 < kap.
Proof. apply sqrt_lt_R0. pose proof (Hux OK). nra. Qed.
Lemma uz_eq : uz = (2 * E * q0 + Qs) / (2 * qz).
Proof. pose proof (Huz OK). pose proof (Hqz OK). field_simplify_eq; lra. Qed.

Variable k : kin.
Hypothesis K : kin_eqs k.
Hypothesis I_S : kS k = 2 * M * E.
Hypothesis I_M : kM k = M.
Hypothesis I_m : km k = m.
Hypothesis I_mh : kmh k = mh.
Hypothesis I_Mth : kMth k = Mth.
Hypothesis I_x : kx k = Qs / (2 * M * q0).
Hypothesis I_y : ky k = q0 / E.
Hypothesis I_z : kz k = Eh / q0.
Hypothesis I_ph_t_sq : kph_t_sq k = pt * pt.
Hypothesis I_phi_h : kphi_h k = phih.
Hypothesis I_phi : kphi k = phi.
Hypothesis I_phi_q : kphi_q k = wrap_angle (PI - phi).

Ltac pos := destruct OK; repeat split; try lra; try nra.
Ltac fld := pose proof kap_pos; destruct OK; field; repeat split; try lra; try nra.
Lemma a_Q_sq : kQ_sq k = Qs.
Proof. rewrite (ke_Q_sq _ K), I_S, I_x, I_y. fld. Qed.
Lemma a_X : kX k = 2 * M * (E - q0).
Proof. rewrite (ke_X _ K), I_S, I_y. fld. Qed.
Lemma a_S_x : kS_x k = 2 * M * q0.
Proof. rewrite (ke_S_x _ K), I_S, I_y. fld. Qed.
Lemma a_S_p : kS_p k = 2 * M * (2 * E - q0).
Proof. rewrite (ke_S_p _ K), I_S, I_y. fld. Qed.
Lemma a_lambda_S : klambda_S k = 4 * (M * M) * (ux * ux + uz * uz).
Proof. rewrite (ke_lambda_S _ K), I_S, I_M, I_m. unfold sq. rewrite <- (Hk1 OK). ring. Qed.
Lemma a_lambda_X : klambda_X k = 4 * (M * M) * (ux * ux + (uz - qz) * (uz - qz)).
Proof.
  rewrite (ke_lambda_X _ K), a_X, I_M, I_m. unfold sq. rewrite <- (Hk1 OK).
  pose proof (Huz OK). assert (uz * qz = E * q0 + (qz * qz - q0 * q0) / 2) by lra.
  transitivity (4 * (M * M) * (ux * ux + (uz * uz - 2 * (uz * qz) + qz * qz))); [|ring]. rewrite H0. field.
Qed.
Lemma a_lambda_Y : klambda_Y k = 4 * (M * M) * (qz * qz).
Proof. rewrite (ke_lambda_Y _ K), a_S_x, a_Q_sq, I_M. unfold sq. ring. Qed.
Lemma a_lambda_1 : klambda_1 k = 4 * (M * M) * (qz * qz) * (ux * ux).
Proof.
  rewrite (ke_lambda_1 _ K), a_lambda_Y, a_X, a_Q_sq, I_M, I_m, I_S. unfold sq. rewrite <- (Hk1 OK).
  transitivity (Qs * (2 * M * E * (2 * M * (E - q0)) - M * M * Qs) - (4 * (M * M) * (qz * qz)) * (E * E - ux * ux)
    + (M * M) * ((2 * uz * qz) * (2 * uz * qz))); [ring|]. rewrite (Huz OK). ring.
Qed.
Lemma a_lambda_S_sqrt : klambda_S_sqrt k = 2 * M * kap.
Proof. rewrite (ke_lambda_S_sqrt _ K), a_lambda_S. apply sqrt_sq_eq; [pose proof kap_pos; pose proof (HM OK); nra|]. rewrite <- kap_sq. ring. Qed.
Lemma a_lambda_X_sqrt : klambda_X_sqrt k = 2 * M * sqrt (ux * ux + (uz - qz) * (uz - qz)).
Proof.
  rewrite (ke_lambda_X_sqrt _ K), a_lambda_X. apply sqrt_sq_eq.
  - pose proof (sqrt_pos (ux * ux + (uz - qz) * (uz - qz))). pose proof (HM OK). nra.
  - set (w := ux * ux + (uz - qz) * (uz - qz)). assert (0 <= w) by (subst w; pose proof (Rle_0_sqr ux); pose proof (Rle_0_sqr (uz - qz)); unfold Rsqr in *; lra).
    rewrite <- (sqrt_sqrt w) at 1 by assumption. ring.
Qed.
Lemma a_lambda_Y_sqrt : klambda_Y_sqrt k = 2 * M * qz.
Proof. rewrite (ke_lambda_Y_sqrt _ K), a_lambda_Y. apply sqrt_sq_eq; [pos|ring]. Qed.
Lemma a_lambda_1_sqrt : klambda_1_sqrt k = 2 * M * qz * ux.
Proof.
  rewrite (ke_lambda_1_sqrt _ K), a_lambda_1. apply sqrt_sq_eq; [|ring].
  destruct OK. assert (0 < M * qz) by nra. nra.
Qed.
Lemma a_ph_0 : kph_0 k = Eh.
Proof. rewrite (ke_ph_0 _ K), I_z, a_S_x, I_M. fld. Qed.
Lemma a_ph_t : kph_t k = pt.
Proof. rewrite (ke_ph_t _ K), I_ph_t_sq. apply sqrt_square. pos. Qed.
Lemma ratio_eq : pt * pt / sq Eh + sq (mh / Eh) = 1 - pl / Eh * (pl / Eh).
Proof.
  unfold sq. replace (mh / Eh * (mh / Eh)) with (mh * mh / (Eh * Eh)) by fld.
  rewrite <- (Hph OK). fld.
Qed.
Lemma a_ph_l : kph_l k = pl.
Proof.
  rewrite (ke_ph_l _ K), a_ph_0, I_ph_t_sq, I_mh, ratio_eq.
  rewrite (sqrt_sq_eq _ (pl / Eh)); [fld| |ring].
  destruct OK. apply Rmult_le_pos; [lra|]. left. apply Rinv_0_lt_compat. lra.
Qed.
Lemma a_q_0 : kq_0 k = q0.
Proof. rewrite (ke_q_0 _ K), a_S_x, I_M. fld. Qed.
Lemma a_q_t : kq_t k = qz * ux / kap.
Proof. rewrite (ke_q_t _ K), a_lambda_1_sqrt, a_lambda_S_sqrt. fld. Qed.
Lemma a_q_l : kq_l k = qz * uz / kap.
Proof.
  rewrite (ke_q_l _ K), a_lambda_S_sqrt, a_Q_sq, a_S_x, I_M, I_S. unfold sq.
  transitivity (M * (2 * E * q0 + Qs) / (2 * M * kap)); [fld|]. rewrite <- (Huz OK). fld.
Qed.
Lemma a_k2_0 : kk2_0 k = E - q0.
Proof. rewrite (ke_k2_0 _ K), a_X, I_M. fld. Qed.
Lemma a_k2_l : kk2_l k = (ux * ux + uz * (uz - qz)) / kap.
Proof.
  rewrite (ke_k2_l _ K), a_lambda_S_sqrt, a_Q_sq, a_X, I_M, I_S, I_m. unfold sq. rewrite <- (Hk1 OK).
  transitivity ((ux * ux + uz * uz - (2 * E * q0 + Qs) / 2) / kap); [fld|]. rewrite <- (Huz OK). fld.
Qed.
Lemma a_k2_t : kk2_t k = qz * ux / kap.
Proof. rewrite (ke_k2_t _ K), a_lambda_1_sqrt, a_lambda_S_sqrt. fld. Qed.
Lemma a_k1_t : kk1_t k = ux.
Proof. rewrite (ke_k1_t _ K), a_lambda_1_sqrt, a_lambda_Y_sqrt. fld. Qed.
Lemma a_V_1 : kV_1 k = 2 * (E * Eh - uz * pl - ux * pt * cos phih).
Proof.
  rewrite (ke_V_1 _ K), a_ph_0, a_ph_l, a_lambda_Y_sqrt, a_ph_t, a_k1_t, a_Q_sq, a_S_x, I_M, I_S, (ke_cos_phi_h _ K), I_phi_h.
  rewrite uz_eq. unfold sq. fld.
Qed.
Lemma a_V_2 : kV_2 k = 2 * ((E - q0) * Eh - (uz - qz) * pl - ux * pt * cos phih).
Proof.
  rewrite (ke_V_2 _ K), a_ph_0, a_ph_l, a_lambda_Y_sqrt, a_ph_t, a_k1_t, a_Q_sq, a_S_x, a_X, I_M, (ke_cos_phi_h _ K), I_phi_h.
  rewrite uz_eq. unfold sq. fld.
Qed.
Lemma a_V_p : kV_p k = (2 * E - q0) * Eh - (2 * uz - qz) * pl - 2 * ux * pt * cos phih.
Proof. rewrite (ke_V_p _ K), a_V_1, a_V_2. lra. Qed.
Lemma a_V_m : kV_m k = q0 * Eh - qz * pl.
Proof.
  rewrite (ke_V_m _ K), a_ph_0, I_ph_t_sq, I_mh, ratio_eq, a_S_x, a_Q_sq, I_M.
  match goal with |- context [sqrt1p_1m ?a] => assert (Ha : 1 + a = qz * pl / (q0 * Eh) * (qz * pl / (q0 * Eh))) end.
  { unfold sq. fld. }
  rewrite sqrt1p_1m_eq, Ha.
  - rewrite sqrt_square; [fld|]. destruct OK. apply Rmult_le_pos; [nra|]. left. apply Rinv_0_lt_compat. nra.
  - pose proof (Rle_0_sqr (qz * pl / (q0 * Eh))). unfold Rsqr in H. lra.
Qed.
Lemma a_t : kt k = mh * mh - Qs - 2 * (q0 * Eh - qz * pl).
Proof. rewrite (ke_t _ K), a_Q_sq, a_V_m, I_mh. unfold sq. ring. Qed.
Lemma a_W_sq : kW_sq k = M * M + 2 * M * q0 - Qs.
Proof. rewrite (ke_W_sq _ K), a_Q_sq, a_S_x, I_M. unfold sq. ring. Qed.
Lemma a_mx_sq : kmx_sq k = (M + q0 - Eh) * (M + q0 - Eh) - pt * pt - (qz - pl) * (qz - pl).
Proof.
  rewrite (ke_mx_sq _ K), a_t, a_S_x, I_M, I_z. unfold sq. rewrite <- (Hph OK). fld.
Qed.
Lemma a_lambda_2 : klambda_2 k = (q0 * Eh - qz * pl) * (q0 * Eh - qz * pl) + mh * mh * Qs.
Proof. rewrite (ke_lambda_2 _ K), a_V_m, a_Q_sq, I_mh. unfold sq. ring. Qed.
Lemma a_lambda_3 : klambda_3 k = q0 * Eh - qz * pl + Eh / q0 * Qs.
Proof. rewrite (ke_lambda_3 _ K), a_V_m, a_Q_sq, I_z. ring. Qed.
Lemma a_vol_phi_h : kvol_phi_h k = - M * qz * ux * pt * sin phih.
Proof. rewrite (ke_vol_phi_h _ K), a_lambda_1_sqrt, a_ph_t, (ke_sin_phi_h _ K), I_phi_h. lra. Qed.
Lemma a_C_1 : kC_1 k = 4 * M * pl * (Qs + Qs / q0 * M) / (Qs * Qs * Qs * Qs).
Proof. rewrite (ke_C_1 _ K), a_ph_l, a_Q_sq, I_x, I_M. unfold sq. fld. Qed.
Lemma kin_at_all : kin_at k.
Proof.
  constructor; first [assumption
    | apply a_Q_sq | apply a_X | apply a_S_x | apply a_S_p | apply a_lambda_S | apply a_lambda_X | apply a_lambda_Y | apply a_lambda_1
    | apply a_lambda_S_sqrt | apply a_lambda_X_sqrt | apply a_lambda_Y_sqrt | apply a_lambda_1_sqrt | apply a_ph_0 | apply a_ph_t | apply a_ph_l
    | apply a_q_0 | apply a_q_t | apply a_q_l | apply a_k2_0 | apply a_k2_l | apply a_k2_t | apply a_k1_t | apply a_V_1 | apply a_V_2 | apply a_V_p
    | apply a_V_m | apply a_t | apply a_W_sq | apply a_mx_sq | apply a_lambda_2 | apply a_lambda_3 | apply a_vol_phi_h | apply a_C_1
    | rewrite (ke_cos_phi_h _ K), I_phi_h; reflexivity | rewrite (ke_sin_phi_h _ K), I_phi_h; reflexivity
    | rewrite (ke_cos_phi_q _ K), (ke_cos_phi _ K), I_phi; reflexivity | rewrite (ke_sin_phi_q _ K), (ke_sin_phi _ K), I_phi; reflexivity
    | rewrite (ke_cos_phi _ K), I_phi; reflexivity | rewrite (ke_sin_phi _ K), I_phi; reflexivity
    | rewrite (ke_Q _ K), a_Q_sq; reflexivity | rewrite (ke_mx _ K), a_mx_sq; reflexivity
    | rewrite (ke_lambda_2_sqrt _ K), a_lambda_2; reflexivity | rewrite (ke_lambda_3_sqrt _ K), a_lambda_3; reflexivity ].
Qed.
End Ev.
