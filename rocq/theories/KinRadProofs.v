(** Values of all fields of KinematicsRad for a physical event with a radiated photon. *)
From Coq Require Import Reals Lra Psatz.
From Verif Require Import ExtModel MathModel MathProofs ParticleModel VecModel TransModel VecTac FrameBase KinModel KinEqs KinSpec KinProofs.
Local Open Scope R_scope.

Section Rad.
Variables M m mh Mth E ux uz q0 qz Eh pt pl phih phi : R.
Variables kk ct st phik : R.
Local Notation Qs := (qz * qz - q0 * q0).
Local Notation kap := (kap ux uz).
Definition cosd := cos phih * cos phik + sin phih * sin phik.
(** - q'^2, q'.ph, |q'|^2, |q' x k1|^2, |q' x ph|^2, q'.ph and q'.k1 (spatial), det(ph, k1, q') for q' = q - k. *)
Definition SQ := Qs + 2 * kk * (q0 - ct * qz).
Definition SV := (q0 - kk) * Eh - (qz - kk * ct) * pl + kk * st * pt * cosd.
Definition SL := kk * st * (kk * st) + (qz - kk * ct) * (qz - kk * ct).
Definition SK := - (kk * st * cos phik * ux) + (qz - kk * ct) * uz.
Definition SH := (qz - kk * ct) * pl - kk * st * pt * cosd.
Definition SX1 := SL * (ux * ux + uz * uz) - SK * SK.
Definition SHX := SL * (pt * pt + pl * pl) - SH * SH.
Definition SD := ux * ((- kk * st * sin phik) * pl - pt * sin phih * (qz - kk * ct))
  + uz * (pt * sin phih * (- kk * st * cos phik) - pt * cos phih * (- kk * st * sin phik)).

Record rad_at (r : kinrad) : Prop := RadAt {
  rat_tau : rtau r = (q0 - ct * qz) / M;
  rat_phi_k : rphi_k r = phik;
  rat_R : rR r = 2 * M * kk;
  rat_cos_phi_k : rcos_phi_k r = cos phik;
  rat_sin_phi_k : rsin_phi_k r = sin phik;
  rat_tau_min : rtau_min r = (q0 - qz) / M;
  rat_tau_max : rtau_max r = (q0 + qz) / M;
  rat_lambda_H : rlambda_H r = 4 * (M * M) * (pt * pt + pl * pl);
  rat_lambda_V : rlambda_V r = 4 * (M * M) * (qz * pl);
  rat_lambda_RY : rlambda_RY r = 4 * (M * M) * (kk * ct * qz);
  rat_lambda_RV : rlambda_RV r = 4 * (M * M) * kk * (pt * st * cosd + ct * pl);
  rat_mu : rmu r = (Eh - ct * pl - pt * st * cosd) / M;
  rat_lambda_z : rlambda_z r = 2 * (qz * qz) * st * ux * (2 * (qz * qz) * st * ux);
  rat_lambda_z_sqrt : rlambda_z_sqrt r = 2 * (qz * qz) * st * ux;
  rat_z_1 : rz_1 r = (E - uz * ct - ux * st * cos phik) / M;
  rat_z_2 : rz_2 r = (E - q0 - (uz - qz) * ct - ux * st * cos phik) / M;
  rat_k_0 : rk_0 r = kk;
  rat_k_t : rk_t r = kk * st;
  rat_k_l : rk_l r = kk * ct;
  rat_k_0_bar : rk_0_bar r = (M + q0 - ct * qz - Eh + ct * pl + pt * st * cosd) * kk / sqrt ((M + q0 - Eh) * (M + q0 - Eh) - pt * pt - (qz - pl) * (qz - pl));
  rat_vol_phi_k_R : rvol_phi_k_R r = - sin phik * qz * st * ux / 2;
  rat_vol_phi_hk : rvol_phi_hk r = - M * qz * kk * pt * st * (cos phih * sin phik - sin phih * cos phik);
  rat_shift_Q_sq : rshift_Q_sq r = SQ;
  rat_shift_Q : rshift_Q r = sqrt SQ;
  rat_shift_S_x : rshift_S_x r = 2 * M * (q0 - kk);
  rat_shift_V_m : rshift_V_m r = SV;
  rat_shift_x : kk < q0 -> rshift_x r = SQ / (2 * M * (q0 - kk));
  rat_shift_y : rshift_y r = (q0 - kk) / E;
  rat_shift_z : kk < q0 -> rshift_z r = Eh / (q0 - kk);
  rat_shift_t : rshift_t r = mh * mh - SQ - 2 * SV;
  rat_shift_W_sq : rshift_W_sq r = M * M + 2 * M * (q0 - kk) - SQ;
  rat_shift_lambda_Y : rshift_lambda_Y r = 4 * (M * M) * SL;
  rat_shift_lambda_1 : rshift_lambda_1 r = 4 * (M * M) * SX1;
  rat_shift_lambda_2 : rshift_lambda_2 r = SV * SV + mh * mh * SQ;
  rat_shift_lambda_3 : kk < q0 -> rshift_lambda_3 r = SV + Eh / (q0 - kk) * SQ;
  rat_shift_lambda_Y_sqrt : rshift_lambda_Y_sqrt r = 2 * M * sqrt SL;
  rat_shift_lambda_1_sqrt : rshift_lambda_1_sqrt r = 2 * M * sqrt SX1;
  rat_shift_lambda_2_sqrt : rshift_lambda_2_sqrt r = sqrt (SV * SV + mh * mh * SQ);
  rat_shift_lambda_3_sqrt : kk < q0 -> rshift_lambda_3_sqrt r = sqrt (SV + Eh / (q0 - kk) * SQ);
  rat_shift_ph_t_sq : 0 < SL -> rshift_ph_t_sq r = SHX / SL;
  rat_shift_ph_t : 0 < SL -> rshift_ph_t r = sqrt (SHX / SL);
  rat_shift_ph_l : 0 < SL -> rshift_ph_l r = SH / sqrt SL;
  rat_shift_q_0 : rshift_q_0 r = q0 - kk;
  rat_shift_q_t : rshift_q_t r = sqrt SX1 / kap;
  rat_shift_q_l : rshift_q_l r = SK / kap;
  rat_shift_k1_t : 0 < SL -> rshift_k1_t r = sqrt SX1 / sqrt SL;
  rat_shift_mx_sq : rshift_mx_sq r = (M + q0 - kk - Eh) * (M + q0 - kk - Eh) - (pt * cos phih + kk * st * cos phik) * (pt * cos phih + kk * st * cos phik) - (pt * sin phih + kk * st * sin phik) * (pt * sin phih + kk * st * sin phik) - (qz - kk * ct - pl) * (qz - kk * ct - pl);
  rat_shift_mx : rshift_mx r = sqrt ((M + q0 - kk - Eh) * (M + q0 - kk - Eh) - (pt * cos phih + kk * st * cos phik) * (pt * cos phih + kk * st * cos phik) - (pt * sin phih + kk * st * sin phik) * (pt * sin phih + kk * st * sin phik) - (qz - kk * ct - pl) * (qz - kk * ct - pl));
  rat_shift_vol_phi_h : rshift_vol_phi_h r = M * SD;
  rat_shift_sin_phi_h : 0 < SL -> 0 < SHX -> 0 < SX1 -> rshift_sin_phi_h r = - SD / (sqrt (SHX / SL) * sqrt SX1);
  rat_shift_cos_phi_h : 0 < SL -> 0 < SHX -> 0 < SX1 ->
    rshift_cos_phi_h r = (SL * (ux * pt * cos phih + uz * pl) - SH * SK) / (sqrt (SHX / SL) * sqrt SX1 * sqrt SL);
  rat_shift_sin_phi_q : 0 < SX1 -> rshift_sin_phi_q r = (((qz - kk * ct) * ux + kk * st * cos phik * uz) * sin phi - kap * (kk * st * sin phik) * cos phi) / sqrt SX1;
  rat_shift_cos_phi_q : 0 < SX1 -> rshift_cos_phi_q r = (- ((qz - kk * ct) * ux + kk * st * cos phik * uz) * cos phi - kap * (kk * st * sin phik) * sin phi) / sqrt SX1 }.

Record ph_ok : Prop := PhOk { Hkk : 0 <= kk; Hst : 0 <= st; Hcs : ct * ct + st * st = 1 }.
Hypothesis OK : ev_ok M m mh E ux uz q0 qz Eh pt pl.
Hypothesis OKf : ph_ok.
Variable r : kinrad.
Hypothesis K : rad_eqs r.
Hypothesis A : kin_at M m mh Mth E ux uz q0 qz Eh pt pl phih phi (project r).
Hypothesis I_tau : rtau r = (q0 - ct * qz) / M.
Hypothesis I_phi_k : rphi_k r = phik.
Hypothesis I_R : rR r = 2 * M * kk.

Lemma b_S : rS r = 2 * M * E.
Proof. exact (at_S _ _ _ _ _ _ _ _ _ _ _ _ _ _ _ A). Qed.
Lemma b_M : rM r = M.
Proof. exact (at_M _ _ _ _ _ _ _ _ _ _ _ _ _ _ _ A). Qed.
Lemma b_m : rm r = m.
Proof. exact (at_m _ _ _ _ _ _ _ _ _ _ _ _ _ _ _ A). Qed.
Lemma b_mh : rmh r = mh.
Proof. exact (at_mh _ _ _ _ _ _ _ _ _ _ _ _ _ _ _ A). Qed.
Lemma b_Mth : rMth r = Mth.
Proof. exact (at_Mth _ _ _ _ _ _ _ _ _ _ _ _ _ _ _ A). Qed.
Lemma b_x : rx r = Qs / (2 * M * q0).
Proof. exact (at_x _ _ _ _ _ _ _ _ _ _ _ _ _ _ _ A). Qed.
Lemma b_y : ry r = q0 / E.
Proof. exact (at_y _ _ _ _ _ _ _ _ _ _ _ _ _ _ _ A). Qed.
Lemma b_z : rz r = Eh / q0.
Proof. exact (at_z _ _ _ _ _ _ _ _ _ _ _ _ _ _ _ A). Qed.
Lemma b_ph_t_sq : rph_t_sq r = pt * pt.
Proof. exact (at_ph_t_sq _ _ _ _ _ _ _ _ _ _ _ _ _ _ _ A). Qed.
Lemma b_phi_h : rphi_h r = phih.
Proof. exact (at_phi_h _ _ _ _ _ _ _ _ _ _ _ _ _ _ _ A). Qed.
Lemma b_phi : rphi r = phi.
Proof. exact (at_phi _ _ _ _ _ _ _ _ _ _ _ _ _ _ _ A). Qed.
Lemma b_phi_q : rphi_q r = wrap_angle (PI - phi).
Proof. exact (at_phi_q _ _ _ _ _ _ _ _ _ _ _ _ _ _ _ A). Qed.
Lemma b_cos_phi_h : rcos_phi_h r = cos phih.
Proof. exact (at_cos_phi_h _ _ _ _ _ _ _ _ _ _ _ _ _ _ _ A). Qed.
Lemma b_sin_phi_h : rsin_phi_h r = sin phih.
Proof. exact (at_sin_phi_h _ _ _ _ _ _ _ _ _ _ _ _ _ _ _ A). Qed.
Lemma b_cos_phi : rcos_phi r = cos phi.
Proof. exact (at_cos_phi _ _ _ _ _ _ _ _ _ _ _ _ _ _ _ A). Qed.
Lemma b_sin_phi : rsin_phi r = sin phi.
Proof. exact (at_sin_phi _ _ _ _ _ _ _ _ _ _ _ _ _ _ _ A). Qed.
Lemma b_cos_phi_q : rcos_phi_q r = - cos phi.
Proof. exact (at_cos_phi_q _ _ _ _ _ _ _ _ _ _ _ _ _ _ _ A). Qed.
Lemma b_sin_phi_q : rsin_phi_q r = sin phi.
Proof. exact (at_sin_phi_q _ _ _ _ _ _ _ _ _ _ _ _ _ _ _ A). Qed.
Lemma b_Q_sq : rQ_sq r = Qs.
Proof. exact (at_Q_sq _ _ _ _ _ _ _ _ _ _ _ _ _ _ _ A). Qed.
Lemma b_Q : rQ r = sqrt Qs.
Proof. exact (at_Q _ _ _ _ _ _ _ _ _ _ _ _ _ _ _ A). Qed.
Lemma b_X : rX r = 2 * M * (E - q0).
Proof. exact (at_X _ _ _ _ _ _ _ _ _ _ _ _ _ _ _ A). Qed.
Lemma b_S_x : rS_x r = 2 * M * q0.
Proof. exact (at_S_x _ _ _ _ _ _ _ _ _ _ _ _ _ _ _ A). Qed.
Lemma b_S_p : rS_p r = 2 * M * (2 * E - q0).
Proof. exact (at_S_p _ _ _ _ _ _ _ _ _ _ _ _ _ _ _ A). Qed.
Lemma b_lambda_S : rlambda_S r = 4 * (M * M) * (ux * ux + uz * uz).
Proof. exact (at_lambda_S _ _ _ _ _ _ _ _ _ _ _ _ _ _ _ A). Qed.
Lemma b_lambda_X : rlambda_X r = 4 * (M * M) * (ux * ux + (uz - qz) * (uz - qz)).
Proof. exact (at_lambda_X _ _ _ _ _ _ _ _ _ _ _ _ _ _ _ A). Qed.
Lemma b_lambda_Y : rlambda_Y r = 4 * (M * M) * (qz * qz).
Proof. exact (at_lambda_Y _ _ _ _ _ _ _ _ _ _ _ _ _ _ _ A). Qed.
Lemma b_lambda_1 : rlambda_1 r = 4 * (M * M) * (qz * qz) * (ux * ux).
Proof. exact (at_lambda_1 _ _ _ _ _ _ _ _ _ _ _ _ _ _ _ A). Qed.
Lemma b_lambda_S_sqrt : rlambda_S_sqrt r = 2 * M * kap.
Proof. exact (at_lambda_S_sqrt _ _ _ _ _ _ _ _ _ _ _ _ _ _ _ A). Qed.
Lemma b_lambda_X_sqrt : rlambda_X_sqrt r = 2 * M * sqrt (ux * ux + (uz - qz) * (uz - qz)).
Proof. exact (at_lambda_X_sqrt _ _ _ _ _ _ _ _ _ _ _ _ _ _ _ A). Qed.
Lemma b_lambda_Y_sqrt : rlambda_Y_sqrt r = 2 * M * qz.
Proof. exact (at_lambda_Y_sqrt _ _ _ _ _ _ _ _ _ _ _ _ _ _ _ A). Qed.
Lemma b_lambda_1_sqrt : rlambda_1_sqrt r = 2 * M * qz * ux.
Proof. exact (at_lambda_1_sqrt _ _ _ _ _ _ _ _ _ _ _ _ _ _ _ A). Qed.
Lemma b_ph_0 : rph_0 r = Eh.
Proof. exact (at_ph_0 _ _ _ _ _ _ _ _ _ _ _ _ _ _ _ A). Qed.
Lemma b_ph_t : rph_t r = pt.
Proof. exact (at_ph_t _ _ _ _ _ _ _ _ _ _ _ _ _ _ _ A). Qed.
Lemma b_ph_l : rph_l r = pl.
Proof. exact (at_ph_l _ _ _ _ _ _ _ _ _ _ _ _ _ _ _ A). Qed.
Lemma b_q_0 : rq_0 r = q0.
Proof. exact (at_q_0 _ _ _ _ _ _ _ _ _ _ _ _ _ _ _ A). Qed.
Lemma b_q_t : rq_t r = qz * ux / kap.
Proof. exact (at_q_t _ _ _ _ _ _ _ _ _ _ _ _ _ _ _ A). Qed.
Lemma b_q_l : rq_l r = qz * uz / kap.
Proof. exact (at_q_l _ _ _ _ _ _ _ _ _ _ _ _ _ _ _ A). Qed.
Lemma b_k2_0 : rk2_0 r = E - q0.
Proof. exact (at_k2_0 _ _ _ _ _ _ _ _ _ _ _ _ _ _ _ A). Qed.
Lemma b_k2_l : rk2_l r = (ux * ux + uz * (uz - qz)) / kap.
Proof. exact (at_k2_l _ _ _ _ _ _ _ _ _ _ _ _ _ _ _ A). Qed.
Lemma b_k2_t : rk2_t r = qz * ux / kap.
Proof. exact (at_k2_t _ _ _ _ _ _ _ _ _ _ _ _ _ _ _ A). Qed.
Lemma b_k1_t : rk1_t r = ux.
Proof. exact (at_k1_t _ _ _ _ _ _ _ _ _ _ _ _ _ _ _ A). Qed.
Lemma b_V_1 : rV_1 r = 2 * (E * Eh - uz * pl - ux * pt * cos phih).
Proof. exact (at_V_1 _ _ _ _ _ _ _ _ _ _ _ _ _ _ _ A). Qed.
Lemma b_V_2 : rV_2 r = 2 * ((E - q0) * Eh - (uz - qz) * pl - ux * pt * cos phih).
Proof. exact (at_V_2 _ _ _ _ _ _ _ _ _ _ _ _ _ _ _ A). Qed.
Lemma b_V_p : rV_p r = (2 * E - q0) * Eh - (2 * uz - qz) * pl - 2 * ux * pt * cos phih.
Proof. exact (at_V_p _ _ _ _ _ _ _ _ _ _ _ _ _ _ _ A). Qed.
Lemma b_V_m : rV_m r = q0 * Eh - qz * pl.
Proof. exact (at_V_m _ _ _ _ _ _ _ _ _ _ _ _ _ _ _ A). Qed.
Lemma b_t : rt r = mh * mh - Qs - 2 * (q0 * Eh - qz * pl).
Proof. exact (at_t _ _ _ _ _ _ _ _ _ _ _ _ _ _ _ A). Qed.
Lemma b_W_sq : rW_sq r = M * M + 2 * M * q0 - Qs.
Proof. exact (at_W_sq _ _ _ _ _ _ _ _ _ _ _ _ _ _ _ A). Qed.
Lemma b_mx_sq : rmx_sq r = (M + q0 - Eh) * (M + q0 - Eh) - pt * pt - (qz - pl) * (qz - pl).
Proof. exact (at_mx_sq _ _ _ _ _ _ _ _ _ _ _ _ _ _ _ A). Qed.
Lemma b_mx : rmx r = sqrt ((M + q0 - Eh) * (M + q0 - Eh) - pt * pt - (qz - pl) * (qz - pl)).
Proof. exact (at_mx _ _ _ _ _ _ _ _ _ _ _ _ _ _ _ A). Qed.
Lemma b_lambda_2 : rlambda_2 r = (q0 * Eh - qz * pl) * (q0 * Eh - qz * pl) + mh * mh * Qs.
Proof. exact (at_lambda_2 _ _ _ _ _ _ _ _ _ _ _ _ _ _ _ A). Qed.
Lemma b_lambda_3 : rlambda_3 r = q0 * Eh - qz * pl + Eh / q0 * Qs.
Proof. exact (at_lambda_3 _ _ _ _ _ _ _ _ _ _ _ _ _ _ _ A). Qed.
Lemma b_lambda_2_sqrt : rlambda_2_sqrt r = sqrt ((q0 * Eh - qz * pl) * (q0 * Eh - qz * pl) + mh * mh * Qs).
Proof. exact (at_lambda_2_sqrt _ _ _ _ _ _ _ _ _ _ _ _ _ _ _ A). Qed.
Lemma b_lambda_3_sqrt : rlambda_3_sqrt r = sqrt (q0 * Eh - qz * pl + Eh / q0 * Qs).
Proof. exact (at_lambda_3_sqrt _ _ _ _ _ _ _ _ _ _ _ _ _ _ _ A). Qed.
Lemma b_vol_phi_h : rvol_phi_h r = - M * qz * ux * pt * sin phih.
Proof. exact (at_vol_phi_h _ _ _ _ _ _ _ _ _ _ _ _ _ _ _ A). Qed.
Lemma b_C_1 : rC_1 r = 4 * M * pl * (Qs + Qs / q0 * M) / (Qs * Qs * Qs * Qs).
Proof. exact (at_C_1 _ _ _ _ _ _ _ _ _ _ _ _ _ _ _ A). Qed.
Lemma kap_p : 0 < kap.
Proof. exact (kap_pos _ _ _ _ _ _ _ _ _ _ _ OK). Qed.
Lemma kap_s : kap * kap = ux * ux + uz * uz.
Proof. apply kap_sq. Qed.
Lemma m_sq : m * m = E * E - ux * ux - uz * uz.
Proof. symmetry. apply (Hk1 _ _ _ _ _ _ _ _ _ _ _ OK). Qed.
Lemma mh_sq : mh * mh = Eh * Eh - pt * pt - pl * pl.
Proof. symmetry. apply (Hph _ _ _ _ _ _ _ _ _ _ _ OK). Qed.
Lemma uz_e : uz = (2 * E * q0 + Qs) / (2 * qz).
Proof. apply (uz_eq _ _ _ _ _ _ _ _ _ _ _ OK). Qed.
Lemma st_sq : st * st = 1 - ct * ct.
Proof. destruct OKf; lra. Qed.
Lemma sk_sq : sin phik * sin phik = 1 - cos phik * cos phik.
Proof. pose proof (sin2_cos2 phik). unfold Rsqr in H. lra. Qed.
Lemma sh_sq : sin phih * sin phih = 1 - cos phih * cos phih.
Proof. pose proof (sin2_cos2 phih). unfold Rsqr in H. lra. Qed.
Ltac cond := pose proof kap_p; destruct OK; destruct OKf; repeat split; try lra; try nra.
Ltac fld := field; cond.
Ltac flds := pose proof st_sq as E_1; pose proof sk_sq as E_2; pose proof sh_sq as E_3; field [E_1 E_2 E_3]; cond.
Ltac rings := pose proof st_sq as E_1; pose proof sk_sq as E_2; pose proof sh_sq as E_3; ring [E_1 E_2 E_3].

Lemma c_cos_phi_k : rcos_phi_k r = cos phik.
Proof. rewrite (re_cos_phi_k _ K), I_phi_k. reflexivity. Qed.
Lemma c_sin_phi_k : rsin_phi_k r = sin phik.
Proof. rewrite (re_sin_phi_k _ K), I_phi_k. reflexivity. Qed.
Lemma c_cosd : cos (rphi_h r - rphi_k r) = cosd.
Proof. rewrite b_phi_h, I_phi_k. apply cos_minus. Qed.
Lemma c_tau_min : rtau_min r = (q0 - qz) / M.
Proof. rewrite (re_tau_min _ K), b_S_x, b_lambda_Y_sqrt, b_M. unfold sq. fld. Qed.
Lemma c_tau_max : rtau_max r = (q0 + qz) / M.
Proof. rewrite (re_tau_max _ K), b_S_x, b_lambda_Y_sqrt, b_M. unfold sq. fld. Qed.
Lemma c_tau_sqrt : sqrt ((rtau r - rtau_min r) * (rtau_max r - rtau r)) = qz * st / M.
Proof.
  rewrite I_tau, c_tau_min, c_tau_max. apply sqrt_sq_eq.
  - apply Rmult_le_pos; [cond|]. left. apply Rinv_0_lt_compat. cond.
  - flds.
Qed.
Lemma c_lambda_H : rlambda_H r = 4 * (M * M) * (pt * pt + pl * pl).
Proof. rewrite (re_lambda_H _ K), b_z, b_S_x, b_M, b_mh. unfold sq. rewrite mh_sq. fld. Qed.
Lemma c_lambda_V : rlambda_V r = 4 * (M * M) * (qz * pl).
Proof. rewrite (re_lambda_V _ K), b_z, b_S_x, b_M, b_V_m. unfold sq. fld. Qed.
Lemma c_lambda_RY : rlambda_RY r = 4 * (M * M) * (kk * ct * qz).
Proof. rewrite (re_lambda_RY _ K), I_R, I_tau, b_S_x, b_M. unfold sq. fld. Qed.
Lemma c_lambda_RV : rlambda_RV r = 4 * (M * M) * kk * (pt * st * cosd + ct * pl).
Proof. rewrite (re_lambda_RV _ K), c_tau_sqrt, c_cosd, c_lambda_RY, b_ph_l, b_ph_t, b_lambda_Y_sqrt, b_M, I_R. unfold sq. fld. Qed.
Lemma c_mu : rmu r = (Eh - ct * pl - pt * st * cosd) / M.
Proof. rewrite (re_mu _ K), c_tau_sqrt, c_cosd, b_ph_0, b_ph_l, b_ph_t, b_lambda_Y_sqrt, b_S_x, b_M, I_tau. unfold sq. fld. Qed.
Lemma c_lambda_z : rlambda_z r = 2 * (qz * qz) * st * ux * (2 * (qz * qz) * st * ux).
Proof. rewrite (re_lambda_z _ K), c_tau_min, c_tau_max, I_tau, b_lambda_1. flds. Qed.
Lemma c_lambda_z_sqrt : rlambda_z_sqrt r = 2 * (qz * qz) * st * ux.
Proof.
  rewrite (re_lambda_z_sqrt _ K), c_lambda_z. apply sqrt_square. destruct OK, OKf.
  assert (0 < qz * qz) by nra. assert (0 <= qz * qz * st) by (apply Rmult_le_pos; lra). nra.
Qed.
Lemma c_z_1 : rz_1 r = (E - uz * ct - ux * st * cos phik) / M.
Proof. rewrite (re_z_1 _ K), c_lambda_z_sqrt, c_cos_phi_k, b_lambda_Y, b_Q_sq, b_S_p, b_S, b_S_x, b_M, I_tau, uz_e. unfold sq. fld. Qed.
Lemma c_z_2 : rz_2 r = (E - q0 - (uz - qz) * ct - ux * st * cos phik) / M.
Proof. rewrite (re_z_2 _ K), c_lambda_z_sqrt, c_cos_phi_k, b_lambda_Y, b_Q_sq, b_S_p, b_X, b_S_x, b_M, I_tau, uz_e. unfold sq. fld. Qed.
Lemma c_k_0 : rk_0 r = kk.
Proof. rewrite (re_k_0 _ K), I_R, b_M. fld. Qed.
Lemma c_k_t : rk_t r = kk * st.
Proof. rewrite (re_k_t _ K), I_R, b_M, c_lambda_z_sqrt, b_lambda_1_sqrt, b_lambda_Y_sqrt. fld. Qed.
Lemma c_k_l : rk_l r = kk * ct.
Proof. rewrite (re_k_l _ K), c_lambda_RY, b_M, b_lambda_Y_sqrt. fld. Qed.
Lemma c_k_0_bar : rk_0_bar r = (M + q0 - ct * qz - Eh + ct * pl + pt * st * cosd) * kk / sqrt ((M + q0 - Eh) * (M + q0 - Eh) - pt * pt - (qz - pl) * (qz - pl)).
Proof.
  rewrite (re_k_0_bar _ K), I_tau, c_mu, I_R, b_mx. unfold Rdiv. rewrite Rinv_mult.
  match goal with |- context [/ sqrt ?x] => generalize (/ sqrt x); intros w end. field. cond.
Qed.
Lemma c_vol_phi_k_R : rvol_phi_k_R r = - sin phik * qz * st * ux / 2.
Proof. rewrite (re_vol_phi_k_R _ K), c_sin_phi_k, c_lambda_z_sqrt, b_lambda_Y_sqrt, b_M. replace (-0.5) with (- / 2) by lra. fld. Qed.
Lemma c_vol_phi_hk : rvol_phi_hk r = - M * qz * kk * pt * st * (cos phih * sin phik - sin phih * cos phik).
Proof.
  rewrite (re_vol_phi_hk _ K), b_vol_phi_h, c_vol_phi_k_R, c_z_1, b_lambda_1, b_lambda_Y, b_Q_sq, b_S_p, b_S, b_S_x, b_M, I_tau, I_R, b_z, b_V_1, b_V_2, b_X, b_V_p.
  unfold sq. rewrite uz_e. fld.
Qed.
Lemma c_shift_Q_sq : rshift_Q_sq r = SQ.
Proof. rewrite (re_shift_Q_sq _ K), b_Q_sq, I_R, I_tau. unfold SQ. fld. Qed.
Lemma c_shift_S_x : rshift_S_x r = 2 * M * (q0 - kk).
Proof. rewrite (re_shift_S_x _ K), b_S_x, I_R. ring. Qed.
Lemma c_shift_V_m : rshift_V_m r = SV.
Proof. rewrite (re_shift_V_m _ K), b_V_m, c_lambda_RV, b_z, I_R, b_S_x, b_M. unfold SV, sq. fld. Qed.
Lemma c_shift_x : kk < q0 -> rshift_x r = SQ / (2 * M * (q0 - kk)).
Proof. rewrite (re_shift_x _ K), c_shift_Q_sq, c_shift_S_x. reflexivity. Qed.
Lemma c_shift_y : rshift_y r = (q0 - kk) / E.
Proof. rewrite (re_shift_y _ K), b_y, I_R, b_S. fld. Qed.
Lemma c_shift_z : kk < q0 -> rshift_z r = Eh / (q0 - kk).
Proof. intros. rewrite (re_shift_z _ K), b_z, c_shift_S_x, b_S_x. fld. Qed.
Lemma c_shift_t : rshift_t r = mh * mh - SQ - 2 * SV.
Proof. rewrite (re_shift_t _ K), b_t, I_R, I_tau, b_z, b_S_x, c_lambda_RV, b_M. unfold SQ, SV, sq. fld. Qed.
Lemma c_shift_W_sq : rshift_W_sq r = M * M + 2 * M * (q0 - kk) - SQ.
Proof. rewrite (re_shift_W_sq _ K), b_W_sq, I_R, I_tau. unfold SQ. fld. Qed.
Lemma c_shift_lambda_Y : rshift_lambda_Y r = 4 * (M * M) * SL.
Proof. rewrite (re_shift_lambda_Y _ K), b_lambda_Y, I_R, c_lambda_RY. unfold SL, sq. rings. Qed.
Lemma c_shift_lambda_1 : rshift_lambda_1 r = 4 * (M * M) * SX1.
Proof.
  rewrite (re_shift_lambda_1 _ K), b_lambda_1, I_R, c_lambda_RY, c_z_1, b_lambda_S, b_S, b_S_x, b_Q_sq, b_M. unfold SX1, SL, SK, sq.
  pose proof (Huz _ _ _ _ _ _ _ _ _ _ _ OK) as Hz. assert (E_4 : uz * qz = E * q0 + Qs / 2) by lra.
  transitivity (4 * (M * M) * (qz * qz) * (ux * ux) + ((2 * M * kk * (2 * M * kk) - 2 * (4 * (M * M) * (kk * ct * qz))) * (ux * ux + uz * uz)
    + 4 * (M * M) * kk * (uz * ct + ux * st * cos phik) * (4 * M * M * (uz * qz) / (M * M) - 2 * kk * (uz * ct + ux * st * cos phik)) / 2)).
  { rewrite E_4. fld. }
  flds.
Qed.
Lemma c_shift_lambda_2 : rshift_lambda_2 r = SV * SV + mh * mh * SQ.
Proof. rewrite (re_shift_lambda_2 _ K), c_shift_V_m, c_shift_Q_sq, b_mh. reflexivity. Qed.
Lemma c_shift_lambda_3 : kk < q0 -> rshift_lambda_3 r = SV + Eh / (q0 - kk) * SQ.
Proof. intros. rewrite (re_shift_lambda_3 _ K), c_shift_V_m, c_shift_Q_sq, c_shift_z by auto. reflexivity. Qed.
Lemma SL_nn : 0 <= SL.
Proof. unfold SL. pose proof (Rle_0_sqr (kk * st)). pose proof (Rle_0_sqr (qz - kk * ct)). unfold Rsqr in *. lra. Qed.
Lemma SX1_form : SX1 = (kk * st * sin phik) * (kk * st * sin phik) * (uz * uz + ux * ux) + ((qz - kk * ct) * ux + kk * st * cos phik * uz) * ((qz - kk * ct) * ux + kk * st * cos phik * uz).
Proof. unfold SX1, SL, SK. rings. Qed.
Lemma SX1_nn : 0 <= SX1.
Proof.
  rewrite SX1_form. apply Rplus_le_le_0_compat; [apply Rmult_le_pos|]; try (apply Rle_0_sqr).
  apply Rplus_le_le_0_compat; apply Rle_0_sqr.
Qed.
Lemma SHX_form : SHX = (kk * st * pt * (sin phih * cos phik - cos phih * sin phik)) * (kk * st * pt * (sin phih * cos phik - cos phih * sin phik))
  + ((qz - kk * ct) * pt + kk * st * cosd * pl) * ((qz - kk * ct) * pt + kk * st * cosd * pl)
  + kk * st * pl * (sin phih * cos phik - cos phih * sin phik) * (kk * st * pl * (sin phih * cos phik - cos phih * sin phik)).
Proof.
  pose proof sk_sq as E_2; pose proof sh_sq as E_3. unfold SHX, SL, SH, cosd. ring [E_2 E_3].
Qed.
Lemma SHX_nn : 0 <= SHX.
Proof. rewrite SHX_form. repeat apply Rplus_le_le_0_compat; apply Rle_0_sqr. Qed.
Lemma two_M_sqrt a b : 0 <= b -> a = 4 * (M * M) * b -> sqrt a = 2 * M * sqrt b.
Proof.
  intros Hb ->. apply sqrt_sq_eq; [pose proof (sqrt_pos b); cond|]. rewrite <- (sqrt_sqrt b) at 1 by auto. ring.
Qed.
Lemma c_shift_lambda_Y_sqrt : rshift_lambda_Y_sqrt r = 2 * M * sqrt SL.
Proof. rewrite (re_shift_lambda_Y_sqrt _ K). apply two_M_sqrt; [apply SL_nn|apply c_shift_lambda_Y]. Qed.
Lemma c_shift_lambda_1_sqrt : rshift_lambda_1_sqrt r = 2 * M * sqrt SX1.
Proof. rewrite (re_shift_lambda_1_sqrt _ K). apply two_M_sqrt; [apply SX1_nn|apply c_shift_lambda_1]. Qed.
Lemma c_shift_ph_t_sq : 0 < SL -> rshift_ph_t_sq r = SHX / SL.
Proof.
  intros H. rewrite (re_shift_ph_t_sq _ K), c_shift_lambda_Y, b_ph_t_sq, I_R, c_lambda_RY, c_lambda_RV, b_ph_l, b_lambda_Y_sqrt, b_M.
  apply Rmult_eq_reg_r with SL; [|lra]. unfold sq.
  transitivity (SHX); [|fld].
  transitivity (pt * pt * SL + (kk * kk - 2 * (kk * ct * qz)) * (pl * pl) + qz * pl * (2 * kk * (pt * st * cosd + ct * pl)) - (kk * (pt * st * cosd + ct * pl)) * (kk * (pt * st * cosd + ct * pl))).
  { fld. }
  unfold SHX, SH, SL. rings.
Qed.
Lemma c_shift_ph_l : 0 < SL -> rshift_ph_l r = SH / sqrt SL.
Proof.
  intros H. pose proof (sqrt_lt_R0 _ H). rewrite (re_shift_ph_l _ K), c_shift_lambda_Y_sqrt, b_lambda_Y_sqrt, b_ph_l, c_lambda_RV, b_M. unfold SH. fld.
Qed.
Lemma c_shift_q_0 : rshift_q_0 r = q0 - kk.
Proof. rewrite (re_shift_q_0 _ K), c_shift_S_x, b_M. fld. Qed.
Lemma c_shift_q_t : rshift_q_t r = sqrt SX1 / kap.
Proof. rewrite (re_shift_q_t _ K), c_shift_lambda_1_sqrt, b_lambda_S_sqrt. fld. Qed.
Lemma c_shift_q_l : rshift_q_l r = SK / kap.
Proof. rewrite (re_shift_q_l _ K), b_q_l, I_R, b_lambda_S_sqrt, b_S, b_M, c_z_1. unfold SK, sq. fld. Qed.
Lemma c_shift_k1_t : 0 < SL -> rshift_k1_t r = sqrt SX1 / sqrt SL.
Proof. intros H. pose proof (sqrt_lt_R0 _ H). rewrite (re_shift_k1_t _ K), c_shift_lambda_1_sqrt, c_shift_lambda_Y_sqrt. fld. Qed.
Lemma c_shift_mx_sq : rshift_mx_sq r = (M + q0 - kk - Eh) * (M + q0 - kk - Eh) - (pt * cos phih + kk * st * cos phik) * (pt * cos phih + kk * st * cos phik) - (pt * sin phih + kk * st * sin phik) * (pt * sin phih + kk * st * sin phik) - (qz - kk * ct - pl) * (qz - kk * ct - pl).
Proof. rewrite (re_shift_mx_sq _ K), b_mx_sq, I_R, I_tau, b_z, b_S_x, c_lambda_RV, b_M. unfold sq, cosd. flds. Qed.
Lemma c_shift_vol_phi_h : rshift_vol_phi_h r = M * SD.
Proof.
  rewrite (re_shift_vol_phi_h _ K), b_vol_phi_h, c_vol_phi_k_R, b_lambda_1, I_R, I_tau, b_lambda_S, b_m, b_S_x, b_Q_sq, b_S, c_z_1, b_M, b_V_m, b_z, b_V_1, b_V_2, b_X.
  unfold sq, SD. rewrite m_sq, uz_e. fld.
Qed.
Lemma c_shift_sin_phi_h : 0 < SL -> 0 < SHX -> 0 < SX1 -> rshift_sin_phi_h r = - SD / (sqrt (SHX / SL) * sqrt SX1).
Proof.
  intros H H1 H2. rewrite (re_shift_sin_phi_h _ K), c_shift_vol_phi_h, (re_shift_ph_t _ K), c_shift_ph_t_sq, c_shift_q_t, b_lambda_S_sqrt by auto.
  assert (0 < sqrt (SHX / SL)) by (apply sqrt_lt_R0; apply Rdiv_lt_0_compat; auto). pose proof (sqrt_lt_R0 _ H2). fld.
Qed.
Lemma c_shift_cos_phi_h : 0 < SL -> 0 < SHX -> 0 < SX1 ->
  rshift_cos_phi_h r = (SL * (ux * pt * cos phih + uz * pl) - SH * SK) / (sqrt (SHX / SL) * sqrt SX1 * sqrt SL).
Proof.
  intros H H1 H2. rewrite (re_shift_cos_phi_h _ K), (re_shift_ph_t _ K), c_shift_ph_t_sq, c_shift_q_t, b_lambda_S_sqrt, c_shift_lambda_Y,
    c_shift_lambda_Y_sqrt, b_z, b_S, b_S_x, b_M, b_V_1, c_lambda_V, c_lambda_RV, c_shift_S_x, b_Q_sq, c_z_1, I_R by auto.
  assert (0 < sqrt (SHX / SL)) by (apply sqrt_lt_R0; apply Rdiv_lt_0_compat; auto).
  pose proof (sqrt_lt_R0 _ H2). pose proof (sqrt_lt_R0 _ H).
  replace (2 * M * E * (2 * M * (q0 - kk)) + 2 * sq M * Qs + 2 * sq M * ((E - uz * ct - ux * st * cos phik) / M) * (2 * M * kk))
    with (4 * (M * M) * SK).
  2:{ unfold SK, sq. pose proof (Huz _ _ _ _ _ _ _ _ _ _ _ OK) as Hz. assert (E_4 : qz * uz = E * q0 + Qs / 2) by lra.
      replace (- (kk * st * cos phik * ux) + (qz - kk * ct) * uz) with (qz * uz - kk * ct * uz - kk * st * cos phik * ux) by ring.
      rewrite E_4. fld. }
  replace (4 * (M * M) * (qz * pl) - 4 * (M * M) * kk * (pt * st * cosd + ct * pl)) with (4 * (M * M) * SH) by (unfold SH; ring).
  unfold sq. fld.
Qed.
(** Components of q - k orthogonal to the beam, times |k1|. *)
Lemma c_shift_sin_phi_q : 0 < SX1 -> rshift_sin_phi_q r = (((qz - kk * ct) * ux + kk * st * cos phik * uz) * sin phi - kap * (kk * st * sin phik) * cos phi) / sqrt SX1.
Proof.
  intros H. pose proof (sqrt_lt_R0 _ H). rewrite (re_shift_sin_phi_q _ K), c_shift_q_t, b_q_t, b_q_l, c_k_t, c_k_l, b_lambda_Y_sqrt, b_M, b_sin_phi_q, b_sin_phi, b_cos_phi, c_sin_phi_k, c_cos_phi_k.
  fld.
Qed.
Lemma c_shift_cos_phi_q : 0 < SX1 -> rshift_cos_phi_q r = (- ((qz - kk * ct) * ux + kk * st * cos phik * uz) * cos phi - kap * (kk * st * sin phik) * sin phi) / sqrt SX1.
Proof.
  intros H. pose proof (sqrt_lt_R0 _ H). rewrite (re_shift_cos_phi_q _ K), c_shift_q_t, b_q_t, b_q_l, c_k_t, c_k_l, b_lambda_Y_sqrt, b_M, b_cos_phi_q, b_sin_phi, b_cos_phi, c_sin_phi_k, c_cos_phi_k.
  fld.
Qed.
Lemma rad_at_all : rad_at r.
Proof.
  constructor; first [assumption
    | exact c_cos_phi_k
    | exact c_sin_phi_k
    | exact c_tau_min
    | exact c_tau_max
    | exact c_lambda_H
    | exact c_lambda_V
    | exact c_lambda_RY
    | exact c_lambda_RV
    | exact c_mu
    | exact c_lambda_z
    | exact c_lambda_z_sqrt
    | exact c_z_1
    | exact c_z_2
    | exact c_k_0
    | exact c_k_t
    | exact c_k_l
    | exact c_k_0_bar
    | exact c_vol_phi_k_R
    | exact c_vol_phi_hk
    | exact c_shift_Q_sq
    | exact c_shift_S_x
    | exact c_shift_V_m
    | exact c_shift_x
    | exact c_shift_y
    | exact c_shift_z
    | exact c_shift_t
    | exact c_shift_W_sq
    | exact c_shift_lambda_Y
    | exact c_shift_lambda_1
    | exact c_shift_lambda_2
    | exact c_shift_lambda_3
    | exact c_shift_lambda_Y_sqrt
    | exact c_shift_lambda_1_sqrt
    | exact c_shift_ph_t_sq
    | exact c_shift_ph_l
    | exact c_shift_q_0
    | exact c_shift_q_t
    | exact c_shift_q_l
    | exact c_shift_k1_t
    | exact c_shift_mx_sq
    | exact c_shift_vol_phi_h | exact c_shift_sin_phi_h | exact c_shift_cos_phi_h | exact c_shift_sin_phi_q | exact c_shift_cos_phi_q
    | rewrite (re_shift_Q _ K), c_shift_Q_sq; reflexivity
    | rewrite (re_shift_lambda_2_sqrt _ K), c_shift_lambda_2; reflexivity
    | intros; rewrite (re_shift_lambda_3_sqrt _ K), c_shift_lambda_3 by assumption; reflexivity
    | intros; rewrite (re_shift_ph_t _ K), c_shift_ph_t_sq by assumption; reflexivity
    | rewrite (re_shift_mx _ K), c_shift_mx_sq; reflexivity ].
Qed.
End Rad.
