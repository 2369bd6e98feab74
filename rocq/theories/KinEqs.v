(** The defining equations of the kinematic structures, field by field (consequences of the constructors). *)
From Coq Require Import Reals.
From Verif Require Import ExtModel MathModel ParticleModel VecModel TransModel FrameBase KinModel.
Local Open Scope R_scope.

Record kin_eqs (k : kin) : Prop := KE {
  ke_cos_phi_h : kcos_phi_h k = cos (kphi_h k);
  ke_sin_phi_h : ksin_phi_h k = sin (kphi_h k);
  ke_cos_phi : kcos_phi k = cos (kphi k);
  ke_sin_phi : ksin_phi k = sin (kphi k);
  ke_cos_phi_q : kcos_phi_q k = - kcos_phi k;
  ke_sin_phi_q : ksin_phi_q k = ksin_phi k;
  ke_Q_sq : kQ_sq k = kS k * kx k * ky k;
  ke_Q : kQ k = sqrt (kQ_sq k);
  ke_X : kX k = (1 - ky k) * kS k;
  ke_S_x : kS_x k = kS k * ky k;
  ke_S_p : kS_p k = kS k * (2 - ky k);
  ke_lambda_S : klambda_S k = sq (kS k) - 4 * sq (kM k) * sq (km k);
  ke_lambda_X : klambda_X k = sq (kX k) - 4 * sq (kM k) * sq (km k);
  ke_lambda_Y : klambda_Y k = sq (kS_x k) + 4 * sq (kM k) * kQ_sq k;
  ke_lambda_1 : klambda_1 k = kQ_sq k * (kS k * kX k - sq (kM k) * kQ_sq k) - sq (km k) * klambda_Y k;
  ke_lambda_S_sqrt : klambda_S_sqrt k = sqrt (klambda_S k);
  ke_lambda_X_sqrt : klambda_X_sqrt k = sqrt (klambda_X k);
  ke_lambda_Y_sqrt : klambda_Y_sqrt k = sqrt (klambda_Y k);
  ke_lambda_1_sqrt : klambda_1_sqrt k = sqrt (klambda_1 k);
  ke_ph_0 : kph_0 k = (kz k * kS_x k) / (2 * kM k);
  ke_ph_t : kph_t k = sqrt (kph_t_sq k);
  ke_ph_l : kph_l k = kph_0 k * sqrt (1 - (kph_t_sq k / sq (kph_0 k) + sq (kmh k / kph_0 k)));
  ke_q_0 : kq_0 k = kS_x k / (2 * kM k);
  ke_q_t : kq_t k = klambda_1_sqrt k / klambda_S_sqrt k;
  ke_q_l : kq_l k = (2 * sq (kM k) * kQ_sq k + kS k * kS_x k) / (2 * kM k * klambda_S_sqrt k);
  ke_k2_0 : kk2_0 k = kX k / (2 * kM k);
  ke_k2_l : kk2_l k = (kS k * kX k - 2 * sq (kM k) * kQ_sq k - 4 * sq (kM k) * sq (km k)) / (2 * kM k * klambda_S_sqrt k);
  ke_k2_t : kk2_t k = klambda_1_sqrt k / klambda_S_sqrt k;
  ke_k1_t : kk1_t k = klambda_1_sqrt k / klambda_Y_sqrt k;
  ke_V_1 : kV_1 k = kph_0 k * kS k / kM k - (kph_l k * (kS k * kS_x k + 2 * sq (kM k) * kQ_sq k)) / (kM k * klambda_Y_sqrt k) - 2 * kph_t k * kk1_t k * kcos_phi_h k;
  ke_V_2 : kV_2 k = kph_0 k * kX k / kM k - (kph_l k * (kX k * kS_x k - 2 * sq (kM k) * kQ_sq k)) / (kM k * klambda_Y_sqrt k) - 2 * kph_t k * kk1_t k * kcos_phi_h k;
  ke_V_p : kV_p k = 0.5 * (kV_1 k + kV_2 k);
  ke_V_m : kV_m k = - (kph_0 k * kS_x k) / (2 * kM k) * sqrt1p_1m (((4 * sq (kM k) * kQ_sq k) / sq (kS_x k)) - (kph_t_sq k / sq (kph_0 k) + sq (kmh k / kph_0 k)) * (1 + ((4 * sq (kM k) * kQ_sq k) / sq (kS_x k))));
  ke_t : kt k = sq (kmh k) - kQ_sq k - 2 * kV_m k;
  ke_W_sq : kW_sq k = sq (kM k) + kS_x k - kQ_sq k;
  ke_mx_sq : kmx_sq k = sq (kM k) + kt k + (1 - kz k) * kS_x k;
  ke_mx : kmx k = sqrt (kmx_sq k);
  ke_lambda_2 : klambda_2 k = sq (kV_m k) + sq (kmh k) * kQ_sq k;
  ke_lambda_3 : klambda_3 k = kV_m k + kz k * kQ_sq k;
  ke_lambda_2_sqrt : klambda_2_sqrt k = sqrt (klambda_2 k);
  ke_lambda_3_sqrt : klambda_3_sqrt k = sqrt (klambda_3 k);
  ke_vol_phi_h : kvol_phi_h k = - 0.5 * kph_t k * klambda_1_sqrt k * ksin_phi_h k;
  ke_C_1 : kC_1 k = (4 * kM k * kph_l k * (kQ_sq k + 2 * kx k * sq (kM k))) / sq (sq (kQ_sq k)) }.
Lemma make_kin_eqs ps S sp : kin_eqs (make_kin ps S sp).
Proof. constructor; reflexivity. Qed.
Lemma make_kin_inputs ps S sp : let k := make_kin ps S sp in
  kS k = S /\ kM k = a_M ps /\ km k = a_m ps /\ kmh k = a_mh ps /\ kMth k = a_Mth ps /\
  kx k = s_x sp /\ ky k = s_y sp /\ kz k = s_z sp /\ kph_t_sq k = s_ph_t_sq sp /\ kphi_h k = s_phi_h sp /\ kphi k = s_phi sp /\
  kphi_q k = wrap_angle (PI - s_phi sp).
Proof. repeat split. Qed.
Record rad_eqs (r : kinrad) : Prop := RE {
  re_cos_phi_k : rcos_phi_k r = cos (rphi_k r);
  re_sin_phi_k : rsin_phi_k r = sin (rphi_k r);
  re_tau_min : rtau_min r = (rS_x r - rlambda_Y_sqrt r) / (2 * sq (rM r));
  re_tau_max : rtau_max r = (rS_x r + rlambda_Y_sqrt r) / (2 * sq (rM r));
  re_lambda_H : rlambda_H r = sq (rz r * rS_x r) - 4 * sq (rM r) * sq (rmh r);
  re_lambda_V : rlambda_V r = rz r * sq (rS_x r) - 4 * sq (rM r) * rV_m r;
  re_lambda_RY : rlambda_RY r = rR r * (rS_x r - 2 * sq (rM r) * rtau r);
  re_lambda_RV : rlambda_RV r = (2 * rM r) / rlambda_Y_sqrt r * (2 * sq (rM r) * rR r * rph_t r * sqrt ((rtau r - rtau_min r) * (rtau_max r - rtau r)) * cos (rphi_h r - rphi_k r) + rlambda_RY r * rph_l r);
  re_mu : rmu r = rph_0 r / rM r + 1 / rlambda_Y_sqrt r * ((2 * rtau r * sq (rM r) - rS_x r) * rph_l r / rM r - 2 * rM r * rph_t r * cos (rphi_h r - rphi_k r) * sqrt ((rtau r - rtau_min r) * (rtau_max r - rtau r)));
  re_lambda_z : rlambda_z r = (rtau_max r - rtau r) * (rtau r - rtau_min r) * rlambda_1 r;
  re_lambda_z_sqrt : rlambda_z_sqrt r = sqrt (rlambda_z r);
  re_z_1 : rz_1 r = 1 / rlambda_Y r * (rQ_sq r * rS_p r + rtau r * (rS r * rS_x r + 2 * sq (rM r) * rQ_sq r) - 2 * rM r * rlambda_z_sqrt r * rcos_phi_k r);
  re_z_2 : rz_2 r = 1 / rlambda_Y r * (rQ_sq r * rS_p r + rtau r * (rX r * rS_x r - 2 * sq (rM r) * rQ_sq r) - 2 * rM r * rlambda_z_sqrt r * rcos_phi_k r);
  re_k_0 : rk_0 r = rR r / (2 * rM r);
  re_k_t : rk_t r = (rM r * rR r * rlambda_z_sqrt r) / (rlambda_1_sqrt r * rlambda_Y_sqrt r);
  re_k_l : rk_l r = rlambda_RY r / (2 * rM r * rlambda_Y_sqrt r);
  re_k_0_bar : rk_0_bar r = ((1 + rtau r - rmu r) * rR r) / (2 * rmx r);
  re_F_22 : rF_22 r = 1 / sq (rz_2 r);
  re_F_21 : rF_21 r = 1 / sq (rz_1 r);
  re_F_2p : rF_2p r = rF_22 r + rF_21 r;
  re_F_2m : rF_2m r = rF_22 r - rF_21 r;
  re_F_d : rF_d r = 1 / (rz_1 r * rz_2 r);
  re_F_1p : rF_1p r = 1 / rz_1 r + 1 / rz_2 r;
  re_F_IR : rF_IR r = sq (rm r) * rF_2p r - (rQ_sq r + 2 * sq (rm r)) * rF_d r;
  re_vol_phi_k_R : rvol_phi_k_R r = - 0.5 * rsin_phi_k r * rM r * rlambda_z_sqrt r / rlambda_Y_sqrt r;
  re_vol_phi_hk : rvol_phi_hk r = 1 / (2 * rlambda_1 r) * (rR r * rvol_phi_h r * (rz_1 r * rlambda_Y r - rQ_sq r * rS_p r - rtau r * (rS r * rS_x r + 2 * sq (rM r) * rQ_sq r)) + rR r * rvol_phi_k_R r * (rS_x r * (rz r * rQ_sq r * rS_p r - rS r * rV_2 r + rX r * rV_1 r) - 4 * rV_p r * sq (rM r) * rQ_sq r));
  re_shift_Q_sq : rshift_Q_sq r = rQ_sq r + rR r * rtau r;
  re_shift_Q : rshift_Q r = sqrt (rshift_Q_sq r);
  re_shift_S_x : rshift_S_x r = rS_x r - rR r;
  re_shift_V_m : rshift_V_m r = rV_m r + (rlambda_RV r - rz r * rR r * rS_x r) / (4 * sq (rM r));
  re_shift_x : rshift_x r = rshift_Q_sq r / rshift_S_x r;
  re_shift_y : rshift_y r = ry r - rR r / rS r;
  re_shift_z : rshift_z r = rS_x r / rshift_S_x r * rz r;
  re_shift_t : rshift_t r = rt r - rR r * rtau r + (rz r * rR r * rS_x r - rlambda_RV r) / (2 * sq (rM r));
  re_shift_W_sq : rshift_W_sq r = rW_sq r - rR r * (1 + rtau r);
  re_shift_lambda_Y : rshift_lambda_Y r = rlambda_Y r + sq (rR r) - 2 * rlambda_RY r;
  re_shift_lambda_1 : rshift_lambda_1 r = rlambda_1 r + 1 / (4 * sq (rM r)) * ((sq (rR r) - 2 * rlambda_RY r) * rlambda_S r + rR r * (rS r - 2 * sq (rM r) * rz_1 r) * (2 * rS r * rS_x r + 4 * sq (rM r) * rQ_sq r - rR r * (rS r - 2 * sq (rM r) * rz_1 r)));
  re_shift_lambda_2 : rshift_lambda_2 r = sq (rshift_V_m r) + sq (rmh r) * rshift_Q_sq r;
  re_shift_lambda_3 : rshift_lambda_3 r = rshift_V_m r + rshift_z r * rshift_Q_sq r;
  re_shift_lambda_Y_sqrt : rshift_lambda_Y_sqrt r = sqrt (rshift_lambda_Y r);
  re_shift_lambda_1_sqrt : rshift_lambda_1_sqrt r = sqrt (rshift_lambda_1 r);
  re_shift_lambda_2_sqrt : rshift_lambda_2_sqrt r = sqrt (rshift_lambda_2 r);
  re_shift_lambda_3_sqrt : rshift_lambda_3_sqrt r = sqrt (rshift_lambda_3 r);
  re_shift_ph_t_sq : rshift_ph_t_sq r = rph_t_sq r + 1 / rshift_lambda_Y r * ((sq (rR r) - 2 * rlambda_RY r) * sq (rph_l r) + (rlambda_Y_sqrt r * rlambda_RV r * rph_l r) / rM r - sq (rlambda_RV r) / (4 * sq (rM r)));
  re_shift_ph_t : rshift_ph_t r = sqrt (rshift_ph_t_sq r);
  re_shift_ph_l : rshift_ph_l r = 1 / rshift_lambda_Y_sqrt r * (rlambda_Y_sqrt r * rph_l r - rlambda_RV r / (2 * rM r));
  re_shift_q_0 : rshift_q_0 r = rshift_S_x r / (2 * rM r);
  re_shift_q_t : rshift_q_t r = rshift_lambda_1_sqrt r / rlambda_S_sqrt r;
  re_shift_q_l : rshift_q_l r = rq_l r - rR r / (2 * rM r * rlambda_S_sqrt r) * (rS r - 2 * sq (rM r) * rz_1 r);
  re_shift_k1_t : rshift_k1_t r = rshift_lambda_1_sqrt r / rshift_lambda_Y_sqrt r;
  re_shift_mx_sq : rshift_mx_sq r = rmx_sq r - rR r * (1 + rtau r) + (rz r * rR r * rS_x r - rlambda_RV r) / (2 * sq (rM r));
  re_shift_mx : rshift_mx r = sqrt (rshift_mx_sq r);
  re_shift_vol_phi_h : rshift_vol_phi_h r = rvol_phi_h r + 1 / (2 * rlambda_1 r) * (rR r * rvol_phi_h r * (rtau r * rlambda_S r + 2 * sq (rm r) * rS_x r + rQ_sq r * rS r - rz_1 r * (rS r * rS_x r + 2 * sq (rM r) * rQ_sq r)) + rR r * rvol_phi_k_R r * (2 * sq (rm r) * (4 * rV_m r * sq (rM r) - rz r * sq (rS_x r)) + rS r * (rS r * rV_2 r - rX r * rV_1 r - rz r * rQ_sq r * rS_x r) + 2 * rV_1 r * sq (rM r) * rQ_sq r));
  re_shift_C_1 : rshift_C_1 r = (4 * rM r * rshift_ph_l r * (rshift_Q_sq r + 2 * rshift_x r * sq (rM r))) / sq (sq (rshift_Q_sq r));
  re_shift_sin_phi_h : rshift_sin_phi_h r = - 2 * rshift_vol_phi_h r / (rshift_ph_t r * rshift_q_t r * rlambda_S_sqrt r);
  re_shift_cos_phi_h : rshift_cos_phi_h r = 1 / (4 * sq (rM r) * rshift_ph_t r * rshift_q_t r * rshift_lambda_Y_sqrt r * rlambda_S_sqrt r) * (rshift_lambda_Y r * (rz r * rS r * rS_x r - 2 * sq (rM r) * rV_1 r) - (rlambda_V r - rlambda_RV r) * (rS r * rshift_S_x r + 2 * sq (rM r) * rQ_sq r + 2 * sq (rM r) * rz_1 r * rR r));
  re_shift_phi_h : rshift_phi_h r = atan2 (rshift_sin_phi_h r) (rshift_cos_phi_h r);
  re_shift_sin_phi_q : rshift_sin_phi_q r = 1 / rshift_q_t r * (rq_t r * rsin_phi_q r - (2 * rM r) / rlambda_Y_sqrt r * (rk_t r * (- rq_l r * rsin_phi r * rcos_phi_k r + rlambda_Y_sqrt r / (2 * rM r) * rcos_phi r * rsin_phi_k r) + rk_l r * rq_t r * rsin_phi r));
  re_shift_cos_phi_q : rshift_cos_phi_q r = 1 / rshift_q_t r * (rq_t r * rcos_phi_q r - (2 * rM r) / rlambda_Y_sqrt r * (rk_t r * (rq_l r * rcos_phi r * rcos_phi_k r + rlambda_Y_sqrt r / (2 * rM r) * rsin_phi r * rsin_phi_k r) - rk_l r * rq_t r * rcos_phi r));
  re_shift_phi_q : rshift_phi_q r = atan2 (rshift_sin_phi_q r) (rshift_cos_phi_q r) }.
Lemma make_rad_eqs k tau phi_k R : rad_eqs (make_rad k tau phi_k R).
Proof. constructor; reflexivity. Qed.
Lemma make_rad_copies k tau phi_k R : project (make_rad k tau phi_k R) = k.
Proof. destruct k; reflexivity. Qed.
Lemma make_rad_inputs k tau phi_k R : let r := make_rad k tau phi_k R in rtau r = tau /\ rphi_k r = phi_k /\ rR r = R.
Proof. repeat split. Qed.
