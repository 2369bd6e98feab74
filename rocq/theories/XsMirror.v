(** Reflection in the plane of the leptons: phi_h and phi_k change sign. *)
From Coq Require Import Reals Lra Psatz Bool.
From Verif Require Import ExtModel MathModel MathProofs BoundModel BoundProofs ParticleModel VecModel TransModel VecTac FrameBase KinModel KinEqs FrameModel
  SfModel CutModel LepModel HadModel XsModel XsProofs.
Local Open Scope R_scope.

Record kin_mirror (k k' : kin) : Prop := KM {
  km_target : ktarget k' = ktarget k;
  km_beam : kbeam k' = kbeam k;
  km_hadron : khadron k' = khadron k;
  km_S : kS k' = kS k;
  km_M : kM k' = kM k;
  km_m : km k' = km k;
  km_mh : kmh k' = kmh k;
  km_Mth : kMth k' = kMth k;
  km_x : kx k' = kx k;
  km_y : ky k' = ky k;
  km_z : kz k' = kz k;
  km_ph_t_sq : kph_t_sq k' = kph_t_sq k;
  km_Q_sq : kQ_sq k' = kQ_sq k;
  km_Q : kQ k' = kQ k;
  km_t : kt k' = kt k;
  km_W_sq : kW_sq k' = kW_sq k;
  km_X : kX k' = kX k;
  km_S_x : kS_x k' = kS_x k;
  km_S_p : kS_p k' = kS_p k;
  km_V_1 : kV_1 k' = kV_1 k;
  km_V_2 : kV_2 k' = kV_2 k;
  km_V_m : kV_m k' = kV_m k;
  km_V_p : kV_p k' = kV_p k;
  km_lambda_S : klambda_S k' = klambda_S k;
  km_lambda_X : klambda_X k' = klambda_X k;
  km_lambda_Y : klambda_Y k' = klambda_Y k;
  km_lambda_1 : klambda_1 k' = klambda_1 k;
  km_lambda_2 : klambda_2 k' = klambda_2 k;
  km_lambda_3 : klambda_3 k' = klambda_3 k;
  km_lambda_S_sqrt : klambda_S_sqrt k' = klambda_S_sqrt k;
  km_lambda_X_sqrt : klambda_X_sqrt k' = klambda_X_sqrt k;
  km_lambda_Y_sqrt : klambda_Y_sqrt k' = klambda_Y_sqrt k;
  km_lambda_1_sqrt : klambda_1_sqrt k' = klambda_1_sqrt k;
  km_lambda_2_sqrt : klambda_2_sqrt k' = klambda_2_sqrt k;
  km_lambda_3_sqrt : klambda_3_sqrt k' = klambda_3_sqrt k;
  km_mx_sq : kmx_sq k' = kmx_sq k;
  km_mx : kmx k' = kmx k;
  km_C_1 : kC_1 k' = kC_1 k;
  km_ph_0 : kph_0 k' = kph_0 k;
  km_ph_t : kph_t k' = kph_t k;
  km_ph_l : kph_l k' = kph_l k;
  km_cos_phi_h : kcos_phi_h k' = kcos_phi_h k;
  km_phi_h : kphi_h k' = - kphi_h k;
  km_sin_phi_h : ksin_phi_h k' = - ksin_phi_h k;
  km_vol_phi_h : kvol_phi_h k' = - kvol_phi_h k }.
Record rad_mirror (r r' : kinrad) : Prop := RM {
  rm_target : rtarget r' = rtarget r;
  rm_beam : rbeam r' = rbeam r;
  rm_hadron : rhadron r' = rhadron r;
  rm_S : rS r' = rS r;
  rm_M : rM r' = rM r;
  rm_m : rm r' = rm r;
  rm_mh : rmh r' = rmh r;
  rm_Mth : rMth r' = rMth r;
  rm_x : rx r' = rx r;
  rm_y : ry r' = ry r;
  rm_z : rz r' = rz r;
  rm_ph_t_sq : rph_t_sq r' = rph_t_sq r;
  rm_Q_sq : rQ_sq r' = rQ_sq r;
  rm_Q : rQ r' = rQ r;
  rm_t : rt r' = rt r;
  rm_W_sq : rW_sq r' = rW_sq r;
  rm_X : rX r' = rX r;
  rm_S_x : rS_x r' = rS_x r;
  rm_S_p : rS_p r' = rS_p r;
  rm_V_1 : rV_1 r' = rV_1 r;
  rm_V_2 : rV_2 r' = rV_2 r;
  rm_V_m : rV_m r' = rV_m r;
  rm_V_p : rV_p r' = rV_p r;
  rm_lambda_S : rlambda_S r' = rlambda_S r;
  rm_lambda_X : rlambda_X r' = rlambda_X r;
  rm_lambda_Y : rlambda_Y r' = rlambda_Y r;
  rm_lambda_1 : rlambda_1 r' = rlambda_1 r;
  rm_lambda_2 : rlambda_2 r' = rlambda_2 r;
  rm_lambda_3 : rlambda_3 r' = rlambda_3 r;
  rm_lambda_S_sqrt : rlambda_S_sqrt r' = rlambda_S_sqrt r;
  rm_lambda_X_sqrt : rlambda_X_sqrt r' = rlambda_X_sqrt r;
  rm_lambda_Y_sqrt : rlambda_Y_sqrt r' = rlambda_Y_sqrt r;
  rm_lambda_1_sqrt : rlambda_1_sqrt r' = rlambda_1_sqrt r;
  rm_lambda_2_sqrt : rlambda_2_sqrt r' = rlambda_2_sqrt r;
  rm_lambda_3_sqrt : rlambda_3_sqrt r' = rlambda_3_sqrt r;
  rm_mx_sq : rmx_sq r' = rmx_sq r;
  rm_mx : rmx r' = rmx r;
  rm_C_1 : rC_1 r' = rC_1 r;
  rm_ph_0 : rph_0 r' = rph_0 r;
  rm_ph_t : rph_t r' = rph_t r;
  rm_ph_l : rph_l r' = rph_l r;
  rm_cos_phi_h : rcos_phi_h r' = rcos_phi_h r;
  rm_tau : rtau r' = rtau r;
  rm_R : rR r' = rR r;
  rm_tau_min : rtau_min r' = rtau_min r;
  rm_tau_max : rtau_max r' = rtau_max r;
  rm_lambda_H : rlambda_H r' = rlambda_H r;
  rm_lambda_V : rlambda_V r' = rlambda_V r;
  rm_lambda_RY : rlambda_RY r' = rlambda_RY r;
  rm_lambda_RV : rlambda_RV r' = rlambda_RV r;
  rm_mu : rmu r' = rmu r;
  rm_lambda_z : rlambda_z r' = rlambda_z r;
  rm_lambda_z_sqrt : rlambda_z_sqrt r' = rlambda_z_sqrt r;
  rm_z_1 : rz_1 r' = rz_1 r;
  rm_z_2 : rz_2 r' = rz_2 r;
  rm_F_22 : rF_22 r' = rF_22 r;
  rm_F_21 : rF_21 r' = rF_21 r;
  rm_F_2p : rF_2p r' = rF_2p r;
  rm_F_2m : rF_2m r' = rF_2m r;
  rm_F_d : rF_d r' = rF_d r;
  rm_F_1p : rF_1p r' = rF_1p r;
  rm_F_IR : rF_IR r' = rF_IR r;
  rm_cos_phi_k : rcos_phi_k r' = rcos_phi_k r;
  rm_shift_Q_sq : rshift_Q_sq r' = rshift_Q_sq r;
  rm_shift_Q : rshift_Q r' = rshift_Q r;
  rm_shift_S_x : rshift_S_x r' = rshift_S_x r;
  rm_shift_V_m : rshift_V_m r' = rshift_V_m r;
  rm_shift_x : rshift_x r' = rshift_x r;
  rm_shift_z : rshift_z r' = rshift_z r;
  rm_shift_lambda_Y : rshift_lambda_Y r' = rshift_lambda_Y r;
  rm_shift_lambda_2 : rshift_lambda_2 r' = rshift_lambda_2 r;
  rm_shift_lambda_3 : rshift_lambda_3 r' = rshift_lambda_3 r;
  rm_shift_lambda_Y_sqrt : rshift_lambda_Y_sqrt r' = rshift_lambda_Y_sqrt r;
  rm_shift_ph_t_sq : rshift_ph_t_sq r' = rshift_ph_t_sq r;
  rm_shift_ph_t : rshift_ph_t r' = rshift_ph_t r;
  rm_shift_ph_l : rshift_ph_l r' = rshift_ph_l r;
  rm_shift_C_1 : rshift_C_1 r' = rshift_C_1 r;
  rm_phi_h : rphi_h r' = - rphi_h r;
  rm_sin_phi_h : rsin_phi_h r' = - rsin_phi_h r;
  rm_vol_phi_h : rvol_phi_h r' = - rvol_phi_h r;
  rm_phi_k : rphi_k r' = - rphi_k r;
  rm_sin_phi_k : rsin_phi_k r' = - rsin_phi_k r;
  rm_vol_phi_k_R : rvol_phi_k_R r' = - rvol_phi_k_R r;
  rm_vol_phi_hk : rvol_phi_hk r' = - rvol_phi_hk r }.
Ltac mk H := rewrite ?(km_target _ _ H), ?(km_beam _ _ H), ?(km_hadron _ _ H), ?(km_S _ _ H), ?(km_M _ _ H), ?(km_m _ _ H), ?(km_mh _ _ H), ?(km_Mth _ _ H), ?(km_x _ _ H), ?(km_y _ _ H), ?(km_z _ _ H), ?(km_ph_t_sq _ _ H), ?(km_Q_sq _ _ H), ?(km_Q _ _ H), ?(km_t _ _ H), ?(km_W_sq _ _ H), ?(km_X _ _ H), ?(km_S_x _ _ H), ?(km_S_p _ _ H), ?(km_V_1 _ _ H), ?(km_V_2 _ _ H), ?(km_V_m _ _ H), ?(km_V_p _ _ H), ?(km_lambda_S _ _ H), ?(km_lambda_X _ _ H), ?(km_lambda_Y _ _ H), ?(km_lambda_1 _ _ H), ?(km_lambda_2 _ _ H), ?(km_lambda_3 _ _ H), ?(km_lambda_S_sqrt _ _ H), ?(km_lambda_X_sqrt _ _ H), ?(km_lambda_Y_sqrt _ _ H), ?(km_lambda_1_sqrt _ _ H), ?(km_lambda_2_sqrt _ _ H), ?(km_lambda_3_sqrt _ _ H), ?(km_mx_sq _ _ H), ?(km_mx _ _ H), ?(km_C_1 _ _ H), ?(km_ph_0 _ _ H), ?(km_ph_t _ _ H), ?(km_ph_l _ _ H), ?(km_cos_phi_h _ _ H), ?(km_phi_h _ _ H), ?(km_sin_phi_h _ _ H), ?(km_vol_phi_h _ _ H).
Ltac mr H := rewrite ?(rm_target _ _ H), ?(rm_beam _ _ H), ?(rm_hadron _ _ H), ?(rm_S _ _ H), ?(rm_M _ _ H), ?(rm_m _ _ H), ?(rm_mh _ _ H), ?(rm_Mth _ _ H), ?(rm_x _ _ H), ?(rm_y _ _ H), ?(rm_z _ _ H), ?(rm_ph_t_sq _ _ H), ?(rm_Q_sq _ _ H), ?(rm_Q _ _ H), ?(rm_t _ _ H), ?(rm_W_sq _ _ H), ?(rm_X _ _ H), ?(rm_S_x _ _ H), ?(rm_S_p _ _ H), ?(rm_V_1 _ _ H), ?(rm_V_2 _ _ H), ?(rm_V_m _ _ H), ?(rm_V_p _ _ H), ?(rm_lambda_S _ _ H), ?(rm_lambda_X _ _ H), ?(rm_lambda_Y _ _ H), ?(rm_lambda_1 _ _ H), ?(rm_lambda_2 _ _ H), ?(rm_lambda_3 _ _ H), ?(rm_lambda_S_sqrt _ _ H), ?(rm_lambda_X_sqrt _ _ H), ?(rm_lambda_Y_sqrt _ _ H), ?(rm_lambda_1_sqrt _ _ H), ?(rm_lambda_2_sqrt _ _ H), ?(rm_lambda_3_sqrt _ _ H), ?(rm_mx_sq _ _ H), ?(rm_mx _ _ H), ?(rm_C_1 _ _ H), ?(rm_ph_0 _ _ H), ?(rm_ph_t _ _ H), ?(rm_ph_l _ _ H), ?(rm_cos_phi_h _ _ H), ?(rm_tau _ _ H), ?(rm_R _ _ H), ?(rm_tau_min _ _ H), ?(rm_tau_max _ _ H), ?(rm_lambda_H _ _ H), ?(rm_lambda_V _ _ H), ?(rm_lambda_RY _ _ H), ?(rm_lambda_RV _ _ H), ?(rm_mu _ _ H), ?(rm_lambda_z _ _ H), ?(rm_lambda_z_sqrt _ _ H), ?(rm_z_1 _ _ H), ?(rm_z_2 _ _ H), ?(rm_F_22 _ _ H), ?(rm_F_21 _ _ H), ?(rm_F_2p _ _ H), ?(rm_F_2m _ _ H), ?(rm_F_d _ _ H), ?(rm_F_1p _ _ H), ?(rm_F_IR _ _ H), ?(rm_cos_phi_k _ _ H), ?(rm_shift_Q_sq _ _ H), ?(rm_shift_Q _ _ H), ?(rm_shift_S_x _ _ H), ?(rm_shift_V_m _ _ H), ?(rm_shift_x _ _ H), ?(rm_shift_z _ _ H), ?(rm_shift_lambda_Y _ _ H), ?(rm_shift_lambda_2 _ _ H), ?(rm_shift_lambda_3 _ _ H), ?(rm_shift_lambda_Y_sqrt _ _ H), ?(rm_shift_ph_t_sq _ _ H), ?(rm_shift_ph_t _ _ H), ?(rm_shift_ph_l _ _ H), ?(rm_shift_C_1 _ _ H), ?(rm_phi_h _ _ H), ?(rm_sin_phi_h _ _ H), ?(rm_vol_phi_h _ _ H), ?(rm_phi_k _ _ H), ?(rm_sin_phi_k _ _ H), ?(rm_vol_phi_k_R _ _ H), ?(rm_vol_phi_hk _ _ H).
Definition mirror_space (sp : phase_space) : phase_space :=
  {| s_x := s_x sp; s_y := s_y sp; s_z := s_z sp; s_ph_t_sq := s_ph_t_sq sp; s_phi_h := - s_phi_h sp; s_phi := s_phi sp |}.
Lemma make_kin_mirror ps S sp : kin_mirror (make_kin ps S sp) (make_kin ps S (mirror_space sp)).
Proof.
  pose proof (make_kin_eqs ps S sp) as K. pose proof (make_kin_eqs ps S (mirror_space sp)) as K'.
  set (k := make_kin ps S sp) in *. set (k' := make_kin ps S (mirror_space sp)) in *.
  assert (C : kcos_phi_h k' = kcos_phi_h k) by (rewrite (ke_cos_phi_h _ K'), (ke_cos_phi_h _ K); apply cos_neg).
  assert (Sn : ksin_phi_h k' = - ksin_phi_h k) by (rewrite (ke_sin_phi_h _ K'), (ke_sin_phi_h _ K); apply sin_neg).
  assert (V1 : kV_1 k' = kV_1 k) by (rewrite (ke_V_1 _ K'), (ke_V_1 _ K), C; reflexivity).
  assert (V2 : kV_2 k' = kV_2 k) by (rewrite (ke_V_2 _ K'), (ke_V_2 _ K), C; reflexivity).
  constructor; try reflexivity; auto.
  - rewrite (ke_V_p _ K'), (ke_V_p _ K), V1, V2. reflexivity.
  - rewrite (ke_vol_phi_h _ K'), (ke_vol_phi_h _ K), Sn. change (kph_t k') with (kph_t k). change (klambda_1_sqrt k') with (klambda_1_sqrt k). ring.
Qed.
Lemma make_rad_mirror k k' tau phi_k R : kin_mirror k k' -> rad_mirror (make_rad k tau phi_k R) (make_rad k' tau (- phi_k) R).
Proof.
  intros H. pose proof (make_rad_eqs k tau phi_k R) as K. pose proof (make_rad_eqs k' tau (- phi_k) R) as K'.
  set (r := make_rad k tau phi_k R) in *. set (r' := make_rad k' tau (- phi_k) R) in *.
  assert (E_target : rtarget r' = rtarget r) by exact (km_target _ _ H).
  assert (E_beam : rbeam r' = rbeam r) by exact (km_beam _ _ H).
  assert (E_hadron : rhadron r' = rhadron r) by exact (km_hadron _ _ H).
  assert (E_S : rS r' = rS r) by exact (km_S _ _ H).
  assert (E_M : rM r' = rM r) by exact (km_M _ _ H).
  assert (E_m : rm r' = rm r) by exact (km_m _ _ H).
  assert (E_mh : rmh r' = rmh r) by exact (km_mh _ _ H).
  assert (E_Mth : rMth r' = rMth r) by exact (km_Mth _ _ H).
  assert (E_x : rx r' = rx r) by exact (km_x _ _ H).
  assert (E_y : ry r' = ry r) by exact (km_y _ _ H).
  assert (E_z : rz r' = rz r) by exact (km_z _ _ H).
  assert (E_ph_t_sq : rph_t_sq r' = rph_t_sq r) by exact (km_ph_t_sq _ _ H).
  assert (E_Q_sq : rQ_sq r' = rQ_sq r) by exact (km_Q_sq _ _ H).
  assert (E_Q : rQ r' = rQ r) by exact (km_Q _ _ H).
  assert (E_t : rt r' = rt r) by exact (km_t _ _ H).
  assert (E_W_sq : rW_sq r' = rW_sq r) by exact (km_W_sq _ _ H).
  assert (E_X : rX r' = rX r) by exact (km_X _ _ H).
  assert (E_S_x : rS_x r' = rS_x r) by exact (km_S_x _ _ H).
  assert (E_S_p : rS_p r' = rS_p r) by exact (km_S_p _ _ H).
  assert (E_V_1 : rV_1 r' = rV_1 r) by exact (km_V_1 _ _ H).
  assert (E_V_2 : rV_2 r' = rV_2 r) by exact (km_V_2 _ _ H).
  assert (E_V_m : rV_m r' = rV_m r) by exact (km_V_m _ _ H).
  assert (E_V_p : rV_p r' = rV_p r) by exact (km_V_p _ _ H).
  assert (E_lambda_S : rlambda_S r' = rlambda_S r) by exact (km_lambda_S _ _ H).
  assert (E_lambda_X : rlambda_X r' = rlambda_X r) by exact (km_lambda_X _ _ H).
  assert (E_lambda_Y : rlambda_Y r' = rlambda_Y r) by exact (km_lambda_Y _ _ H).
  assert (E_lambda_1 : rlambda_1 r' = rlambda_1 r) by exact (km_lambda_1 _ _ H).
  assert (E_lambda_2 : rlambda_2 r' = rlambda_2 r) by exact (km_lambda_2 _ _ H).
  assert (E_lambda_3 : rlambda_3 r' = rlambda_3 r) by exact (km_lambda_3 _ _ H).
  assert (E_lambda_S_sqrt : rlambda_S_sqrt r' = rlambda_S_sqrt r) by exact (km_lambda_S_sqrt _ _ H).
  assert (E_lambda_X_sqrt : rlambda_X_sqrt r' = rlambda_X_sqrt r) by exact (km_lambda_X_sqrt _ _ H).
  assert (E_lambda_Y_sqrt : rlambda_Y_sqrt r' = rlambda_Y_sqrt r) by exact (km_lambda_Y_sqrt _ _ H).
  assert (E_lambda_1_sqrt : rlambda_1_sqrt r' = rlambda_1_sqrt r) by exact (km_lambda_1_sqrt _ _ H).
  assert (E_lambda_2_sqrt : rlambda_2_sqrt r' = rlambda_2_sqrt r) by exact (km_lambda_2_sqrt _ _ H).
  assert (E_lambda_3_sqrt : rlambda_3_sqrt r' = rlambda_3_sqrt r) by exact (km_lambda_3_sqrt _ _ H).
  assert (E_mx_sq : rmx_sq r' = rmx_sq r) by exact (km_mx_sq _ _ H).
  assert (E_mx : rmx r' = rmx r) by exact (km_mx _ _ H).
  assert (E_C_1 : rC_1 r' = rC_1 r) by exact (km_C_1 _ _ H).
  assert (E_ph_0 : rph_0 r' = rph_0 r) by exact (km_ph_0 _ _ H).
  assert (E_ph_t : rph_t r' = rph_t r) by exact (km_ph_t _ _ H).
  assert (E_ph_l : rph_l r' = rph_l r) by exact (km_ph_l _ _ H).
  assert (E_cos_phi_h : rcos_phi_h r' = rcos_phi_h r) by exact (km_cos_phi_h _ _ H).
  assert (E_phi_h : rphi_h r' = - rphi_h r) by exact (km_phi_h _ _ H).
  assert (E_sin_phi_h : rsin_phi_h r' = - rsin_phi_h r) by exact (km_sin_phi_h _ _ H).
  assert (E_vol_phi_h : rvol_phi_h r' = - rvol_phi_h r) by exact (km_vol_phi_h _ _ H).
  assert (E_tau : rtau r' = rtau r) by reflexivity.
  assert (E_R : rR r' = rR r) by reflexivity.
  assert (E_phi_k : rphi_k r' = - rphi_k r) by reflexivity.
  clearbody r r'. clear H.
  assert (E_cd : cos (rphi_h r' - rphi_k r') = cos (rphi_h r - rphi_k r)) by (rewrite E_phi_h, E_phi_k, <- cos_neg; f_equal; ring).
  assert (E_cos_phi_k : rcos_phi_k r' = rcos_phi_k r) by (rewrite (re_cos_phi_k _ K'), (re_cos_phi_k _ K), E_phi_k; apply cos_neg).
  assert (E_sin_phi_k : rsin_phi_k r' = - rsin_phi_k r) by (rewrite (re_sin_phi_k _ K'), (re_sin_phi_k _ K), E_phi_k; apply sin_neg).
  assert (E_tau_min : rtau_min r' = rtau_min r) by (rewrite (re_tau_min _ K'), (re_tau_min _ K), E_S_x, E_lambda_Y_sqrt, E_M; reflexivity).
  assert (E_tau_max : rtau_max r' = rtau_max r) by (rewrite (re_tau_max _ K'), (re_tau_max _ K), E_S_x, E_lambda_Y_sqrt, E_M; reflexivity).
  assert (E_lambda_H : rlambda_H r' = rlambda_H r) by (rewrite (re_lambda_H _ K'), (re_lambda_H _ K), E_z, E_S_x, E_M, E_mh; reflexivity).
  assert (E_lambda_V : rlambda_V r' = rlambda_V r) by (rewrite (re_lambda_V _ K'), (re_lambda_V _ K), E_z, E_S_x, E_M, E_V_m; reflexivity).
  assert (E_lambda_RY : rlambda_RY r' = rlambda_RY r) by (rewrite (re_lambda_RY _ K'), (re_lambda_RY _ K), E_R, E_S_x, E_M, E_tau; reflexivity).
  assert (E_lambda_RV : rlambda_RV r' = rlambda_RV r) by (rewrite (re_lambda_RV _ K'), (re_lambda_RV _ K), E_cd, E_M, E_lambda_Y_sqrt, E_R, E_ph_t, E_tau, E_tau_min, E_tau_max, E_lambda_RY, E_ph_l; reflexivity).
  assert (E_mu : rmu r' = rmu r) by (rewrite (re_mu _ K'), (re_mu _ K), E_cd, E_ph_0, E_M, E_lambda_Y_sqrt, E_tau, E_S_x, E_ph_l, E_ph_t, E_tau_min, E_tau_max; reflexivity).
  assert (E_lambda_z : rlambda_z r' = rlambda_z r) by (rewrite (re_lambda_z _ K'), (re_lambda_z _ K), E_tau_max, E_tau, E_tau_min, E_lambda_1; reflexivity).
  assert (E_lambda_z_sqrt : rlambda_z_sqrt r' = rlambda_z_sqrt r) by (rewrite (re_lambda_z_sqrt _ K'), (re_lambda_z_sqrt _ K), E_lambda_z; reflexivity).
  assert (E_z_1 : rz_1 r' = rz_1 r) by (rewrite (re_z_1 _ K'), (re_z_1 _ K), E_lambda_Y, E_Q_sq, E_S_p, E_tau, E_S, E_S_x, E_M, E_lambda_z_sqrt, E_cos_phi_k; reflexivity).
  assert (E_z_2 : rz_2 r' = rz_2 r) by (rewrite (re_z_2 _ K'), (re_z_2 _ K), E_lambda_Y, E_Q_sq, E_S_p, E_tau, E_X, E_S_x, E_M, E_lambda_z_sqrt, E_cos_phi_k; reflexivity).
  assert (E_F_22 : rF_22 r' = rF_22 r) by (rewrite (re_F_22 _ K'), (re_F_22 _ K), E_z_2; reflexivity).
  assert (E_F_21 : rF_21 r' = rF_21 r) by (rewrite (re_F_21 _ K'), (re_F_21 _ K), E_z_1; reflexivity).
  assert (E_F_2p : rF_2p r' = rF_2p r) by (rewrite (re_F_2p _ K'), (re_F_2p _ K), E_F_22, E_F_21; reflexivity).
  assert (E_F_2m : rF_2m r' = rF_2m r) by (rewrite (re_F_2m _ K'), (re_F_2m _ K), E_F_22, E_F_21; reflexivity).
  assert (E_F_d : rF_d r' = rF_d r) by (rewrite (re_F_d _ K'), (re_F_d _ K), E_z_1, E_z_2; reflexivity).
  assert (E_F_1p : rF_1p r' = rF_1p r) by (rewrite (re_F_1p _ K'), (re_F_1p _ K), E_z_1, E_z_2; reflexivity).
  assert (E_F_IR : rF_IR r' = rF_IR r) by (rewrite (re_F_IR _ K'), (re_F_IR _ K), E_m, E_F_2p, E_Q_sq, E_F_d; reflexivity).
  assert (E_vol_phi_k_R : rvol_phi_k_R r' = - rvol_phi_k_R r) by (rewrite (re_vol_phi_k_R _ K'), (re_vol_phi_k_R _ K), E_sin_phi_k, E_M, E_lambda_z_sqrt, E_lambda_Y_sqrt; unfold Rdiv; ring).
  assert (E_vol_phi_hk : rvol_phi_hk r' = - rvol_phi_hk r) by (rewrite (re_vol_phi_hk _ K'), (re_vol_phi_hk _ K), E_lambda_1, E_R, E_vol_phi_h, E_z_1, E_lambda_Y, E_Q_sq, E_S_p, E_tau, E_S, E_S_x, E_M, E_vol_phi_k_R, E_z, E_V_2, E_X, E_V_1, E_V_p; unfold Rdiv; ring).
  assert (E_shift_Q_sq : rshift_Q_sq r' = rshift_Q_sq r) by (rewrite (re_shift_Q_sq _ K'), (re_shift_Q_sq _ K), E_Q_sq, E_R, E_tau; reflexivity).
  assert (E_shift_Q : rshift_Q r' = rshift_Q r) by (rewrite (re_shift_Q _ K'), (re_shift_Q _ K), E_shift_Q_sq; reflexivity).
  assert (E_shift_S_x : rshift_S_x r' = rshift_S_x r) by (rewrite (re_shift_S_x _ K'), (re_shift_S_x _ K), E_S_x, E_R; reflexivity).
  assert (E_shift_V_m : rshift_V_m r' = rshift_V_m r) by (rewrite (re_shift_V_m _ K'), (re_shift_V_m _ K), E_V_m, E_lambda_RV, E_z, E_R, E_S_x, E_M; reflexivity).
  assert (E_shift_x : rshift_x r' = rshift_x r) by (rewrite (re_shift_x _ K'), (re_shift_x _ K), E_shift_Q_sq, E_shift_S_x; reflexivity).
  assert (E_shift_z : rshift_z r' = rshift_z r) by (rewrite (re_shift_z _ K'), (re_shift_z _ K), E_S_x, E_shift_S_x, E_z; reflexivity).
  assert (E_shift_lambda_Y : rshift_lambda_Y r' = rshift_lambda_Y r) by (rewrite (re_shift_lambda_Y _ K'), (re_shift_lambda_Y _ K), E_lambda_Y, E_R, E_lambda_RY; reflexivity).
  assert (E_shift_lambda_2 : rshift_lambda_2 r' = rshift_lambda_2 r) by (rewrite (re_shift_lambda_2 _ K'), (re_shift_lambda_2 _ K), E_shift_V_m, E_mh, E_shift_Q_sq; reflexivity).
  assert (E_shift_lambda_3 : rshift_lambda_3 r' = rshift_lambda_3 r) by (rewrite (re_shift_lambda_3 _ K'), (re_shift_lambda_3 _ K), E_shift_V_m, E_shift_z, E_shift_Q_sq; reflexivity).
  assert (E_shift_lambda_Y_sqrt : rshift_lambda_Y_sqrt r' = rshift_lambda_Y_sqrt r) by (rewrite (re_shift_lambda_Y_sqrt _ K'), (re_shift_lambda_Y_sqrt _ K), E_shift_lambda_Y; reflexivity).
  assert (E_shift_ph_t_sq : rshift_ph_t_sq r' = rshift_ph_t_sq r) by (rewrite (re_shift_ph_t_sq _ K'), (re_shift_ph_t_sq _ K), E_ph_t_sq, E_shift_lambda_Y, E_R, E_lambda_RY, E_ph_l, E_lambda_Y_sqrt, E_lambda_RV, E_M; reflexivity).
  assert (E_shift_ph_t : rshift_ph_t r' = rshift_ph_t r) by (rewrite (re_shift_ph_t _ K'), (re_shift_ph_t _ K), E_shift_ph_t_sq; reflexivity).
  assert (E_shift_ph_l : rshift_ph_l r' = rshift_ph_l r) by (rewrite (re_shift_ph_l _ K'), (re_shift_ph_l _ K), E_shift_lambda_Y_sqrt, E_lambda_Y_sqrt, E_ph_l, E_lambda_RV, E_M; reflexivity).
  assert (E_shift_C_1 : rshift_C_1 r' = rshift_C_1 r) by (rewrite (re_shift_C_1 _ K'), (re_shift_C_1 _ K), E_M, E_shift_ph_l, E_shift_Q_sq, E_shift_x; reflexivity).
  constructor; assumption.
Qed.

Definition flip (v : vec3) : vec3 := V3 (- x3 v) (y3 v) (- z3 v).

Section Kin.
Context (k k' : kin) (H : kin_mirror k k').
Lemma pt_mirror : point_of k' = point_of k.
Proof. unfold point_of. mk H. reflexivity. Qed.
Lemma lb_uu_m : LepBornBaseUU k' = LepBornBaseUU k.
Proof. unfold LepBornBaseUU. mk H. reflexivity. Qed.
Lemma lb_up_m : LepBornBaseUP k' = mk_lep_born_up (- lb6 (LepBornBaseUP k)) (- lb8 (LepBornBaseUP k)).
Proof. unfold LepBornBaseUP. cbn [lb6 lb8]. mk H. f_equal; ring. Qed.
Lemma lb_lu_m : LepBornBaseLU k' = mk_lep_born_lu (- lb5 (LepBornBaseLU k)).
Proof. unfold LepBornBaseLU. cbn [lb5]. mk H. f_equal. unfold Rdiv. ring. Qed.
Lemma lb_lp_m : LepBornBaseLP k' = LepBornBaseLP k.
Proof. unfold LepBornBaseLP. mk H. reflexivity. Qed.
Lemma la_uu_m : LepAmmBaseUU k' = LepAmmBaseUU k.
Proof. unfold LepAmmBaseUU. mk H. reflexivity. Qed.
Lemma la_up_m : LepAmmBaseUP k' = mk_lep_amm_up (- la6 (LepAmmBaseUP k)) (- la8 (LepAmmBaseUP k)).
Proof. unfold LepAmmBaseUP. cbn [la6 la8]. f_equal; ring. Qed.
Lemma la_lu_m : LepAmmBaseLU k' = mk_lep_amm_lu (- la5 (LepAmmBaseLU k)).
Proof. unfold LepAmmBaseLU. cbn [la5]. mk H. f_equal. unfold Rdiv. ring. Qed.
Lemma la_lp_m : LepAmmBaseLP k' = LepAmmBaseLP k.
Proof. unfold LepAmmBaseLP. mk H. reflexivity. Qed.
Lemma h_uu_m sf : make_had_base_uu k' sf = make_had_base_uu k sf. Proof. unfold make_had_base_uu. mk H. reflexivity. Qed.
Lemma h_ul_m sf : make_had_base_ul k' sf = make_had_base_ul k sf. Proof. unfold make_had_base_ul. mk H. reflexivity. Qed.
Lemma h_ut_m sf : make_had_base_ut k' sf = make_had_base_ut k sf. Proof. unfold make_had_base_ut. mk H. reflexivity. Qed.
Lemma h_lu_m sf : make_had_base_lu k' sf = make_had_base_lu k sf. Proof. unfold make_had_base_lu. mk H. reflexivity. Qed.
Lemma h_ll_m sf : make_had_base_ll k' sf = make_had_base_ll k sf. Proof. unfold make_had_base_ll. mk H. reflexivity. Qed.
Lemma h_lt_m sf : make_had_base_lt k' sf = make_had_base_lt k sf. Proof. unfold make_had_base_lt. mk H. reflexivity. Qed.
Lemma Born_m ph : Born k' ph = Born k ph. Proof. unfold Born. mk H. reflexivity. Qed.
Lemma Amm_m ph : Amm k' ph = Amm k ph. Proof. unfold Amm. cbv zeta. mk H. reflexivity. Qed.
Lemma delta_0_m dilog : delta_vert_rad_0 dilog k' = delta_vert_rad_0 dilog k.
Proof. unfold delta_vert_rad_0. mk H. reflexivity. Qed.
Lemma delta_ir_m dilog k0 : delta_vert_rad_ir dilog k' k0 = delta_vert_rad_ir dilog k k0.
Proof. unfold delta_vert_rad_ir. cbv zeta. rewrite delta_0_m. mk H. reflexivity. Qed.
Lemma Nrad_m dilog ph k0 : Nrad dilog k' ph k0 = Nrad dilog k ph k0.
Proof. unfold Nrad, delta_vac_lep. rewrite delta_ir_m. mk H. destruct (delta_vert_rad_ir dilog k k0); auto. cbv zeta. rewrite Born_m, Amm_m. reflexivity. Qed.
Context (sf : sf_set sf_point).
Ltac hads := rewrite h_uu_m, h_ul_m, h_ut_m, h_lu_m, h_ll_m, h_lt_m.
Lemma born_m ph l eta : born sf k' ph l eta = born sf k ph (- l) (flip eta).
Proof.
  rewrite !born_full. cbv zeta. rewrite pt_mirror, Born_m. hads. rewrite lb_uu_m, lb_up_m, lb_lu_m, lb_lp_m.
  unfold born_base_uu, born_base_ul, born_base_ut1, born_base_ut2, born_base_lu, born_base_ll, born_base_lt1, born_base_lt2, flip. cbn [x3 y3 z3 lb6 lb8 lb5]. ring.
Qed.
Lemma amm_m ph l eta : amm sf k' ph l eta = amm sf k ph (- l) (flip eta).
Proof.
  rewrite !amm_full. cbv zeta. rewrite pt_mirror, Amm_m. hads. rewrite la_uu_m, la_up_m, la_lu_m, la_lp_m.
  unfold amm_base_uu, amm_base_ul, amm_base_ut1, amm_base_ut2, amm_base_lu, amm_base_ll, amm_base_lt1, amm_base_lt2, flip. cbn [x3 y3 z3 la6 la8 la5]. ring.
Qed.
Lemma nrad_ir_m dilog ph l eta k0 : nrad_ir dilog sf k' ph l eta k0 = nrad_ir dilog sf k ph (- l) (flip eta) k0.
Proof.
  rewrite !nrad_ir_full. cbv zeta. rewrite pt_mirror, Nrad_m. hads. destruct (Nrad dilog k ph k0) as [b|]; [|reflexivity]. cbn [omap]. f_equal.
  unfold LepNradBaseUU, LepNradBaseUP, LepNradBaseLU, LepNradBaseLP. rewrite lb_uu_m, lb_up_m, lb_lu_m, lb_lp_m, la_uu_m, la_up_m, la_lu_m, la_lp_m.
  unfold nrad_ir_base_uu, nrad_ir_base_ul, nrad_ir_base_ut1, nrad_ir_base_ut2, nrad_ir_base_lu, nrad_ir_base_ll, nrad_ir_base_lt1, nrad_ir_base_lt2, flip.
  cbn [x3 y3 z3 la6 la8 la5 lb6 lb8 lb5 ln_uu_born ln_uu_amm ln_up_born ln_up_amm ln_lu_born ln_lu_amm ln_lp_born ln_lp_amm]. ring.
Qed.
End Kin.

Lemma kin_mirror_project r r' : rad_mirror r r' -> kin_mirror (project r) (project r').
Proof.
  intros H. constructor.
  - exact (rm_target _ _ H).
  - exact (rm_beam _ _ H).
  - exact (rm_hadron _ _ H).
  - exact (rm_S _ _ H).
  - exact (rm_M _ _ H).
  - exact (rm_m _ _ H).
  - exact (rm_mh _ _ H).
  - exact (rm_Mth _ _ H).
  - exact (rm_x _ _ H).
  - exact (rm_y _ _ H).
  - exact (rm_z _ _ H).
  - exact (rm_ph_t_sq _ _ H).
  - exact (rm_Q_sq _ _ H).
  - exact (rm_Q _ _ H).
  - exact (rm_t _ _ H).
  - exact (rm_W_sq _ _ H).
  - exact (rm_X _ _ H).
  - exact (rm_S_x _ _ H).
  - exact (rm_S_p _ _ H).
  - exact (rm_V_1 _ _ H).
  - exact (rm_V_2 _ _ H).
  - exact (rm_V_m _ _ H).
  - exact (rm_V_p _ _ H).
  - exact (rm_lambda_S _ _ H).
  - exact (rm_lambda_X _ _ H).
  - exact (rm_lambda_Y _ _ H).
  - exact (rm_lambda_1 _ _ H).
  - exact (rm_lambda_2 _ _ H).
  - exact (rm_lambda_3 _ _ H).
  - exact (rm_lambda_S_sqrt _ _ H).
  - exact (rm_lambda_X_sqrt _ _ H).
  - exact (rm_lambda_Y_sqrt _ _ H).
  - exact (rm_lambda_1_sqrt _ _ H).
  - exact (rm_lambda_2_sqrt _ _ H).
  - exact (rm_lambda_3_sqrt _ _ H).
  - exact (rm_mx_sq _ _ H).
  - exact (rm_mx _ _ H).
  - exact (rm_C_1 _ _ H).
  - exact (rm_ph_0 _ _ H).
  - exact (rm_ph_t _ _ H).
  - exact (rm_ph_l _ _ H).
  - exact (rm_cos_phi_h _ _ H).
  - exact (rm_phi_h _ _ H).
  - exact (rm_sin_phi_h _ _ H).
  - exact (rm_vol_phi_h _ _ H).
Qed.

Lemma dot3_flip a b : dot3 (flip a) b = dot3 a (flip b).
Proof. unfold dot3, flip. cbn [x3 y3 z3]. ring. Qed.

Lemma v3_eq a b : x3 a = x3 b -> y3 a = y3 b -> z3 a = z3 b -> a = b.
Proof. destruct a as [a1 a2 a3], b as [b1 b2 b3]. cbn [x3 y3 z3]. congruence. Qed.
Lemma x3_s c a : x3 (scale3 c a) = c * x3 a. Proof. unfold scale3. cbn [x3 y3 z3]. ring. Qed.
Lemma y3_s c a : y3 (scale3 c a) = c * y3 a. Proof. unfold scale3. cbn [x3 y3 z3]. ring. Qed.
Lemma z3_s c a : z3 (scale3 c a) = c * z3 a. Proof. unfold scale3. cbn [x3 y3 z3]. ring. Qed.
Lemma x3_a a b : x3 (add3 a b) = x3 a + x3 b. Proof. reflexivity. Qed.
Lemma y3_a a b : y3 (add3 a b) = y3 a + y3 b. Proof. reflexivity. Qed.
Lemma z3_a a b : z3 (add3 a b) = z3 a + z3 b. Proof. reflexivity. Qed.
Lemma x3_f a : x3 (flip a) = - x3 a. Proof. reflexivity. Qed.
Lemma y3_f a : y3 (flip a) = y3 a. Proof. reflexivity. Qed.
Lemma z3_f a : z3 (flip a) = - z3 a. Proof. reflexivity. Qed.
Lemma x3_n a : x3 (neg3 a) = - x3 a. Proof. reflexivity. Qed.
Lemma y3_n a : y3 (neg3 a) = - y3 a. Proof. reflexivity. Qed.
Lemma z3_n a : z3 (neg3 a) = - z3 a. Proof. reflexivity. Qed.
#[local] Hint Rewrite x3_s y3_s z3_s x3_a y3_a z3_a x3_f y3_f z3_f x3_n y3_n z3_n : comps.
Ltac comps := autorewrite with comps.
Definition neg_up (l : lep_rad_up) : lep_rad_up := mk_lep_rad_up (- lr061 l) (- lr062 l) (- lr063 l) (- lr064 l) (- lr081 l) (- lr082 l) (- lr083 l) (- lr084 l).
Definition neg_lu (l : lep_rad_lu) : lep_rad_lu := mk_lep_rad_lu (- lr051 l) (- lr052 l) (- lr053 l) (- lr151 l) (- lr152 l) (- lr153 l).
Definition mir_up (h : had_rad_up) : had_rad_up := mk_had_rad_up (flip (hr1 h)) (flip (hr2 h)) (flip (hr3 h)) (flip (hr4 h)) (neg3 (flip (hr6 h))) (neg3 (flip (hr8 h))).
Definition mir_lp (h : had_rad_lp) : had_rad_lp := mk_had_rad_lp (flip (hr5 h)) (neg3 (flip (hr7 h))) (neg3 (flip (hr9 h))).
Definition mir_fup (h : had_rad_f_up) : had_rad_f_up := mk_had_rad_f_up (flip (hf1 h)) (flip (hf2 h)) (flip (hf3 h)) (flip (hf4 h)) (neg3 (flip (hf6 h))) (neg3 (flip (hf8 h)))
  (flip (hd1 h)) (flip (hd2 h)) (flip (hd3 h)) (flip (hd4 h)) (neg3 (flip (hd6 h))) (neg3 (flip (hd8 h))).
Definition mir_flp (h : had_rad_f_lp) : had_rad_f_lp := mk_had_rad_f_lp (flip (hf5 h)) (neg3 (flip (hf7 h))) (neg3 (flip (hf9 h))) (flip (hd5 h)) (neg3 (flip (hd7 h))) (neg3 (flip (hd9 h))).
Lemma up_flip b lu lp h : rad_base_up b lu (neg_up lp) (mir_up h) = flip (rad_base_up b lu lp h).
Proof.
  unfold rad_base_up, neg_up, mir_up. cbn [lr061 lr062 lr063 lr064 lr081 lr082 lr083 lr084 hr1 hr2 hr3 hr4 hr6 hr8].
  apply v3_eq; comps; ring.
Qed.
Lemma lp_flip b ll lq h : rad_base_lp b (neg_lu ll) lq (mir_lp h) = neg3 (flip (rad_base_lp b ll lq h)).
Proof.
  unfold rad_base_lp, neg_lu, mir_lp. cbn [lr051 lr052 lr053 lr151 lr152 lr153 hr5 hr7 hr9].
  apply v3_eq; comps; ring.
Qed.
Lemma fup_flip b lu lp h : rad_f_base_up b lu (neg_up lp) (mir_fup h) = flip (rad_f_base_up b lu lp h).
Proof.
  unfold rad_f_base_up, neg_up, mir_fup. cbn [lr061 lr062 lr063 lr064 lr081 lr082 lr083 lr084 hf1 hf2 hf3 hf4 hf6 hf8 hd1 hd2 hd3 hd4 hd6 hd8].
  apply v3_eq; comps; ring.
Qed.
Lemma flp_flip b ll lq h : rad_f_base_lp b (neg_lu ll) lq (mir_flp h) = neg3 (flip (rad_f_base_lp b ll lq h)).
Proof.
  unfold rad_f_base_lp, neg_lu, mir_flp. cbn [lr051 lr052 lr053 lr151 lr152 lr153 hf5 hf7 hf9 hd5 hd7 hd9].
  apply v3_eq; comps; ring.
Qed.
Lemma lu_neg b ll h : rad_base_lu b (neg_lu ll) h = - rad_base_lu b ll h.
Proof. unfold rad_base_lu, neg_lu. cbn [lr051 lr052 lr053 lr151 lr152 lr153]. ring. Qed.
Lemma flu_neg b ll h : rad_f_base_lu b (neg_lu ll) h = - rad_f_base_lu b ll h.
Proof. unfold rad_f_base_lu, neg_lu. cbn [lr051 lr052 lr053 lr151 lr152 lr153]. ring. Qed.
Lemma dot3_neg3 a b : dot3 (neg3 a) b = - dot3 a b.
Proof. unfold dot3, neg3. cbn [x3 y3 z3]. ring. Qed.

Section Rad.
Context (r r' : kinrad) (H : rad_mirror r r').
Let HK : kin_mirror (project r) (project r') := kin_mirror_project _ _ H.
Lemma spt_mirror : shift_point_of r' = shift_point_of r.
Proof. unfold shift_point_of. mr H. reflexivity. Qed.
Lemma lr_uu_m : LepRadBaseUU r' = LepRadBaseUU r.
Proof. unfold LepRadBaseUU. cbv zeta. rewrite (lb_uu_m _ _ HK). mr H. reflexivity. Qed.
Lemma lr_up_m : LepRadBaseUP r' = neg_up (LepRadBaseUP r).
Proof.
  unfold neg_up, LepRadBaseUP. cbv zeta. rewrite (lb_up_m _ _ HK). cbn [lr061 lr062 lr063 lr064 lr081 lr082 lr083 lr084 lb6 lb8]. mr H. f_equal; ring.
Qed.
Lemma lr_lu_m : LepRadBaseLU r' = neg_lu (LepRadBaseLU r).
Proof.
  unfold neg_lu, LepRadBaseLU. cbv zeta. rewrite (lb_lu_m _ _ HK). cbn [lr051 lr052 lr053 lr151 lr152 lr153 lb5]. mr H. f_equal; unfold Rdiv; ring.
Qed.
Lemma lr_lp_m : LepRadBaseLP r' = LepRadBaseLP r.
Proof. unfold LepRadBaseLP. cbv zeta. rewrite (lb_lp_m _ _ HK). mr H. reflexivity. Qed.
Lemma Rad_m ph : Rad r' ph = Rad r ph. Proof. unfold Rad. mr H. reflexivity. Qed.
Lemma hr_uu_m sf : make_had_rad_base_uu r' sf = make_had_rad_base_uu r sf.
Proof. unfold make_had_rad_base_uu. cbv zeta. mr H. reflexivity. Qed.
Lemma hr_lu_m sf : make_had_rad_base_lu r' sf = make_had_rad_base_lu r sf.
Proof. unfold make_had_rad_base_lu. cbv zeta. mr H. reflexivity. Qed.
Lemma rot_y a : tapp3 (hadron_from_shift r') (V3 0 a 0) = flip (tapp3 (hadron_from_shift r) (V3 0 a 0)).
Proof. unfold hadron_from_shift, shift_from_hadron. cbv zeta. mr H. unfold flip. uvec. f_equal; unfold Rdiv; ring. Qed.
Lemma rot_xz a b : tapp3 (hadron_from_shift r') (V3 a 0 b) = neg3 (flip (tapp3 (hadron_from_shift r) (V3 a 0 b))).
Proof. unfold hadron_from_shift, shift_from_hadron. cbv zeta. mr H. unfold flip, neg3. uvec. f_equal; unfold Rdiv; ring. Qed.
Lemma hr_up_m sf : make_had_rad_base_up r' sf = mir_up (make_had_rad_base_up r sf).
Proof.
  unfold mir_up, make_had_rad_base_up. cbv zeta. rewrite !rot_y, !rot_xz. cbn [hr1 hr2 hr3 hr4 hr6 hr8]. mr H. reflexivity.
Qed.
Lemma hr_lp_m sf : make_had_rad_base_lp r' sf = mir_lp (make_had_rad_base_lp r sf).
Proof.
  unfold mir_lp, make_had_rad_base_lp. cbv zeta. rewrite !rot_y, !rot_xz. cbn [hr5 hr7 hr9]. mr H. reflexivity.
Qed.
Context (sf : sf_set sf_point).
Lemma rad_m ph l eta : rad sf r' ph l eta = rad sf r ph (- l) (flip eta).
Proof.
  rewrite !rad_full. cbv zeta. rewrite spt_mirror, Rad_m, hr_uu_m, hr_lu_m, hr_up_m, hr_lp_m, lr_uu_m, lr_up_m, lr_lu_m, lr_lp_m.
  rewrite up_flip, lp_flip, lu_neg, dot3_neg3, !dot3_flip. ring.
Qed.
End Rad.

Section RadF.
Context (sf : sf_set sf_point).
Lemma R_bound_m k k' tau phi_k : kin_mirror k k' -> R_bound k' tau (- phi_k) = R_bound k tau phi_k.
Proof.
  intros H. unfold R_bound, R_mu, tau_bound. cbv zeta.
  replace (cos (kphi_h k' - - phi_k)) with (cos (kphi_h k - phi_k)) by (rewrite (km_phi_h _ _ H), <- cos_neg; f_equal; ring).
  mk H. reflexivity.
Qed.
Lemma choose_m r r' : rad_mirror r r' -> choose r' = choose r.
Proof.
  intros H. unfold choose. rewrite (rm_phi_k _ _ H), (rm_tau _ _ H), (rm_R _ _ H), (R_bound_m _ _ _ _ (kin_mirror_project _ _ H)). reflexivity.
Qed.
Lemma HadLP_m k k' : kin_mirror k k' -> HadLP sf k' = HadLP sf k.
Proof.
  intros H. unfold HadLP. cbv zeta. rewrite (pt_mirror _ _ H).
  rewrite (h_uu_m _ _ H), (h_ul_m _ _ H), (h_ut_m _ _ H), (h_lu_m _ _ H), (h_ll_m _ _ H), (h_lt_m _ _ H). reflexivity.
Qed.
Lemma HadRadLP_m r r' : rad_mirror r r' -> HadRadLP sf r' = mk_HadRadLP (HRlp_uu (HadRadLP sf r)) (mir_up (HRlp_up (HadRadLP sf r))) (HRlp_lu (HadRadLP sf r)) (mir_lp (HRlp_lp (HadRadLP sf r))).
Proof.
  intros H. unfold HadRadLP. cbv zeta. rewrite (spt_mirror _ _ H). cbn [HRlp_uu HRlp_up HRlp_lu HRlp_lp].
  rewrite (hr_uu_m _ _ H), (hr_up_m _ _ H), (hr_lu_m _ _ H), (hr_lp_m _ _ H). reflexivity.
Qed.
Lemma sub_y (v : vec3) a R : div3 (sub3 (flip v) (V3 0 a 0)) R = flip (div3 (sub3 v (V3 0 a 0)) R).
Proof. unfold div3, sub3, flip. cbn [x3 y3 z3]. apply v3_eq; cbn [x3 y3 z3]; unfold Rdiv; ring. Qed.
Lemma sub_xz (v : vec3) a b R : div3 (sub3 (neg3 (flip v)) (V3 a 0 b)) R = neg3 (flip (div3 (sub3 v (V3 a 0 b)) R)).
Proof. unfold div3, sub3, flip, neg3. cbn [x3 y3 z3]. apply v3_eq; cbn [x3 y3 z3]; unfold Rdiv; ring. Qed.
Lemma der_y R d a v w : diff_R3 R d (V3 0 a 0) (flip v) (flip w) = flip (diff_R3 R d (V3 0 a 0) v w).
Proof. unfold diff_R3, sub3. cbv zeta. apply v3_eq; comps; cbn [x3 y3 z3]; comps; cbn [x3 y3 z3]; ring. Qed.
Lemma der_xz R d a b v w : diff_R3 R d (V3 a 0 b) (neg3 (flip v)) (neg3 (flip w)) = neg3 (flip (diff_R3 R d (V3 a 0 b) v w)).
Proof. unfold diff_R3, sub3. cbv zeta. apply v3_eq; comps; cbn [x3 y3 z3]; comps; cbn [x3 y3 z3]; ring. Qed.
Definition mir_F (h : HadRadFLP_t) : HadRadFLP_t := mk_HadRadFLP (HFlp_uu h) (mir_fup (HFlp_up h)) (HFlp_lu h) (mir_flp (HFlp_lp h)).
Lemma HadRadFLP_m r r' : rad_mirror r r' ->
  HadRadFLP sf r' (HadLP sf (project r')) = omap mir_F (HadRadFLP sf r (HadLP sf (project r))).
Proof.
  intros H. pose proof (kin_mirror_project _ _ H) as HK. rewrite (HadLP_m _ _ HK). set (h0 := HadLP sf (project r)).
  unfold HadRadFLP. cbv zeta. rewrite (choose_m _ _ H), (HadRadLP_m _ _ H), (rm_R _ _ H).
  destruct (choose r) as [|d|]; cbn [omap]; try reflexivity; f_equal; unfold mir_F; cbn [HFlp_uu HFlp_up HFlp_lu HFlp_lp].
  - cbn [HRlp_uu HRlp_up HRlp_lu HRlp_lp]. f_equal.
    + unfold make_had_rad_f_base_up_diff, mir_up, mir_fup. cbn [hr1 hr2 hr3 hr4 hr6 hr8 hf1 hf2 hf3 hf4 hf6 hf8 hd1 hd2 hd3 hd4 hd6 hd8]. rewrite !sub_y, !sub_xz. reflexivity.
    + unfold make_had_rad_f_base_lp_diff, mir_lp, mir_flp. cbn [hr5 hr7 hr9 hf5 hf7 hf9 hd5 hd7 hd9]. rewrite !sub_y, !sub_xz. reflexivity.
  - rewrite (rm_phi_k _ _ H), (rm_tau _ _ H).
    rewrite (HadRadLP_m _ _ (make_rad_mirror _ _ (rtau r) (rphi_k r) d HK)), (HadRadLP_m _ _ (make_rad_mirror _ _ (rtau r) (rphi_k r) (2 * d) HK)).
    set (a1 := HadRadLP sf r). set (a2 := HadRadLP sf _). set (a3 := HadRadLP sf _). clearbody a1 a2 a3 h0.
    cbn [HRlp_uu HRlp_up HRlp_lu HRlp_lp]. f_equal.
    + unfold make_had_rad_f_base_up_deriv, mir_up, mir_fup. cbn [hr1 hr2 hr3 hr4 hr6 hr8 hf1 hf2 hf3 hf4 hf6 hf8 hd1 hd2 hd3 hd4 hd6 hd8]. rewrite !der_y, !der_xz. reflexivity.
    + unfold make_had_rad_f_base_lp_deriv, mir_lp, mir_flp. cbn [hr5 hr7 hr9 hf5 hf7 hf9 hd5 hd7 hd9]. rewrite !der_y, !der_xz. reflexivity.
Qed.
Lemma rad_f_m r r' ph l eta : rad_mirror r r' -> rad_f sf r' ph l eta = rad_f sf r ph (- l) (flip eta).
Proof.
  intros H. rewrite !rad_f_full, (HadRadFLP_m _ _ H). destruct (HadRadFLP sf r (HadLP sf (project r))) as [h|]; [|reflexivity].
  cbn [omap]. f_equal. unfold full_f, mir_F. cbn [HFlp_uu HFlp_up HFlp_lu HFlp_lp].
  rewrite (lr_uu_m _ _ H), (lr_up_m _ _ H), (lr_lu_m _ _ H), (lr_lp_m _ _ H), (Rad_m _ _ H), fup_flip, flp_flip, flu_neg, dot3_neg3, !dot3_flip. ring.
Qed.
End RadF.
