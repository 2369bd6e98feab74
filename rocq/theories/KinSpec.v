(** Specification of the kinematics: four-momenta of a scattering event and their invariants.
    The event is described in the target rest frame with the z axis along the virtual photon and the incoming
    lepton in the xz half-plane x > 0; every other frame is reached by an isometry. *)
From Coq Require Import Reals.
From Verif Require Import MathModel ParticleModel VecModel TransModel FrameBase KinModel.
Local Open Scope R_scope.

Record event := Event {
  e_M : R; e_m : R; e_mh : R;            (* masses of target, lepton, hadron *)
  e_E : R; e_kx : R; e_kz : R;           (* incoming lepton *)
  e_q0 : R; e_qz : R;                    (* virtual photon *)
  e_Eh : R; e_pt : R; e_pl : R; e_phi_h : R; (* hadron: energy, transverse and longitudinal momentum, azimuth *)
  e_phi : R                              (* orientation of the lepton plane about the beam *)
}.
Definition v_p (e : event) := V4 (e_M e) 0 0 0.
Definition v_k1 (e : event) := V4 (e_E e) (e_kx e) 0 (e_kz e).
Definition v_q (e : event) := V4 (e_q0 e) 0 0 (e_qz e).
Definition v_k2 (e : event) := sub4 (v_k1 e) (v_q e).
Definition v_ph (e : event) := V4 (e_Eh e) (e_pt e * cos (e_phi_h e)) (e_pt e * sin (e_phi_h e)) (e_pl e).

(** On-shell particles, space-like photon of positive energy, hadron in the forward hemisphere of the photon. *)
Record physical (e : event) : Prop := Physical {
  ph_M : 0 < e_M e; ph_m : 0 <= e_m e; ph_mh : 0 <= e_mh e;
  ph_k1 : norm_sq4 (v_k1 e) = sq (e_m e);
  ph_k2 : norm_sq4 (v_k2 e) = sq (e_m e);
  ph_ph : norm_sq4 (v_ph e) = sq (e_mh e);
  ph_kx : 0 < e_kx e; ph_q0 : 0 < e_q0 e; ph_qz : 0 < e_qz e; ph_space : norm_sq4 (v_q e) < 0;
  ph_E : 0 < e_E e; ph_E2 : 0 < t4 (v_k2 e); ph_Eh : 0 < e_Eh e; ph_pt : 0 <= e_pt e; ph_pl : 0 <= e_pl e }.

(** The variables a user gives: Bjorken x, y, z, squared transverse momentum, azimuths (kinematics.hpp 16-36). *)
Definition event_space (e : event) : phase_space := {|
  s_x := - norm_sq4 (v_q e) / (2 * dot4 (v_p e) (v_q e));
  s_y := dot4 (v_p e) (v_q e) / dot4 (v_p e) (v_k1 e);
  s_z := dot4 (v_p e) (v_ph e) / dot4 (v_p e) (v_q e);
  s_ph_t_sq := sq (e_pt e); s_phi_h := e_phi_h e; s_phi := e_phi e |}.
Definition event_S (e : event) : R := 2 * dot4 (v_p e) (v_k1 e).
Definition event_parts (e : event) (t : nucleus) (b : lepton) (h : hadron) (Mth : R) : parts :=
  Parts t b h (e_M e) (e_m e) (e_mh e) Mth.

(** Gram determinant of three vectors, and determinant of four vectors. *)
Definition gram3 (a b c : vec4) : R :=
  det3 (mk_tr3 (dot4 a a) (dot4 a b) (dot4 a c) (dot4 b a) (dot4 b b) (dot4 b c) (dot4 c a) (dot4 c b) (dot4 c c)).
Definition gram2 (a b : vec4) : R := dot4 a a * dot4 b b - dot4 a b * dot4 a b.
Definition det_rows (a b c d : vec4) : R :=
  let minor u v w := dot3 u (cross3 v w) in
  t4 a * minor (r4 b) (r4 c) (r4 d) - t4 b * minor (r4 a) (r4 c) (r4 d)
  + t4 c * minor (r4 a) (r4 b) (r4 d) - t4 d * minor (r4 a) (r4 b) (r4 c).

(** A radiated photon: R/(2M) times a null vector of direction (st cos phi, st sin phi, ct). *)
Record photon := Photon { f_R : R; f_ct : R; f_st : R; f_phi : R }.
Definition photon_ok (f : photon) : Prop := 0 <= f_R f /\ 0 <= f_st f /\ sq (f_ct f) + sq (f_st f) = 1.
Definition v_n (f : photon) := V4 1 (f_st f * cos (f_phi f)) (f_st f * sin (f_phi f)) (f_ct f).
Definition v_k (e : event) (f : photon) := scale4 (f_R f / (2 * e_M e)) (v_n f).
(** tau = k.q / k.p depends on the direction only. *)
Definition photon_tau (e : event) (f : photon) : R := dot4 (v_n f) (v_q e) / dot4 (v_n f) (v_p e).
(** The momentum transferred to the hadronic system after radiation. *)
Definition v_qs (e : event) (f : photon) := sub4 (v_q e) (v_k e f).

(** * Invariants
    Spatial product, longitudinal and transverse parts in the rest frame of [p]. *)
Definition sdot (p a b : vec4) : R := (dot4 p a * dot4 p b - dot4 p p * dot4 a b) / dot4 p p.
Definition along (p a b : vec4) : R := sdot p a b / sqrt (sdot p b b).
Definition across (p a b : vec4) : R := sqrt (sdot p a a - sq (along p a b)).

(** The quantities that depend on the momentum transfer. *)
Record transfer_vals := TransferVals {
  iQ_sq : R; iQ : R; ix : R; iy : R; iz : R; it : R; iW_sq : R; iS_x : R; iV_m : R; iph_0 : R;
  ilambda_Y : R; ilambda_1 : R; ilambda_2 : R; ilambda_3 : R;
  ilambda_Y_sqrt : R; ilambda_1_sqrt : R; ilambda_2_sqrt : R; ilambda_3_sqrt : R;
  imx_sq : R; imx : R; iph_t_sq : R; iph_t : R; iph_l : R; iq_0 : R; iq_t : R; iq_l : R; ik1_t : R;
  ivol_phi_h : R; iC_1 : R; icos_phi_h : R; isin_phi_h : R }.
Definition kin_vals (k : kin) : transfer_vals := {|
  iQ_sq := kQ_sq k; iQ := kQ k; ix := kx k; iy := ky k; iz := kz k; it := kt k; iW_sq := kW_sq k; iS_x := kS_x k;
  iV_m := kV_m k; iph_0 := kph_0 k; ilambda_Y := klambda_Y k; ilambda_1 := klambda_1 k; ilambda_2 := klambda_2 k;
  ilambda_3 := klambda_3 k; ilambda_Y_sqrt := klambda_Y_sqrt k; ilambda_1_sqrt := klambda_1_sqrt k;
  ilambda_2_sqrt := klambda_2_sqrt k; ilambda_3_sqrt := klambda_3_sqrt k; imx_sq := kmx_sq k; imx := kmx k;
  iph_t_sq := kph_t_sq k; iph_t := kph_t k; iph_l := kph_l k; iq_0 := kq_0 k; iq_t := kq_t k; iq_l := kq_l k;
  ik1_t := kk1_t k; ivol_phi_h := kvol_phi_h k; iC_1 := kC_1 k; icos_phi_h := kcos_phi_h k; isin_phi_h := ksin_phi_h k |}.
Definition shift_vals (r : kinrad) : transfer_vals := {|
  iQ_sq := rshift_Q_sq r; iQ := rshift_Q r; ix := rshift_x r; iy := rshift_y r; iz := rshift_z r; it := rshift_t r;
  iW_sq := rshift_W_sq r; iS_x := rshift_S_x r;
  iV_m := rshift_V_m r; iph_0 := rph_0 r; ilambda_Y := rshift_lambda_Y r; ilambda_1 := rshift_lambda_1 r; ilambda_2 := rshift_lambda_2 r;
  ilambda_3 := rshift_lambda_3 r; ilambda_Y_sqrt := rshift_lambda_Y_sqrt r; ilambda_1_sqrt := rshift_lambda_1_sqrt r;
  ilambda_2_sqrt := rshift_lambda_2_sqrt r; ilambda_3_sqrt := rshift_lambda_3_sqrt r; imx_sq := rshift_mx_sq r; imx := rshift_mx r;
  iph_t_sq := rshift_ph_t_sq r; iph_t := rshift_ph_t r; iph_l := rshift_ph_l r; iq_0 := rshift_q_0 r; iq_t := rshift_q_t r;
  iq_l := rshift_q_l r; ik1_t := rshift_k1_t r; ivol_phi_h := rshift_vol_phi_h r; iC_1 := rshift_C_1 r;
  icos_phi_h := rshift_cos_phi_h r; isin_phi_h := rshift_sin_phi_h r |}.

(** What each of them means for the momenta p, k1, q, ph. *)
Record transfer_names (v : transfer_vals) (p k1 q ph : vec4) : Prop := TransferNames {
  n_Q_sq : iQ_sq v = - norm_sq4 q;
  n_Q : iQ v = sqrt (- norm_sq4 q);
  n_x : ix v = - norm_sq4 q / (2 * dot4 p q);
  n_y : iy v = dot4 p q / dot4 p k1;
  n_z : iz v = dot4 p ph / dot4 p q;
  n_t : it v = norm_sq4 (sub4 q ph);
  n_W_sq : iW_sq v = norm_sq4 (add4 p q);
  n_S_x : iS_x v = 2 * dot4 p q;
  n_V_m : iV_m v = dot4 q ph;
  n_ph_0 : iph_0 v = dot4 p ph / sqrt (norm_sq4 p);
  n_lambda_Y : ilambda_Y v = - 4 * gram2 p q;
  n_lambda_1 : ilambda_1 v = 4 * gram3 p k1 q;
  n_lambda_2 : ilambda_2 v = - gram2 q ph;
  n_lambda_3 : ilambda_3 v = dot4 q ph - dot4 p ph / dot4 p q * norm_sq4 q;
  n_lambda_Y_sqrt : ilambda_Y_sqrt v = 2 * sqrt (norm_sq4 p) * sqrt (sdot p q q);
  n_lambda_1_sqrt : ilambda_1_sqrt v = sqrt (4 * gram3 p k1 q);
  n_lambda_2_sqrt : ilambda_2_sqrt v = sqrt (- gram2 q ph);
  n_lambda_3_sqrt : ilambda_3_sqrt v = sqrt (dot4 q ph - dot4 p ph / dot4 p q * norm_sq4 q);
  n_mx_sq : imx_sq v = norm_sq4 (sub4 (add4 p q) ph);
  n_mx : imx v = sqrt (norm_sq4 (sub4 (add4 p q) ph));
  n_ph_t_sq : iph_t_sq v = - gram3 p q ph / gram2 p q;
  n_ph_t : iph_t v = across p ph q;
  n_ph_l : iph_l v = along p ph q;
  n_q_0 : iq_0 v = dot4 p q / sqrt (norm_sq4 p);
  n_q_t : iq_t v = across p q k1;
  n_q_l : iq_l v = along p q k1;
  n_k1_t : ik1_t v = across p k1 q;
  n_vol_phi_h : ivol_phi_h v = det_rows p ph k1 q;
  n_C_1 : iC_1 v = 4 * sqrt (norm_sq4 p) * along p ph q * (- norm_sq4 q + 2 * (- norm_sq4 q / (2 * dot4 p q)) * norm_sq4 p)
    / sq (sq (norm_sq4 q));
  n_cos_phi_h : 0 < across p ph q -> 0 < across p k1 q ->
    icos_phi_h v * (across p ph q * across p k1 q) = sdot p k1 ph - along p k1 q * along p ph q;
  n_sin_phi_h : 0 < across p ph q -> 0 < across p k1 q ->
    isin_phi_h v * (across p ph q * across p k1 q * sqrt (sdot p q q) * sqrt (norm_sq4 p)) = - det_rows p ph k1 q }.
(** The remaining quantities of Kinematics. *)
Record lepton_names (k : kin) (p k1 q ph : vec4) : Prop := LeptonNames {
  n_S : kS k = 2 * dot4 p k1;
  n_M : kM k = sqrt (norm_sq4 p);
  n_m : km k = sqrt (norm_sq4 k1);
  n_m2 : km k = sqrt (norm_sq4 (sub4 k1 q));
  n_mh : kmh k = sqrt (norm_sq4 ph);
  n_X : kX k = 2 * dot4 p (sub4 k1 q);
  n_S_p : kS_p k = 2 * dot4 p (add4 k1 (sub4 k1 q));
  n_V_1 : kV_1 k = 2 * dot4 k1 ph;
  n_V_2 : kV_2 k = 2 * dot4 (sub4 k1 q) ph;
  n_V_p : kV_p k = dot4 (add4 k1 (sub4 k1 q)) ph;
  n_lambda_S : klambda_S k = - 4 * gram2 p k1;
  n_lambda_X : klambda_X k = - 4 * gram2 p (sub4 k1 q);
  n_lambda_S_sqrt : klambda_S_sqrt k = 2 * sqrt (norm_sq4 p) * sqrt (sdot p k1 k1);
  n_lambda_X_sqrt : klambda_X_sqrt k = 2 * sqrt (norm_sq4 p) * sqrt (sdot p (sub4 k1 q) (sub4 k1 q));
  n_k2_0 : kk2_0 k = dot4 p (sub4 k1 q) / sqrt (norm_sq4 p);
  n_k2_t : kk2_t k = across p (sub4 k1 q) k1;
  n_k2_l : kk2_l k = along p (sub4 k1 q) k1;
  n_angles : kcos_phi k = cos (kphi k) /\ ksin_phi k = sin (kphi k) /\ kcos_phi_h k = cos (kphi_h k) /\ ksin_phi_h k = sin (kphi_h k) }.
(** Photon quantities of KinematicsRad for photon momentum [k]; [n] is proportional to [k] and non-zero. *)
Record photon_names (r : kinrad) (p k1 q ph k n : vec4) : Prop := PhotonNames {
  n_null : norm_sq4 k = 0;
  n_R : rR r = 2 * dot4 k p;
  n_tau : rtau r = dot4 n q / dot4 n p;
  n_mu : rmu r = dot4 n ph / dot4 n p;
  n_z_1 : rz_1 r = dot4 n k1 / dot4 n p;
  n_z_2 : rz_2 r = dot4 n (sub4 k1 q) / dot4 n p;
  n_k_0 : rk_0 r = dot4 p k / sqrt (norm_sq4 p);
  n_k_t : rk_t r = across p k q;
  n_k_l : rk_l r = along p k q;
  n_k_0_bar : rk_0_bar r = dot4 k (sub4 (add4 p q) ph) / sqrt (norm_sq4 (sub4 (add4 p q) ph));
  n_lambda_RY : rlambda_RY r = 4 * (dot4 k p * dot4 p q - norm_sq4 p * dot4 k q);
  n_lambda_RV : rlambda_RV r = 4 * (dot4 k p * dot4 p ph - norm_sq4 p * dot4 k ph);
  n_lambda_H : rlambda_H r = - 4 * gram2 p ph;
  n_lambda_V : rlambda_V r = 4 * (dot4 p q * dot4 p ph - norm_sq4 p * dot4 q ph);
  n_vol_phi_k : rvol_phi_k_R r * rR r = det_rows p k k1 q;
  n_vol_phi_hk : rvol_phi_hk r = - det_rows p ph k q;
  n_F_IR : dot4 n k1 <> 0 -> dot4 n (sub4 k1 q) <> 0 -> rF_IR r = norm_sq4 (sub4 (scale4 (dot4 n p / dot4 n k1) k1) (scale4 (dot4 n p / dot4 n (sub4 k1 q)) (sub4 k1 q))) }.

(** Phase-space points that describe an event: positive invariants, enough energy for the hadron. *)
Definition admissible (ps : parts) (S : R) (sp : phase_space) : Prop :=
  let M := a_M ps in let m := a_m ps in let mh := a_mh ps in
  let Q2 := S * s_x sp * s_y sp in let X := S * (1 - s_y sp) in let Sx := S * s_y sp in
  0 < M /\ 0 <= m /\ 0 <= mh /\ 0 < S /\ 0 < s_x sp /\ 0 < s_y sp /\ 0 < s_z sp /\ 0 <= s_ph_t_sq sp /\
  sq m * (sq Sx + 4 * sq M * Q2) < Q2 * (S * X - sq M * Q2) /\
  s_ph_t_sq sp + sq mh <= sq (s_z sp * Sx / (2 * M)).

(** Rotations, and changes of frame that preserve the Minkowski product and the orientation. *)
Definition rot3 (t : tr3) : Prop := (forall v w, dot3 (tapp3 t v) (tapp3 t w) = dot3 v w) /\ det3 t = 1.
Definition lorentz (t : tr4) : Prop := (forall v w, dot4 (tapp4 t v) (tapp4 t w) = dot4 v w) /\ det4 t = 1.

(** The event [e] is described by the masses of [ps], S and the phase-space point. *)
Definition same_event (e : event) (ps : parts) (S : R) (sp : phase_space) : Prop :=
  physical e /\ event_space e = sp /\ event_S e = S /\ e_M e = a_M ps /\ e_m e = a_m ps /\ e_mh e = a_mh ps.
(** Range of tau = k.q / k.p for a null vector k; photon of given tau, azimuth and R = 2 k.p. *)
Definition tau_ok (ps : parts) (S : R) (sp : phase_space) (tau : R) : Prop :=
  let Sx := S * s_y sp in let M := a_M ps in
  (Sx - sqrt (sq Sx + 4 * sq M * (S * s_x sp * s_y sp))) / (2 * sq M) <= tau <= (Sx + sqrt (sq Sx + 4 * sq M * (S * s_x sp * s_y sp))) / (2 * sq M).
Definition same_photon (f : photon) (e : event) (tau phi_k R : R) : Prop :=
  photon_ok f /\ photon_tau e f = tau /\ f_phi f = phi_k /\ f_R f = R.
