(** Specification of the rows of the event tree. *)
From Coq Require Import Reals ZArith String List.
From Verif Require Import MathModel ParticleModel VecModel TransModel FrameBase KinModel KinSpec FrameModel SfModel HadModel RowModel.
Import ListNotations.
Local Open Scope R_scope.

(** A TLorentzVector as a four-vector, time first. *)
Definition four (l : lvec) : vec4 := V4 (lv_e l) (lv_x l) (lv_y l) (lv_z l).
Definition space (l : lvec) : vec3 := V3 (lv_x l) (lv_y l) (lv_z l).
(** The momenta of a row describe a scattering off a target at rest by a beam of energy [E] along z; the variables of the row are the invariants of these
    momenta. *)
Record describes (ps : parts) (E : R) (r : row) : Prop := Describes {
  d_target : m_p (o_momenta r) = LVec 0 0 0 (a_M ps);
  d_beam : exists kz, 0 < kz /\ m_k1 (o_momenta r) = LVec 0 0 kz E /\ sq E = sq kz + sq (a_m ps);
  d_transfer : four (m_k2 (o_momenta r)) = sub4 (four (m_k1 (o_momenta r))) (four (m_q (o_momenta r)));
  d_lepton : norm_sq4 (four (m_k2 (o_momenta r))) = sq (a_m ps);
  d_hadron : norm_sq4 (four (m_ph (o_momenta r))) = sq (a_mh ps);
  d_x : o_x r = - norm_sq4 (four (m_q (o_momenta r))) / (2 * dot4 (four (m_p (o_momenta r))) (four (m_q (o_momenta r))));
  d_y : o_y r = dot4 (four (m_p (o_momenta r))) (four (m_q (o_momenta r))) / dot4 (four (m_p (o_momenta r))) (four (m_k1 (o_momenta r)));
  d_z : o_z r = dot4 (four (m_p (o_momenta r))) (four (m_ph (o_momenta r))) / dot4 (four (m_p (o_momenta r))) (four (m_q (o_momenta r)));
  d_ph_t_sq : o_ph_t_sq r * norm_sq3 (space (m_q (o_momenta r))) = norm_sq3 (cross3 (space (m_q (o_momenta r))) (space (m_ph (o_momenta r))));
  d_cos_phi_h : dot3 (cross3 (space (m_q (o_momenta r))) (space (m_k1 (o_momenta r)))) (cross3 (space (m_q (o_momenta r))) (space (m_ph (o_momenta r)))) =
    norm3 (cross3 (space (m_q (o_momenta r))) (space (m_k1 (o_momenta r)))) * norm3 (cross3 (space (m_q (o_momenta r))) (space (m_ph (o_momenta r)))) * cos (o_phi_h r);
  d_sin_phi_h : norm3 (space (m_q (o_momenta r))) * dot3 (cross3 (space (m_q (o_momenta r))) (space (m_k1 (o_momenta r)))) (space (m_ph (o_momenta r))) =
    norm3 (cross3 (space (m_q (o_momenta r))) (space (m_k1 (o_momenta r)))) * norm3 (cross3 (space (m_q (o_momenta r))) (space (m_ph (o_momenta r)))) * sin (o_phi_h r) }.
(** The azimuth of the scattered lepton about the beam, from the transverse polarization. *)
Definition azimuth (pol : vec3) (r : row) : Prop :=
  let pt := sqrt (sq (x3 pol) + sq (y3 pol)) in let k2 := m_k2 (o_momenta r) in let kt := sqrt (sq (lv_x k2) + sq (lv_y k2)) in
  x3 pol * lv_x k2 + y3 pol * lv_y k2 = pt * kt * cos (o_phi r) /\
  y3 pol * lv_x k2 - x3 pol * lv_y k2 = pt * kt * sin (o_phi r).
(** The components of [pol] along the hadron axes of a row: z along q, x along the transverse part of the hadron momentum. *)
Definition hadron_axes (pol : vec3) (r : row) : vec3 :=
  let q := space (m_q (o_momenta r)) in let ph := space (m_ph (o_momenta r)) in
  let ez := unit3 q in let ey := unit3 (cross3 q ph) in let ex := cross3 ey ez in
  V3 (dot3 pol ex) (dot3 pol ey) (dot3 pol ez).
(** The names of the structure functions. *)
Local Open Scope string_scope.
Definition sf_string (n : sf_name) : string :=
  match n with
  | F_UUL => "F_UUL" | F_UUT => "F_UUT" | F_UU_cos_phih => "F_UU_cos_phih" | F_UU_cos_2phih => "F_UU_cos_2phih"
  | F_UL_sin_phih => "F_UL_sin_phih" | F_UL_sin_2phih => "F_UL_sin_2phih"
  | F_UTL_sin_phih_m_phis => "F_UTL_sin_phih_m_phis" | F_UTT_sin_phih_m_phis => "F_UTT_sin_phih_m_phis" | F_UT_sin_2phih_m_phis => "F_UT_sin_2phih_m_phis"
  | F_UT_sin_3phih_m_phis => "F_UT_sin_3phih_m_phis" | F_UT_sin_phis => "F_UT_sin_phis" | F_UT_sin_phih_p_phis => "F_UT_sin_phih_p_phis"
  | F_LU_sin_phih => "F_LU_sin_phih" | F_LL => "F_LL" | F_LL_cos_phih => "F_LL_cos_phih"
  | F_LT_cos_phih_m_phis => "F_LT_cos_phih_m_phis" | F_LT_cos_2phih_m_phis => "F_LT_cos_2phih_m_phis" | F_LT_cos_phis => "F_LT_cos_phis"
  end.
(** Every leaf holds a double, the value of the structure function it is named after; every function has one leaf. *)
Definition sf_written {Pt} (sf : sf_set Pt) (p : Pt) (leaf : list (option (string * string))) (mem : list R) : Prop :=
  List.length leaf = List.length mem /\
  forall n, exists i, nth_error leaf i = Some (Some (sf_string n, "D")) /\ nth_error mem i = Some (sf n p) /\
    forall j t, nth_error leaf j = Some (Some (sf_string n, t)) -> j = i.
(** The radiated photon of a row: real, with energy, angle to the virtual photon and azimuth given by R, tau and phi_k. *)
Local Open Scope R_scope.
Record describes_photon (r : row) : Prop := DescribesPhoton {
  d_null : norm_sq4 (four (m_k (o_momenta r))) = 0;
  d_R : o_R r = 2 * dot4 (four (m_k (o_momenta r))) (four (m_p (o_momenta r)));
  d_tau : dot4 (four (m_k (o_momenta r))) (four (m_q (o_momenta r))) = o_tau r * dot4 (four (m_k (o_momenta r))) (four (m_p (o_momenta r)));
  d_cos_phi_k : dot3 (cross3 (space (m_q (o_momenta r))) (space (m_k1 (o_momenta r)))) (cross3 (space (m_q (o_momenta r))) (space (m_k (o_momenta r)))) =
    norm3 (cross3 (space (m_q (o_momenta r))) (space (m_k1 (o_momenta r)))) * norm3 (cross3 (space (m_q (o_momenta r))) (space (m_k (o_momenta r)))) * cos (o_phi_k r);
  d_sin_phi_k : norm3 (space (m_q (o_momenta r))) * dot3 (cross3 (space (m_q (o_momenta r))) (space (m_k1 (o_momenta r)))) (space (m_k (o_momenta r))) =
    norm3 (cross3 (space (m_q (o_momenta r))) (space (m_k1 (o_momenta r)))) * norm3 (cross3 (space (m_q (o_momenta r))) (space (m_k (o_momenta r)))) * sin (o_phi_k r) }.
(** The variables of a row as a phase-space point. *)
Definition row_space (r : row) : phase_space := {| s_x := o_x r; s_y := o_y r; s_z := o_z r; s_ph_t_sq := o_ph_t_sq r; s_phi_h := o_phi_h r; s_phi := o_phi r |}.
