(** Specification of the kinematic limits: when a set of variables describes a possible reaction, what each cut
    variable means for the momenta, and what it means to sample the region with the right density. *)
From Coq Require Import Reals List Bool.
From Coquelicot Require Import Coquelicot.
From Verif Require Import ExtModel BoundModel MathModel MapModel ParticleModel VecModel TransModel FrameBase KinModel KinSpec CutModel.
Import ListNotations.
Local Open Scope R_scope.

(** Masses of a reaction that needs energy to happen: the undetected system and the hadron are heavier than the target. *)
Definition masses_ok (ps : parts) : Prop :=
  0 < a_M ps /\ 0 < a_m ps /\ 0 < a_mh ps /\ 0 <= a_Mth ps /\ a_M ps < a_Mth ps + a_mh ps.

(** The reaction in the target rest frame: energy [q0] and length [qn] of the virtual photon, energy [Eh] of the
    hadron; its longitudinal momentum follows from the transverse one; the undetected system is what remains. *)
Definition q0_of (ps : parts) (S : R) (sp : phase_space) : R := S * s_y sp / (2 * a_M ps).
Definition qn_of (ps : parts) (S : R) (sp : phase_space) : R := sqrt (sq (q0_of ps S sp) + S * s_x sp * s_y sp).
Definition Eh_of (ps : parts) (S : R) (sp : phase_space) : R := s_z sp * q0_of ps S sp.
Definition pl_of (ps : parts) (S : R) (sp : phase_space) : R :=
  sqrt (sq (Eh_of ps S sp) - sq (a_mh ps) - s_ph_t_sq sp).
Definition missing_sq (ps : parts) (S : R) (sp : phase_space) : R :=
  sq (q0_of ps S sp + a_M ps - Eh_of ps S sp) - sq (qn_of ps S sp - pl_of ps S sp) - s_ph_t_sq sp.
Record region (ps : parts) (S : R) (sp : phase_space) : Prop := Region {
  rg_S : 0 < S;
  rg_beam : 4 * sq (a_M ps) * sq (a_m ps) < sq S;
  rg_x : 0 <= s_x sp <= 1; rg_y : 0 <= s_y sp <= 1; rg_z : 0 <= s_z sp <= 1; rg_pt : 0 <= s_ph_t_sq sp;
  rg_lepton : sq (a_m ps) * (sq (S * s_y sp) + 4 * sq (a_M ps) * (S * s_x sp * s_y sp))
    <= S * s_x sp * s_y sp * (S * (S * (1 - s_y sp)) - sq (a_M ps) * (S * s_x sp * s_y sp));
  rg_hadron : 0 < Eh_of ps S sp /\ s_ph_t_sq sp + sq (a_mh ps) <= sq (Eh_of ps S sp);
  rg_missing : sq (a_Mth ps) <= missing_sq ps S sp }.

(** Photon directions: a null vector of positive energy; virtual photon along z in the target rest frame. *)
Definition null_future (n : vec4) : Prop := 0 < t4 n /\ norm_sq4 n = 0.
Definition p_rest (ps : parts) : vec4 := V4 (a_M ps) 0 0 0.
Definition q_rest (ps : parts) (S : R) (sp : phase_space) : vec4 := V4 (q0_of ps S sp) 0 0 (qn_of ps S sp).
Definition ph_rest (ps : parts) (S : R) (sp : phase_space) : vec4 :=
  V4 (Eh_of ps S sp) (sqrt (s_ph_t_sq sp) * cos (s_phi_h sp)) (sqrt (s_ph_t_sq sp) * sin (s_phi_h sp)) (pl_of ps S sp).
(** Photon direction with polar angle fixed by tau = n.q / n.p and azimuth phi_k, scaled to unit energy. *)
Definition n_ct (ps : parts) (S : R) (sp : phase_space) (tau : R) : R :=
  (q0_of ps S sp - a_M ps * tau) / qn_of ps S sp.
Definition n_rest (ps : parts) (S : R) (sp : phase_space) (tau phi_k : R) : vec4 :=
  let ct := n_ct ps S sp tau in let st := sqrt (1 - sq ct) in
  V4 1 (st * cos phi_k) (st * sin phi_k) ct.
(** Missing mass after radiating a photon with 2 k.p = R. *)
Definition missing_rad_sq (ps : parts) (S : R) (sp : phase_space) (tau phi_k R : R) : Reals.Rdefinitions.R :=
  norm_sq4 (sub4 (sub4 (add4 (p_rest ps) (q_rest ps S sp)) (ph_rest ps S sp)) (scale4 (R / (2 * a_M ps)) (n_rest ps S sp tau phi_k))).

(** A set cut contains the value; an unset cut (no point at all) asks nothing. *)
Definition is_set (c : bound) : Prop := valid c = true.
Definition obeys (c : bound) (v : R) : Prop := is_set c -> contains c (Fin v) = true.
(** Momentum and angle in the rest frame of [p]. *)
Definition lab_mom (p a : vec4) : R := sqrt (sdot p a a).
Definition lab_theta (p a b : vec4) : R := acos (sdot p a b / (lab_mom p a * lab_mom p b)).
(** What each of the 18 cuts restricts, for the momenta of the reaction. *)
Record obeys_cuts (cut : cuts) (phi_h phi : R) (p k1 q ph : vec4) : Prop := ObeysCuts {
  oc_x : obeys (c_x cut) (- norm_sq4 q / (2 * dot4 p q));
  oc_y : obeys (c_y cut) (dot4 p q / dot4 p k1);
  oc_z : obeys (c_z cut) (dot4 p ph / dot4 p q);
  oc_ph_t_sq : obeys (c_ph_t_sq cut) (- gram3 p q ph / gram2 p q);
  oc_phi_h : obeys (c_phi_h cut) phi_h;
  oc_phi : obeys (c_phi cut) phi;
  oc_Q_sq : obeys (c_Q_sq cut) (- norm_sq4 q);
  oc_t : obeys (c_t cut) (norm_sq4 (sub4 q ph));
  oc_W_sq : obeys (c_W_sq cut) (norm_sq4 (add4 p q));
  oc_r : obeys (c_r cut) (dot4 (sub4 k1 q) ph / dot4 k1 ph);
  oc_mx_sq : obeys (c_mx_sq cut) (norm_sq4 (sub4 (add4 p q) ph));
  oc_qt_to_Q : obeys (c_qt_to_Q cut) (across p ph q / (dot4 p ph / dot4 p q) / sqrt (- norm_sq4 q));
  oc_mom_q : obeys (c_lab_mom_q cut) (lab_mom p q);
  oc_mom_k2 : obeys (c_lab_mom_k2 cut) (lab_mom p (sub4 k1 q));
  oc_mom_h : obeys (c_lab_mom_h cut) (lab_mom p ph);
  oc_theta_q : obeys (c_lab_theta_q cut) (lab_theta p k1 q);
  oc_theta_k2 : obeys (c_lab_theta_k2 cut) (lab_theta p k1 (sub4 k1 q));
  oc_theta_h : obeys (c_lab_theta_h cut) (lab_theta p k1 ph);
  (* a hadron at rest has no direction and fails a cut on its angle *)
  oc_moving_h : is_set (c_lab_theta_h cut) -> 0 < lab_mom p ph }.
Record obeys_cuts_rad (cut : cuts_rad) (tau phi_k : R) (p k1 q ph k n : vec4) : Prop := ObeysCutsRad {
  od_tau : obeys (d_tau cut) (dot4 n q / dot4 n p);
  od_phi_k : obeys (d_phi_k cut) phi_k;
  od_R : obeys (d_R cut) (2 * dot4 k p);
  od_k_0_bar : obeys (d_k_0_bar cut) (dot4 k (sub4 (add4 p q) ph) / sqrt (norm_sq4 (sub4 (add4 p q) ph)));
  od_mom_k : obeys (d_lab_mom_k cut) (dot4 p k / sqrt (norm_sq4 p));
  od_theta_k : obeys (d_lab_theta_k cut) (lab_theta p k1 n) }.

(** A change of variable of one coordinate over [lo, hi]: onto, increasing, with derivative [j]. *)
Record coordinate (X j : R -> R) (lo hi : R) : Prop := Coordinate {
  co_lo : X 0 = lo; co_hi : X 1 = hi;
  co_range : forall p, 0 <= p <= 1 -> lo <= X p <= hi;
  co_onto : forall x, lo <= x <= hi -> exists p, 0 <= p <= 1 /\ X p = x;
  co_derive : forall p, 0 <= p <= 1 -> is_derive X p (j p);
  co_pos : forall p, 0 <= p <= 1 -> 0 <= j p /\ (lo < hi -> 0 < j p) }.
Definition ends (b : bound) (lo hi : R) : Prop := bmin b = Fin lo /\ bmax b = Fin hi.
Definition unit_cube (n : nat) (point : nat -> R) : Prop := forall i, (i < n)%nat -> 0 <= point i <= 1.
(** The coordinates of a point, numbered as the unit-cube coordinates they are made from. *)
Definition kin_coord (k : kin) (i : nat) : R :=
  match i with 0 => kx k | 1 => ky k | 2 => kz k | 3 => kph_t_sq k | 4 => kphi_h k | _ => kphi k end%nat.
Definition rad_coord (r : kinrad) (i : nat) : R :=
  match i with 6 => rtau r | 7 => rphi_k r | 8 => rR r | _ => kin_coord (project r) i end%nat.
Fixpoint product (n : nat) (f : nat -> R) : R := match n with O => 1 | Datatypes.S n => product n f * f n end.
(** [F] returns with each point the determinant of its (triangular) matrix of derivatives: coordinate [i] is a function
    [X i] of cube coordinate [i] once the earlier cube coordinates are fixed, maps [0, 1] onto the interval [limits i],
    and the reported factor is the product of the derivatives. *)
Definition jacobian_of {A : Type} (n : nat) (coord : A -> nat -> R) (F : (nat -> R) -> option (A * R)) (limits : A -> nat -> bound) : Prop :=
  forall u a jac, unit_cube n u -> F u = Some (a, jac) ->
  exists X j : nat -> R -> R,
    (forall i, (i < n)%nat ->
      (exists lo hi, ends (limits a i) lo hi /\ coordinate (X i) (j i) lo hi) /\ coord a i = X i (u i) /\
      (forall u' a' jac', (forall l, (l < i)%nat -> u' l = u l) -> F u' = Some (a', jac') -> coord a' i = X i (u' i))) /\
    jac = product n (fun i => j i (u i)).

(** No coordinate is pinned to a single value. *)
Definition roomy (n : nat) (limits : nat -> bound) : Prop := forall i, (i < n)%nat -> eltb (bmin (limits i)) (bmax (limits i)) = true.

(** The interval of each coordinate, given the earlier ones. *)
Definition limits6 (xb : bound) (yb : R -> bound) (zb : R -> R -> bound) (ptb : R -> R -> R -> bound) (phib phib' : bound) (k : kin) (i : nat) : bound :=
  match i with 0 => xb | 1 => yb (kx k) | 2 => zb (kx k) (ky k) | 3 => ptb (kx k) (ky k) (kz k) | 4 => phib | _ => phib' end%nat.
Definition limits9 (lim : kin -> nat -> bound) (taub : kin -> bound) (phib : bound) (Rb : kin -> R -> R -> bound) (r : kinrad) (i : nat) : bound :=
  match i with 6 => taub (project r) | 7 => phib | 8 => Rb (project r) (rtau r) (rphi_k r) | _ => lim (project r) i end%nat.
Definition angle (c : bound) : bound := if valid c then c else FULL_ANGLE.
Definition limits_plain (ps : parts) (S : R) : kin -> nat -> bound := limits6 (x_bound ps S) (y_bound ps S) (z_bound ps S) (ph_t_sq_bound ps S) FULL_ANGLE FULL_ANGLE.
Definition limits_cut (cut : cuts) (ps : parts) (S : R) : kin -> nat -> bound :=
  limits6 (x_bound_cut cut ps S) (y_bound_cut cut ps S) (z_bound_cut cut ps S) (ph_t_sq_bound_cut cut ps S) (angle (c_phi_h cut)) (angle (c_phi cut)).
Definition limits9_plain (ps : parts) (S : R) : kinrad -> nat -> bound := limits9 (limits_plain ps S) tau_bound FULL_ANGLE R_bound.
Definition limits9_cut (cut : cuts) (cut_rad : cuts_rad) (ps : parts) (S : R) : kinrad -> nat -> bound :=
  limits9 (limits_cut cut ps S) (tau_bound_cut cut_rad) (angle (d_phi_k cut_rad)) (R_bound_cut cut_rad).
(** The phase-space point of a set of kinematics. *)
Definition sp_of (k : kin) : phase_space := PhaseSpace (kx k) (ky k) (kz k) (kph_t_sq k) (kphi_h k) (kphi k).
(** Conditions on the cuts under which no wanted point is lost. *)
Definition usable (cut : cuts) (ps : parts) (S : R) : Prop :=
  (is_set (c_Q_sq cut) -> (exists hi, bmax (c_Q_sq cut) = Fin hi)) /\
  (is_set (c_W_sq cut) -> exists w, bmin (c_W_sq cut) = Fin w /\ 0 < sq S - 4 * sq (a_M ps) * sq (a_m ps) + sq (a_M ps) * (w - sq (a_M ps))) /\
  (is_set (c_phi_h cut) -> exists lo hi, ends (c_phi_h cut) lo hi) /\
  (is_set (c_phi cut) -> exists lo hi, ends (c_phi cut) lo hi).
