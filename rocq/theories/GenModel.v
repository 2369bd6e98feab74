(** Model of the densities of app/sidisgen/generator.cpp. *)
From Coq Require Import Reals Bool.
From Verif Require Import ParamModel ExtModel BoundModel VecModel TransModel FrameBase KinModel FrameModel CutModel.
Local Open Scope R_scope.

(** generator.cpp 18, 42 *)
Definition DEG : R := PI / 180.
(** generator.cpp 17-39, from the parameters "cut.*" as read (angles in degrees). *)
Definition cut_from_params (p : cuts) : cuts :=
  Cuts (c_x p) (c_y p) (c_z p) (c_ph_t_sq p) (bmul (c_phi_h p) (Fin DEG)) (bmul (c_phi p) (Fin DEG))
    (c_Q_sq p) (c_t p) (c_W_sq p) (c_r p) (c_mx_sq p) (c_qt_to_Q p)
    (c_lab_mom_q p) (c_lab_mom_k2 p) (c_lab_mom_h p)
    (bmul (c_lab_theta_q p) (Fin DEG)) (bmul (c_lab_theta_k2 p) (Fin DEG)) (bmul (c_lab_theta_h p) (Fin DEG)).
(** generator.cpp 41-55; [rad_enable] is the parameter "mc.rad.enable", [soft] "phys.soft_threshold". *)
Definition cut_rad_from_params (rad_enable : bool) (soft : R) (p : cuts_rad) : cuts_rad :=
  if rad_enable then
    CutsRad (d_tau p) (bmul (d_phi_k p) (Fin DEG)) (d_R p) (binter (d_k_0_bar p) (mk_bound (Fin soft) PInf))
      (d_lab_mom_k p) (bmul (d_lab_theta_k p) (Fin DEG))
  else CutsRad BOUND_INVALID BOUND_INVALID BOUND_INVALID BOUND_INVALID BOUND_INVALID BOUND_INVALID.

(** generator.cpp 72-94: the checks of the constructor; false stands for the exception. [k_0_set] tells whether
    "cut.k_0_bar" was given, [photon_set] whether one of the parameters tagged "cut-no-nrad" was. *)
Definition nrad_accepts (rc : rc_method) (soft : R) (k_0_set : bool) (k_0_bar : bound) (photon_set : bool) : bool :=
  match rc with
  | RcNone => true
  | _ =>
    if k_0_set && (negb (eleb (bmin k_0_bar) (Fin 0)) || negb (egeb (bmax k_0_bar) (Fin soft))) then false
    else negb photon_set
  end.
(** generator.cpp 161-173 *)
Definition rad_accepts (rc : rc_method) (soft : R) (k_0_bar : bound) : bool :=
  match rc with
  | RcNone => false
  | _ => egtb (bmax k_0_bar) (Fin soft)
  end.

(** A cross-section, as a function of the kinematics, beam and target polarization; the value may be infinite or
    NaN. The structure functions are fixed. *)
Definition xs_fun := kin -> R -> vec3 -> ext.
(** generator.cpp 135-140, 194-198 *)
Definition weigh (jacobian : R) (xs : ext) : R :=
  if negb (eisfinite xs) || negb (egeb xs (Fin 0)) then 0
  else match xs with Fin v => jacobian * v | _ => 0 end.
(** generator.cpp 107-146; [xs_ir] and [xs_integ] get the soft threshold. *)
Definition nrad_eval (rc : rc_method) (soft : R) (xs_born : xs_fun) (xs_ir xs_integ : R -> xs_fun) (cut : cuts) (ps : parts) (S : R)
    (beam_pol : R) (target_pol : vec3) (u : nat -> R) : R :=
  match take_cut cut ps S u with
  | None => 0
  | Some (k, jacobian) =>
    let eta := tapp3 (hadron_from_target k) target_pol in
    let xs := match rc with RcNone => xs_born | RcApprox => xs_ir soft | RcExact => xs_integ soft end in
    weigh jacobian (xs k beam_pol eta)
  end.
(** generator.cpp 186-204 *)
Definition rad_eval (xs_rad : kinrad -> R -> vec3 -> ext) (cut : cuts) (cut_rad : cuts_rad) (ps : parts) (S : R)
    (beam_pol : R) (target_pol : vec3) (u : nat -> R) : R :=
  match take9_cut cut cut_rad ps S u with
  | None => 0
  | Some (r, jacobian) =>
    let eta := tapp3 (hadron_from_target (project r)) target_pol in
    weigh jacobian (xs_rad r beam_pol eta)
  end.
