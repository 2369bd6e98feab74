(** Specification of the event-type selection, the foam compatibility check and the merge of runs: plain lists
    of the parameters concerned and the conditions on them. *)
From Coq Require Import String List Bool ZArith.
From Verif Require Import FilterModel ParamModel ParamSpec FormatModel.
Import ListNotations.
Local Open Scope string_scope.

(** A parameter set of the standard format: same names, types, defaults and tags, and values of those types. *)
Definition same_slot (a b : string * param dec) : Prop :=
  fst a = fst b /\ p_type (snd a) = p_type (snd b) /\ p_default (snd a) = p_default (snd b) /\
  p_tags (snd a) = p_tags (snd b) /\ (forall v, p_value (snd a) = Some v -> vtype_of v = p_type (snd a)).
Definition formatted (ps : pars) : Prop := Forall2 same_slot ps std_format.

(** The parameters that determine the density of events of a given type: beam, target and physics options, cuts,
    and how the foam is built. *)
Definition setup_names := ["setup.beam_energy"; "setup.beam"; "setup.target"; "setup.hadron"; "setup.beam_pol";
  "setup.target_pol"; "phys.sf_set"; "phys.rc_method"; "phys.mass_threshold"; "phys.soft_threshold"].
Definition cut_names := ["cut.k_0_bar"; "cut.x"; "cut.y"; "cut.z"; "cut.ph_t_sq"; "cut.phi_h"; "cut.phi"; "cut.Q_sq";
  "cut.W_sq"; "cut.mx_sq"; "cut.t"; "cut.r"; "cut.qt_to_Q"; "cut.lab.mom_q"; "cut.lab.mom_k2"; "cut.lab.mom_h";
  "cut.lab.theta_q"; "cut.lab.theta_k2"; "cut.lab.theta_h"].
Definition photon_cut_names := ["cut.tau"; "cut.phi_k"; "cut.R"; "cut.lab.mom_k"; "cut.lab.theta_k"].
Definition foam_names (t : event_type) :=
  match t with
  | NRAD => ["mc.nrad.init.max_cells"; "mc.nrad.init.target_eff"; "mc.nrad.init.scale_exp"]
  | RAD => ["mc.rad.init.max_cells"; "mc.rad.init.target_eff"; "mc.rad.init.scale_exp"]
  end.
Definition physics_names (t : event_type) :=
  (setup_names ++ cut_names ++ match t with NRAD => [] | RAD => photon_cut_names end)%list.
Definition shaping_names (t : event_type) := (physics_names t ++ foam_names t)%list.
Definition rej_scale_name (t : event_type) := match t with NRAD => "mc.nrad.gen.rej_scale" | RAD => "mc.rad.gen.rej_scale" end.
Definition uid_name (t : event_type) := match t with NRAD => "mc.nrad.init.uid" | RAD => "mc.rad.init.uid" end.
Definition enable_name (t : event_type) := match t with NRAD => "mc.nrad.enable" | RAD => "mc.rad.enable" end.

(** The same number: the same integer over a common power of ten, or the same infinity; NaN is the same as nothing. *)
Definition same_number (a b : dec) : Prop :=
  match a, b with
  | Dec m e, Dec m' e' => exists k, (k <= e /\ k <= e' /\ m * 10 ^ (e - k) = m' * 10 ^ (e' - k))%Z
  | DInf n, DInf n' => n = n'
  | _, _ => False
  end.
(** The same value: the numbers in it are the same, and everything else is literally the same. *)
Inductive same_value : val -> val -> Prop :=
| same_double x x' : same_number x x' -> same_value (VDouble x) (VDouble x')
| same_vec3 x y z x' y' z' : same_number x x' -> same_number y y' -> same_number z z' -> same_value (VVec3 x y z) (VVec3 x' y' z')
| same_bound x y x' y' : same_number x x' -> same_number y y' -> same_value (VBound x y) (VBound x' y')
| same_exact v : ~ In (vtype_of v) [TDouble; TVec3; TBound] -> same_value v v.
(** Two runs agree on a parameter: both leave it unset, or both set it to equal values. *)
Definition agree (a b : pars) (name : string) : Prop :=
  match value_of a name, value_of b name with
  | None, None => True
  | Some v, Some w => same_value v w
  | _, _ => False
  end.

(** Event type [t] is produced: it is switched on (explicitly or by default) and, without radiative
    corrections, it is the non-radiative one. *)
Definition switched_on (ps : pars) (t : event_type) : Prop := reads ps (enable_name t) = Some (VBool true).
Definition enabled (ps : pars) (t : event_type) : Prop :=
  switched_on ps t /\ exists m, reads ps "phys.rc_method" = Some (VRcMethod m) /\ (m = RcNone -> t = NRAD).

Definition version_of (ps : pars) (maj min : Z) : Prop := reads ps "version" = Some (VVersion maj min).

(** Parameters copied from a run for each of its event types when runs are merged. *)
Definition carried_names (t : event_type) := (shaping_names t ++ [rej_scale_name t; uid_name t; "mc.seed"])%list.
(** All options that only concern one event type. *)
Definition own_names (t : event_type) :=
  (enable_name t :: rej_scale_name t :: uid_name t :: foam_names t ++ match t with NRAD => [] | RAD => photon_cut_names end)%list.

Definition provides (ps : pars) (name : string) : Prop := value_of ps name <> None.
Definition disjoint_seeds (p1 p2 : pars) : Prop :=
  forall s1 s2 x, value_of p1 "mc.seed" = Some (VSeedGen s1) -> value_of p2 "mc.seed" = Some (VSeedGen s2) ->
    In x s1 -> In x s2 -> False.
(** Parameters merged whatever the event types. *)
Definition always_merged := ["version"; "strict"; "file.event"; "file.gen"; "file.write_momenta"; "file.write_photon";
  "file.write_sf_set"; "file.write_mc_coords"; "mc.num_events"].
(** A parameter given in one of the runs finds its way into the merged run. *)
Definition survives (p1 p2 : pars) (n : string) : Prop :=
  In n always_merged \/
  (exists t, (enabled p1 t \/ enabled p2 t) /\ n = enable_name t) \/
  (exists t, enabled p2 t /\ In n (carried_names t) /\ provides p2 n) \/
  ((forall t, enabled p2 t -> ~ In n (carried_names t)) /\ exists t, enabled p1 t /\ In n (carried_names t) /\ provides p1 n) \/
  (n = "mc.seed" /\ forall t, ~ enabled p1 t /\ ~ enabled p2 t).
(** When exactly two runs can be merged. *)
Definition mergeable (p1 p2 : pars) : Prop :=
  (exists maj m1 m2, version_of p1 maj m1 /\ version_of p2 maj m2) /\
  (exists m, reads p1 "phys.rc_method" = Some (VRcMethod m)) /\ (exists m, reads p2 "phys.rc_method" = Some (VRcMethod m)) /\
  (forall t n, enabled p1 t -> enabled p2 t -> In n (shaping_names t ++ [rej_scale_name t]) -> agree p1 p2 n) /\
  (forall t, enabled p1 t -> enabled p2 t -> exists u, reads p1 (uid_name t) = Some (VLong u) /\ reads p2 (uid_name t) = Some (VLong u)) /\
  disjoint_seeds p1 p2 /\
  (forall n, In n ["file.event"; "file.gen"; "mc.num_events"] -> provides p1 n <-> provides p2 n) /\
  (forall n, provides p1 n \/ provides p2 n -> survives p1 p2 n).

(** The stored distribution for [t] is identified, and it is the one the generation asks for, if it asks. *)
Definition foam_uid_ok (foam gen : pars) (t : event_type) : Prop :=
  exists u, reads foam (uid_name t) = Some (VLong u) /\
    forall v, value_of gen (uid_name t) = Some v -> v = VLong u.

(** Two runs of the same job with different seeds: every other parameter has the same value (and is not NaN), both
    record their seeds, some event type is produced, the distributions used are identified, and no option
    of an event type that is not produced is set. *)
Definition same_settings (p1 p2 : pars) : Prop :=
  (forall n, n <> "mc.seed" -> value_of p1 n = value_of p2 n) /\
  disjoint_seeds p1 p2 /\ (provides p1 "mc.seed" <-> provides p2 "mc.seed") /\
  (forall n v, value_of p1 n = Some v -> same_value v v) /\
  (exists m, reads p1 "phys.rc_method" = Some (VRcMethod m)) /\ (exists t, enabled p1 t) /\
  (forall t, enabled p1 t -> exists u, reads p1 (uid_name t) = Some (VLong u)) /\
  (forall t n, In n (own_names t) -> provides p1 n -> enabled p1 t).

(** A parameter set obtained by giving a list of values to an otherwise empty standard format. *)
Fixpoint sets (ps : pars) (l : list (string * val)) : pars :=
  match l with
  | [] => ps
  | (n, v) :: l' => match set ps n (Some v) with Ok (_, ps') => sets ps' l' | Throw _ => sets ps l' end
  end.
Definition configured (l : list (string * val)) : pars := sets std_format l.
