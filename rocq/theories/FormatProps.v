(** C53, C63: reuse of stored distributions, event types. *)
From Coq Require Import String List Bool ZArith.
From Verif Require Import FilterModel ParamModel ParamSpec FormatModel FormatSpec FormatProofs MergeProofs.
Import ListNotations.
Local Open Scope string_scope.

(** The check accepts a stored distribution exactly when the versions are compatible and, for every event type
    produced, the type is switched on in the stored run, every shaping parameter agrees and the
    distribution's identifier is known and not contradicted. *)
Theorem C53_foam_accepted_iff foam gen : formatted foam -> formatted gen ->
  ((exists r, check_can_provide_foam foam gen = Ok r) <->
   (exists maj minf ming, version_of foam maj minf /\ version_of gen maj ming /\ (minf <= ming)%Z) /\
   (exists m, reads gen "phys.rc_method" = Some (VRcMethod m)) /\
   forall t, enabled gen t -> switched_on foam t /\ (forall n, In n (shaping_names t) -> agree foam gen n) /\
     foam_uid_ok foam gen t).
Proof. exact (foam_check_iff foam gen). Qed.
Definition demo_base : list (string * val) :=
  [("phys.rc_method", VRcMethod RcExact); ("setup.beam_energy", VDouble (Dec 106 (-1))); ("setup.beam", VLepton LepE);
   ("mc.nrad.init.uid", VLong 17); ("mc.rad.init.uid", VLong 19); ("cut.x", VBound (Dec 1 (-1)) (Dec 5 (-1)))].
Example C53_example :
  formatted (configured demo_base) /\
  (exists r, check_can_provide_foam (configured demo_base) (configured (("mc.num_events", VLong 100) :: demo_base)) = Ok r) /\
  check_can_provide_foam (configured demo_base) (configured (demo_base ++ [("cut.x", VBound (Dec 1 (-1)) (Dec 6 (-1)))])) =
    Throw (ENotEquivalent "cut.x") /\
  check_can_provide_foam (configured (("mc.rad.enable", VBool false) :: demo_base)) (configured demo_base) =
    Throw (EIncompatible "mc.rad.enable").
Proof.
  split; [apply configured_formatted|]. split; [|split; vm_compute; reflexivity].
  eexists. vm_compute. reflexivity.
Qed.

(** The event types produced, each listed once; the only failure is a missing radiative-correction method. *)
Theorem C63_enabled_event_types ps : formatted ps ->
  match enabled_event_types ps with
  | Ok (ts, _) => NoDup ts /\ forall t, In t ts <->
      reads ps (enable_name t) = Some (VBool true) /\
      exists m, reads ps "phys.rc_method" = Some (VRcMethod m) /\ (m = RcNone -> t = NRAD)
  | Throw _ => forall m, reads ps "phys.rc_method" <> Some (VRcMethod m)
  end.
Proof. exact (enabled_types_listed ps). Qed.
Example C63_example :
  (exists p, enabled_event_types (configured [("phys.rc_method", VRcMethod RcNone)]) = Ok ([NRAD], p)) /\
  (exists p, enabled_event_types (configured [("phys.rc_method", VRcMethod RcApprox)]) = Ok ([NRAD; RAD], p)) /\
  (exists p, enabled_event_types (configured [("phys.rc_method", VRcMethod RcExact); ("mc.nrad.enable", VBool false)]) = Ok ([RAD], p)) /\
  enabled_event_types (configured []) = Throw (ERequired "phys.rc_method").
Proof. repeat split; try (eexists; vm_compute; reflexivity); vm_compute; reflexivity. Qed.
Print Assumptions C53_foam_accepted_iff.
Print Assumptions C63_enabled_event_types.
