(** C54-C56: merging the parameters of two runs. *)
From Coq Require Import String List Bool ZArith Permutation.
From Verif Require Import FilterModel ParamModel ParamSpec FormatModel FormatSpec FormatProofs MergeProofs.
Import ListNotations.
Local Open Scope string_scope.

(** Number of events: the sum (when it fits a 64-bit integer). *)
Theorem C54_merged_num_events p1 p2 out a b : formatted p1 -> formatted p2 -> merge_params p1 p2 = Ok out ->
  value_of p1 "mc.num_events" = Some (VLong a) -> value_of p2 "mc.num_events" = Some (VLong b) ->
  (- 2 ^ 63 <= a + b < 2 ^ 63)%Z -> value_of out "mc.num_events" = Some (VLong (a + b)).
Proof. exact (merged_count p1 p2 out a b). Qed.
(** Version: equal major numbers, the later minor one. *)
Theorem C54_merged_version p1 p2 out maj1 m1 maj2 m2 : formatted p1 -> formatted p2 -> merge_params p1 p2 = Ok out ->
  version_of p1 maj1 m1 -> version_of p2 maj2 m2 ->
  maj1 = maj2 /\ (provides p1 "version" \/ provides p2 "version" -> value_of out "version" = Some (VVersion maj1 (Z.max m1 m2))).
Proof. exact (merged_version p1 p2 out maj1 m1 maj2 m2). Qed.
(** Runs sharing a seed are refused. *)
Theorem C54_common_seed_refused p1 p2 s1 s2 x : formatted p1 -> formatted p2 ->
  value_of p1 "mc.seed" = Some (VSeedGen s1) -> value_of p2 "mc.seed" = Some (VSeedGen s2) -> In x s1 -> In x s2 ->
  exists e, merge_params p1 p2 = Throw e.
Proof. exact (common_seed_refused p1 p2 s1 s2 x). Qed.
(** A column is promised in the merged file only if both runs have it. *)
Theorem C54_merged_flags p1 p2 out n b1 b2 : formatted p1 -> formatted p2 -> merge_params p1 p2 = Ok out ->
  In n ["strict"; "file.write_momenta"; "file.write_photon"; "file.write_sf_set"; "file.write_mc_coords"] ->
  reads p1 n = Some (VBool b1) -> reads p2 n = Some (VBool b2) ->
  provides p1 n \/ provides p2 n -> value_of out n = Some (VBool (b1 && b2)).
Proof. exact (merged_flags p1 p2 out n b1 b2). Qed.
(** Every event type produced by one of the runs is switched on in the merged one. *)
Theorem C54_merged_event_types p1 p2 out t : formatted p1 -> formatted p2 -> merge_params p1 p2 = Ok out ->
  enabled p1 t \/ enabled p2 t -> switched_on out t.
Proof. exact (merged_enable p1 p2 out t). Qed.
(** The merged run sets exactly the parameters set in one of the runs. *)
Theorem C54_merged_provides p1 p2 out n : formatted p1 -> formatted p2 -> merge_params p1 p2 = Ok out ->
  (provides out n <-> provides p1 n \/ provides p2 n).
Proof. exact (merged_provides p1 p2 out n). Qed.
(** The seeds are meant to be the union; what is stored are the seeds of the second run only. *)
Theorem C54_merged_seeds_partial p1 p2 out t : formatted p1 -> formatted p2 -> merge_params p1 p2 = Ok out ->
  enabled p2 t -> value_of out "mc.seed" = value_of p2 "mc.seed".
Proof. exact (merged_seed_second p1 p2 out t). Qed.
Theorem C54_merged_seeds_refuted :
  ~ (forall p1 p2 out s1 s2 s, formatted p1 -> formatted p2 -> merge_params p1 p2 = Ok out ->
     value_of p1 "mc.seed" = Some (VSeedGen s1) -> value_of p2 "mc.seed" = Some (VSeedGen s2) ->
     value_of out "mc.seed" = Some (VSeedGen s) -> forall x, In x s1 \/ In x s2 -> In x s).
Proof. exact seeds_not_union. Qed.
(** The code that combines two sets of seeds does form the union (with multiplicities) ... *)
Theorem C54_seed_union p1 p2 n out out' s1 s2 : formatted out -> merge_seed_gen p1 p2 n out = Ok out' ->
  value_of p1 n = Some (VSeedGen s1) -> value_of p2 n = Some (VSeedGen s2) ->
  exists s, value_of out' n = Some (VSeedGen s) /\ Permutation s (s1 ++ s2).
Proof. exact (merge_seed_union p1 p2 n out out' s1 s2). Qed.
(** ... but no merge ever shows it: the seeds of one of the two runs replace it. *)
Theorem C54_merged_seeds_one_run p1 p2 out : formatted p1 -> formatted p2 -> merge_params p1 p2 = Ok out ->
  value_of out "mc.seed" = value_of p1 "mc.seed" \/ value_of out "mc.seed" = value_of p2 "mc.seed".
Proof. exact (merged_seed_one p1 p2 out). Qed.
Example C54_union_example : exists out, merge_seed_gen w_seed1 w_seed2 "mc.seed" std_format = Ok out.
Proof. eexists. vm_compute. reflexivity. Qed.
(** Three runs: after a first merge, a third run reusing a seed of the first one is accepted. *)
Theorem C54_reused_seed_accepted_refuted :
  exists p1 p2 p3 p12 out, formatted p1 /\ formatted p2 /\ formatted p3 /\
    merge_params p1 p2 = Ok p12 /\ merge_params p12 p3 = Ok out /\
    value_of p1 "mc.seed" = value_of p3 "mc.seed" /\ value_of p1 "mc.seed" = Some (VSeedGen [3%Z]).
Proof. exact reused_seed_accepted. Qed.
Example C54_example : exists out, merge_params w_seed1 w_seed2 = Ok out /\ formatted w_seed1 /\ formatted w_seed2 /\
  value_of out "mc.num_events" = Some (VLong 2000) /\ value_of out "file.event" = Some (VString "events.root") /\
  value_of out "mc.seed" = Some (VSeedGen [4%Z]) /\ (exists e, merge_params w_seed1 w_seed1 = Throw e).
Proof.
  eexists. split; [vm_compute; reflexivity|]. split; [apply configured_formatted|]. split; [apply configured_formatted|].
  repeat split; try (vm_compute; reflexivity). eexists. vm_compute. reflexivity.
Qed.

(** Runs producing a common event type are merged only if all physics parameters of that type agree. *)
Theorem C55_merge_agrees_partial p1 p2 out t n : formatted p1 -> formatted p2 -> merge_params p1 p2 = Ok out ->
  enabled p1 t -> enabled p2 t -> In n (shaping_names t) -> agree p1 p2 n.
Proof. exact (merge_agree p1 p2 out t n). Qed.
(** Without a common event type nothing is compared: different beam energies get merged. *)
Theorem C55_merge_differing_refuted :
  ~ (forall p1 p2 out, formatted p1 -> formatted p2 -> merge_params p1 p2 = Ok out -> agree p1 p2 "setup.beam_energy").
Proof. exact differing_merged_refutes. Qed.
Example C55_example : In "setup.beam_energy" (shaping_names NRAD) /\ enabled w_seed1 NRAD /\ enabled w_seed2 NRAD /\
  exists out, merge_params w_seed1 w_seed2 = Ok out.
Proof.
  split; [cbn; auto|]. split; [|split].
  - split; [vm_compute; reflexivity|]. exists RcExact. split; [vm_compute; reflexivity | discriminate].
  - split; [vm_compute; reflexivity|]. exists RcExact. split; [vm_compute; reflexivity | discriminate].
  - eexists. vm_compute. reflexivity.
Qed.

(** Exactly when two runs can be merged. *)
Theorem C56_mergeable_iff p1 p2 : formatted p1 -> formatted p2 ->
  ((exists out, merge_params p1 p2 = Ok out) <-> mergeable p1 p2).
Proof. exact (merge_iff p1 p2). Qed.
(** Same settings, different seeds: mergeable, provided no option of a disabled event type is given. *)
Theorem C56_same_settings_partial p1 p2 : formatted p1 -> formatted p2 -> same_settings p1 p2 ->
  exists out, merge_params p1 p2 = Ok out.
Proof. exact (same_settings_merge p1 p2). Qed.
(** Without that proviso it fails: both runs say [mc.rad.enable off]. *)
Theorem C56_same_settings_refuted :
  ~ (forall p1 p2, formatted p1 -> formatted p2 ->
     (forall n, n <> "mc.seed" -> value_of p1 n = value_of p2 n) -> disjoint_seeds p1 p2 ->
     provides p1 "mc.seed" -> provides p2 "mc.seed" -> enabled p1 NRAD ->
     (exists u, reads p1 (uid_name NRAD) = Some (VLong u)) -> ~ enabled p1 RAD ->
     (forall n v, value_of p1 n = Some v -> same_value v v) ->
     exists out, merge_params p1 p2 = Ok out).
Proof. exact off_refutes. Qed.
Example C56_example : same_settings w_seed1 w_seed2 /\ formatted w_seed1 /\ formatted w_seed2.
Proof. split; [exact same_settings_seeds|]. split; apply configured_formatted. Qed.
Print Assumptions C54_seed_union.
Print Assumptions C54_merged_seeds_one_run.
Print Assumptions C54_merged_num_events.
Print Assumptions C54_merged_version.
Print Assumptions C54_common_seed_refused.
Print Assumptions C54_merged_flags.
Print Assumptions C54_merged_event_types.
Print Assumptions C54_merged_provides.
Print Assumptions C54_merged_seeds_partial.
Print Assumptions C54_merged_seeds_refuted.
Print Assumptions C54_reused_seed_accepted_refuted.
Print Assumptions C55_merge_agrees_partial.
Print Assumptions C55_merge_differing_refuted.
Print Assumptions C56_mergeable_iff.
Print Assumptions C56_same_settings_partial.
Print Assumptions C56_same_settings_refuted.
