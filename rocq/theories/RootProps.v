(** C83 and C84: parameters and statistics in ROOT files. *)
From Coq Require Import String Ascii Reals Lra ZArith List Bool Sorting.Sorted Lia.
From Flocq Require Import Core.
From Verif Require Import ExtModel BoundProofs TextModel ParamModel ParamTextModel ParamTextSpec ParamTextRound FormatModel RootModel RootSpec RootProofs.
Import ListNotations.
Local Open Scope list_scope.

(** ** C83: parameters *)
(** Every value of every type comes back from the file it was written to. *)
Theorem C83_value v : storable v -> from_root (vtype_of v) (Some (to_root v)) = RValue v.
Proof. exact (value_back v). Qed.
Print Assumptions C83_value.
(** A whole parameter set comes back: every value, the unset ones unset, none marked as used. *)
Theorem C83_params disk ps fmt : (forall name, disk name = true) -> NoDup (map fst ps) -> same_shape fmt ps -> well_typed ps ->
  List.Forall (fun q => forall v, p_value (snd q) = Some v -> storable v) ps ->
  exists d r, write_params disk ps [] = (true, d) /\ read_params fmt d = PRead r /\ carries fmt ps r.
Proof. exact (root_round disk ps fmt). Qed.
Print Assumptions C83_params.
(** In particular whatever a parameter file without zero bytes sets. *)
Theorem C83_file disk base fmt t ps : (forall name, disk name = true) -> read_stream base t = Ok ps -> ~ In (ascii_of_nat 0) t ->
  NoDup (map fst base) -> well_typed base -> List.Forall (fun q => forall v, p_value (snd q) = Some v -> storable v) base -> same_shape fmt base ->
  exists d r, write_params disk ps [] = (true, d) /\ read_params fmt d = PRead r /\ carries fmt ps r.
Proof. exact (text_to_root disk base fmt t ps). Qed.
Print Assumptions C83_file.
(** Writing reports success exactly when every set parameter could be written. Reading succeeds exactly when no stored
    object is malformed for its parameter or stands for no enumerator; an exception means a malformed object. *)
Theorem C83_write_reports disk ps d : fst (write_params disk ps d) = true <-> forall name p, In (name, p) ps -> p_value p <> None -> disk name = true.
Proof. exact (writes_iff disk ps d). Qed.
Print Assumptions C83_write_reports.
Theorem C83_read_refuses fmt d : (exists r, read_params fmt d = PRead r) <->
  forall name p o, In (name, p) fmt -> get_obj d name = Some o -> ~ malformed (p_type p) o /\ ~ unknown_name (p_type p) o.
Proof. exact (reads_iff fmt d). Qed.
Print Assumptions C83_read_refuses.
Theorem C83_read_throws fmt d : read_params fmt d = PThrow -> exists name p o, In (name, p) fmt /\ get_obj d name = Some o /\ malformed (p_type p) o.
Proof. exact (throws fmt d). Qed.
Print Assumptions C83_read_throws.
(** The names of the standard format are plain object names. *)
Theorem C83_names : std_format_result = Ok std_format /\ std_format <> [] /\ List.Forall (fun q => root_name (fst q)) std_format.
Proof.
  split; [vm_compute; reflexivity|]. split; [discriminate|]. apply Forall_forall. intros [n p] I. unfold root_name. cbn [fst].
  assert (H : forallb (fun q => forallb (fun c => negb (Ascii.eqb c "/") && negb (Ascii.eqb c ";")) (list_ascii_of_string (fst q))) std_format = true) by (vm_compute; reflexivity).
  rewrite forallb_forall in H. specialize (H _ I). cbn [fst] in H. rewrite forallb_forall in H. split; intros J; specialize (H _ J); discriminate.
Qed.
Print Assumptions C83_names.
Local Open Scope string_scope.
Definition ex_stored : eparams :=
  [("cut.y", Param TBound (Some (VBound (Fin 0) (Fin 1))) None [] true); ("mc.num_events", Param TLong None None [] false);
   ("mc.seed", Param TSeedGen (Some (VSeedGen [1; 2; 2]%Z)) None [] false); ("setup.hadron", Param THadron (Some (VHadron HadKM)) None [] true)].
Example C83_example : exists d r, write_params (fun _ => true) ex_stored [] = (true, d) /\ List.length d = 3%nat /\
  read_params ex_stored d = PRead r /\ carries ex_stored ex_stored r /\ r <> ex_stored.
Proof.
  destruct (C83_params (fun _ => true) ex_stored ex_stored) as (d & r & W & R & C).
  - reflexivity.
  - repeat constructor; cbn; intuition discriminate.
  - reflexivity.
  - unfold well_typed, ex_stored. repeat (constructor; [cbn; intros v [= <-]; reflexivity || idtac|]); try (cbn; discriminate). constructor.
  - unfold ex_stored. constructor; [cbn; intros v [= <-]; cbn; apply rleb_spec; lra|]. constructor; [cbn; discriminate|].
    constructor; [cbn; intros v [= <-]; cbn; repeat constructor; lia|]. constructor; [cbn; intros v [= <-]; exact I|constructor].
  - exists d, r. split; [exact W|]. split; [cbn in W; injection W as <-; reflexivity|]. split; [exact R|]. split; [exact C|].
    intros ->. destruct C as [_ C]. destruct (C "cut.y" _ _ eq_refl eq_refl) as (q & Q & _ & _ & _ & _ & U). cbn in Q. injection Q as <-. discriminate.
Qed.

Example C83_example_failures : fst (write_params (fun s => negb (String.eqb s "mc.seed")) ex_stored []) = false /\
  read_params ex_stored [("cut.y", OArrayD [Fin 1; Fin 0])] = PThrow /\ read_params ex_stored [("setup.hadron", OInt 6)] = PUnnamed /\
  exists r, read_params ex_stored [("setup.hadron", OInt 5); ("cut.y", OString "x")] = PRead r.
Proof.
  split; [reflexivity|]. split; [|split; [reflexivity|eexists; reflexivity]].
  cbn. destruct (rleb 1 0) eqn:E; [apply rleb_spec in E; lra|reflexivity].
Qed.

(** ** C84: statistics *)
Theorem C84_statistics_partial total a b : ordinary_integ a -> ordinary_integ b ->
  exists a' b', read_integs (write_integs total [a; b]) = SRead [a'; b'] /\ same_integ a a' /\ same_integ b b'.
Proof. exact (integs_back total a b). Qed.
Print Assumptions C84_statistics_partial.
(** Incomplete statistics are refused, complete ones are never read out of range. *)
Theorem C84_refuses d : stats_complete d <-> read_integs d <> SThrow.
Proof. exact (complete_iff d). Qed.
Print Assumptions C84_refuses.
Theorem C84_in_range d : stats_complete d ->
  (forall name l x, In name ["num_events"; "num_events_acc"] -> get_obj d name = Some (OArrayD l) -> In x l -> to_size x <> None) ->
  exists a b, read_integs d = SRead [a; b].
Proof. exact (complete_counts d). Qed.
Print Assumptions C84_in_range.
(** Counts are kept as doubles: one event too many to be a double is forgotten. *)
Theorem C84_count_refuted : exists total a b a' b', g_count a = (2 ^ 53 + 1)%Z /\ g_count a = w_count (g_weights a) /\
  read_integs (write_integs total [a; b]) = SRead [a'; b'] /\ g_count a' = (g_count a - 1)%Z.
Proof.
  set (a := ginteg_of NaN 0 (WStats NaN NaN NaN NaN NaN (2 ^ 53 + 1))). set (b := ginteg_of NaN 0 (WStats NaN NaN NaN NaN NaN 0)).
  exists b, a, b, (ginteg_of NaN 0 (WStats NaN NaN NaN NaN NaN (2 ^ 53))), b. split; [reflexivity|]. split; [reflexivity|]. split; [|reflexivity].
  assert (Z : to_size (to_double 0) = Some 0%Z) by (apply count_back; split; discriminate).
  unfold read_integs, write_integs, get_array. cbn [get_obj String.eqb Ascii.eqb Bool.eqb map flat_map moments app List.length Nat.eqb num_event_types Nat.mul Nat.add seq all_some].
  unfold read_integ. cbn [nth_error Nat.mul Nat.add]. unfold a, b. cbn [g_count g_count_acc ginteg_of w_count]. rewrite big_count, Z. reflexivity.
Qed.
Print Assumptions C84_count_refuted.
Example C84_example : ordinary_integ (ginteg_of (Fin (1 / 4)) 3 (WStats (Fin 1) (Fin 1) (Fin 1) (Fin 1) (Fin 2) 5)) /\ ordinary_integ (ginteg_of NaN 0 (WStats NaN NaN NaN NaN NaN 0)).
Proof.
  split; (split; [|split; [split; cbn; lia|split; [split; cbn; lia|reflexivity]]]); [right|left; reflexivity].
  exists (1 / 4)%R. split; [reflexivity|]. rewrite Rabs_pos_eq by lra. rewrite <- !bpow2. change (1 / 4)%R with (1 * bpow radix2 (-2))%R. rewrite Rmult_1_l.
  split; apply bpow_le; lia.
Qed.
