(** C85 and C86: the command line and the commands of sidisgen. *)
From Coq Require Import String Ascii ZArith Lia List Bool Reals.
From Verif Require Import ExtModel TextModel ParamModel ParamTextModel ParamTextSpec FormatModel RootModel RootSpec RootProofs RootProps CmdModel CmdSpec CmdProofs.
Import ListNotations.
Local Open Scope string_scope.
Local Open Scope list_scope.

(** ** C85: the command line *)
(** No command line makes the analysis of the arguments undefined (a string is never read past its terminating zero). *)
Theorem C85_defined argv : dispatch argv <> AUndefined.
Proof. exact (dispatch_defined argv). Qed.
Print Assumptions C85_defined.
(** Which command lines run which command: the name with or without two dashes, or the short form, and the right number of files. *)
Theorem C85_commands prog arg rest :
  (forall f, dispatch (prog :: arg :: rest) = AInspect f <-> rest = [f] /\ (spelled "inspect" arg \/ arg = "-i")) /\
  (forall f, dispatch (prog :: arg :: rest) = AInitialize f <-> rest = [f] /\ spelled "initialize" arg) /\
  (forall f, dispatch (prog :: arg :: rest) = AGenerate f <-> rest = [f] /\ (spelled "generate" arg \/ arg = "-g")) /\
  (forall out l, dispatch (prog :: arg :: rest) = AMergeSoft out l <-> rest = out :: l /\ l <> [] /\ spelled "merge-soft" arg) /\
  (forall out l, dispatch (prog :: arg :: rest) = AMergeHard out l <-> rest = out :: l /\ l <> [] /\ spelled "merge-hard" arg) /\
  (dispatch (prog :: arg :: rest) = AVersion <-> spelled "version" arg \/ arg = "-v") /\
  (dispatch (prog :: arg :: rest) = AHelp <-> rest = [] /\ (spelled "help" arg \/ arg = "-?")) /\
  dispatch (prog :: arg :: rest) <> AHint.
Proof. exact (dispatch_iff prog arg rest). Qed.
Print Assumptions C85_commands.
(** Everything else is an argument error and does nothing. *)
Theorem C85_otherwise e prog arg rest fs :
  (forall name, In name ["help"; "version"; "inspect"; "initialize"; "generate"; "merge-soft"; "merge-hard"] -> ~ spelled name arg) ->
  ~ In arg ["-?"; "-v"; "-i"; "-g"] -> main e (prog :: arg :: rest) fs = Exit ERROR_ARG_PARSE fs.
Proof. exact (main_otherwise e prog arg rest fs). Qed.
Print Assumptions C85_otherwise.
(** Every error has its own exit status; only success is 0. *)
Theorem C85_exit_status : NoDup (map exit_status codes) /\ (forall c, In c codes -> (0 <= exit_status c < 256)%Z) /\
  (forall c, In c codes -> exit_status c = 0%Z <-> c = SUCCESS).
Proof. exact exit_statuses. Qed.
Print Assumptions C85_exit_status.
(** The short form that the code tests for initialize runs inspect instead. *)
Theorem C85_short_refuted : exists argv f, argv = ["sidisgen"; "-i"; f] /\ dispatch argv = AInspect f /\
  forall prog rest g, dispatch (prog :: "-i" :: rest) <> AInitialize g.
Proof.
  exists ["sidisgen"; "-i"; "a.params"], "a.params". split; [reflexivity|]. split; [reflexivity|]. intros prog rest g H.
  apply (proj1 (proj2 (dispatch_iff prog "-i" rest))) in H. destruct H as [_ [H|H]]; discriminate.
Qed.
Print Assumptions C85_short_refuted.
Example C85_example : dispatch ["sidisgen"; "--generate"; "a.params"] = AGenerate "a.params" /\ dispatch ["sidisgen"; "-"] = ABadArguments /\
  dispatch ["sidisgen"; "---generate"; "a"] = ABadArguments /\ dispatch ["sidisgen"; "merge-soft"; "out"] = ABadArguments.
Proof. repeat split. Qed.

(** ** C86: the commands and the files *)
(** No command changes a file that exists; the only new file is the output. *)
Theorem C86_no_overwrite e argv fs c fs' : main e argv fs = Exit c fs' -> kept fs fs' /\ adds_only fs fs' (output e argv).
Proof. exact (main_leaves e argv fs c fs'). Qed.
Print Assumptions C86_no_overwrite.
(** Success means a finished file. *)
Theorem C86_initialize w e fs fs' : initialize w e fs = Exit SUCCESS fs' ->
  exists n f, i_name e = Some n /\ fs n = None /\ fs' = put_file fs n f /\ generator_file w e f.
Proof. exact (init_done w e fs fs'). Qed.
Print Assumptions C86_initialize.
Theorem C86_generate w e fs fs' : generate w e fs = Exit SUCCESS fs' ->
  exists n f, g_name e = Some n /\ fs n = None /\ fs' = put_file fs n f /\ event_file w e f.
Proof. exact (gen_done w e fs fs'). Qed.
Print Assumptions C86_generate.
Theorem C86_merge w e out names fs fs' : merge_soft w e out names fs = Exit SUCCESS fs' ->
  (forall a b, length a = 2%nat -> length b = 2%nat -> length (m_add e a b) = 2%nat) ->
  fs out = None /\ (forall n, In n names -> n <> out /\ mergeable e (fs n)) /\
  exists f, fs' = put_file fs out f /\ f_events f = Some (Chain names) /\ f_params f <> None /\ exists d, f_stats f = Some d /\ stats_complete d.
Proof. exact (merge_done w e out names fs fs'). Qed.
Print Assumptions C86_merge.
(** What a failed run leaves is not taken for a finished file by the next command, which then changes nothing. *)
Theorem C86_failed_initialize w e g fs c fs1 n : initialize w e fs = Exit c fs1 -> c <> SUCCESS -> c <> ERROR_WRITING_PARAMS ->
  i_name e = Some n -> fs n = None -> g_foam g = Some n -> exists c', c' <> SUCCESS /\ generate w g fs1 = Exit c' fs1.
Proof. intros H A B C D E. exact (gen_refuses w g fs1 n E (init_fail w e fs c fs1 n H A B C D)). Qed.
Print Assumptions C86_failed_initialize.
Theorem C86_failed_generate w e m fs c fs1 n out names c' fs2 : generate w e fs = Exit c fs1 -> c <> SUCCESS -> g_name e = Some n -> fs n = None ->
  In n names -> merge_soft w m out names fs1 = Exit c' fs2 -> c' <> SUCCESS /\ fs2 = fs1.
Proof. intros H A B C I M. exact (merge_refuses w m out names fs1 c' fs2 n I (gen_fail w e m fs c fs1 n H A B C) M). Qed.
Print Assumptions C86_failed_generate.
(** Three commands one after the other: if what they check is in order, all succeed. *)
Theorem C86_pipeline w ie ge me fs data n m out :
  init_ok w ie (g_format ge) data -> gen_ok w ge (i_params ie) data -> m_format me = g_format ge ->
  (forall its gts, i_types ie = Some its -> g_types ge = Some gts -> incl gts its) ->
  i_name ie = Some n -> g_foam ge = Some n -> g_name ge = Some m -> NoDup [n; m; out] -> fs n = None -> fs m = None -> fs out = None -> creatable w out = true ->
  exists fs1 fs2 fs3 f g h, initialize w ie fs = Exit SUCCESS fs1 /\ generate w ge fs1 = Exit SUCCESS fs2 /\ merge_soft w me out [m] fs2 = Exit SUCCESS fs3 /\
    fs3 n = Some f /\ fs3 m = Some g /\ fs3 out = Some h /\ generator_file w ie f /\ event_file w ge g /\ f_events h = Some (Chain [m]).
Proof. exact (pipeline w ie ge me fs data n m out). Qed.
Print Assumptions C86_pipeline.

(** A case. *)
Definition ex_world : world := World (fun _ => true) (fun _ => true).
Definition ex_nothing : files := fun _ => None.
Definition ex_bytes (t : event_type) : text := match t with NRAD => ["a"%char] | _ => ["b"%char; "c"%char] end.
Definition ex_init : init_env := InitEnv true true 0 (Some "gen.root") (Some [NRAD; RAD]) (fun _ => true) true false (fun t => Some (ex_bytes t)) ex_stored.
Definition ex_integ : ginteg := ginteg_of (Fin (1 / 4)) 3 (WStats (Fin 1) (Fin 1) (Fin 1) (Fin 1) (Fin 2) 5).
Definition ex_gen : gen_env := GenEnv true true 0 (Some [NRAD]) (Some "gen.root") ex_stored (Some 1%nat) (fun _ => true)
  (fun t d => match t, d with NRAD, [_] => true | _, _ => false end) (Some "ev.root") 0 10 false true true ex_stored
  (fun i => (NRAD, Fin (INR i))) (ex_integ, [ex_integ; ex_integ]).
Definition ex_merge : merge_env := MergeEnv ex_stored (fun _ _ => None) (fun a _ => a) (fun l => ex_integ).
Lemma ex_storable : storable_params ex_stored ex_stored.
Proof.
  split; [repeat constructor; cbn; intuition discriminate|]. split; [reflexivity|]. split.
  - unfold well_typed, ex_stored. repeat (constructor; [cbn; intros v [= <-]; reflexivity || idtac|]); try (cbn; discriminate). constructor.
  - unfold ex_stored. constructor; [cbn; intros v [= <-]; cbn; apply BoundProofs.rleb_spec; Lra.lra|]. constructor; [cbn; discriminate|].
    constructor; [cbn; intros v [= <-]; cbn; repeat constructor; lia|]. constructor; [cbn; intros v [= <-]; exact I|constructor].
Qed.
Example C86_example : exists fs1 fs2 fs3 f g h, initialize ex_world ex_init ex_nothing = Exit SUCCESS fs1 /\ generate ex_world ex_gen fs1 = Exit SUCCESS fs2 /\
  merge_soft ex_world ex_merge "all.root" ["ev.root"] fs2 = Exit SUCCESS fs3 /\
  fs3 "gen.root" = Some f /\ fs3 "ev.root" = Some g /\ fs3 "all.root" = Some h /\ generator_file ex_world ex_init f /\ event_file ex_world ex_gen g /\ f_events h = Some (Chain ["ev.root"]).
Proof.
  apply (C86_pipeline ex_world ex_init ex_gen ex_merge ex_nothing ex_bytes); try reflexivity.
  - unfold init_ok. repeat (split; [reflexivity|]). split; [exists "gen.root"; split; reflexivity|]. split; [|split; [left; reflexivity|split; [reflexivity|exact ex_storable]]].
    exists [NRAD; RAD]. split; [reflexivity|]. split; [discriminate|]. intros t I. split; [reflexivity|]. split; [reflexivity|]. destruct t; vm_compute; reflexivity.
  - unfold gen_ok. repeat (split; [reflexivity|]). split; [exists [NRAD]; split; [reflexivity|]; split; [discriminate|]; intros t [<-|[]]; reflexivity|].
    split; [reflexivity|]. split; [reflexivity|]. split; [exists "ev.root"; split; reflexivity|]. repeat (split; [reflexivity|]). split; [left; reflexivity|]. split; [reflexivity|].
    split; [exact ex_storable|]. exists ex_integ, ex_integ. split; [reflexivity|]. split; apply C84_example.
  - intros its gts [= <-] [= <-] t [<-|[]]. left. reflexivity.
  - repeat constructor; cbn; intuition discriminate.
Qed.
(** A command that failed cannot simply be run again with the parameters corrected: its empty output is in the way. *)
Theorem C86_retry_refuted : exists w bad good fs fs1 fmt data, init_ok w good fmt data /\ i_name bad = i_name good /\
  initialize w bad fs = Exit ERROR_NO_EVENT_TYPES_ENABLED fs1 /\
  (exists fs2, initialize w good fs = Exit SUCCESS fs2) /\ initialize w good fs1 = Exit ERROR_FILE_NOT_CREATED fs1.
Proof.
  exists ex_world, (InitEnv true true 0 (Some "gen.root") (Some []) (fun _ => true) true false (fun t => Some (ex_bytes t)) ex_stored), ex_init, ex_nothing.
  eexists. exists ex_stored, ex_bytes. split.
  - unfold init_ok. repeat (split; [reflexivity|]). split; [exists "gen.root"; split; reflexivity|]. split; [|split; [left; reflexivity|split; [reflexivity|exact ex_storable]]].
    exists [NRAD; RAD]. split; [reflexivity|]. split; [discriminate|]. intros t I. split; [reflexivity|]. split; [reflexivity|]. destruct t; vm_compute; reflexivity.
  - split; [reflexivity|]. split; [reflexivity|]. split; [destruct C86_example as (fs1 & _ & _ & _ & _ & _ & H & _); exists fs1; exact H|]. reflexivity.
Qed.
Print Assumptions C86_retry_refuted.
(** Nor generate: any run that would succeed fails after one that asked for no events. *)
Theorem C86_retry_generate_refuted : (forall w e fs fs2, generate w e fs = Exit SUCCESS fs2 ->
  exists fs1, generate w (no_events e) fs = Exit ERROR_PARAMS_INVALID fs1 /\ generate w e fs1 = Exit ERROR_FILE_NOT_CREATED fs1) /\
  exists w e fs fs2, generate w e fs = Exit SUCCESS fs2 /\ e <> no_events e.
Proof.
  split; [exact gen_retry|]. destruct C86_example as (fs1 & fs2 & fs3 & f & g & h & HI & HG & _). exists ex_world, ex_gen, fs1, fs2. split; [exact HG|]. intros E. apply (f_equal g_num_events) in E. discriminate.
Qed.
Print Assumptions C86_retry_generate_refuted.
