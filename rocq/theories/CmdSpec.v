(** Specification of the command line and of what the commands may do to files. *)
From Coq Require Import String Ascii ZArith List Bool.
From Verif Require Import TextModel ParamModel ParamTextModel ParamTextSpec FormatModel RootModel RootSpec CmdModel.
Import ListNotations.
Local Open Scope string_scope.
Local Open Scope list_scope.

(** A command may be written with or without two dashes. *)
Definition spelled (name arg : string) : Prop := arg = name \/ arg = ("--" ++ name)%string.
(** The file a command is asked to create. *)
Definition output (e : env) (argv : list string) (name : string) : Prop :=
  (exists f, dispatch argv = AInitialize f /\ i_name (e_init e f) = Some name) \/
  (exists f, dispatch argv = AGenerate f /\ g_name (e_gen e f) = Some name) \/
  (exists fs, dispatch argv = AMergeSoft name fs).
(** Nothing that exists is changed; nothing but the output appears. *)
Definition kept (before after : files) : Prop := forall name f, before name = Some f -> after name = Some f.
Definition adds_only (before after : files) (P : string -> Prop) : Prop :=
  forall name, ~ P name -> after name = before name.

(** A finished generator file: the parameters, and for every event type the bytes that were built. *)
Definition generator_file (w : world) (e : init_env) (f : rfile) : Prop :=
  (exists d, write_params (disk w) (i_params e) [] = (true, d) /\ f_params f = Some d) /\
  exists ts, i_types e = Some ts /\ ts <> [] /\
    forall t, In t ts -> exists data, i_build e t = Some data /\ get_gen (f_gens f) (short_name t) = Some data.
(** A finished event file: the parameters, as many events as asked for, and complete statistics. *)
Definition event_file (w : world) (e : gen_env) (f : rfile) : Prop :=
  (exists d, write_params (disk w) (g_params e) [] = (true, d) /\ f_params f = Some d) /\
  (exists rows, f_events f = Some (Tree rows) /\ Z.of_nat (length rows) = g_num_events e /\
    forall i r, nth_error rows i = Some r -> r = g_row e i) /\
  (exists d, f_stats f = Some d /\ forall name o, In (name, o) (write_integs (fst (g_stats e)) (snd (g_stats e))) -> get_obj d name = Some o).
(** Usable as input of merge-soft. *)
Definition mergeable (e : merge_env) (o : option rfile) : Prop :=
  exists f d ps s, o = Some f /\ f_params f = Some d /\ read_params (m_format e) d = PRead ps /\ f_stats f = Some s /\ stats_complete s.
(** Parameters that can be stored (C83). *)
Definition storable_params (fmt ps : eparams) : Prop := NoDup (map fst ps) /\ same_shape fmt ps /\ well_typed ps /\
  List.Forall (fun q => forall v, p_value (snd q) = Some v -> storable v) ps.
(** Everything that [initialize] and [generate] check is in order. *)
Definition init_ok (w : world) (e : init_env) (fmt : eparams) (data : event_type -> text) : Prop :=
  i_opened e = true /\ i_parsed e = true /\ i_sf e = SUCCESS /\ (exists n, i_name e = Some n /\ creatable w n = true) /\
  (exists ts, i_types e = Some ts /\ ts <> [] /\ (forall t, In t ts -> i_density e t = true /\ i_build e t = Some (data t) /\ (Z.of_nat (length (data t)) < 2 ^ 31)%Z)) /\
  (i_complete e = true \/ i_strict e = false) /\ (forall name, disk w name = true) /\ storable_params fmt (i_params e).
(** Same for [generate], for a generator file with parameters that carry the values [ps] and the generators [data]. *)
Definition gen_ok (w : world) (e : gen_env) (ps : eparams) (data : event_type -> text) : Prop :=
  g_opened e = true /\ g_parsed e = true /\ g_sf e = SUCCESS /\
  (exists ts, g_types e = Some ts /\ ts <> [] /\ forall t, In t ts -> g_load e t (data t) = true) /\
  g_seeds e = Some 1%nat /\ (forall r, carries (g_format e) ps r -> g_compatible e r = true) /\ (exists n, g_name e = Some n /\ creatable w n = true) /\
  g_setup e = SUCCESS /\ (0 < g_num_events e)%Z /\ g_mc_coords e = false /\ (g_complete e = true \/ g_strict e = false) /\
  (forall name, disk w name = true) /\ storable_params (g_format e) (g_params e) /\
  (exists a b, snd (g_stats e) = [a; b] /\ ordinary_integ a /\ ordinary_integ b).
