(** Model of the command line and of the commands of sidisgen as seen from outside: app/sidisgen/main.cpp 378-1258 and
    exception.hpp. What the commands compute (parameters, structure functions, distributions, events) is modelled elsewhere and enters
    here only through its outcome; this file is about the order of the steps, the files and the exit codes. *)
From Coq Require Import String Ascii ZArith List Bool.
From Verif Require Import ExtModel TextModel ParamModel ParamTextModel FormatModel RootModel.
Import ListNotations.
Local Open Scope string_scope.
Local Open Scope list_scope.
Local Open Scope Z_scope.

(** exception.hpp 7-28 *)
Definition SUCCESS := 0.
Definition ERROR := -1.
Definition ERROR_ARG_PARSE := -2.
Definition ERROR_FILE_NOT_FOUND := -3.
Definition ERROR_FILE_NOT_CREATED := -4.
Definition ERROR_NO_EVENT_TYPES_ENABLED := -5.
Definition ERROR_WRITING_FOAM := -6.
Definition ERROR_READING_FOAM := -7.
Definition ERROR_BUILDING_FOAM := -8.
Definition ERROR_READING_PARAMS := -9.
Definition ERROR_WRITING_PARAMS := -10.
Definition ERROR_PARAMS_PARSE := -11.
Definition ERROR_PARAMS_INVALID := -12.
Definition ERROR_MERGING_PARAMS := -13.
Definition ERROR_FOAM_INCOMPATIBLE := -14.
Definition ERROR_FOAM_NOT_FOUND := -15.
Definition ERROR_STRUCTURE_FUNCTIONS_NOT_FOUND := -16.
Definition ERROR_STRUCTURE_FUNCTIONS_PARSE := -17.
Definition ERROR_WRITING_EVENTS := -18.
Definition ERROR_READING_STATS := -19.
Definition ERROR_WRITING_STATS := -20.
Definition ERROR_UNIMPLEMENTED := -21.
Definition codes : list Z := [SUCCESS; ERROR; ERROR_ARG_PARSE; ERROR_FILE_NOT_FOUND; ERROR_FILE_NOT_CREATED; ERROR_NO_EVENT_TYPES_ENABLED;
  ERROR_WRITING_FOAM; ERROR_READING_FOAM; ERROR_BUILDING_FOAM; ERROR_READING_PARAMS; ERROR_WRITING_PARAMS; ERROR_PARAMS_PARSE; ERROR_PARAMS_INVALID;
  ERROR_MERGING_PARAMS; ERROR_FOAM_INCOMPATIBLE; ERROR_FOAM_NOT_FOUND; ERROR_STRUCTURE_FUNCTIONS_NOT_FOUND; ERROR_STRUCTURE_FUNCTIONS_PARSE;
  ERROR_WRITING_EVENTS; ERROR_READING_STATS; ERROR_WRITING_STATS; ERROR_UNIMPLEMENTED].

(** * The command line *)
(** std::string::operator[]: the terminating zero at the size, undefined ([None]) beyond. *)
Fixpoint char_at (s : string) (i : nat) : option ascii :=
  match s, i with
  | EmptyString, O => Some zero
  | EmptyString, S _ => None
  | String c _, O => Some c
  | String _ s', S i' => char_at s' i'
  end.
(** [s[i] == c]; [None]: undefined. *)
Definition char_is (s : string) (i : nat) (c : ascii) : option bool := option_map (fun d => Ascii.eqb d c) (char_at s i).
(** std::string::substr(n), for a string of at least [n] characters *)
Fixpoint drop (n : nat) (s : string) : string :=
  match n, s with O, _ => s | S n', String _ s' => drop n' s' | _, EmptyString => EmptyString end.
(** main.cpp 1171-1173; && does not evaluate its second operand if the first is false. *)
Definition strip (s : string) : option string :=
  match char_is s 0 "-" with
  | Some true =>
    match char_is s 1 "-" with
    | Some true => match char_is s 2 "-" with Some false => Some (drop 2 s) | Some true => Some s | None => None end
    | Some false => Some s
    | None => None
    end
  | Some false => Some s
  | None => None
  end.
Inductive action :=
| AHint | AHelp | AHelpParams | AHelpParam (topic : string) | AVersion
| AInspect (file : string) | AInitialize (file : string) | AGenerate (file : string)
| AMergeSoft (out : string) (files : list string) | AMergeHard (out : string) (files : list string)
| ABadArguments | AUndefined.
Definition one_of (s : string) (l : list string) : bool := existsb (String.eqb s) l.
(** main.cpp 1157-1245; [argv] with the name of the program first. *)
Definition dispatch (argv : list string) : action :=
  match argv with
  | [] | [_] => AHint
  | _ :: arg :: rest =>
    match strip arg with
    | None => AUndefined
    | Some command =>
      if one_of command ["help"; "-?"] then
        match rest with
        | topic :: _ => if String.eqb topic "params" then AHelpParams else AHelpParam topic
        | [] => AHelp
        end
      else if one_of command ["version"; "-v"] then AVersion
      else if one_of command ["inspect"; "-i"] then match rest with [f] => AInspect f | _ => ABadArguments end
      else if one_of command ["initialize"; "-i"] then match rest with [f] => AInitialize f | _ => ABadArguments end
      else if one_of command ["generate"; "-g"] then match rest with [f] => AGenerate f | _ => ABadArguments end
      else if one_of command ["merge-soft"] then match rest with out :: (_ :: _) as files => AMergeSoft out files | _ => ABadArguments end
      else if one_of command ["merge-hard"] then match rest with out :: (_ :: _) as files => AMergeHard out files | _ => ABadArguments end
      else ABadArguments
    end
  end.

(** * Files *)
(** Contents of a ROOT file: the directory of parameters, the serialized generators by key, the tree (or chain of files) of events, the
    directory of statistics. *)
Inductive events := Tree (rows : list (event_type * ext)) | Chain (files : list string).
Record rfile := RFile { f_params : option rdir; f_gens : list (string * text); f_events : option events; f_stats : option rdir }.
Definition empty_file : rfile := RFile None [] None None.
Definition files := string -> option rfile.
Definition put_file (fs : files) (name : string) (f : rfile) : files := fun n => if String.eqb n name then Some f else fs n.
Fixpoint get_gen (l : list (string * text)) (key : string) : option text :=
  match l with [] => None | (k, d) :: l' => if String.eqb k key then Some d else get_gen l' key end.
(** How a command ends: with an exit code, or in undefined behaviour. *)
Inductive outcome := Exit (code : Z) (fs : files) | Undefined.
(** What the world does: which files can be created and which objects written (TDirectory::WriteObject gives 0 otherwise). *)
Record world := World { creatable : string -> bool; disk : string -> bool }.

(** Continue if a step ended with [SUCCESS], otherwise leave with its code. *)
Definition step (code : Z) (fs : files) (next : outcome) : outcome := if code =? SUCCESS then next else Exit code fs.

(** ** initialize: main.cpp 490-647 *)
Record init_env := InitEnv {
  i_opened : bool;                          (* the parameter file can be read *)
  i_parsed : bool;                          (* Params::read_stream succeeds *)
  i_sf : Z;                                 (* alloc_sf *)
  i_name : option string;                   (* params["file.gen"] *)
  i_types : option (list event_type);       (* p_enabled_event_types; None: exception *)
  i_density : event_type -> bool;           (* the constructors of Density and DistParams *)
  i_complete : bool;                        (* check_complete *)
  i_strict : bool;                          (* params["strict"] *)
  i_build : event_type -> option text;      (* Generator::build_dist followed by write_dist: the bytes; None: exception *)
  i_params : eparams }.                     (* the parameters with the UIDs *)
(** main.cpp 576-632 *)
Fixpoint build_all (w : world) (e : init_env) (ts : list event_type) (f : rfile) : Z * rfile :=
  match ts with
  | [] => (SUCCESS, f)
  | t :: ts' =>
    match i_build e t with
    | None => (ERROR_BUILDING_FOAM, f)
    | Some data =>
      if (Z.of_nat (length data) <=? 2 ^ 31 - 1) && disk w (short_name t)
      then build_all w e ts' (RFile (f_params f) ((short_name t, data) :: f_gens f) (f_events f) (f_stats f))
      else (ERROR_WRITING_FOAM, f)
    end
  end.
Definition write_param_dir (w : world) (ps : eparams) (f : rfile) : Z * rfile :=
  match write_params (disk w) ps [] with
  | (ok, d) => ((if ok then SUCCESS else ERROR_WRITING_PARAMS), RFile (Some d) (f_gens f) (f_events f) (f_stats f))
  end.
Definition initialize (w : world) (e : init_env) (fs : files) : outcome :=
  if negb (i_opened e) then Exit ERROR_FILE_NOT_FOUND fs
  else if negb (i_parsed e) then Exit ERROR_PARAMS_PARSE fs
  else step (i_sf e) fs
  match i_name e with
  | None => Exit ERROR fs
  | Some name =>
    match fs name with
    | Some _ => Exit ERROR_FILE_NOT_CREATED fs
    | None =>
      if negb (creatable w name) then Exit ERROR_FILE_NOT_CREATED fs
      else
      let with_ f := put_file fs name f in
      match i_types e with
      | None => Exit ERROR (with_ empty_file)
      | Some [] => Exit ERROR_NO_EVENT_TYPES_ENABLED (with_ empty_file)
      | Some ts =>
        if negb (forallb (i_density e) ts) then Exit ERROR_PARAMS_INVALID (with_ empty_file)
        else if negb (i_complete e) && i_strict e then Exit ERROR_PARAMS_INVALID (with_ empty_file)
        else
        match build_all w e ts empty_file with
        | (code, f) => step code (with_ f)
          match write_param_dir w (i_params e) f with (code, f) => Exit code (with_ f) end
        end
      end
    end
  end.

(** ** generate: main.cpp 649-1053 *)
Record gen_env := GenEnv {
  g_opened : bool; g_parsed : bool; g_sf : Z;
  g_types : option (list event_type);
  g_foam : option string;                   (* params["file.gen"] *)
  g_format : eparams;                       (* PARAMS_STD_FORMAT *)
  g_seeds : option nat;                     (* the number of seeds; None: exception *)
  g_compatible : eparams -> bool;           (* check_can_provide_foam, given the parameters of the generator file *)
  g_load : event_type -> text -> bool;      (* set_from the UID, Density, Generator::read_dist, rejection scale *)
  g_name : option string;                   (* params["file.event"] *)
  g_setup : Z;                              (* the parameters read at 789-806, 826-829: ERROR if one is missing *)
  g_num_events : Z;
  g_mc_coords : bool;                       (* file.write_mc_coords *)
  g_complete : bool; g_strict : bool;
  g_params : eparams;
  g_row : nat -> event_type * ext;          (* the events drawn (StatModel); the loop is assumed to end *)
  g_stats : ginteg * list ginteg }.         (* the total and the statistics for each event type *)
(** main.cpp 740-776 *)
Fixpoint load_all (e : gen_env) (ts : list event_type) (f : rfile) : Z :=
  match ts with
  | [] => SUCCESS
  | t :: ts' =>
    match get_gen (f_gens f) (short_name t) with
    | None => ERROR_READING_FOAM
    | Some data => if g_load e t data then load_all e ts' f else ERROR_READING_FOAM
    end
  end.
(** main.cpp 124-136: the objects are written in order, up to the first failure. *)
Fixpoint write_objs (w : world) (l d : rdir) : Z * rdir :=
  match l with
  | [] => (SUCCESS, d)
  | (name, o) :: l' => if disk w name then write_objs w l' ((name, o) :: d) else (ERROR_WRITING_STATS, d)
  end.
Definition write_stats (w : world) (s : ginteg * list ginteg) (f : rfile) : Z * rfile :=
  match write_objs w (write_integs (fst s) (snd s)) [] with
  | (code, d) => (code, RFile (f_params f) (f_gens f) (f_events f) (Some d))
  end.
Definition generate (w : world) (e : gen_env) (fs : files) : outcome :=
  if negb (g_opened e) then Exit ERROR_FILE_NOT_FOUND fs
  else if negb (g_parsed e) then Exit ERROR_PARAMS_PARSE fs
  else step (g_sf e) fs
  match g_types e, g_foam e with
  | None, _ => Exit ERROR fs
  | Some [], _ => Exit ERROR_NO_EVENT_TYPES_ENABLED fs
  | Some _, None => Exit ERROR fs
  | Some ts, Some foam_name =>
    match fs foam_name with
    | None => Exit ERROR_FILE_NOT_FOUND fs
    | Some foam =>
      match f_params foam with
      | None => Exit ERROR_READING_PARAMS fs
      | Some d =>
        match read_params (g_format e) d with
        | PThrow => Exit ERROR_READING_PARAMS fs
        | PUnnamed => Undefined (* an enumerator outside this model *)
        | PRead ps =>
          match g_seeds e with
          | None => Exit ERROR fs
          | Some n =>
            if negb (Nat.eqb n 1) then Exit ERROR_PARAMS_INVALID fs
            else if negb (g_compatible e ps) then Exit ERROR_FOAM_INCOMPATIBLE fs
            else step (load_all e ts foam) fs
            match g_name e with
            | None => Exit ERROR fs
            | Some name =>
              match fs name with
              | Some _ => Exit ERROR_FILE_NOT_CREATED fs
              | None =>
                if negb (creatable w name) then Exit ERROR_FILE_NOT_CREATED fs
                else
                let with_ f := put_file fs name f in
                step (g_setup e) (with_ empty_file)
                (if g_num_events e <=? 0 then Exit ERROR_PARAMS_INVALID (with_ empty_file)
                else if g_mc_coords e then Exit ERROR_UNIMPLEMENTED (with_ empty_file)
                else if negb (g_complete e) && g_strict e then Exit ERROR_PARAMS_INVALID (with_ empty_file)
                else
                match write_param_dir w (g_params e) empty_file with
                | (code, f) => step code (with_ f)
                  (if negb (disk w "events") then Exit ERROR_WRITING_EVENTS (with_ f)
                  else
                  let f := RFile (f_params f) (f_gens f) (Some (Tree (map (g_row e) (seq 0 (Z.to_nat (g_num_events e)))))) (f_stats f) in
                  match write_stats w (g_stats e) f with (code, f) => Exit code (with_ f) end)
                end)
              end
            end
          end
        end
      end
    end
  end.

(** ** merge-soft: main.cpp 1055-1143 *)
Record merge_env := MergeEnv {
  m_format : eparams;                                   (* PARAMS_STD_FORMAT *)
  m_merge : eparams -> eparams -> option eparams;       (* merge_params(params, params_out); None: exception *)
  m_add : list ginteg -> list ginteg -> list ginteg;    (* IntegratorArray::operator+= *)
  m_total : list ginteg -> ginteg }.                    (* IntegratorArray::total *)
(** main.cpp 1059-1089; the first parameters are taken over unchanged. *)
Inductive merging (A : Type) := MGood (a : A) | MBad (code : Z) | MUndefined.
Arguments MGood {A}. Arguments MBad {A}. Arguments MUndefined {A}.
Fixpoint merge_pars (e : merge_env) (fs : files) (names : list string) (acc : option eparams) : merging (option eparams) :=
  match names with
  | [] => MGood acc
  | n :: names' =>
    match fs n with
    | None => MBad ERROR_FILE_NOT_FOUND
    | Some f =>
      match f_params f with
      | None => MBad ERROR_READING_PARAMS
      | Some d =>
        match read_params (m_format e) d with
        | PThrow => MBad ERROR_READING_PARAMS
        | PUnnamed => MUndefined
        | PRead ps =>
          match acc with
          | None => merge_pars e fs names' (Some ps)
          | Some acc =>
            match m_merge e ps acc with
            | None => MBad ERROR_MERGING_PARAMS
            | Some r => merge_pars e fs names' (Some r)
            end
          end
        end
      end
    end
  end.
(** main.cpp 1092-1111 *)
Fixpoint merge_integs (e : merge_env) (fs : files) (names : list string) (acc : option (list ginteg)) : merging (option (list ginteg)) :=
  match names with
  | [] => MGood acc
  | n :: names' =>
    match fs n with
    | None => MBad ERROR_FILE_NOT_FOUND
    | Some f =>
      match f_stats f with
      | None => MBad ERROR_READING_STATS
      | Some d =>
        match read_integs d with
        | SThrow => MBad ERROR_READING_STATS
        | SUndefined => MUndefined
        | SRead l => merge_integs e fs names' (Some (match acc with None => l | Some a => m_add e a l end))
        end
      end
    end
  end.
(** The default Params and IntegratorArray, should there be no input file. *)
Definition default_integ : ginteg := GInteg NaN 0 0 (WStats NaN NaN NaN NaN NaN 0).
Definition merge_soft (w : world) (e : merge_env) (out : string) (names : list string) (fs : files) : outcome :=
  match merge_pars e fs names None with
  | MBad code => Exit code fs
  | MUndefined => Undefined
  | MGood ps =>
    let ps := match ps with Some ps => ps | None => [] end in
    match merge_integs e fs names None with
    | MBad code => Exit code fs
    | MUndefined => Undefined
    | MGood l =>
      let l := match l with Some l => l | None => [default_integ; default_integ] end in
      match fs out with
      | Some _ => Exit ERROR_FILE_NOT_CREATED fs
      | None =>
        if negb (creatable w out) then Exit ERROR_FILE_NOT_CREATED fs
        else
        let with_ f := put_file fs out f in
        match write_param_dir w ps empty_file with
        | (code, f) => step code (with_ f)
          match write_stats w (m_total e l, l) f with
          | (code, f) => step code (with_ f)
            (if negb (disk w "events") then Exit ERROR_WRITING_EVENTS (with_ f)
            else Exit SUCCESS (with_ (RFile (f_params f) (f_gens f) (Some (Chain names)) (f_stats f))))
          end
        end
      end
    end
  end.
(** main.cpp 1145-1153 *)
Definition merge_hard (fs : files) : outcome := Exit ERROR_UNIMPLEMENTED fs.
(** ** inspect: main.cpp 437-488; statistics that cannot be read are reported, not an error. *)
Definition inspect (format : eparams) (name : string) (fs : files) : outcome :=
  match fs name with
  | None => Exit ERROR_FILE_NOT_FOUND fs
  | Some f =>
    match f_params f with
    | None => Exit ERROR_READING_PARAMS fs
    | Some d =>
      match read_params format d with
      | PThrow => Exit ERROR_READING_PARAMS fs
      | PUnnamed => Undefined
      | PRead _ =>
        match f_stats f with
        | None => Exit SUCCESS fs
        | Some s => match read_integs s with SUndefined => Undefined | _ => Exit SUCCESS fs end
        end
      end
    end
  end.

(** * The program: main.cpp 1157-1258 *)
Record env := Env { e_world : world; e_init : string -> init_env; e_gen : string -> gen_env; e_merge : merge_env }.
Definition main (e : env) (argv : list string) (fs : files) : outcome :=
  match dispatch argv with
  | AHint | AHelp | AHelpParams | AHelpParam _ | AVersion => Exit SUCCESS fs
  | AInspect f => inspect (m_format (e_merge e)) f fs
  | AInitialize f => initialize (e_world e) (e_init e f) fs
  | AGenerate f => generate (e_world e) (e_gen e f) fs
  | AMergeSoft out names => merge_soft (e_world e) (e_merge e) out names fs
  | AMergeHard _ _ => merge_hard fs
  | ABadArguments => Exit ERROR_ARG_PARSE fs
  | AUndefined => Undefined
  end.
(** What the operating system reports for an exit code returned from main (POSIX). *)
Definition exit_status (code : Z) : Z := code mod 256.
