(** Model of app/sidisgen/params_format.cpp (the standard format, the foam compatibility check and the merge of
    two runs) and of the event types in utility.hpp. *)
From Coq Require Import String Ascii List Bool ZArith.
From Verif Require Import FilterModel ParamModel.
Import ListNotations.
Local Open Scope string_scope.
Local Open Scope Z_scope.

(** Double values as they appear in parameter files: decimal numbers m * 10^e, infinities and NaN. Rounding
    to binary64 is not modelled; equality is numerical and NaN is not equal to itself. *)
Inductive dec := Dec (m e : Z) | DInf (negative : bool) | DNaN.
Definition deqb (a b : dec) : bool :=
  match a, b with
  | Dec m e, Dec m' e' => m * 10 ^ (e - Z.min e e') =? m' * 10 ^ (e' - Z.min e e')
  | DInf n, DInf n' => Bool.eqb n n'
  | _, _ => false
  end.
Notation val := (value dec).
Notation pars := (params dec).

(** utility.hpp 53-81 *)
Inductive event_type := NRAD | RAD.
Definition event_types : list event_type := [NRAD; RAD].
Definition short_name (t : event_type) : string := match t with NRAD => "nrad" | RAD => "rad" end.
Definition ev_idx (t : event_type) : Z := match t with NRAD => 0 | RAD => 1 end.
(** params_format.hpp 77-94 *)
Definition p_name_enable t : string := "mc." ++ short_name t ++ ".enable".
Definition p_name_gen_rej_scale t : string := "mc." ++ short_name t ++ ".gen.rej_scale".
Definition p_name_init_target_eff t : string := "mc." ++ short_name t ++ ".init.target_eff".
Definition p_name_init_scale_exp t : string := "mc." ++ short_name t ++ ".init.scale_exp".
Definition p_name_init_max_cells t : string := "mc." ++ short_name t ++ ".init.max_cells".
Definition p_name_init_uid t : string := "mc." ++ short_name t ++ ".init.uid".

(** params_format.cpp 45-349, in the order of the source; the help texts are left out. *)
Definition std_entries : list (string * vtype * option (nat * val) * list string) := [
    ("version", TVersion, Some (0%nat, VVersion 5 0), ["meta"]);
    ("strict", TBool, Some (1%nat, VBool true), ["meta"]);
    ("file.event", TString, None, ["gen"; "file"; "nrad"; "rad"; "excl"]);
    ("file.gen", TString, None, ["init"; "gen"; "file"; "nrad"; "rad"; "excl"]);
    ("file.write_momenta", TBool, Some (4%nat, VBool false), ["gen"; "write"; "nrad"; "rad"; "excl"]);
    ("file.write_photon", TBool, Some (5%nat, VBool true), ["gen"; "write"; "rad"; "excl"]);
    ("file.write_sf_set", TBool, Some (6%nat, VBool false), ["gen"; "write"; "nrad"; "rad"; "excl"]);
    ("file.write_mc_coords", TBool, Some (7%nat, VBool false), ["gen"; "write"; "nrad"; "rad"; "excl"]);
    ("mc.nrad.enable", TBool, Some (8%nat, VBool true), ["init"; "gen"; "nrad"]);
    ("mc.nrad.gen.rej_scale", TDouble, Some (9%nat, VDouble (Dec 0 0)), ["gen"; "dist"; "nrad"]);
    ("mc.nrad.init.uid", TLong, None, ["init"; "uid"; "nrad"]);
    ("mc.nrad.init.max_cells", TInt, Some (11%nat, VInt 262144), ["init"; "dist"; "nrad"]);
    ("mc.nrad.init.target_eff", TDouble, Some (12%nat, VDouble (Dec 95 (-2))), ["init"; "dist"; "nrad"]);
    ("mc.nrad.init.scale_exp", TDouble, Some (13%nat, VDouble (Dec 50 (-2))), ["init"; "dist"; "nrad"]);
    ("mc.rad.enable", TBool, Some (14%nat, VBool true), ["init"; "gen"; "rad"]);
    ("mc.rad.gen.rej_scale", TDouble, Some (15%nat, VDouble (Dec 0 0)), ["gen"; "dist"; "rad"]);
    ("mc.rad.init.uid", TLong, None, ["init"; "uid"; "rad"]);
    ("mc.rad.init.max_cells", TInt, Some (17%nat, VInt 262144), ["init"; "dist"; "rad"]);
    ("mc.rad.init.target_eff", TDouble, Some (18%nat, VDouble (Dec 50 (-2))), ["init"; "dist"; "rad"]);
    ("mc.rad.init.scale_exp", TDouble, Some (19%nat, VDouble (Dec 18 (-2))), ["init"; "dist"; "rad"]);
    ("mc.num_events", TLong, None, ["gen"; "num"]);
    ("mc.seed", TSeedGen, Some (21%nat, VSeedGen []), ["gen"; "seed"; "nrad"; "rad"; "excl"]);
    ("setup.beam_energy", TDouble, None, ["init"; "gen"; "xs"; "dist"; "nrad"; "rad"; "excl"]);
    ("setup.beam", TLepton, None, ["init"; "gen"; "xs"; "dist"; "nrad"; "rad"; "excl"]);
    ("setup.target", TNucleus, None, ["init"; "gen"; "xs"; "dist"; "nrad"; "rad"; "excl"]);
    ("setup.hadron", THadron, None, ["init"; "gen"; "xs"; "dist"; "nrad"; "rad"; "excl"]);
    ("setup.beam_pol", TDouble, None, ["init"; "gen"; "xs"; "dist"; "nrad"; "rad"; "excl"]);
    ("setup.target_pol", TVec3, None, ["init"; "gen"; "xs"; "dist"; "nrad"; "rad"; "excl"]);
    ("phys.sf_set", TString, None, ["init"; "gen"; "xs"; "dist"; "nrad"; "rad"; "excl"]);
    ("phys.rc_method", TRcMethod, None, ["init"; "gen"; "xs"; "dist"; "nrad"; "rad"; "excl"]);
    ("phys.mass_threshold", TDouble, None, ["init"; "gen"; "xs"; "dist"; "nrad"; "rad"; "excl"]);
    ("phys.soft_threshold", TDouble, Some (31%nat, VDouble (Dec 1 (-2))), ["init"; "gen"; "xs"; "dist"; "nrad"; "rad"; "excl"]);
    ("cut.k_0_bar", TBound, Some (32%nat, VBound (Dec 0 0) (DInf false)), ["init"; "gen"; "cut"; "dist"; "nrad"; "rad"; "excl"]);
    ("cut.x", TBound, Some (33%nat, VBound DNaN DNaN), ["init"; "gen"; "cut"; "dist"; "nrad"; "rad"; "excl"]);
    ("cut.y", TBound, Some (34%nat, VBound DNaN DNaN), ["init"; "gen"; "cut"; "dist"; "nrad"; "rad"; "excl"]);
    ("cut.z", TBound, Some (35%nat, VBound DNaN DNaN), ["init"; "gen"; "cut"; "dist"; "nrad"; "rad"; "excl"]);
    ("cut.ph_t_sq", TBound, Some (36%nat, VBound DNaN DNaN), ["init"; "gen"; "cut"; "dist"; "nrad"; "rad"; "excl"]);
    ("cut.phi_h", TBound, Some (37%nat, VBound DNaN DNaN), ["init"; "gen"; "cut"; "dist"; "nrad"; "rad"; "excl"]);
    ("cut.phi", TBound, Some (38%nat, VBound DNaN DNaN), ["init"; "gen"; "cut"; "dist"; "nrad"; "rad"; "excl"]);
    ("cut.Q_sq", TBound, Some (39%nat, VBound DNaN DNaN), ["init"; "gen"; "cut"; "dist"; "nrad"; "rad"; "excl"]);
    ("cut.W_sq", TBound, Some (40%nat, VBound DNaN DNaN), ["init"; "gen"; "cut"; "dist"; "nrad"; "rad"; "excl"]);
    ("cut.mx_sq", TBound, Some (41%nat, VBound DNaN DNaN), ["init"; "gen"; "cut"; "dist"; "nrad"; "rad"; "excl"]);
    ("cut.t", TBound, Some (42%nat, VBound DNaN DNaN), ["init"; "gen"; "cut"; "dist"; "nrad"; "rad"; "excl"]);
    ("cut.r", TBound, Some (43%nat, VBound DNaN DNaN), ["init"; "gen"; "cut"; "dist"; "nrad"; "rad"; "excl"]);
    ("cut.qt_to_Q", TBound, Some (44%nat, VBound DNaN DNaN), ["init"; "gen"; "cut"; "dist"; "nrad"; "rad"; "excl"]);
    ("cut.tau", TBound, Some (45%nat, VBound DNaN DNaN), ["init"; "gen"; "cut"; "dist"; "rad"; "excl"; "cut-no-nrad"]);
    ("cut.phi_k", TBound, Some (46%nat, VBound DNaN DNaN), ["init"; "gen"; "cut"; "dist"; "rad"; "excl"; "cut-no-nrad"]);
    ("cut.R", TBound, Some (47%nat, VBound DNaN DNaN), ["init"; "gen"; "cut"; "dist"; "rad"; "cut-no-nrad"]);
    ("cut.lab.mom_q", TBound, Some (48%nat, VBound DNaN DNaN), ["init"; "gen"; "cut"; "dist"; "nrad"; "rad"; "excl"]);
    ("cut.lab.mom_k2", TBound, Some (49%nat, VBound DNaN DNaN), ["init"; "gen"; "cut"; "dist"; "nrad"; "rad"; "excl"]);
    ("cut.lab.mom_h", TBound, Some (50%nat, VBound DNaN DNaN), ["init"; "gen"; "cut"; "dist"; "nrad"; "rad"; "excl"]);
    ("cut.lab.mom_k", TBound, Some (51%nat, VBound DNaN DNaN), ["init"; "gen"; "cut"; "dist"; "rad"; "cut-no-nrad"]);
    ("cut.lab.theta_q", TBound, Some (52%nat, VBound DNaN DNaN), ["init"; "gen"; "cut"; "dist"; "nrad"; "rad"; "excl"]);
    ("cut.lab.theta_k2", TBound, Some (53%nat, VBound DNaN DNaN), ["init"; "gen"; "cut"; "dist"; "nrad"; "rad"; "excl"]);
    ("cut.lab.theta_h", TBound, Some (54%nat, VBound DNaN DNaN), ["init"; "gen"; "cut"; "dist"; "nrad"; "rad"; "excl"]);
    ("cut.lab.theta_k", TBound, Some (55%nat, VBound DNaN DNaN), ["init"; "gen"; "cut"; "dist"; "rad"; "excl"; "cut-no-nrad"])
  ].
Definition std_format_result : result pars :=
  fold_left (fun r e => let '(name, type, default, tags) := e in do ps <- r; add_param ps name type default tags)
    std_entries (Ok []).
Definition std_format : pars := match std_format_result with Ok ps => ps | Throw _ => [] end.

(** operator[] and any() / as<T>() *)
Definition get_bool (ps : pars) (name : string) : result (bool * pars) :=
  do (v, ps') <- get ps name; match v with VBool b => Ok (b, ps') | _ => Throw EBadCast end.
Definition get_long (ps : pars) (name : string) : result (Z * pars) :=
  do (v, ps') <- get ps name; match v with VLong b => Ok (b, ps') | _ => Throw EBadCast end.
Definition get_rc (ps : pars) (name : string) : result (rc_method * pars) :=
  do (v, ps') <- get ps name; match v with VRcMethod b => Ok (b, ps') | _ => Throw EBadCast end.
Definition get_version (ps : pars) (name : string) : result ((Z * Z) * pars) :=
  do (v, ps') <- get ps name; match v with VVersion a b => Ok ((a, b), ps') | _ => Throw EBadCast end.
Definition get_seeds (ps : pars) (name : string) : result (list Z * pars) :=
  do (v, ps') <- get ps name; match v with VSeedGen s => Ok (s, ps') | _ => Throw EBadCast end.
Definition get_string (ps : pars) (name : string) : result (string * pars) :=
  do (v, ps') <- get ps name; match v with VString s => Ok (s, ps') | _ => Throw EBadCast end.

(** params_format.cpp 447-466: p_enabled_event_types; the second component carries the use marks. *)
Fixpoint enabled_loop (ps : pars) (ts : list event_type) : result (list event_type * pars) :=
  match ts with
  | [] => Ok ([], ps)
  | t :: ts' =>
    do (b, ps1) <- get_bool ps (p_name_enable t);
    do (r, ps2) <- enabled_loop ps1 ts';
    Ok (if b then t :: r else r, ps2)
  end.
Definition enabled_event_types (ps : pars) : result (list event_type * pars) :=
  do (rc, ps1) <- get_rc ps "phys.rc_method";
  match rc with
  | RcNone =>
    do (b, ps2) <- get_bool ps1 (p_name_enable NRAD);
    Ok (if b then [NRAD] else [], ps2)
  | _ => enabled_loop ps1 event_types
  end.

Definition filter_ev (ts : list event_type) : filter :=
  fold_left (fun f t => f_or f (FTag (short_name t))) ts FReject.

(** params_format.cpp 468-515. The results are the two parameter sets with their use marks. *)
Fixpoint foam_enabled_loop (foam gen : pars) (ts : list event_type) : result (pars * pars) :=
  match ts with
  | [] => Ok (foam, gen)
  | t :: ts' =>
    do (b, foam1) <- get_bool foam (p_name_enable t);
    if b then foam_enabled_loop foam1 gen ts' else Throw (EIncompatible (p_name_enable t))
  end.
Fixpoint foam_uid_loop (foam gen : pars) (ts : list event_type) : result (pars * pars) :=
  match ts with
  | [] => Ok (foam, gen)
  | t :: ts' =>
    do (uid_foam, foam1) <- get_long foam (p_name_init_uid t);
    do s <- is_set gen (p_name_init_uid t);
    if s then
      do (uid_gen, gen1) <- get_long gen (p_name_init_uid t);
      if uid_foam =? uid_gen then foam_uid_loop foam1 gen1 ts' else Throw (EIncompatible (p_name_init_uid t))
    else foam_uid_loop foam1 gen ts'
  end.
Definition check_can_provide_foam (foam gen : pars) : result (pars * pars) :=
  do _ <- check_format foam std_format;
  do _ <- check_format gen std_format;
  do ((maj_f, min_f), foam1) <- get_version foam "version";
  do ((maj_g, min_g), gen1) <- get_version gen "version";
  if negb ((maj_f =? maj_g) && (min_f <=? min_g)) then Throw (EIncompatible "version") else
  do (ts, gen2) <- enabled_event_types gen1;
  do (foam2, gen3) <- foam_enabled_loop foam1 gen2 ts;
  let filter_dist := f_and (FTag "init") (f_or (f_or (FTag "xs") (FTag "cut")) (FTag "dist")) in
  let f := f_and filter_dist (filter_ev ts) in
  do _ <- check_equivalent deqb (pfilter foam2 f) (pfilter gen3 f);
  foam_uid_loop foam2 gen3 ts.

(** params_format.cpp 352-368: params_merge_value, on copies of the two inputs. *)
Definition merge_value (p1 p2 : pars) (name : string) (op : val -> val -> result val) (out : pars) : result pars :=
  do s1 <- is_set p1 name;
  do s2 <- is_set p2 name;
  if negb s1 && negb s2 then do (_, out') <- set out name None; Ok out'
  else
    do (v1, _) <- get p1 name;
    do (v2, _) <- get p2 name;
    do v <- op v1 v2;
    do (_, out') <- set out name (Some v); Ok out'.
(** params_format.cpp 370-386 *)
Definition merge_bool_and (p1 p2 : pars) (name : string) (out : pars) :=
  merge_value p1 p2 name (fun a b => match a, b with VBool x, VBool y => Ok (VBool (x && y)) | _, _ => Throw EBadCast end) out.
Definition merge_bool_or (p1 p2 : pars) (name : string) (out : pars) :=
  merge_value p1 p2 name (fun a b => match a, b with VBool x, VBool y => Ok (VBool (x || y)) | _, _ => Throw EBadCast end) out.
(** params_format.cpp 388-403 *)
Definition merge_version (p1 p2 : pars) (name : string) (out : pars) :=
  merge_value p1 p2 name (fun a b => match a, b with
    | VVersion x y, VVersion x' y' =>
      if x =? x' then Ok (if y >? y' then VVersion x y else VVersion x' y')
      else Ok (if x >? x' then VVersion x y else VVersion x' y')
    | _, _ => Throw EBadCast end) out.
(** params_format.cpp 405-414 *)
Definition merge_file (p1 p2 : pars) (name : string) (out : pars) :=
  merge_value p1 p2 name (fun a b => match a, b with
    | VString x, VString y => Ok (VString (if String.eqb x y then x else "<unknown>")) | _, _ => Throw EBadCast end) out.
(** params_format.hpp 57-66: SeedGen(seed_1, seed_2), multiset insertion *)
Fixpoint mset_insert (x : Z) (l : list Z) : list Z :=
  match l with
  | [] => [x]
  | y :: l' => if x <? y then x :: y :: l' else y :: mset_insert x l'
  end.
Definition seed_union (a b : list Z) : list Z :=
  fold_left (fun s x => mset_insert x s) b (fold_left (fun s x => mset_insert x s) a []).
(** params_format.cpp 416-425 *)
Definition merge_seed_gen (p1 p2 : pars) (name : string) (out : pars) :=
  merge_value p1 p2 name (fun a b => match a, b with
    | VSeedGen x, VSeedGen y => Ok (VSeedGen (seed_union x y)) | _, _ => Throw EBadCast end) out.
(** params_format.cpp 427-434: std::plus<std::size_t> on 64-bit values, converted back to Long *)
Definition wrap64 (n : Z) : Z := (n + 2 ^ 63) mod 2 ^ 64 - 2 ^ 63.
Definition merge_count (p1 p2 : pars) (name : string) (out : pars) :=
  merge_value p1 p2 name (fun a b => match a, b with
    | VLong x, VLong y => Ok (VLong (wrap64 (x + y))) | _, _ => Throw EBadCast end) out.

Fixpoint seq_result {A B} (f : A -> B -> result B) (l : list A) (b : B) : result B :=
  match l with [] => Ok b | a :: l' => do b' <- f a b; seq_result f l' b' end.

(** params_format.cpp 517-641. The use marks left on the two inputs are not returned. *)
Definition ev_mem (t : event_type) (l : list event_type) : bool := existsb (fun t' => ev_idx t =? ev_idx t') l.
Definition ev_inter (a b : list event_type) : list event_type := List.filter (fun t => ev_mem t b) a.
Definition ev_union (a b : list event_type) : list event_type :=
  List.filter (fun t => ev_mem t a || ev_mem t b) event_types.
Fixpoint merge_uid_loop (p1 p2 : pars) (ts : list event_type) : result unit :=
  match ts with
  | [] => Ok tt
  | t :: ts' =>
    do (u1, _) <- get_long p1 (p_name_init_uid t);
    do (u2, _) <- get_long p2 (p_name_init_uid t);
    if u1 =? u2 then merge_uid_loop p1 p2 ts' else Throw (EIncompatible (p_name_init_uid t))
  end.
Definition is_set_b (ps : pars) (name : string) : bool :=
  match is_set ps name with Ok b => b | Throw _ => false end.
(** lines 618-625: every name set in [p] must be set in [out]; out.is_set throws on unknown names *)
Fixpoint merged_loop (p out : pars) (ns : list string) : result unit :=
  match ns with
  | [] => Ok tt
  | n :: ns' =>
    do s <- is_set p n;
    if s then do s' <- is_set out n; if s' then merged_loop p out ns' else Throw (EFailedMerge n)
    else merged_loop p out ns'
  end.
Fixpoint contaminated_loop (out p1 p2 : pars) (ns : list string) : result unit :=
  match ns with
  | [] => Ok tt
  | n :: ns' =>
    do s <- is_set out n;
    if s then
      do s1 <- is_set p1 n;
      if s1 then contaminated_loop out p1 p2 ns' else
      do s2 <- is_set p2 n;
      if s2 then contaminated_loop out p1 p2 ns' else Throw (EContaminated n)
    else contaminated_loop out p1 p2 ns'
  end.
Definition merge_params (p1 p2 : pars) : result pars :=
  do _ <- check_format p1 std_format;
  do _ <- check_format p2 std_format;
  do ((maj1, _), _) <- get_version p1 "version";
  do ((maj2, _), _) <- get_version p2 "version";
  if negb (maj1 =? maj2) then Throw (EIncompatible "version") else
  do (ts1, _) <- enabled_event_types p1;
  do (ts2, _) <- enabled_event_types p2;
  let shared := ev_inter ts1 ts2 in
  let ts := ev_union ts1 ts2 in
  let filter_dist := f_or (f_or (FTag "xs") (FTag "cut")) (FTag "dist") in
  let fs := f_and filter_dist (filter_ev shared) in
  do _ <- check_equivalent deqb (pfilter p1 fs) (pfilter p2 fs);
  do _ <- merge_uid_loop p1 p2 shared;
  do s1 <- is_set p1 "mc.seed";
  do s2 <- is_set p2 "mc.seed";
  do _ <- (if s1 && s2 then
      do (sd1, _) <- get_seeds p1 "mc.seed";
      do (sd2, _) <- get_seeds p2 "mc.seed";
      if existsb (fun s => existsb (Z.eqb s) sd2) sd1 then Throw (EIncompatible "mc.seed") else Ok tt
    else Ok tt);
  do out <- merge_version p1 p2 "version" std_format;
  do out <- merge_bool_and p1 p2 "strict" out;
  do out <- seq_result (merge_file p1 p2) (names (pfilter p1 (FTag "file"))) out;
  do out <- merge_bool_and p1 p2 "file.write_momenta" out;
  do out <- merge_bool_and p1 p2 "file.write_photon" out;
  do out <- merge_bool_and p1 p2 "file.write_sf_set" out;
  do out <- merge_bool_and p1 p2 "file.write_mc_coords" out;
  do out <- seq_result (fun t => merge_bool_or p1 p2 (p_name_enable t)) ts out;
  do out <- merge_seed_gen p1 p2 "mc.seed" out;
  do out <- merge_count p1 p2 "mc.num_events" out;
  let filter_set := f_or (f_or filter_dist (FTag "uid")) (FTag "seed") in
  do (_, out) <- set_from out (pfilter p1 (f_and filter_set (filter_ev ts1)));
  do (_, out) <- set_from out (pfilter p2 (f_and filter_set (filter_ev ts2)));
  do _ <- merged_loop p1 out (names p1);
  do _ <- merged_loop p2 out (names p2);
  do _ <- contaminated_loop out p1 p2 (names out);
  Ok out.
