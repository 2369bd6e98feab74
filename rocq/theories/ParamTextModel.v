(** Model of the text input and output of parameters: app/sidisgen/params.cpp 13-29, 285-362 and params_format.cpp
    641-838. Values of doubles are extended reals. *)
From Coq Require Import String Ascii ZArith List Bool.
From Verif Require Import ExtModel TextModel ParamModel.
Import ListNotations.
Local Open Scope list_scope.

Notation evalue := (value ext).
Notation eparams := (params ext).
(** params.cpp 15-28 *)
Definition trim (t : text) : text := rev (drop_space (rev (drop_space t))).
Definition trim_comment (t : text) : text := fst (span (fun c => negb (Ascii.eqb c "#")) t).

(** params_format.cpp 656-685: enumerations. *)
Fixpoint text_eqb (a b : text) : bool :=
  match a, b with [], [] => true | x :: a', y :: b' => Ascii.eqb x y && text_eqb a' b' | _, _ => false end.
Fixpoint find_name {A} (table : list (A * list string)) (w : text) : option A :=
  match table with
  | [] => None
  | (a, names) :: table' => if existsb (fun n => text_eqb w (str n)) names then Some a else find_name table' w
  end.
Definition get_enum {A} (table : list (A * list string)) (first : A) (s : stream) : A * stream :=
  let (w, s) := get_word s in
  match find_name table w with Some a => (a, s) | None => (first, set_fail s) end.
Fixpoint put_enum {A} (eqb : A -> A -> bool) (table : list (A * list string)) (a : A) : option text :=
  match table with
  | (b, n :: _) :: table' => if eqb b a then Some (str n) else put_enum eqb table' a
  | _ => None
  end.
(** params_format.cpp 725-740 *)
Local Open Scope string_scope.
Definition rc_table := [(RcNone, ["none"]); (RcApprox, ["approx"]); (RcExact, ["exact"])].
Definition nucleus_table := [(NucP, ["p"; "proton"]); (NucN, ["n"; "neutron"]); (NucD, ["d"; "deuteron"])].
Definition lepton_table := [(LepE, ["e"; "electron"]); (LepMu, ["mu"; "muon"]); (LepTau, ["tau"; "tauon"])].
Definition hadron_table := [(HadPi0, ["pi0"; "pion0"]); (HadPiP, ["pi+"; "pion+"]); (HadPiM, ["pi-"; "pion-"]);
  (HadK0, ["K0"; "kaon0"]); (HadKP, ["K+"; "kaon+"]); (HadKM, ["K-"; "kaon-"])].
(** params_format.cpp 774-785 *)
Definition bool_table := [(true, ["1"; "on"; "true"; "yes"]); (false, ["0"; "off"; "false"; "no"])].
Local Close Scope string_scope.
(** std::multiset::insert *)
Fixpoint insert (n : Z) (l : list Z) : list Z :=
  match l with [] => [n] | m :: l' => if (m <=? n)%Z then m :: insert n l' else n :: l end.
(** params_format.cpp 800-808: read integers until the end. Each round consumes a character or fails, so [length] rounds
    plus one suffice. *)
Fixpoint get_seeds (fuel : nat) (seeds : list Z) (s : stream) : list Z * stream :=
  match fuel with
  | O => (seeds, s)
  | S f => if good s then let (v, s) := get_int int_min int_max s in get_seeds f (insert v seeds) s else (seeds, s)
  end.
(** Type::read_stream *)
Definition read_value (t : vtype) (s : stream) : evalue * stream :=
  match t with
  | TVersion => (* 756-767 *)
    let (major, s) := get_int int_min int_max s in
    let (c, s) := get_char s in
    let s := match c with Some c => if Ascii.eqb c "." then s else set_fail s | None => set_fail s end in
    let (minor, s) := get_int int_min int_max s in (VVersion major minor, s)
  | TDouble => let (d, s) := get_double s in (VDouble d, s)
  | TInt => let (n, s) := get_int int_min int_max s in (VInt n, s)
  | TLong => let (n, s) := get_int long_min long_max s in (VLong n, s)
  | TBool => let (b, s) := get_enum bool_table false s in (VBool b, s)
  | TString => let (l, s) := get_line s in (VString (unstr l), s) (* 789-793 *)
  | TSeedGen => let (l, s) := get_seeds (S (length (rest s))) [] s in (VSeedGen l, s)
  | TRcMethod => let (a, s) := get_enum rc_table RcNone s in (VRcMethod a, s)
  | TNucleus => let (a, s) := get_enum nucleus_table NucP s in (VNucleus a, s)
  | TLepton => let (a, s) := get_enum lepton_table LepE s in (VLepton a, s)
  | THadron => let (a, s) := get_enum hadron_table HadPi0 s in (VHadron a, s)
  | TVec3 => (* 822-826 *)
    let (x, s) := get_double s in let (y, s) := get_double s in let (z, s) := get_double s in (VVec3 x y z, s)
  | TBound => (* 830-837 *)
    let (lo, s) := get_double s in let (hi, s) := get_double s in
    (VBound lo hi, if eleb lo hi then s else set_fail s)
  end.
(** Type::write_stream; [p] is the precision of the stream. [None]: failbit was set. *)
Definition put (o : option text) : text := match o with Some t => t | None => [] end.
Definition write_value (p : nat) (v : evalue) : option text :=
  match v with
  | VVersion major minor => Some (put_int major ++ "."%char :: put_int minor)
  | VDouble d => Some (put_double p d)
  | VInt n | VLong n => Some (put_int n)
  | VBool b => Some (str (if b then "on" else "off"))
  | VString s => Some (str s)
  | VSeedGen l => Some (List.concat (map put_int l)) (* 809-818: [first] stays true *)
  | VRcMethod a => put_enum rc_eqb rc_table a
  | VNucleus a => put_enum nucleus_eqb nucleus_table a
  | VLepton a => put_enum lepton_eqb lepton_table a
  | VHadron a => put_enum hadron_eqb hadron_table a
  | VVec3 x y z => Some (put_double p x ++ " "%char :: put_double p y ++ " "%char :: put_double p z)
  | VBound lo hi => Some (put_double p lo ++ " "%char :: put_double p hi)
  end.

(** params.cpp 285-303: the keys and values of the lines. The loop runs while the stream is good. *)
Definition entry_of (line : text) : text * text :=
  let (key, ss) := get_word (open (trim (trim_comment line))) in
  let (value, _) := get_line ss in (key, trim value).
Fixpoint find_key (m : list (text * text)) (key : text) : option text :=
  match m with [] => None | (k, v) :: m' => if text_eqb k key then Some v else find_key m' key end.
Fixpoint remove_key (m : list (text * text)) (key : text) : list (text * text) :=
  match m with [] => [] | (k, v) :: m' => if text_eqb k key then remove_key m' key else (k, v) :: remove_key m' key end.
Fixpoint read_lines (fuel : nat) (m : list (text * text)) (s : stream) : result (list (text * text)) :=
  match fuel with
  | O => Ok m
  | S f =>
    if negb (fail s) && negb (eof s) then
      let (line, s) := get_line s in
      let (key, value) := entry_of line in
      match key with
      | [] => read_lines f m s
      | _ => match find_key m key with Some _ => Throw (EDuplicate (unstr key)) | None => read_lines f ((key, value) :: m) s end
      end
    else Ok m
  end.
(** params.cpp 305-333: every known parameter that was found. The partial assignments left behind by a throw are not
    part of the result. *)
Definition parse_value (t : vtype) (v : text) : option evalue :=
  let (val, s) := read_value t (open v) in
  if fail s then None else let (rem, _) := get_line s in match rem with [] => Some val | _ => None end.
Fixpoint assign (ps : eparams) (m : list (text * text)) : result (eparams * list (text * text)) :=
  match ps with
  | [] => Ok ([], m)
  | (name, p) :: ps' =>
    match find_key m (str name) with
    | None => do (r, m') <- assign ps' m; Ok ((name, p) :: r, m')
    | Some v =>
      match parse_value (p_type p) v with
      | None => Throw (EParse name)
      | Some val => do (r, m') <- assign ps' (remove_key m (str name)); Ok ((name, with_value p (Some val)) :: r, m')
      end
    end
  end.
(** params.cpp 285-348. [while (is)] is true once more after the last line when the text does not end in a newline, but then
    the stream is at its end and the line read is empty. *)
Definition read_stream (ps : eparams) (t : text) : result eparams :=
  do m <- read_lines (S (length t)) [] (open t);
  do (r, m') <- assign ps m;
  match m' with [] => Ok r | _ => Throw EUnrecognized end.
(** params.cpp 350-362 *)
Fixpoint write_stream (prec : nat) (ps : eparams) : result text :=
  match ps with
  | [] => Ok []
  | (name, p) :: ps' =>
    match p_value p with
    | None => write_stream prec ps'
    | Some v =>
      match write_value prec v with
      | Some t => do r <- write_stream prec ps'; Ok (str name ++ " "%char :: t ++ newline :: r)
      | None => Throw (EParse name)
      end
    end
  end.
