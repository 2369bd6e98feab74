(** Model of app/sidisgen/params.hpp and params.cpp: typed parameters with tags, defaults and use tracking. *)
From Coq Require Import String Ascii List Bool ZArith.
From Verif Require Import FilterModel.
Import ListNotations.
Local Open Scope string_scope.

(** Outcome of a function that may throw. *)
Inductive error :=
| ENoSuch (name : string)        (* std::map::at *)
| ERequired (name : string)      (* "Required parameter ... not provided" *)
| EType (name : string)          (* "... has different type" *)
| ETags (name : string)
| EDefault (name : string)
| EMissing (name : string)       (* "Could not find parameter" *)
| ENotUsed (name : string)       (* "Provided parameter ... was not used" *)
| ENotEquivalent (name : string)
| EIncompatible (name : string)
| EFailedMerge (name : string)
| EContaminated (name : string)
| EExisting (name : string)
| EBadCast
| EDuplicate (key : string)      (* "Duplicate parameter" *)
| EParse (name : string)         (* "Failed to parse parameter" *)
| EUnrecognized.                 (* "Unrecognized parameters ..." *)
Inductive result (A : Type) := Ok (a : A) | Throw (e : error).
Arguments Ok {A}. Arguments Throw {A}.
Definition bind {A B} (r : result A) (f : A -> result B) : result B :=
  match r with Ok a => f a | Throw e => Throw e end.
Notation "'do' x <- r ; k" := (bind r (fun x => k)) (at level 200, x pattern, r at level 100, k at level 200).

(** params_format.hpp 29-68 and the VALUE_TYPE_DECLARE list 155-180. The type of double values is a parameter
    [D]: only its equality (and, for text, its printed form) matters here. *)
Inductive rc_method := RcNone | RcApprox | RcExact.
Inductive nucleus := NucP | NucN | NucD.
Inductive lepton := LepE | LepMu | LepTau.
Inductive hadron := HadPi0 | HadPiP | HadPiM | HadK0 | HadKP | HadKM.
(** The singletons TypeVersion::INSTANCE ... ; Type::operator== is singleton identity (params.hpp 80-86). *)
Inductive vtype := TVersion | TDouble | TInt | TLong | TBool | TString | TSeedGen | TRcMethod | TNucleus
  | TLepton | THadron | TVec3 | TBound.
Definition vtype_eqb (a b : vtype) : bool :=
  match a, b with
  | TVersion, TVersion | TDouble, TDouble | TInt, TInt | TLong, TLong | TBool, TBool | TString, TString
  | TSeedGen, TSeedGen | TRcMethod, TRcMethod | TNucleus, TNucleus | TLepton, TLepton | THadron, THadron
  | TVec3, TVec3 | TBound, TBound => true
  | _, _ => false
  end.

Section WithDouble.
Context {D : Type}.

Inductive value :=
| VVersion (major minor : Z)
| VDouble (d : D)
| VInt (n : Z)
| VLong (n : Z)
| VBool (b : bool)
| VString (s : string)
| VSeedGen (seeds : list Z)      (* std::multiset<Int>, in increasing order *)
| VRcMethod (m : rc_method)
| VNucleus (n : nucleus)
| VLepton (l : lepton)
| VHadron (h : hadron)
| VVec3 (x y z : D)
| VBound (min max : D).
Definition vtype_of (v : value) : vtype :=
  match v with
  | VVersion _ _ => TVersion | VDouble _ => TDouble | VInt _ => TInt | VLong _ => TLong | VBool _ => TBool
  | VString _ => TString | VSeedGen _ => TSeedGen | VRcMethod _ => TRcMethod | VNucleus _ => TNucleus
  | VLepton _ => TLepton | VHadron _ => THadron | VVec3 _ _ _ => TVec3 | VBound _ _ => TBound
  end.
(** params_format.hpp 127-132: equivalent_base is operator== of the wrapped type (Bound, Vec3, Version and
    SeedGen compare memberwise). *)
Variable deqb : D -> D -> bool.
Fixpoint zlist_eqb (a b : list Z) : bool :=
  match a, b with [], [] => true | x :: a', y :: b' => (x =? y)%Z && zlist_eqb a' b' | _, _ => false end.
Definition rc_eqb (a b : rc_method) : bool :=
  match a, b with RcNone, RcNone | RcApprox, RcApprox | RcExact, RcExact => true | _, _ => false end.
Definition nucleus_eqb (a b : nucleus) : bool :=
  match a, b with NucP, NucP | NucN, NucN | NucD, NucD => true | _, _ => false end.
Definition lepton_eqb (a b : lepton) : bool :=
  match a, b with LepE, LepE | LepMu, LepMu | LepTau, LepTau => true | _, _ => false end.
Definition hadron_eqb (a b : hadron) : bool :=
  match a, b with HadPi0, HadPi0 | HadPiP, HadPiP | HadPiM, HadPiM | HadK0, HadK0 | HadKP, HadKP | HadKM, HadKM => true
  | _, _ => false end.
Definition equivalent (a b : value) : bool :=
  match a, b with
  | VVersion x y, VVersion x' y' => ((x =? x') && (y =? y'))%Z
  | VDouble d, VDouble d' => deqb d d'
  | VInt n, VInt n' | VLong n, VLong n' => (n =? n')%Z
  | VBool b, VBool b' => Bool.eqb b b'
  | VString s, VString s' => String.eqb s s'
  | VSeedGen s, VSeedGen s' => zlist_eqb s s'
  | VRcMethod m, VRcMethod m' => rc_eqb m m'
  | VNucleus m, VNucleus m' => nucleus_eqb m m'
  | VLepton m, VLepton m' => lepton_eqb m m'
  | VHadron m, VHadron m' => hadron_eqb m m'
  | VVec3 x y z, VVec3 x' y' z' => deqb x x' && deqb y y' && deqb z z'
  | VBound x y, VBound x' y' => deqb x x' && deqb y y'
  | _, _ => false
  end.

(** params.hpp 189-226: struct Param, without the help texts. A default is a shared pointer that is compared
    by address (params.cpp 143, 188); the address is the first component. *)
Record param := Param {
  p_type : vtype;
  p_value : option value;
  p_default : option (nat * value);
  p_tags : list string;
  p_used : bool }.
Definition with_value (p : param) (v : option value) : param :=
  Param (p_type p) v (p_default p) (p_tags p) false.
Definition mark_used (p : param) : param :=
  Param (p_type p) (p_value p) (p_default p) (p_tags p) true.
(** params.hpp 227: std::map<std::string, Param>, a list in increasing order of names. *)
Definition params := list (string * param).
Fixpoint lookup (ps : params) (name : string) : option param :=
  match ps with
  | [] => None
  | (n, p) :: ps' => if String.eqb n name then Some p else lookup ps' name
  end.
Fixpoint update (ps : params) (name : string) (q : param) : params :=
  match ps with
  | [] => []
  | (n, p) :: ps' => if String.eqb n name then (n, q) :: ps' else (n, p) :: update ps' name q
  end.
Definition at_ (ps : params) (name : string) : result param :=
  match lookup ps name with Some p => Ok p | None => Throw (ENoSuch name) end.

(** std::map::emplace *)
Fixpoint emplace (ps : params) (name : string) (p : param) : option params :=
  match ps with
  | [] => Some [(name, p)]
  | (n, q) :: ps' =>
    if String.ltb name n then Some ((name, p) :: (n, q) :: ps')
    else if String.ltb n name then option_map (cons (n, q)) (emplace ps' name p) else None
  end.
(** params.hpp 287-312 with the constructors params.cpp 66-99 *)
Definition add_param (ps : params) (name : string) (type : vtype) (default : option (nat * value)) (tags : list string)
    : result params :=
  match emplace ps name (Param type None default (set_of String.ltb tags) false) with
  | Some ps' => Ok ps'
  | None => Throw (EExisting name)
  end.

(** params.cpp 101-113: get. Returns the parameters after the call, with the use mark. *)
Definition get (ps : params) (name : string) : result (value * params) :=
  do p <- at_ ps name;
  match p_value p, p_default p with
  | None, None => Throw (ERequired name)
  | None, Some (_, d) => Ok (d, ps)
  | Some v, _ => Ok (v, update ps name (mark_used p))
  end.
(** params.cpp 115-125 *)
Definition get_soft (ps : params) (name : string) : result value :=
  do p <- at_ ps name;
  match p_value p, p_default p with
  | None, None => Throw (ERequired name)
  | None, Some (_, d) => Ok d
  | Some v, _ => Ok v
  end.
(** params.cpp 127-137; returns also whether a value was overwritten *)
Definition set (ps : params) (name : string) (v : option value) : result (bool * params) :=
  do p <- at_ ps name;
  let old := match p_value p with Some _ => true | None => false end in
  match v with
  | Some v' => if vtype_eqb (p_type p) (vtype_of v') then Ok (old, update ps name (with_value p v)) else Throw (EType name)
  | None => Ok (old, update ps name (with_value p None))
  end.
Fixpoint slist_eqb (a b : list string) : bool :=
  match a, b with [], [] => true | x :: a', y :: b' => String.eqb x y && slist_eqb a' b' | _, _ => false end.
Definition default_eqb (a b : option (nat * value)) : bool :=
  match a, b with None, None => true | Some (i, _), Some (j, _) => Nat.eqb i j | _, _ => false end.
(** params.cpp 139-159 *)
Definition set_from1 (ps other : params) (name : string) : result (bool * params) :=
  do p <- at_ ps name;
  do q <- at_ other name;
  let old := match p_value p with Some _ => true | None => false end in
  if negb (vtype_eqb (p_type p) (p_type q)) then Throw (EType name)
  else if negb (slist_eqb (p_tags p) (p_tags q)) then Throw (ETags name)
  else if negb (default_eqb (p_default p) (p_default q)) then Throw (EDefault name)
  else Ok (old, update ps name (with_value p (p_value q))).
(** params.cpp 171-177 *)
Definition names (ps : params) : list string := map fst ps.
(** params.cpp 161-169 *)
Fixpoint set_from_names (ps other : params) (ns : list string) : result (bool * params) :=
  match ns with
  | [] => Ok (false, ps)
  | n :: ns' => do (o, ps') <- set_from1 ps other n; do (o', ps'') <- set_from_names ps' other ns'; Ok (o || o', ps'')
  end.
Definition set_from (ps other : params) : result (bool * params) := set_from_names ps other (names other).
(** params.hpp 269-276 *)
Definition is_set (ps : params) (name : string) : result bool :=
  do p <- at_ ps name; Ok (match p_value p with Some _ => true | None => false end).
Definition used (ps : params) (name : string) : result bool :=
  do p <- at_ ps name; Ok (p_used p).

(** params.cpp 179-201 *)
Fixpoint check_format (ps other : params) : result unit :=
  match ps with
  | [] => Ok tt
  | (name, p) :: ps' =>
    match lookup other name with
    | None => Throw (EMissing name)
    | Some q =>
      if negb (vtype_eqb (p_type p) (p_type q)) then Throw (EType name)
      else if negb (slist_eqb (p_tags p) (p_tags q)) then Throw (ETags name)
      else if negb (default_eqb (p_default p) (p_default q)) then Throw (EDefault name)
      else check_format ps' other
    end
  end.
(** params.cpp 203-210 *)
Fixpoint check_complete (ps : params) : result unit :=
  match ps with
  | [] => Ok tt
  | (name, p) :: ps' =>
    match p_value p with
    | Some _ => if p_used p then check_complete ps' else Throw (ENotUsed name)
    | None => check_complete ps'
    end
  end.
(** params.cpp 212-236; the lookup cannot fail after check_format *)
Definition opt_equivalent (a b : option value) : bool :=
  match a, b with None, None => true | Some x, Some y => equivalent x y | _, _ => false end.
Fixpoint check_equivalent_loop (ps other : params) : result unit :=
  match ps with
  | [] => Ok tt
  | (name, p) :: ps' =>
    do q <- at_ other name;
    if opt_equivalent (p_value p) (p_value q) then check_equivalent_loop ps' other else Throw (ENotEquivalent name)
  end.
Definition check_equivalent (ps other : params) : result unit :=
  do _ <- check_format ps other; check_equivalent_loop ps other.
(** params.cpp 238-244. shared_ptr::reset does not touch the use mark. *)
Definition clear_unused (ps : params) : params :=
  map (fun np => let '(n, p) := np in
    (n, if p_used p then p else Param (p_type p) None (p_default p) (p_tags p) (p_used p))) ps.
(** params.cpp 364-374 *)
Definition pfilter (ps : params) (f : filter) : params :=
  List.filter (fun np => fcheck f (p_tags (snd np))) ps.

End WithDouble.
Arguments value : clear implicits.
Arguments param : clear implicits.
Arguments params : clear implicits.
