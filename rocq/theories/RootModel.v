(** Model of what sidisgen keeps in ROOT files: parameters (params.cpp 244-283, params_format.hpp 140-156,
    params_format.cpp 687-694, 742-754, 842-889) and statistics (main.cpp 90-183).
    A ROOT directory is a list of named objects, the newest first; [Get<T>] finds the newest object of the name and gives a
    null pointer if there is none or if it is not of class [T]. Values of doubles are extended reals. *)
From Coq Require Import String Ascii Reals ZArith List Bool.
From Flocq Require Import Core.
From Verif Require Import ExtModel ParamModel ParamTextModel.
Import ListNotations.
Local Open Scope list_scope.

(** The classes used: TParameter<double>, TParameter<int>, TParameter<long>, TParameter<bool>, TArrayI, TArrayD,
    TObjString. Other classes (trees, TArrayC) are never looked up here by their contents: [OOther]. *)
Inductive robj := ODouble (d : ext) | OInt (n : Z) | OLong (n : Z) | OBool (b : bool) | OArrayI (l : list Z)
  | OArrayD (l : list ext) | OString (s : string) | OOther.
Definition rdir := list (string * robj).
Fixpoint get_obj (d : rdir) (name : string) : option robj :=
  match d with [] => None | (n, o) :: d' => if String.eqb n name then Some o else get_obj d' name end.

(** std::string::c_str() used as a zero-terminated string, by TObjString (params_format.cpp 855-857). *)
Fixpoint c_str (s : string) : string :=
  match s with
  | EmptyString => EmptyString
  | String c s' => if Ascii.eqb c zero then EmptyString else String c (c_str s')
  end.
(** static_cast<int> of an enumerator: its position (params.hpp enum RcMethod in utility.hpp; particle.hpp 16-40). *)
Definition rc_int (m : rc_method) : Z := match m with RcNone => 0 | RcApprox => 1 | RcExact => 2 end.
Definition nucleus_int (m : nucleus) : Z := match m with NucP => 0 | NucN => 1 | NucD => 2 end.
Definition lepton_int (m : lepton) : Z := match m with LepE => 0 | LepMu => 1 | LepTau => 2 end.
Definition hadron_int (m : hadron) : Z :=
  match m with HadPi0 => 0 | HadPiP => 1 | HadPiM => 2 | HadK0 => 3 | HadKP => 4 | HadKM => 5 end.
(** Type::convert_to_root_base. RootArrayI(n, vals) and RootArrayD(n, vals) copy the first n numbers. *)
Definition to_root (v : evalue) : robj :=
  match v with
  | VVersion major minor => OArrayI [major; minor]
  | VDouble d => ODouble d
  | VInt n => OInt n
  | VLong n => OLong n
  | VBool b => OBool b
  | VString s => OString (c_str s)
  | VSeedGen l => OArrayI l
  | VRcMethod m => OInt (rc_int m)
  | VNucleus m => OInt (nucleus_int m)
  | VLepton m => OInt (lepton_int m)
  | VHadron m => OInt (hadron_int m)
  | VVec3 x y z => OArrayD [x; y; z]
  | VBound lo hi => OArrayD [lo; hi]
  end.
(** What reading one parameter can give. [RUnnamed]: static_cast of a number that is the position of no enumerator that
    parameters know (the cast is defined, the result is not one of the values of this model). *)
Inductive rread := RAbsent | RValue (v : evalue) | RThrow | RUnnamed.
Definition named {A} (f : A -> evalue) (o : option A) : rread := match o with Some a => RValue (f a) | None => RUnnamed end.
Definition rc_of (n : Z) : option rc_method :=
  match n with 0 => Some RcNone | 1 => Some RcApprox | 2 => Some RcExact | _ => None end%Z.
Definition nucleus_of (n : Z) : option nucleus := match n with 0 => Some NucP | 1 => Some NucN | 2 => Some NucD | _ => None end%Z.
Definition lepton_of (n : Z) : option lepton := match n with 0 => Some LepE | 1 => Some LepMu | 2 => Some LepTau | _ => None end%Z.
Definition hadron_of (n : Z) : option hadron :=
  match n with 0 => Some HadPi0 | 1 => Some HadPiP | 2 => Some HadPiM | 3 => Some HadK0 | 4 => Some HadKP | 5 => Some HadKM
  | _ => None end%Z.
(** params_format.hpp 140-147 with Type::convert_from_root_base *)
Definition from_root (t : vtype) (o : option robj) : rread :=
  match t, o with
  | TVersion, Some (OArrayI [major; minor]) => RValue (VVersion major minor)
  | TVersion, Some (OArrayI _) => RThrow
  | TDouble, Some (ODouble d) => RValue (VDouble d)
  | TInt, Some (OInt n) => RValue (VInt n)
  | TLong, Some (OLong n) => RValue (VLong n)
  | TBool, Some (OBool b) => RValue (VBool b)
  | TString, Some (OString s) => RValue (VString s)
  | TSeedGen, Some (OArrayI l) => RValue (VSeedGen (fold_left (fun s n => insert n s) l [])) (* 869-875 *)
  | TRcMethod, Some (OInt n) => named VRcMethod (rc_of n)
  | TNucleus, Some (OInt n) => named VNucleus (nucleus_of n)
  | TLepton, Some (OInt n) => named VLepton (lepton_of n)
  | THadron, Some (OInt n) => named VHadron (hadron_of n)
  | TVec3, Some (OArrayD [x; y; z]) => RValue (VVec3 x y z)
  | TVec3, Some (OArrayD _) => RThrow
  | TBound, Some (OArrayD [lo; hi]) => if eleb lo hi then RValue (VBound lo hi) else RThrow
  | TBound, Some (OArrayD _) => RThrow
  | _, _ => RAbsent
  end.

(** params.cpp 263-283. [disk name] tells whether the object can be written; a throw leaves what was written before. *)
Fixpoint write_params (disk : string -> bool) (ps : eparams) (d : rdir) : bool * rdir :=
  match ps with
  | [] => (true, d)
  | (name, p) :: ps' =>
    match p_value p with
    | None => write_params disk ps' d
    | Some v => if disk name then write_params disk ps' ((name, to_root v) :: d) else (false, d)
    end
  end.
(** params.cpp 244-261 *)
Inductive pread := PRead (ps : eparams) | PThrow | PUnnamed.
Fixpoint read_params (ps : eparams) (d : rdir) : pread :=
  match ps with
  | [] => PRead []
  | (name, p) :: ps' =>
    let next v := match read_params ps' d with PRead r => PRead ((name, with_value p v) :: r) | e => e end in
    match from_root (p_type p) (get_obj d name) with
    | RAbsent => next None
    | RValue v => next (Some v)
    | RThrow => PThrow
    | RUnnamed => PUnnamed
    end
  end.

(** * Statistics *)
(** bubble::Stats (external): four ratios of moments to powers of the largest weight, the largest weight, the count; its
    constructor takes what its getters ratio_m1_to_max1 ... return. *)
Record wstats := WStats { w_m1 : ext; w_m2 : ext; w_m3 : ext; w_m4 : ext; w_max : ext; w_count : Z }.
(** utility.hpp 107-121: Integrator and its constructor. Counts are std::size_t. *)
Record ginteg := GInteg { g_prime_inv : ext; g_count : Z; g_count_acc : Z; g_weights : wstats }.
Definition ginteg_of (prime_inv : ext) (count_acc : Z) (w : wstats) : ginteg := GInteg prime_inv (w_count w) count_acc w.
(** Doubles: rounding of finite results to nearest even. A reciprocal that overflows is infinite. *)
Definition rnd (x : R) : R := round radix2 (FLT_exp (-1074) 53) ZnearestE x.
Definition recip (x : ext) : ext :=
  match x with
  | Fin r => if reqb r 0 then PInf
             else let y := rnd (1 / r) in if rltb (Rabs y) (bpow radix2 1024) then Fin y else if rltb 0 r then PInf else NInf
  | PInf | NInf => Fin 0
  | NaN => NaN
  end.
(** std::size_t to double, and double to std::size_t: truncation, undefined ([None]) outside the range. *)
Definition to_double (n : Z) : ext := Fin (rnd (IZR n)).
Definition to_size (x : ext) : option Z :=
  match x with
  | Fin r => let n := Ztrunc r in if (0 <=? n)%Z && (n <? 2 ^ 64)%Z then Some n else None
  | _ => None
  end.
(** utility.hpp 149-165 *)
Definition g_prime (a : ginteg) : ext := recip (g_prime_inv a).
Definition g_norm (a : ginteg) : ext :=
  match g_prime_inv a with Fin r => Fin (rnd (rnd (IZR (g_count a)) * r)) | x => emul (Fin (IZR (g_count a))) x end.

(** main.cpp 90-136: the six arrays. Entry 0 is the total (passed in), the others are the event types in order. *)
Definition moments (w : wstats) : list ext := [w_m1 w; w_m2 w; w_m3 w; w_m4 w].
Local Open Scope string_scope.
Definition write_integs (total : ginteg) (map_ : list ginteg) : rdir :=
  let all := total :: map_ in
  [("prime", OArrayD (map g_prime all));
   ("weight_mom", OArrayD (flat_map (fun a => moments (g_weights a)) all));
   ("weight_max", OArrayD (map (fun a => w_max (g_weights a)) all));
   ("num_events", OArrayD (map (fun a => to_double (g_count a)) all));
   ("num_events_acc", OArrayD (map (fun a => to_double (g_count_acc a)) all));
   ("norm", OArrayD (map g_norm all))].
(** main.cpp 138-183. [NUM_EVENT_TYPES] is 2. *)
Definition num_event_types : nat := 2.
Inductive sread := SRead (l : list ginteg) | SThrow | SUndefined.
Definition get_array (d : rdir) (name : string) (size : nat) : option (list ext) :=
  match get_obj d name with Some (OArrayD l) => if Nat.eqb (length l) size then Some l else None | _ => None end.
(** main.cpp 165-180, one round of the loop; [None]: undefined (an index or a conversion out of range). *)
Definition read_integ (prime mom max count count_acc : list ext) (i : nat) : option ginteg :=
  match nth_error mom (4 * i + 0), nth_error mom (4 * i + 1), nth_error mom (4 * i + 2), nth_error mom (4 * i + 3) with
  | Some m1, Some m2, Some m3, Some m4 =>
    match nth_error max i, nth_error count i, nth_error prime i, nth_error count_acc i with
    | Some mx, Some n, Some p, Some a =>
      match to_size n, to_size a with
      | Some n, Some a => Some (ginteg_of (recip p) a (WStats m1 m2 m3 m4 mx n))
      | _, _ => None
      end
    | _, _, _, _ => None
    end
  | _, _, _, _ => None
  end.
Fixpoint all_some {A} (l : list (option A)) : option (list A) :=
  match l with
  | [] => Some []
  | Some a :: l' => match all_some l' with Some r => Some (a :: r) | None => None end
  | None :: _ => None
  end.
Definition read_integs (d : rdir) : sread :=
  let n := S num_event_types in
  match get_array d "prime" n, get_array d "weight_mom" (4 * n), get_array d "weight_max" n with
  | Some prime, Some mom, Some max =>
    match get_array d "num_events" n, get_array d "num_events_acc" n, get_array d "norm" n with
    | Some count, Some count_acc, Some _ =>
      match all_some (map (read_integ prime mom max count count_acc) (seq 1 num_event_types)) with
      | Some l => SRead l
      | None => SUndefined
      end
    | _, _, _ => SThrow
    end
  | _, _, _ => SThrow
  end.
