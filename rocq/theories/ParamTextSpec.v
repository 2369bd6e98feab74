(** Specification of parameter files: how a file is made of lines, a line of blanks, a key, a value and a comment; and which
    values survive being written and read. Stated by concatenation, without any parsing function. *)
From Coq Require Import String Ascii Reals ZArith List Bool.
From Flocq Require Import Core.
From Verif Require Import ExtModel TextModel ParamModel.
Import ListNotations.
Local Open Scope list_scope.

Definition blanks : text := map ascii_of_nat [9; 10; 11; 12; 13; 32]%nat.
Definition blank (c : ascii) : Prop := In c blanks.
Definition all_blank (t : text) : Prop := Forall blank t.
(** Neither blank nor the beginning of a comment. *)
Definition solid (c : ascii) : Prop := ~ blank c /\ c <> "#"%char.
Definition word (t : text) : Prop := t <> [] /\ Forall solid t.
(** No comment, no blank at either end. *)
Definition tidy (t : text) : Prop :=
  ~ In "#"%char t /\ (forall c t', t = c :: t' -> ~ blank c) /\ (forall c t', t = t' ++ [c] -> ~ blank c).
Definition comment (t : text) : Prop := t = [] \/ exists t', t = "#"%char :: t'.

Fixpoint join (ls : list text) : text :=
  match ls with [] => [] | [l] => l | l :: ls' => l ++ newline :: join ls' end.
Definition line (l : text) : Prop := ~ In newline l.
(** What one line says. *)
Inductive says : text -> option (text * text) -> Prop :=
| says_nothing a c : all_blank a -> comment c -> says (a ++ c) None
| says_key a k b c : all_blank a -> word k -> all_blank b -> comment c -> says (a ++ k ++ b ++ c) (Some (k, []))
| says_value a k b v b' c : all_blank a -> word k -> all_blank b -> b <> [] -> tidy v -> v <> [] -> all_blank b' -> comment c ->
    says (a ++ k ++ b ++ v ++ b' ++ c) (Some (k, v)).
Inductive entries : list text -> list (text * text) -> Prop :=
| entries_nil : entries [] []
| entries_skip l ls es : line l -> says l None -> entries ls es -> entries (l :: ls) es
| entries_cons l ls kv es : line l -> says l (Some kv) -> entries ls es -> entries (l :: ls) (kv :: es).

(** Decimal digits and the numbers they denote. *)
Definition numeral (ds : text) : Prop := ds <> [] /\ Forall (fun c => In c (str "0123456789")) ds.
Fixpoint denotes (ds : text) : Z :=
  match ds with [] => 0%Z | c :: ds' => ((Z.of_nat (nat_of_ascii c) - 48) * 10 ^ Z.of_nat (length ds') + denotes ds')%Z end.
(** An optional sign and what it does. *)
Inductive signed : text -> Z -> Prop :=
| signed_none : signed [] 1
| signed_plus : signed (str "+") 1
| signed_minus : signed (str "-") (-1).

(** A parameter set as a std::map with names that are words. *)
Definition well_named (ps : params ext) : Prop := NoDup (map fst ps) /\ Forall (fun q => word (str (fst q))) ps.

(** Doubles that survive: zero, the double nearest to some decimal of at most [p] digits, unless it is a power of two
    different from that decimal, and every double from 17 digits on. *)
Definition short_decimal (p : nat) (x : R) : Prop :=
  exists n e : Z, (Z.abs n < 10 ^ Z.of_nat p)%Z /\ x = (IZR n * powerRZ 10 e)%R.
Definition power_of_two (x : R) : Prop := exists k : Z, Rabs x = powerRZ 2 k.
Definition nearest_double (x : R) : R := round radix2 (FLT_exp (-1074) 53) ZnearestE x.
Definition survives (p : nat) (d : ext) : Prop :=
  exists r, d = Fin r /\ (Rabs r < powerRZ 2 1024)%R /\
    (r = 0%R \/ (exists x, short_decimal p x /\ r = nearest_double x /\ (r = x \/ ~ power_of_two r)) \/ ((17 <= p)%nat /\ r = nearest_double r)).
Definition in_int (n : Z) : Prop := (- 2 ^ 31 <= n <= 2 ^ 31 - 1)%Z.
Definition in_long (n : Z) : Prop := (- 2 ^ 63 <= n <= 2 ^ 63 - 1)%Z.
Definition plain (p : nat) (v : value ext) : Prop :=
  match v with
  | VVersion a b => in_int a /\ in_int b
  | VDouble d => survives p d
  | VInt n => in_int n
  | VLong n => in_long n
  | VBool _ | VRcMethod _ | VNucleus _ | VLepton _ | VHadron _ => True
  | VString s => s <> EmptyString /\ tidy (str s) /\ ~ In newline (str s)
  | VSeedGen l => exists n, l = [n] /\ in_int n
  | VVec3 x y z => survives p x /\ survives p y /\ survives p z
  | VBound lo hi => survives p lo /\ survives p hi /\ eleb lo hi = true
  end.
(** The same parameters with the same types; the values may differ. *)
Definition same_shape (a b : params ext) : Prop :=
  map (fun q => (fst q, p_type (snd q))) a = map (fun q => (fst q, p_type (snd q))) b.
Definition well_typed (ps : params ext) : Prop :=
  Forall (fun q => forall v, p_value (snd q) = Some v -> vtype_of v = p_type (snd q)) ps.

(** The words of the enumerations. *)
Local Open Scope string_scope.
Definition spellings (t : vtype) : list (string * value ext) :=
  match t with
  | TBool => [("1", VBool true); ("on", VBool true); ("true", VBool true); ("yes", VBool true);
              ("0", VBool false); ("off", VBool false); ("false", VBool false); ("no", VBool false)]
  | TRcMethod => [("none", VRcMethod RcNone); ("approx", VRcMethod RcApprox); ("exact", VRcMethod RcExact)]
  | TNucleus => [("p", VNucleus NucP); ("proton", VNucleus NucP); ("n", VNucleus NucN); ("neutron", VNucleus NucN);
                 ("d", VNucleus NucD); ("deuteron", VNucleus NucD)]
  | TLepton => [("e", VLepton LepE); ("electron", VLepton LepE); ("mu", VLepton LepMu); ("muon", VLepton LepMu);
                ("tau", VLepton LepTau); ("tauon", VLepton LepTau)]
  | THadron => [("pi0", VHadron HadPi0); ("pion0", VHadron HadPi0); ("pi+", VHadron HadPiP); ("pion+", VHadron HadPiP);
                ("pi-", VHadron HadPiM); ("pion-", VHadron HadPiM); ("K0", VHadron HadK0); ("kaon0", VHadron HadK0);
                ("K+", VHadron HadKP); ("kaon+", VHadron HadKP); ("K-", VHadron HadKM); ("kaon-", VHadron HadKM)]
  | _ => []
  end.
Local Close Scope string_scope.
(** Decimal numbers: sign, digits, fraction, exponent, and the number they denote. *)
Definition fraction (fp : text) : text := match fp with [] => [] | _ => "."%char :: fp end.
Definition all_digits (t : text) : Prop := Forall (fun c => In c (str "0123456789")) t.
Inductive decimal_text : text -> R -> Prop :=
| decimal_fixed sg k ip fp : signed sg k -> numeral ip -> all_digits fp ->
    decimal_text (sg ++ ip ++ fraction fp) (IZR (k * denotes (ip ++ fp)) * powerRZ 10 (- Z.of_nat (length fp)))
| decimal_exp sg k ip fp sge ke es : signed sg k -> numeral ip -> all_digits fp -> signed sge ke -> numeral es ->
    decimal_text (sg ++ ip ++ fraction fp ++ "e"%char :: sge ++ es)
      (IZR (k * denotes (ip ++ fp)) * powerRZ 10 (ke * denotes es - Z.of_nat (length fp))).
Definition finite_double (x : R) : Prop := (Rabs (nearest_double x) < powerRZ 2 1024)%R.
Definition gap (b : text) : Prop := b <> [] /\ all_blank b.
(** Integers separated by blanks. *)
Inductive integers : text -> list Z -> Prop :=
| integers_one sg k ds : signed sg k -> numeral ds -> in_int (k * denotes ds) -> integers (sg ++ ds) [(k * denotes ds)%Z]
| integers_more sg k ds b t l : signed sg k -> numeral ds -> in_int (k * denotes ds) -> gap b -> integers t l ->
    integers (sg ++ ds ++ b ++ t) ((k * denotes ds)%Z :: l).
