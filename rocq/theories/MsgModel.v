(** Model of the texts shown to the user: the messages of the exceptions (src/exception.cpp, particle.hpp 157-208),
    and the statistics printed by app/sidisgen/main.cpp (185-207) to a stream with formatting state. Numbers are
    formatted exactly (as by the C library, to nearest with ties to even); the sign of a zero is not modelled, and
    integers are printed in base ten. *)
From Coq Require Import String Ascii Reals ZArith List Bool.
From Flocq Require Import Core.
From Verif Require Import ExtModel TextModel ParticleModel StatModel.
Import ListNotations.
Local Open Scope list_scope.
Local Open Scope Z_scope.

(** The last [p] decimal digits of [n]. *)
Fixpoint digits_width (p : nat) (n : Z) : text :=
  match p with O => [] | S p => digits_width p (n / 10) ++ [digit (n mod 10)] end.
(** printf("%.*f") *)
Definition put_fixed (p : nat) (x : ext) : text :=
  match x with
  | NaN => str "nan" | PInf => str "inf" | NInf => str "-inf"
  | Fin r =>
    let n := ZnearestE (Rabs r * bpow radix10 (Z.of_nat p)) in
    (if rltb r 0 then ["-"%char] else [])
      ++ with_point (digits (n / 10 ^ Z.of_nat p)) (digits_width p (n mod 10 ^ Z.of_nat p))
  end.
(** printf("%.*e") *)
Definition put_sci (p : nat) (x : ext) : text :=
  match x with
  | NaN => str "nan" | PInf => str "inf" | NInf => str "-inf"
  | Fin r =>
    let (n, e) := if reqb r 0 then (0, 0) else decimal (S p) (Rabs r) in
    let ds := digits_width (S p) n in
    (if rltb r 0 then ["-"%char] else [])
      ++ with_point (firstn 1 ds) (skipn 1 ds) ++ "e"%char :: (if e <? 0 then "-"%char else "+"%char)
      :: (if Z.abs e <? 10 then ["0"%char] else []) ++ digits (Z.abs e)
  end.
(** std::to_string(double), std::to_string(unsigned) *)
Definition to_string (x : ext) : text := put_fixed 6 x.
Definition to_string_unsigned (n : Z) : text := put_int n.

(** particle.hpp 161-208: part::name, as UTF-8 bytes *)
Definition name_lepton (l : lepton) : text :=
  str match l with E_ => "e" | MU => "μ" | TAU => "τ" | MASSLESS_E => "e" end.
Definition name_nucleus (n : nucleus) : text := str match n with P_ => "p" | N_ => "n" | D_ => "d" end.
Definition name_hadron (h : hadron) : text :=
  str match h with
      | PI_0 => "π⁰" | PI_P => "π⁺" | PI_M => "π⁻" | K_0 => "K⁰" | K_P => "K⁺" | K_M => "K⁻" | PHI => "φ" | J_PSI => "J/ψ"
      end.

(** exception.cpp 3-57: the string kept by each exception and returned by what(). *)
Definition what_mass_threshold (Mth Mth_min Mth_max : ext) : text :=
  str "Mass threshold " ++ to_string Mth ++ str " GeV is not within valid kinematic range " ++ to_string Mth_min
  ++ str " GeV to " ++ to_string Mth_max ++ str " GeV".
Definition what_com_energy (E_b E_b_min : ext) : text :=
  str "Beam energy " ++ to_string E_b ++ str " GeV is not above threshold " ++ to_string E_b_min ++ str " GeV".
Definition what_target_mismatch (target expected : nucleus) : text :=
  str "Target nucleus '" ++ name_nucleus target ++ str "' is not the same as expected nucleus '"
  ++ name_nucleus expected ++ str "'".
Definition what_flavor (flavor : Z) : text :=
  str "Flavor index " ++ to_string_unsigned flavor ++ str " is out of range for TMD".
Definition what_hadron (h : hadron) : text := str "Hadron '" ++ name_hadron h ++ str "' is not supported by FF".
Definition what_not_found (file_name : text) : text := str "Could not open data file '" ++ file_name ++ str "'".
Definition what_parse_error (file_name : text) : text := str "Could not parse data file '" ++ file_name ++ str "'".

(** A std::ostream as far as numbers are concerned: std::ios_base::floatfield and precision(). *)
Inductive floatfield := FDefault | FFixed | FScientific.
Record ostate := OState { o_field : floatfield; o_prec : nat }.
(** A stream just made; [std::cout] at the start of the program. *)
Definition fresh : ostate := OState FDefault 6.
(** operator<<(double) *)
Definition put (st : ostate) (x : ext) : text :=
  match o_field st with
  | FDefault => put_double (Nat.max 1 (o_prec st)) x
  | FFixed => put_fixed (o_prec st) x
  | FScientific => put_sci (o_prec st) x
  end.
(** What is sent to a stream: text, a double, an integer, std::fixed and std::scientific, std::setprecision. *)
Inductive item := Txt (t : text) | Num (x : ext) | Int (n : Z) | Field (f : floatfield) | Prec (p : nat).
Definition send (st : ostate) (i : item) : text * ostate :=
  match i with
  | Txt t => (t, st)
  | Num x => (put st x, st)
  | Int n => (put_int n, st)
  | Field f => ([], OState f (o_prec st))
  | Prec p => ([], OState (o_field st) p)
  end.
Fixpoint send_all (st : ostate) (l : list item) : text * ostate :=
  match l with
  | [] => ([], st)
  | i :: l => let (a, st) := send st i in let (b, st) := send_all st l in (a ++ b, st)
  end.
Definition endl : item := Txt [newline].
Definition tab : text := [Ascii.ascii_of_nat 9].

(** What an Integrator says about itself (utility.hpp 149-190); the numbers come from bubble::Stats. *)
Record said := Said {
  s_count_acc : Z; s_xs : ext; s_xs_err : ext; s_prime : ext; s_norm : ext; s_acc : ext; s_rel_var : ext; s_rel_var_err : ext }.
(** main.cpp 51 *)
Definition OUTPUT_STATS_PRECISION : nat := 3.
(** main.cpp 190; an argument of log1p below minus one gives no number. *)
Definition eff (rel_var : ext) : ext :=
  match rel_var with
  | Fin v => if rltb (-1) v then Fin (shown_eff v) else if reqb v (-1) then PInf else NaN
  | PInf => Fin 0
  | _ => NaN
  end.
(** main.cpp 185-207 *)
Definition stream_write_integ (header : text) (s : said) (st : ostate) : text * ostate :=
  let flags := o_field st in
  send_all st
    ([Field FScientific; Prec OUTPUT_STATS_PRECISION;
      Txt tab; Txt header; endl;
      Txt (tab ++ tab ++ str "count:         "); Int (s_count_acc s); endl;
      Txt (tab ++ tab ++ str "cross-section: "); Num (s_xs s); Txt (str " ± "); Num (s_xs_err s); endl;
      Txt (tab ++ tab ++ str "prime:         "); Num (s_prime s); endl;
      Txt (tab ++ tab ++ str "norm:          "); Num (s_norm s); endl;
      Field FFixed; Prec 1;
      Txt (tab ++ tab ++ str "acceptance:    "); Num (emul (Fin 100) (s_acc s)); Txt (str "%"); endl;
      Field FScientific; Prec OUTPUT_STATS_PRECISION;
      Txt (tab ++ tab ++ str "rel. variance: "); Num (s_rel_var s); Txt (str " ± "); Num (s_rel_var_err s); endl;
      Field FFixed; Prec 1;
      Txt (tab ++ tab ++ str "efficiency:    "); Num (emul (Fin 100) (eff (s_rel_var s))); Txt (str "%"); endl]
     ++ [Field flags]).
(** main.cpp 456-459, 509-512, 668-671: the parameters, with std::numeric_limits<double>::digits10 + 1 digits. The
    parameters are given by what their write_stream sends, which changes neither flags nor precision. *)
Inductive plain := PTxt (t : text) | PNum (x : ext) | PInt (n : Z).
Definition plain_item (p : plain) : item := match p with PTxt t => Txt t | PNum x => Num x | PInt n => Int n end.
Definition show_params (ps : list plain) (st : ostate) : text * ostate :=
  let flags := o_field st in send_all st (Prec 16 :: map plain_item ps ++ [Field flags]).
(** main.cpp 599-602 *)
Definition show_prime (ev_name : text) (prime : ext) (st : ostate) : text * ostate :=
  let flags := o_field st in
  send_all st [Field FScientific; Prec OUTPUT_STATS_PRECISION;
    Txt (str "Finished " ++ ev_name ++ str " generator with prime "); Num prime; Txt (str "."); endl; Field flags].
(** The outputs of a run of the program, in the order made. *)
Inductive shown := ShowParams (ps : list plain) | ShowPrime (ev_name : text) (prime : ext) | ShowStats (header : text) (s : said) | ShowText (t : text).
Definition show (x : shown) (st : ostate) : text * ostate :=
  match x with
  | ShowParams ps => show_params ps st
  | ShowPrime n p => show_prime n p st
  | ShowStats h s => stream_write_integ h s st
  | ShowText t => send_all st [Txt t]
  end.
Fixpoint show_all (l : list shown) (st : ostate) : text * ostate :=
  match l with
  | [] => ([], st)
  | x :: l => let (a, st) := show x st in let (b, st) := show_all l st in (a ++ b, st)
  end.
