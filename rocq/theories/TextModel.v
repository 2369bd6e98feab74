(** Model of the parts of the C++ standard streams that app/sidisgen/params.cpp and params_format.cpp use ("C" locale,
    default flags): a stream over a text with its eof and fail bits, extraction of words, lines, characters, integers and
    doubles, and insertion of integers and doubles.
    Simplifications: a double is an extended real (zero has no sign, nan has no sign); characters above 127 are not
    whitespace (std::isspace on a negative char is undefined by the standard, false in practice). *)
From Coq Require Import String Ascii Reals ZArith List Bool.
From Flocq Require Import Core.
From Verif Require Import ExtModel.
Import ListNotations.
Local Open Scope list_scope.
Local Open Scope Z_scope.

Definition text := list ascii.
Definition str (s : string) : text := list_ascii_of_string s.
Definition unstr (t : text) : string := string_of_list_ascii t.
Definition is_space (c : ascii) : bool :=
  let n := nat_of_ascii c in ((9 <=? n) && (n <=? 13) || (n =? 32))%nat.
Fixpoint drop_space (t : text) : text := match t with c :: t' => if is_space c then drop_space t' else t | [] => [] end.
(** Longest prefix whose characters satisfy [p], and the rest. *)
Fixpoint span (p : ascii -> bool) (t : text) : text * text :=
  match t with
  | c :: t' => if p c then let (a, b) := span p t' in (c :: a, b) else ([], t)
  | [] => ([], [])
  end.

(** std::istream: what is left, eofbit, failbit. *)
Record stream := Stream { rest : text; eof : bool; fail : bool }.
Definition open (t : text) : stream := Stream t false false.
Definition good (s : stream) : bool := negb (eof s) && negb (fail s).
Definition set_fail (s : stream) : stream := Stream (rest s) (eof s) true.
(** istream::sentry; [skip]: skip whitespace. *)
Definition sentry (skip : bool) (s : stream) : bool * stream :=
  if good s then
    if skip then match drop_space (rest s) with [] => (false, Stream [] true true) | t => (true, Stream t false false) end
    else (true, s)
  else (false, set_fail s).
Definition at_end (t : text) : bool := match t with [] => true | _ => false end.
(** operator>>(std::string&) *)
Definition get_word (s : stream) : text * stream :=
  match sentry true s with
  | (true, s) => let (w, r) := span (fun c => negb (is_space c)) (rest s) in (w, Stream r (at_end r) false)
  | (false, s) => ([], s)
  end.
Definition newline : ascii := Ascii.ascii_of_nat 10.
(** std::getline *)
Definition get_line (s : stream) : text * stream :=
  match sentry false s with
  | (true, s) =>
    match span (fun c => negb (Ascii.eqb c newline)) (rest s) with
    | (l, _ :: r) => (l, Stream r false false)
    | (l, []) => (l, Stream [] true (at_end l))
    end
  | (false, s) => ([], s)
  end.
(** operator>>(char&); [None]: the variable is not written. *)
Definition get_char (s : stream) : option ascii * stream :=
  match sentry true s with
  | (true, Stream (c :: r) _ _) => (Some c, Stream r false false)
  | (_, s) => (None, s)
  end.
Definition is_digit (c : ascii) : bool := let n := nat_of_ascii c in ((48 <=? n) && (n <=? 57))%nat.
Definition digit_val (c : ascii) : Z := Z.of_nat (nat_of_ascii c) - 48.
Definition number_of (ds : text) : Z := fold_left (fun a c => 10 * a + digit_val c) ds 0.
(** Optional sign. *)
Definition sign_of (t : text) : bool * text :=
  match t with
  | c :: t' => if Ascii.eqb c "-" then (true, t') else if Ascii.eqb c "+" then (false, t') else (false, t)
  | [] => (false, [])
  end.
(** operator>>(int&), operator>>(long&): values outside of [lo, hi] set failbit. A variable that is not written (the
    stream was not good) is given the value 0 here; failbit is set in that case. *)
Definition get_int (lo hi : Z) (s : stream) : Z * stream :=
  match sentry true s with
  | (true, s) =>
    let (neg, t) := sign_of (rest s) in
    let (ds, r) := span is_digit t in
    match ds with
    | [] => (0, Stream r (at_end r) true)
    | _ =>
      let v := if neg then - number_of ds else number_of ds in
      if v <? lo then (lo, Stream r (at_end r) true) else if hi <? v then (hi, Stream r (at_end r) true)
      else (v, Stream r (at_end r) false)
    end
  | (false, s) => (0, s)
  end.
Definition int_min := - 2 ^ 31. Definition int_max := 2 ^ 31 - 1.
Definition long_min := - 2 ^ 63. Definition long_max := 2 ^ 63 - 1.

(** Doubles. Nearest double, ties to even. *)
Definition RN (x : R) : R := round radix2 (FLT_exp (-1074) 53) ZnearestE x.
Definition radix10 : radix := Build_radix 10 eq_refl.
(** operator>>(double&): sign, digits, point, digits, exponent; no infinity or nan. [None]: not a number. *)
Definition scan_double (t : text) : option R * text :=
  let (neg, t) := sign_of t in
  let (ip, t) := span is_digit t in
  let (fp, t) := match t with c :: t' => if Ascii.eqb c "." then span is_digit t' else ([], t) | [] => ([], t) end in
  let m := number_of (ip ++ fp) in
  let e0 := - Z.of_nat (length fp) in
  let s := if neg then - m else m in
  match ip ++ fp with
  | [] => (None, t)
  | _ =>
    match t with
    | c :: t' =>
      if Ascii.eqb c "e" || Ascii.eqb c "E" then
        let (eneg, t') := sign_of t' in
        match span is_digit t' with
        | ([], r) => (None, r)
        | (es, r) => (Some (IZR s * bpow radix10 (e0 + (if eneg then - number_of es else number_of es)))%R, r)
        end
      else (Some (IZR s * bpow radix10 e0)%R, t)
    | [] => (Some (IZR s * bpow radix10 e0)%R, t)
    end
  end.
Definition get_double (s : stream) : ext * stream :=
  match sentry true s with
  | (true, s) =>
    match scan_double (rest s) with
    | (None, r) => (Fin 0, Stream r (at_end r) true)
    | (Some x, r) =>
      if rltb (Rabs (RN x)) (bpow radix2 1024) then (Fin (RN x), Stream r (at_end r) false)
      else (if rltb x 0 then NInf else PInf, Stream r (at_end r) true)
    end
  | (false, s) => (Fin 0, s)
  end.

(** operator<<(int), operator<<(long) *)
Definition digit (d : Z) : ascii := Ascii.ascii_of_nat (48 + Z.to_nat d).
Fixpoint digits_aux (fuel : nat) (n : Z) (acc : text) : text :=
  let acc := digit (n mod 10) :: acc in
  match fuel with O => acc | S f => if n <? 10 then acc else digits_aux f (n / 10) acc end.
Definition digits (n : Z) : text := digits_aux (Z.to_nat (Z.log2 n)) n [].
Definition put_int (n : Z) : text := if n <? 0 then "-"%char :: digits (- n) else digits n.
(** operator<<(double) with precision [p] >= 1: printf("%.*g"). *)
Fixpoint drop_zeros (t : text) : text := match t with c :: t' => if Ascii.eqb c "0" then drop_zeros t' else t | [] => [] end.
Definition strip_zeros (t : text) : text := rev (drop_zeros (rev t)).
Definition with_point (ip fp : text) : text := match fp with [] => ip | _ => ip ++ "."%char :: fp end.
(** The decimal n * 10^(x-p+1) with 10^(p-1) <= n < 10^p *)
Definition format (p : nat) (n x : Z) : text :=
  let ds := digits n in
  if (-4 <=? x) && (x <? Z.of_nat p) then
    if 0 <=? x then
      with_point (firstn (Z.to_nat (x + 1)) ds) (strip_zeros (skipn (Z.to_nat (x + 1)) ds))
    else with_point ["0"%char] (repeat "0"%char (Z.to_nat (- x - 1)) ++ strip_zeros ds)
  else
    with_point (firstn 1 ds) (strip_zeros (skipn 1 ds)) ++ "e"%char :: (if x <? 0 then "-"%char else "+"%char)
      :: (if Z.abs x <? 10 then ["0"%char] else []) ++ digits (Z.abs x).
(** Rounding to p significant decimals: mantissa and exponent. *)
Definition decimal (p : nat) (a : R) : Z * Z :=
  let x := (mag radix10 a - 1)%Z in
  let n := ZnearestE (a * bpow radix10 (Z.of_nat p - 1 - x)) in
  if n =? 10 ^ Z.of_nat p then (10 ^ (Z.of_nat p - 1), x + 1) else (n, x).
Definition put_double (p : nat) (x : ext) : text :=
  match x with
  | NaN => str "nan" | PInf => str "inf" | NInf => str "-inf"
  | Fin r =>
    if reqb r 0 then str "0"
    else let (n, e) := decimal p (Rabs r) in (if rltb r 0 then ["-"%char] else []) ++ format p n e
  end.
