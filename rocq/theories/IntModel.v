(** Model of the integer helper [prod_div] and of the progress loop of the event generator.

    Machine integers are [Z] together with an integer type (signedness and width).
    Undefined behaviour is a distinct outcome. *)
From Coq Require Import ZArith Bool.
Local Open Scope Z_scope.

(** Integer type of the C++ template parameter [T] (src/math.cpp 152-170: int, long, long long and the
    unsigned counterparts). *)
Record ity := { signed : bool; width : Z }.

(** [std::numeric_limits<T>::max()] *)
Definition imax (t : ity) : Z := if signed t then 2 ^ (width t - 1) - 1 else 2 ^ width t - 1.
(** [std::numeric_limits<T>::min()] *)
Definition imin (t : ity) : Z := if signed t then - 2 ^ (width t - 1) else 0.
Definition in_range (t : ity) (v : Z) : bool := (imin t <=? v) && (v <=? imax t).

Definition int32 : ity := {| signed := true; width := 32 |}.
Definition int64 : ity := {| signed := true; width := 64 |}.
Definition uint32 : ity := {| signed := false; width := 32 |}.
Definition uint64 : ity := {| signed := false; width := 64 |}.

Inductive ub := DivByZero | Overflow.
Inductive res (A : Type) := Ok (a : A) | UB (u : ub).
Arguments Ok {A} a.
Arguments UB {A} u.
Definition bind {A B} (r : res A) (f : A -> res B) : res B :=
  match r with Ok a => f a | UB u => UB u end.
Notation "'let!' x ':=' e 'in' k" := (bind e (fun x => k)) (at level 200, x name, e at level 100, k at level 200).

(** Result of an arithmetic operation whose mathematical value is [v]: signed overflow is undefined,
    unsigned arithmetic is modulo 2^width. *)
Definition fit (t : ity) (v : Z) : res Z :=
  if signed t then (if in_range t v then Ok v else UB Overflow)
  else Ok (v mod 2 ^ width t).

Definition iadd (t : ity) (a b : Z) : res Z := fit t (a + b).
Definition imul (t : ity) (a b : Z) : res Z := fit t (a * b).
Definition ineg (t : ity) (a : Z) : res Z := fit t (- a).
(** C++ [/] and [%] truncate toward zero; both are undefined if the divisor is zero or the quotient is
    not representable. *)
Definition idiv (t : ity) (a b : Z) : res Z :=
  if b =? 0 then UB DivByZero else fit t (Z.quot a b).
Definition imod (t : ity) (a b : Z) : res Z :=
  if b =? 0 then UB DivByZero else
  if signed t && negb (in_range t (Z.quot a b)) then UB Overflow else Ok (Z.rem a b).

(** src/math.cpp 118-125, the scaling loop, with the number of remaining iterations as fuel
    ([k_p] runs from [k_0] to [k - 1]). *)
Fixpoint prod_div_loop (t : ity) (K : Z) (fuel : nat) (k_p quot rem : Z) : res (Z * Z) :=
  match fuel with
  | O => Ok (quot, rem)
  | S fuel' =>
      let! quot_p := idiv t quot k_p in
      let! rem_p := imod t quot k_p in
      let! k_p1 := iadd t k_p 1 in
      let! a := imul t rem k_p1 in
      let! b := imul t rem_p K in
      let! prod_num := iadd t a b in
      let! prod := idiv t prod_num k_p in
      let! c := idiv t prod K in
      let! d := iadd t quot_p c in
      let! quot' := iadd t quot d in
      let! rem' := imod t prod K in
      prod_div_loop t K fuel' k_p1 quot' rem'
  end.

(** src/math.cpp 99-128.  Returns (quotient, remainder). *)
Definition prod_div (t : ity) (N k K : Z) : res (Z * Z) :=
  let! Nk := (if k <? 0 then
                let! N' := ineg t N in
                let! k' := ineg t k in Ok (N', k')
              else Ok (N, k)) in
  let (N, k) := (Nk : Z * Z) in
  let N_max := if N >=? 0 then imax t else imin t in
  let! lim := idiv t N_max N in
  if k <? lim then
    let! p := imul t k N in
    let! rem := imod t p K in
    let! q := idiv t p K in
    Ok (q, rem)
  else
    let k_0 := lim in
    let! p := imul t N k_0 in
    let! quot := idiv t p K in
    let! rem := imod t p K in
    prod_div_loop t K (Z.to_nat (k - k_0)) k_0 quot rem.

(** ** Progress loop, app/sidisgen/main.cpp 888-899. *)

(** Loop state carried between events: (percent, next_percent, next_percent_rem). *)
Definition progress_state : Type := Z * Z * Z.

(** main.cpp 888-890 *)
Definition progress_init (num_events : Z) : progress_state :=
  (0, Z.quot num_events 100, Z.rem num_events 100).

(** main.cpp 893-897: the [while] loop run before event [event_idx].  [None] means the fuel ran out
    (excluded by the theorems); undefined behaviour in [prod_div] is passed on. *)
Fixpoint progress_while (fuel : nat) (num_events event_idx : Z) (s : progress_state)
  : option (res progress_state) :=
  match s with
  | (percent, next_percent, next_rem) =>
      if event_idx >=? next_percent + (if next_rem =? 0 then 0 else 1) then
        match fuel with
        | O => None
        | S fuel' =>
            let percent := percent + 1 in
            match prod_div int64 num_events (percent + 1) 100 with
            | UB u => Some (UB u)
            | Ok (np, nr) => progress_while fuel' num_events event_idx (percent, np, nr)
            end
        end
      else Some (Ok s)
  end.

(** main.cpp 891-904: the state after the while loop of events 0, 1, ..., [n].  At most 100 iterations
    of the inner loop are ever needed. *)
Fixpoint progress_run (num_events : Z) (n : nat) : option (res progress_state) :=
  match n with
  | O => progress_while 101 num_events 0 (progress_init num_events)
  | S n' =>
      match progress_run num_events n' with
      | Some (Ok s) => progress_while 101 num_events (Z.of_nat n) s
      | r => r
      end
  end.
