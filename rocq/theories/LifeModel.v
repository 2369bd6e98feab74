(** Model of the storage of distributions: class Dist (app/sidisgen/generator.hpp 161-209, generator.ipp 8-224) and class
    Generator (generator.hpp 223-262, generator.cpp 223-351). A function is modelled by the events it causes on the engines
    inside of the unions (construction, destruction, use), in order, and by the flags and tags it leaves in memory.
    Simplifications: the two event types run the same code on unions of two sizes, so one is modelled; a type tag and a
    validity flag are plain memory that survives the destructor call of their object (formally, Dist::read and
    Generator::build_dist access members of an object whose destructor has been called); destructors and the move
    constructor of an engine do not throw; whether the result of build_dist_approx is built in place is a parameter. *)
From Coq Require Import List Bool Arith.
Import ListNotations.

(** generator.hpp 97-106 *)
Inductive kind := Uniform | Foam | Bubble | Vegas.
(** A place for an engine: the union of the generator number [a], or the local variable of build_dist_approx. *)
Inductive loc := Slot (a : nat) | Temp.
Inductive event := Construct (l : loc) (k : kind) | Destroy (l : loc) (k : kind) | Use (l : loc) (k : kind).
Record dist := Dist { tag : kind; valid : bool }.
Record gen := Gen { g_valid : bool; g_dist : dist }.

(** generator.ipp 60-84 *)
Definition dist_dtor (l : loc) (d : dist) : list event * dist :=
  if valid d then ([Destroy l (tag d)], Dist (tag d) false) else ([], d).
(** generator.ipp 34-58 *)
Definition dist_move (l from : loc) (d : dist) : list event * dist := ([Use from (tag d); Construct l (tag d)], Dist (tag d) true).
(** generator.ipp 86-152: draw, prime, write. Only the bubble engine is accessed. *)
Definition dist_use (l : loc) (d : dist) : list event := match tag d with Bubble => [Use l Bubble] | _ => [] end.

(** What a stream gives to read: no header or the wrong dimension; a tag that is none of the enumerators; a known tag, and
    then whether the constructor of the engine throws. *)
Inductive input := NoHeader | BadTag | Tag (k : kind) (ctor_throws : bool).
(** generator.ipp 154-198 *)
Definition dist_read (l : loc) (d : dist) (i : input) : list event * dist :=
  match i with
  | NoHeader => ([], d)
  | BadTag => dist_dtor l d
  | Tag k ctor_throws =>
    let (t, d) := dist_dtor l d in
    if ctor_throws then (t, Dist k false)
    else (t ++ Construct l k :: match k with Bubble => [Use l Bubble] | _ => [] end, Dist k true)
  end.
(** How a build goes: the constructor of the engine throws; exploring, tuning or making the generator throws; success. *)
Inductive course := CtorThrows | BuildThrows | Succeeds.
(** generator.ipp 8-32, 200-224; [l]: where the local variable lives. [None]: an exception. *)
Definition build_dist_approx (l : loc) (k : kind) (c : course) : list event * option dist :=
  match c with
  | CtorThrows => ([], None)
  | _ =>
    match k, c with
    | Uniform, _ => ([Construct l k], Some (Dist k true))
    | Bubble, Succeeds => ([Construct l k; Use l k], Some (Dist k true))
    | _, _ => ([Construct l k; Destroy l k], None)
    end
  end.

(** generator.cpp 223-240 *)
Definition gen_ctor (a : nat) : list event * gen := ([Construct (Slot a) Uniform], Gen true (Dist Uniform true)).
(** generator.cpp 242-259 *)
Definition gen_move (a from : nat) (g : gen) : list event * gen :=
  let (t, d) := dist_move (Slot a) (Slot from) (g_dist g) in (t, Gen true d).
(** generator.cpp 261-276 *)
Definition gen_dtor (a : nat) (g : gen) : list event := if g_valid g then fst (dist_dtor (Slot a) (g_dist g)) else [].
(** generator.cpp 278-309, 330-339 *)
Definition gen_use (a : nat) (g : gen) : list event := dist_use (Slot a) (g_dist g).
(** generator.cpp 311-328 *)
Definition gen_build (a : nat) (in_place : bool) (k : kind) (c : course) (g : gen) : list event * gen :=
  let (t, d) := dist_dtor (Slot a) (g_dist g) in
  let (t', r) := build_dist_approx (if in_place then Slot a else Temp) k c in
  match r with
  | None => (t ++ t', Gen false (if in_place then Dist k false else d))
  | Some r =>
    if in_place then (t ++ t', Gen true r)
    else let (t'', d') := dist_move (Slot a) Temp r in (t ++ t' ++ t'' ++ fst (dist_dtor Temp r), Gen true d')
  end.
(** generator.cpp 341-351 *)
Definition gen_read (a : nat) (i : input) (g : gen) : list event * gen :=
  let (t, d) := dist_read (Slot a) (g_dist g) i in (t, Gen (g_valid g) d).

(** A program: creates, uses, moves and deletes generators. *)
Inductive op := New (a : nat) | Build (a : nat) (in_place : bool) (k : kind) (c : course) | Read (a : nat) (i : input)
  | Draw (a : nat) | Move (a from : nat) | Delete (a : nat).
Definition world := nat -> option gen.
Definition put (w : world) (a : nat) (g : option gen) : world := fun b => if b =? a then g else w b.
(** [None]: the program itself refers to a generator that does not exist, or creates one over another. *)
Definition step (w : world) (o : op) : option (world * list event) :=
  match o with
  | New a => match w a with None => let (t, g) := gen_ctor a in Some (put w a (Some g), t) | Some _ => None end
  | Build a ip k c => match w a with Some g => let (t, g) := gen_build a ip k c g in Some (put w a (Some g), t) | None => None end
  | Read a i => match w a with Some g => let (t, g) := gen_read a i g in Some (put w a (Some g), t) | None => None end
  | Draw a => match w a with Some g => Some (w, gen_use a g) | None => None end
  | Move a b => match w a, w b with None, Some g => let (t, g') := gen_move a b g in Some (put w a (Some g'), t) | _, _ => None end
  | Delete a => match w a with Some g => Some (put w a None, gen_dtor a g) | None => None end
  end.
Fixpoint run (w : world) (os : list op) : option (world * list event) :=
  match os with
  | [] => Some (w, [])
  | o :: os' => match step w o with
    | Some (w', t) => match run w' os' with Some (w'', t') => Some (w'', t ++ t') | None => None end
    | None => None
    end
  end.
