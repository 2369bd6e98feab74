(** Model of include/sidis/extra/integrate.hpp: the choice of the integration routine, the generator and the workspace it is
    given, and their release. The routines themselves (cubature, the GNU Scientific Library) are parameters.
    Simplifications: one block stands for all memory of one generator or one workspace; the library's error handler ends the
    program (outcome [Aborts]); an exception of the integrand passes through the library unharmed. *)
From Coq Require Import Reals ZArith List Bool.
Import ListNotations.
Local Open Scope R_scope.

(** integ_params.hpp 24-29; the enumeration is an [int] and a cast can give any other value *)
Inductive method := CUBATURE | MC_PLAIN | MISER | VEGAS | Other (v : Z).
(** integ_params.hpp 38-45; both numbers are [unsigned] *)
Record params := Params { p_method : method; p_evals : Z; p_burn : Z }.

(** Memory: the blocks in use, the number of allocations so far, and which allocations succeed. [bad] records the release of
    a block that is not in use. *)
Record world := World { live : list nat; count : nat; avail : nat -> bool; bad : bool }.
Definition alloc (w : world) : option nat * world :=
  if avail w (count w) then (Some (count w), World (count w :: live w) (S (count w)) (avail w) (bad w))
  else (None, World (live w) (S (count w)) (avail w) (bad w)).
Definition free (b : nat) (w : world) : world :=
  World (remove Nat.eq_dec b (live w)) (count w) (avail w) (bad w || negb (existsb (Nat.eqb b) (live w))).

(** What a call can lead to. *)
Inductive outcome := Value (val err : R) | BadAlloc | Threw | Aborts.

Section Integrate.
(** A generator's state, a workspace's state; the integrand takes a point and gives a value, or throws. *)
Context (G W : Type).
Definition integrand := list R -> option R.
(** The three Monte-Carlo routines: what they leave behind, and their value and error. *)
Inductive ran := Ran (g : G) (s : W) (val err : R) | RanThrew | RanAborts.
Context (taus2 : G) (fresh : method -> nat -> W).
Context (cubature : integrand -> list R -> list R -> Z -> R -> R -> outcome).
Context (run : method -> integrand -> list R -> list R -> nat -> Z -> G -> W -> ran).

(** integrate.hpp 44-49: the adaptor copies the first D numbers of the array *)
Definition func_ptr (D : nat) (func : integrand) : integrand := fun xs => func (firstn D xs).
Definition finish (r : ran) : outcome := match r with Ran _ _ v e => Value v e | RanThrew => Threw | RanAborts => Aborts end.
(** integrate.hpp 57-123 with a generator and a workspace in hand *)
Definition body (D : nat) (func : integrand) (lower upper : list R) (p : params) : outcome :=
  let f := func_ptr D func in
  let m := p_method p in
  match m with
  | VEGAS =>
    match run m f lower upper D (p_burn p) taus2 (fresh m D) with
    | Ran g s _ _ => finish (run m f lower upper D (p_evals p) g s)
    | r => finish r
    end
  | _ => finish (run m f lower upper D (p_evals p) taus2 (fresh m D))
  end.
(** A unique_ptr to a new block around [k]: a null pointer is an exception, and is not released. *)
Definition with_block (k : world -> outcome * world) (w : world) : outcome * world :=
  match alloc w with
  | (None, w) => (BadAlloc, w)
  | (Some b, w) => let (o, w) := k w in (o, match o with Aborts => w | _ => free b w end)
  end.
(** integrate.hpp 26-130 *)
Definition integrate (D : nat) (func : integrand) (lower upper : list R) (p : params) (w : world) : outcome * world :=
  match p_method p with
  | CUBATURE => (cubature func lower upper (p_evals p) 0 0, w)
  | MC_PLAIN | MISER | VEGAS => with_block (with_block (fun w => (body D func lower upper p, w))) w
  | Other _ => (Value 0 0, w)
  end.
(** integrate.hpp 133-137 *)
Definition integrate_1 (func : R -> option R) (lower upper : R) (p : params) (w : world) : outcome * world :=
  integrate 1 (fun x => match x with v :: _ => func v | [] => func 0 end) [lower] [upper] p w.
End Integrate.
Arguments Ran {G W} g s val err.
Arguments RanThrew {G W}.
Arguments RanAborts {G W}.
