(** Specification of lifetimes: an engine is constructed only where none is alive, and used and destroyed only where one of
    the same kind is alive. *)
From Coq Require Import List Bool Arith.
From Verif Require Import LifeModel.
Import ListNotations.

Definition memory := loc -> option kind.
Definition nothing : memory := fun _ => None.
Definition loc_eqb (a b : loc) : bool := match a, b with Slot x, Slot y => x =? y | Temp, Temp => true | _, _ => false end.
Definition store (m : memory) (l : loc) (k : option kind) : memory := fun l' => if loc_eqb l' l then k else m l'.
Inductive lives : memory -> list event -> memory -> Prop :=
| lives_nil m : lives m [] m
| lives_construct m l k t m' : m l = None -> lives (store m l (Some k)) t m' -> lives m (Construct l k :: t) m'
| lives_use m l k t m' : m l = Some k -> lives m t m' -> lives m (Use l k :: t) m'
| lives_destroy m l k t m' : m l = Some k -> lives (store m l None) t m' -> lives m (Destroy l k :: t) m'.

(** What a caller can know about a generator from what happened so far, without looking inside. *)
Inductive health := Fine | ReadFailed | BuildFailed.
Definition outlook := nat -> option health.
Definition note (h : outlook) (a : nat) (x : option health) : outlook := fun b => if b =? a then x else h b.
Definition after_build (k : kind) (c : course) : health :=
  match k, c with Uniform, (Succeeds | BuildThrows) => Fine | Bubble, Succeeds => Fine | _, _ => BuildFailed end.
Definition after_read (i : input) (x : health) : health :=
  match i with NoHeader => x | BadTag | Tag _ true => ReadFailed | Tag _ false => Fine end.
(** Careful programs: after a failure, a generator is only built again or deleted; after a failed read it may also be read
    again. *)
Inductive careful : outlook -> list op -> outlook -> Prop :=
| careful_nil h : careful h [] h
| careful_new h a os h' : careful (note h a (Some Fine)) os h' -> careful h (New a :: os) h'
| careful_build h a x ip k c os h' : h a = Some x -> careful (note h a (Some (after_build k c))) os h' -> careful h (Build a ip k c :: os) h'
| careful_read h a x i os h' : h a = Some x -> x <> BuildFailed -> careful (note h a (Some (after_read i x))) os h' -> careful h (Read a i :: os) h'
| careful_draw h a os h' : h a = Some Fine -> careful h os h' -> careful h (Draw a :: os) h'
| careful_move h a b os h' : h b = Some Fine -> careful (note h a (Some Fine)) os h' -> careful h (Move a b :: os) h'
| careful_delete h a os h' : careful (note h a None) os h' -> careful h (Delete a :: os) h'.
(** Only the destructions are judged: what is destroyed is alive, whatever is used or written over. *)
Inductive frees : memory -> list event -> memory -> Prop :=
| frees_nil m : frees m [] m
| frees_construct m l k t m' : frees (store m l (Some k)) t m' -> frees m (Construct l k :: t) m'
| frees_use m l k t m' : frees m t m' -> frees m (Use l k :: t) m'
| frees_destroy m l k t m' : m l = Some k -> frees (store m l None) t m' -> frees m (Destroy l k :: t) m'.
(** Counting. *)
Fixpoint constructed (l : loc) (t : list event) : nat :=
  match t with [] => 0 | Construct l' _ :: t => (if loc_eqb l' l then 1 else 0) + constructed l t | _ :: t => constructed l t end.
Fixpoint destroyed (l : loc) (t : list event) : nat :=
  match t with [] => 0 | Destroy l' _ :: t => (if loc_eqb l' l then 1 else 0) + destroyed l t | _ :: t => destroyed l t end.
