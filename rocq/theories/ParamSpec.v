(** Specification of the parameter store: what a history of operations amounts to. *)
From Coq Require Import String List Bool.
From Verif Require Import FilterModel ParamModel.
Import ListNotations.

Section Spec.
Context {D : Type}.

(** The explicitly provided value and the value a reader sees. *)
Definition value_of (ps : params D) (name : string) : option (value D) :=
  match lookup ps name with Some p => p_value p | None => None end.
Definition default_of (ps : params D) (name : string) : option (value D) :=
  match lookup ps name with Some p => option_map snd (p_default p) | None => None end.
Definition reads (ps : params D) (name : string) : option (value D) :=
  match value_of ps name with Some v => Some v | None => default_of ps name end.

(** Operations a program performs on a parameter store. *)
Inductive op :=
| OpSet (name : string) (v : option (value D))
| OpSetFrom (other : params D) (name : string)
| OpGet (name : string)
| OpGetSoft (name : string)
| OpClearUnused.
(** One operation; an operation that throws leaves the store as it was. *)
Definition step (ps : params D) (o : op) : params D :=
  match o with
  | OpSet n v => match set ps n v with Ok (_, ps') => ps' | Throw _ => ps end
  | OpSetFrom other n => match set_from1 ps other n with Ok (_, ps') => ps' | Throw _ => ps end
  | OpGet n => match get ps n with Ok (_, ps') => ps' | Throw _ => ps end
  | OpGetSoft n => ps
  | OpClearUnused => clear_unused ps
  end.
(** Run a history, most recent operation first. *)
Fixpoint run (ps : params D) (h : list op) : params D :=
  match h with [] => ps | o :: h' => step (run ps h') o end.

(** Does a format [f] accept an assignment, and of what value? *)
Definition assigns (f : params D) (o : op) (name : string) : option (option (value D)) :=
  match o with
  | OpSet n v =>
    match lookup f n, v with
    | Some p, Some v' => if String.eqb n name && vtype_eqb (p_type p) (vtype_of v') then Some v else None
    | Some p, None => if String.eqb n name then Some None else None
    | None, _ => None
    end
  | OpSetFrom other n =>
    match lookup f n, lookup other n with
    | Some p, Some q =>
      if String.eqb n name && vtype_eqb (p_type p) (p_type q) && slist_eqb (p_tags p) (p_tags q)
         && default_eqb (p_default p) (p_default q) then Some (p_value q) else None
    | _, _ => None
    end
  | _ => None
  end.
(** Has the parameter been read after its last assignment? *)
Fixpoint read_since (f : params D) (h : list op) (name : string) : bool :=
  match h with
  | [] => false
  | o :: h' =>
    match assigns f o name with
    | Some _ => false
    | None => match o with OpGet n => String.eqb n name || read_since f h' name | _ => read_since f h' name end
    end
  end.
(** The value provided by the last assignment that was not cleared. *)
Fixpoint provided (f : params D) (h : list op) (name : string) : option (value D) :=
  match h with
  | [] => None
  | o :: h' =>
    match assigns f o name with
    | Some v => v
    | None =>
      match o with
      | OpClearUnused => if read_since f h' name then provided f h' name else None
      | _ => provided f h' name
      end
    end
  end.
(** A format: names are distinct and no value is given. *)
Definition is_format (f : params D) : Prop :=
  NoDup (names f) /\ forall n p, In (n, p) f -> p_value p = None /\ p_used p = false.
End Spec.
