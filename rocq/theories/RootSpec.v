(** Specification of what a ROOT file must give back. *)
From Coq Require Import String Ascii Reals ZArith List Bool Sorting.Sorted.
From Verif Require Import ExtModel ParamModel ParamTextSpec RootModel.
Import ListNotations.
Local Open Scope list_scope.

(** Strings without a zero byte, multisets in order, ordered bounds: everything else has no restriction. *)
Definition nul_free (s : string) : Prop := ~ In (ascii_of_nat 0) (list_ascii_of_string s).
Definition storable (v : value ext) : Prop :=
  match v with
  | VString s => nul_free s
  | VSeedGen l => Sorted Z.le l
  | VBound lo hi => eleb lo hi = true
  | _ => True
  end.
(** The parameters of [fmt] with the values of [ps], none of them marked as used. *)
Definition carries (fmt ps r : params ext) : Prop :=
  map fst r = map fst fmt /\
  forall name f p, lookup fmt name = Some f -> lookup ps name = Some p ->
    exists q, lookup r name = Some q /\ p_type q = p_type f /\ p_default q = p_default f /\ p_tags q = p_tags f /\
      p_value q = p_value p /\ p_used q = false.

(** Objects that cannot be the value of a parameter of type [t]: arrays of the wrong size, bounds in the wrong order; and
    numbers that stand for no enumerator. *)
Definition malformed (t : vtype) (o : robj) : Prop :=
  match t, o with
  | TVersion, OArrayI l => List.length l <> 2%nat
  | TVec3, OArrayD l => List.length l <> 3%nat
  | TBound, OArrayD l => ~ exists lo hi, l = [lo; hi] /\ eleb lo hi = true
  | _, _ => False
  end.
Definition unknown_name (t : vtype) (o : robj) : Prop :=
  match t, o with
  | TRcMethod, OInt n | TNucleus, OInt n | TLepton, OInt n => ~ (0 <= n < 3)%Z
  | THadron, OInt n => ~ (0 <= n < 6)%Z
  | _, _ => False
  end.

(** Counts that a double holds exactly, and ordinary generator normalizations: unset, or of ordinary size. *)
Definition exact_count (n : Z) : Prop := (0 <= n <= 2 ^ 53)%Z.
Definition ordinary (x : ext) : Prop :=
  x = NaN \/ exists r, x = Fin r /\ (powerRZ 2 (-1000) <= Rabs r <= powerRZ 2 1000)%R.
Definition ordinary_integ (a : ginteg) : Prop :=
  ordinary (g_prime_inv a) /\ exact_count (g_count a) /\ exact_count (g_count_acc a) /\ g_count a = w_count (g_weights a).
(** The same number up to [eps], relative. *)
Definition near (eps : R) (x y : ext) : Prop :=
  match x, y with Fin a, Fin b => (Rabs (b - a) <= eps * Rabs a)%R | NaN, NaN => True | _, _ => False end.
(** The same counts and weights; the normalization within two roundings. *)
Definition same_integ (a b : ginteg) : Prop :=
  g_count b = g_count a /\ g_count_acc b = g_count_acc a /\ g_weights b = g_weights a /\
  near (powerRZ 2 (-51)) (g_prime_inv a) (g_prime_inv b).
(** The statistics of a complete event file: six arrays of the right sizes (two event types and a total). *)
Local Open Scope string_scope.
Definition stats_arrays : list (string * nat) :=
  [("prime", 3); ("weight_mom", 12); ("weight_max", 3); ("num_events", 3); ("num_events_acc", 3); ("norm", 3)]%nat.
Definition stats_complete (d : rdir) : Prop :=
  forall name size, In (name, size) stats_arrays -> exists l, get_obj d name = Some (OArrayD l) /\ List.length l = size.
(** Characters that TDirectory::Get gives a meaning: path separator and cycle number. *)
Definition root_name (s : string) : Prop := ~ In "/"%char (list_ascii_of_string s) /\ ~ In ";"%char (list_ascii_of_string s).
