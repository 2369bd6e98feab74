(** C50: reading parameters and the completeness check. *)
From Coq Require Import String List Bool ZArith.
From Verif Require Import FilterModel ParamModel ParamSpec ParamProofs FormatModel FormatSpec FormatProofs.
Import ListNotations.
Local Open Scope string_scope.

(** After any history of operations, a read returns the last provided value, else the default, else it throws. *)
Theorem C50_read {D} (f : params D) (h : list op) (n : string) : is_format f ->
  match lookup f n with
  | None => get (run f h) n = Throw (ENoSuch n)
  | Some _ =>
    match provided f h n with
    | Some v => exists ps', get (run f h) n = Ok (v, ps')
    | None => match default_of f n with
              | Some d => get (run f h) n = Ok (d, run f h)
              | None => get (run f h) n = Throw (ERequired n)
              end
    end
  end.
Proof. exact (fun H => run_get f H h n). Qed.
Theorem C50_soft_read {D} (f : params D) (h : list op) (n : string) :
  get_soft (run f h) n = match get (run f h) n with Ok (v, _) => Ok v | Throw e => Throw e end.
Proof. exact (run_get_soft f h n). Qed.
(** The completeness check passes exactly when everything provided has been read since it was last assigned. *)
Theorem C50_strict {D} (f : params D) (h : list op) : is_format f ->
  (check_complete (run f h) = Ok tt <-> forall n, provided f h n <> None -> read_since f h n = true).
Proof. exact (fun H => run_strict' f H h). Qed.
(** The format of the generator's parameter files is one of those formats. *)
Theorem C50_std_format : is_format std_format /\ length std_format = 56%nat.
Proof. split; [exact std_is_format | vm_compute; reflexivity]. Qed.
Example C50_example :
  let h1 := [OpGet "mc.num_events"; OpSet "mc.num_events" (Some (VLong 7)); OpSet "version" (Some (VBool true))] in
  let h2 := (OpSet "mc.num_events" (Some (VLong 9)) :: h1)%list in
  check_complete (run std_format h1) = Ok tt /\ check_complete (run std_format h2) = Throw (ENotUsed "mc.num_events") /\
  provided std_format h2 "mc.num_events" = Some (VLong 9) /\ provided std_format h2 "version" = None /\
  check_complete (run std_format (OpClearUnused :: h2)) = Ok tt.
Proof. repeat split; vm_compute; reflexivity. Qed.
Print Assumptions C50_read.
Print Assumptions C50_soft_read.
Print Assumptions C50_strict.
Print Assumptions C50_std_format.
