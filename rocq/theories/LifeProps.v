(** C65: lifetimes of the stored distributions. *)
From Coq Require Import List Bool Arith.
From Verif Require Import LifeModel LifeSpec LifeProofs.
Import ListNotations.

(** In every program that leaves a generator alone after a failure, except for building it again, reading it again (after a
    failed read) or deleting it: no engine is constructed over another, used or destroyed when it is not alive; engines are
    alive only inside of existing generators; and every generator that has not failed holds one. *)
Theorem C65_exactly_once_partial os h' w t : careful unknown os h' -> run nobody os = Some (w, t) ->
  exists m, lives nothing t m /\ m Temp = None /\ forall a, (forall k, m (Slot a) = Some k -> exists g, w a = Some g) /\ (h' a = Some Fine -> exists k, m (Slot a) = Some k).
Proof. exact (exactly_once os h' w t). Qed.
Print Assumptions C65_exactly_once_partial.
(** After such a program has deleted all of its generators, at every place as many engines were destroyed as constructed. *)
Theorem C65_balanced os h' w t : careful unknown os h' -> run nobody os = Some (w, t) -> (forall a, w a = None) -> forall l, constructed l t = destroyed l t.
Proof. exact (balanced os h' w t). Qed.
Print Assumptions C65_balanced.
(** In every program, careful or not: no engine is destroyed twice, or destroyed as what it is not. *)
Theorem C65_never_twice os w t : run nobody os = Some (w, t) -> exists m, frees nothing t m.
Proof. exact (never_twice os w t). Qed.
Print Assumptions C65_never_twice.
(** Drawing after a failed build uses an engine that has been destroyed. So does drawing after reading a file with an unknown
    type tag. *)
Theorem C65_use_refuted :
  (exists w t, run nobody [New 0; Build 0 true Bubble Succeeds; Build 0 false Bubble BuildThrows; Draw 0; Delete 0] = Some (w, t) /\ forall m, ~ lives nothing t m) /\
  (exists w t, run nobody [New 0; Build 0 true Bubble Succeeds; Read 0 BadTag; Draw 0; Delete 0] = Some (w, t) /\ forall m, ~ lives nothing t m).
Proof.
  split; (eexists; eexists; split; [reflexivity|]); intros m L; cbn in L;
  repeat match goal with H : lives _ _ _ |- _ => inversion H; subst; clear H end; cbn in *; discriminate.
Qed.
Print Assumptions C65_use_refuted.
(** Reading a distribution after a failed build constructs an engine that is never destroyed. *)
Theorem C65_leak_refuted : exists w t, run nobody [New 0; Build 0 true Bubble BuildThrows; Read 0 (Tag Bubble false); Delete 0] = Some (w, t)
  /\ (forall a, w a = None) /\ exists m, lives nothing t m /\ m (Slot 0) = Some Bubble.
Proof.
  eexists; eexists. split; [reflexivity|]. split; [intros [|a]; reflexivity|]. eexists. split; [repeat (constructor; [reflexivity|]); constructor|reflexivity].
Qed.
Print Assumptions C65_leak_refuted.
(** Example: a build that fails is repeated, a file is read, the generator is moved, both are deleted. *)
Definition ex_ops : list op :=
  [New 0; Build 0 false Bubble BuildThrows; Build 0 true Bubble Succeeds; Read 0 BadTag; Read 0 (Tag Bubble false); Move 1 0; Draw 1; Delete 0; Delete 1].
Example ex_careful : (exists h', careful unknown ex_ops h') /\ exists w t, run nobody ex_ops = Some (w, t) /\ length t = 14 /\ (forall a, w a = None).
Proof.
  split.
  - eexists. apply careful_new. eapply careful_build; [reflexivity|]. eapply careful_build; [reflexivity|]. eapply careful_read; [reflexivity|discriminate|]. eapply careful_read; [reflexivity|discriminate|].
    apply careful_move; [reflexivity|]. apply careful_draw; [reflexivity|]. apply careful_delete. apply careful_delete. apply careful_nil.
  - eexists; eexists. split; [reflexivity|]. split; [reflexivity|]. intros [|[|a]]; reflexivity.
Qed.
