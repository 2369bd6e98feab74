(** C52, completed: exactly which doubles are read back from what is written for them. *)
From Coq Require Import Reals ZArith List Lia Lra.
From Flocq Require Import Core.
From Verif Require Import ExtModel TextModel TextNum ParamModel ParamTextSpec ParamTextModel ParamTextRound ParamTextRefute PowerSpec TextExact.
Import ListNotations.

(** With 17 or more digits every finite double is restored. (sidisgen sets 16.) *)
Theorem C52_seventeen p r : (17 <= p)%nat -> nearest_double r = r -> (Rabs r < powerRZ 2 1024)%R ->
  parse_value TDouble (put_double p (Fin r)) = Some (VDouble (Fin r)).
Proof. exact (restored_seventeen p r). Qed.
Print Assumptions C52_seventeen.
(** With fewer digits: a double that is not a power of two is restored if and only if it is the nearest double to some
    decimal of that many digits. *)
Theorem C52_exact p r : (1 <= p)%nat -> nearest_double r = r -> r <> 0%R -> (Rabs r < powerRZ 2 1024)%R -> ~ power_of_two r ->
  parse_value TDouble (put_double p (Fin r)) = Some (VDouble (Fin r)) <-> exists x, short_decimal p x /\ nearest_double x = r.
Proof. exact (restored_exact p r). Qed.
Print Assumptions C52_exact.
(** Of the 2098 powers of two that are doubles, the 16 digits that sidisgen writes lose 855, and restore the others. *)
Theorem C52_powers k : (-1074 <= k <= 1023)%Z ->
  parse_value TDouble (put_double 16 (Fin (powerRZ 2 k))) = Some (VDouble (Fin (powerRZ 2 k))) <-> ~ In k lost_powers.
Proof. exact (restored_powers k). Qed.
Print Assumptions C52_powers.

(** Example: 1 + 2^-52 needs the 17th digit; 2^-23 is lost; 2^-22 to 2^53 are kept. *)
Example C52_powers_example :
  (nearest_double (1 + powerRZ 2 (-52)) = 1 + powerRZ 2 (-52) /\ Rabs (1 + powerRZ 2 (-52)) < powerRZ 2 1024)%R /\
  length lost_powers = 855%nat /\ In (-23)%Z lost_powers /\ Forall (fun k => k < -22 \/ 53 < k)%Z lost_powers.
Proof.
  split; [split|].
  - apply RN_id, F2_next.
  - rewrite <- !bpow2. assert (B : (0 < bpow radix2 (-52) < 1)%R) by (split; [apply bpow_gt_0|change 1%R with (bpow radix2 0); apply bpow_lt; lia]). rewrite Rabs_pos_eq by lra.
    apply Rlt_trans with (bpow radix2 1); [change (bpow radix2 1) with 2%R; lra|apply bpow_lt; lia].
  - split; [reflexivity|]. split; [destruct (proj1 (existsb_exists (Z.eqb (-23)) lost_powers) eq_refl) as (y & Y & E); apply Z.eqb_eq in E; subst y; exact Y|]. apply Forall_forall. intros k K.
    assert (T : forallb (fun k => orb (k <? -22) (53 <? k))%Z lost_powers = true) by reflexivity. rewrite forallb_forall in T. specialize (T k K). cbv beta in T. apply Bool.orb_prop in T. rewrite !Z.ltb_lt in T. exact T.
Qed.
