(** C29: construction of a particle set. *)
From Coq Require Import Reals Lra.
From Verif Require Import ExtModel ParticleModel ParticleProofs.
Local Open Scope R_scope.

(** The thresholds accepted are exactly the numbers in [M, M+mh]; infinities and NaN are rejected. *)
Theorem C29_construction_iff t b h mth :
  (exists p, make_particles t b h mth = Constructed p) <->
  (exists r, mth = Fin r /\ mass_n t <= r <= mass_n t + mass_h h).
Proof. exact (make_particles_ok t b h mth). Qed.

Theorem C29_constructed_fields t b h mth p :
  make_particles t b h mth = Constructed p ->
  target p = t /\ beam p = b /\ phadron p = h /\
  p_M p = Fin (mass_n t) /\ p_m p = Fin (mass_l b) /\ p_mh p = Fin (mass_h h) /\ p_Mth p = mth.
Proof. exact (make_particles_fields t b h mth p). Qed.

(** On failure the error carries the rejected value and the allowed range. *)
Theorem C29_error_payload t b h mth :
  ~ (exists p, make_particles t b h mth = Constructed p) ->
  make_particles t b h mth = ThresholdOutOfRange mth (Fin (mass_n t)) (Fin (mass_n t + mass_h h)).
Proof. exact (make_particles_err t b h mth). Qed.

Example C29_example : exists p, make_particles P_ E_ PI_P (Fin 1) = Constructed p.
Proof. apply C29_construction_iff. exists 1. split; [reflexivity|]. cbn. lra. Qed.
Example C29_example_reject : ~ exists p, make_particles P_ E_ PI_P (Fin 0.93) = Constructed p.
Proof. rewrite C29_construction_iff. intros [r [H Hr]]. inversion H; subst. cbn in Hr. lra. Qed.
Example C29_example_nan : ~ exists p, make_particles P_ E_ PI_P NaN = Constructed p.
Proof. rewrite C29_construction_iff. intros [r [H _]]. discriminate. Qed.

Print Assumptions C29_construction_iff.
Print Assumptions C29_constructed_fields.
Print Assumptions C29_error_payload.
