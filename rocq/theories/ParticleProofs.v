From Coq Require Import Reals Bool Lra.
From Verif Require Import ExtModel BoundModel BoundSpec BoundProofs ParticleModel.
Local Open Scope R_scope.

Lemma make_particles_ok t b h mth :
  (exists p, make_particles t b h mth = Constructed p) <->
  (exists r, mth = Fin r /\ mass_n t <= r <= mass_n t + mass_h h).
Proof.
  unfold make_particles, egeb.
  destruct mth as [r| | |]; simpl;
    try (split; [intros [p H]; discriminate|intros [q [H _]]; discriminate]).
  destruct (rleb (mass_n t) r) eqn:E1; simpl.
  - destruct (rleb r (mass_n t + mass_h h)) eqn:E2; simpl.
    + apply rleb_spec in E1, E2. split; intros _; eauto.
    + apply rleb_false in E2. split; [intros [p H]; discriminate|].
      intros [q [H Hq]]; inversion H; subst; lra.
  - apply rleb_false in E1. split; [intros [p H]; discriminate|].
    intros [q [H Hq]]; inversion H; subst; lra.
Qed.

Lemma make_particles_fields t b h mth p :
  make_particles t b h mth = Constructed p ->
  target p = t /\ beam p = b /\ phadron p = h /\
  p_M p = Fin (mass_n t) /\ p_m p = Fin (mass_l b) /\ p_mh p = Fin (mass_h h) /\ p_Mth p = mth.
Proof.
  unfold make_particles. destruct (_ || _); intros H; inversion H; subst; simpl. repeat split.
Qed.

Lemma make_particles_err t b h mth :
  ~ (exists p, make_particles t b h mth = Constructed p) ->
  make_particles t b h mth = ThresholdOutOfRange mth (Fin (mass_n t)) (Fin (mass_n t + mass_h h)).
Proof.
  unfold make_particles. destruct (_ || _); intros H; [reflexivity|exfalso; apply H; eauto].
Qed.
