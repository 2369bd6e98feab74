(** Specification vocabulary for frames and final-state momenta. *)
From Coq Require Import Reals.
From Verif Require Import MathModel ParticleModel VecModel TransModel FrameBase KinModel KinSpec FrameModel.
Local Open Scope R_scope.

(** The beam and target momenta of [init] fit the particles and S. *)
Definition init_fits (init : initial) (ps : parts) (S : R) : Prop :=
  norm_sq4 (in_p init) = sq (a_M ps) /\ norm_sq4 (in_k1 init) = sq (a_m ps) /\ 2 * dot4 (in_p init) (in_k1 init) = S /\ 0 < t4 (in_p init).

(** Mutually inverse transforms. *)
Definition inverse3 (a b : tr3) : Prop := forall v, tapp3 a (tapp3 b v) = v /\ tapp3 b (tapp3 a v) = v.
Definition inverse4 (a b : tr4) : Prop := forall v, tapp4 a (tapp4 b v) = v /\ tapp4 b (tapp4 a v) = v.

(** Momenta of the leptons in the target frame, and of hadron and photon in the lepton frame. *)
Definition t_k1 (k : kin) := V3 0 0 (klambda_S_sqrt k / (2 * kM k)).
Definition t_k2 (k : kin) := V3 (kk2_t k * ksin_phi k) (kk2_t k * kcos_phi k) (kk2_l k).
Definition l_ph (k : kin) := V3 (kph_t k * cos (kphi_h k)) (kph_t k * sin (kphi_h k)) (kph_l k).
Definition l_k (r : kinrad) := V3 (rk_t r * cos (rphi_k r)) (rk_t r * sin (rphi_k r)) (rk_l r).
