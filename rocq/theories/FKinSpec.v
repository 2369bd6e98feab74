(** The kinematic variables of the hadron without rounding, and the range of numbers considered. *)
From Coq Require Import Reals ZArith.
From Flocq Require Import Core.
From Verif Require Import FMathSpec.
Local Open Scope R_scope.

(** A double between 2^-50 and 2^50 (about 1e-15 and 1e15). *)
Definition moderate (v : R) : Prop := double v /\ / 2 ^ 50 <= v <= 2 ^ 50.
(** The squared transverse momentum may also be zero. *)
Definition moderate_sq (v : R) : Prop := double v /\ (v = 0 \/ / 2 ^ 100 <= v <= 2 ^ 100).
Section Exact.
Context (S M mh x y z ph_t_sq : R).
(** hadron energy, longitudinal momentum along the photon, photon three-momentum times 2M; target at rest *)
Definition energy : R := z * (S * y) / (2 * M).
Definition longitudinal : R := sqrt (energy ^ 2 - mh ^ 2 - ph_t_sq).
Definition photon : R := sqrt ((S * y) ^ 2 + 4 * M ^ 2 * (S * x * y)).
(** the product of the photon and hadron four-momenta: q_0 E_h - |q| p_l *)
Definition photon_hadron : R := S * y / (2 * M) * energy - photon / (2 * M) * longitudinal.
(** squared four-momentum transfer between photon and hadron, and squared mass of what is left *)
Definition transfer : R := mh ^ 2 - S * x * y - 2 * photon_hadron.
Definition missing : R := M ^ 2 + transfer + (1 - z) * (S * y).
(** how relativistic the hadron is, and how far the photon is from being real: both are small in most events *)
Definition slowness : R := (mh ^ 2 + ph_t_sq) / energy ^ 2.
Definition virtuality : R := 4 * M ^ 2 * (S * x * y) / (S * y) ^ 2.
(** the size of [photon_hadron] to first order when both are small and do not cancel *)
Definition scale : R := S * y / (2 * M) * energy * (virtuality + slowness * (1 + virtuality)).
End Exact.
