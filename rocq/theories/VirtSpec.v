(** Textbook one-loop corrections of a lepton line: vacuum polarization, vertex correction, soft photons. *)
From Coq Require Import Reals.
From Coquelicot Require Import Coquelicot.
From Verif Require Import MathModel VecModel TransModel FrameBase.
Local Open Scope R_scope.

(** Vacuum polarization by a loop of a lepton of mass [m], in units of alpha/pi: the cross-section is multiplied by
    1 + alpha/pi times this. *)
Definition vac_pol (Q_sq m : R) : R := 4 * RInt (fun x => x * (1 - x) * ln (1 + x * (1 - x) * Q_sq / m ^ 2)) 0 1.

(** Dirac form factor of the lepton at one loop, subtracted at zero transfer, with a photon of mass [mu]; x, y and z are
    Feynman parameters. The form factor is alpha/(2 pi) times the integral, so that the cross-section, in which it
    enters twice, is multiplied by 1 + alpha/pi times the integral. *)
Definition dirac_integrand (Q_sq m mu x y z : R) : R :=
  ln ((m ^ 2 * (1 - z) ^ 2) / (m ^ 2 * (1 - z) ^ 2 + Q_sq * x * y))
  + (m ^ 2 * (1 - 4 * z + z ^ 2) - Q_sq * (1 - x) * (1 - y)) / (m ^ 2 * (1 - z) ^ 2 + Q_sq * x * y + mu ^ 2 * z)
  - (m ^ 2 * (1 - 4 * z + z ^ 2)) / (m ^ 2 * (1 - z) ^ 2 + mu ^ 2 * z).
(** Integral over x + y + z = 1, written with x = a w, y = (1 - a) w. *)
Definition vertex (Q_sq m mu : R) : R :=
  RInt (fun a => RInt (fun w => w * dirac_integrand Q_sq m mu (a * w) ((1 - a) * w) (1 - w)) 0 1) 0 1.

(** Emission of a photon of mass [mu] and momentum below [k_0] in a given frame, in units of alpha/pi. The photon couples
    to -(k1/(k1.k) - k2/(k2.k))^2; the product of the two propagators is written with a Feynman parameter [a]
    as the square of the propagator of a k1 + (1 - a) k2. [E] and [p] are energy and momentum in that frame. *)
Definition soft_square (E p mu k_0 : R) : R :=
  RInt (fun k => k ^ 2 / sqrt (k ^ 2 + mu ^ 2) * RInt (fun c => 1 / 2 * / (E * sqrt (k ^ 2 + mu ^ 2) - p * k * c) ^ 2) (-1) 1) 0 k_0.
Definition mean_mass_sq (Q_sq m a : R) : R := m ^ 2 + a * (1 - a) * Q_sq.
Definition mean_energy (E1 E2 a : R) : R := a * E1 + (1 - a) * E2.
Definition mean_momentum (Q_sq m E1 E2 a : R) : R := sqrt (mean_energy E1 E2 a ^ 2 - mean_mass_sq Q_sq m a).
Definition soft (Q_sq m E1 E2 mu k_0 : R) : R :=
  (Q_sq + 2 * m ^ 2) * RInt (fun a => soft_square (mean_energy E1 E2 a) (mean_momentum Q_sq m E1 E2 a) mu k_0) 0 1
  - m ^ 2 * soft_square E1 (sqrt (E1 ^ 2 - m ^ 2)) mu k_0
  - m ^ 2 * soft_square E2 (sqrt (E2 ^ 2 - m ^ 2)) mu k_0.
(** Twice the area of the parallelogram of the two momenta, squared: positive unless the leptons are collinear. *)
Definition not_collinear (Q_sq m E1 E2 : R) : Prop :=
  (E1 * E2 - (Q_sq + 2 * m ^ 2) / 2) ^ 2 < (E1 ^ 2 - m ^ 2) * (E2 ^ 2 - m ^ 2).

(** The undetected hadrons recoil with momentum p + q - ph; energies in their rest frame. *)
Definition recoil (p q ph : vec4) : vec4 := sub4 (add4 p q) ph.
Definition rest_energy (P a : vec4) : R := dot4 P a / sqrt (norm_sq4 P).
(** Largest energy of a photon in that frame when the remaining hadrons have mass at least [Mth]. *)
Definition photon_max (P : vec4) (Mth : R) : R := (norm_sq4 P - Mth ^ 2) / (2 * sqrt (norm_sq4 P)).
