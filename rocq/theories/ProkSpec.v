(** Vocabulary for C46. *)
From Coq Require Import Reals.
From Verif Require Import ProkModel.
Local Open Scope R_scope.

(** The factors in front of the sums, as functions of the widths. *)
Definition k2 (w : R) (h : pion) (z Q_sq p : R) : R :=
  2 * p / sqrt Q_sq * (w * COLLINS_MEAN / (pion_mass h * lambda z w COLLINS_MEAN ^ 2) * G p (lambda z w COLLINS_MEAN)) * (PRETZ_MEAN / (2 * MASS_P * MASS_P)).
Definition k0 (v w : R) (h : pion) (z Q_sq p : R) : R :=
  2 / sqrt Q_sq * (v * COLLINS_MEAN / (pion_mass h * lambda z w COLLINS_MEAN) * (1 - p / lambda z w COLLINS_MEAN) * G p (lambda z w COLLINS_MEAN)).
