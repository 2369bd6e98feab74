(** Part of Kinematics::Kinematics of src/kinematics.cpp computed in double: every operation is rounded to nearest, ties to even
    ([RN] of TextModel), in the order in which C++ evaluates the expressions. KinModel has the same without rounding.
    Simplifications: finite numbers only; no excess precision and no contraction into fused multiply-add; std::sqrt is
    correctly rounded; the C library's log1p and expm1 are parameters; a square root of a negative number (which would be a
    NaN) is [None]. *)
From Coq Require Import Reals.
From Verif Require Import ExtModel TextModel FMathModel.
Local Open Scope R_scope.

(** std::sqrt *)
Definition f_sqrt (x : R) : option R := if rltb x 0 then None else Some (RN (sqrt x)).
Section FKin.
Context (log1p expm1 : R -> R) (S M mh x y z ph_t_sq : R).
(** kinematics.cpp 48 *)
Definition f_Q_sq : R := RN (RN (S * x) * y).
(** kinematics.cpp 51 *)
Definition f_S_x : R := RN (S * y).
(** kinematics.cpp 55 *)
Definition f_lambda_Y : R := RN (f_sq f_S_x + RN (RN (4 * f_sq M) * f_Q_sq)).
(** kinematics.cpp 64 *)
Definition f_ph_0 : R := RN (RN (z * f_S_x) / RN (2 * M)).
(** kinematics.cpp 66 *)
Definition f_ph_ratio_sq : R := RN (RN (ph_t_sq / f_sq f_ph_0) + f_sq (RN (mh / f_ph_0))).
(** kinematics.cpp 67 *)
Definition f_ph_l : option R := match f_sqrt (RN (1 - f_ph_ratio_sq)) with Some r => Some (RN (f_ph_0 * r)) | None => None end.
(** kinematics.cpp 92 *)
Definition f_lambda_Y_ratio : R := RN (RN (RN (4 * f_sq M) * f_Q_sq) / f_sq f_S_x).
(** kinematics.cpp 93-94; negation is exact *)
Definition f_V_m_arg : R := RN (f_lambda_Y_ratio - RN (f_ph_ratio_sq * RN (1 + f_lambda_Y_ratio))).
Definition f_V_m : R := RN (RN (- RN (f_ph_0 * f_S_x) / RN (2 * M)) * f_sqrt1p_1m log1p expm1 f_V_m_arg).
(** kinematics.cpp 96 *)
Definition f_t : R := RN (RN (f_sq mh - f_Q_sq) - RN (2 * f_V_m)).
(** kinematics.cpp 97 *)
Definition f_W_sq : R := RN (RN (f_sq M + f_S_x) - f_Q_sq).
(** kinematics.cpp 98 *)
Definition f_mx_sq : R := RN (RN (f_sq M + f_t) + RN (RN (1 - z) * f_S_x)).
(** The formula for V_m that the comment in kinematics.cpp 87-90 warns against (it is not in the code): the difference of
    [z S_x^2] and [2 M ph_l sqrt(lambda_Y)], over [4 M^2]. *)
Definition f_V_m_plain : option R :=
  match f_ph_l, f_sqrt f_lambda_Y with
  | Some l, Some q => Some (RN (RN (RN (z * f_sq f_S_x) - RN (RN (RN (2 * M) * l) * q)) / RN (4 * f_sq M)))
  | _, _ => None
  end.
End FKin.
