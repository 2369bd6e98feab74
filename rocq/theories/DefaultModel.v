(** Model of the cross-section functions that are called without phenomenological inputs. *)
From Coq Require Import Reals List.
From Verif Require Import ExtModel GridModel VecModel KinModel SfModel HadModel XsModel PhenomModel.
Local Open Scope R_scope.

(** phenom.cpp 83-85; no value when the coupling is not a number *)
Definition default_phenom (grid : list ext * list (dim ext)) (k : kin) : option phenom :=
  match alpha_qed grid (Fin (kQ_sq k)) with
  | Some (Fin a) => Some (Phenom a (delta_vac_had (kQ_sq k)))
  | _ => None
  end.
(** phenom.cpp 86-88 with the coupling of phenom.hpp 22 *)
Definition rest_phenom (k : kin) : phenom := Phenom ALPHA_QED_0 (delta_vac_had (kQ_sq k)).
Section Default.
Context (grid : list ext * list (dim ext)) (dilog : R -> R) (sf_set : SfModel.sf_set sf_point).
Definition with_phenom {A} (k : kin) (f : phenom -> option A) : option A :=
  match default_phenom grid k with Some ph => f ph | None => None end.
(** cross_section.cpp 449-451 *)
Definition default_born (k : kin) (lambda_e : R) (eta : vec3) : option R :=
  with_phenom k (fun ph => Some (born sf_set k ph lambda_e eta)).
(** cross_section.cpp 452-454 *)
Definition default_amm (k : kin) (lambda_e : R) (eta : vec3) : option R :=
  with_phenom k (fun ph => Some (amm sf_set k ph lambda_e eta)).
(** cross_section.cpp 455-457 *)
Definition default_nrad_ir (k : kin) (lambda_e : R) (eta : vec3) (k_0_bar : R) : option R :=
  with_phenom k (fun ph => nrad_ir dilog sf_set k ph lambda_e eta k_0_bar).
(** cross_section.cpp 458-460 *)
Definition default_rad (k : kinrad) (lambda_e : R) (eta : vec3) : option R :=
  with_phenom (project k) (fun ph => Some (rad sf_set k ph lambda_e eta)).
(** cross_section.cpp 461-463 *)
Definition default_rad_f (k : kinrad) (lambda_e : R) (eta : vec3) : option R :=
  with_phenom (project k) (fun ph => rad_f sf_set k ph lambda_e eta).
End Default.
