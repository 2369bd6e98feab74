(** Model of src/leptonic_coeff.cpp and include/sidis/leptonic_coeff.hpp over the real numbers (no rounding).
    The field [theta_i] is written [lb_i] (Born), [la_i] (anomalous magnetic moment) or [lr_ijk] (radiative)
    without the underscore. A division by zero is only meaningful where the theorems exclude it. *)
From Coq Require Import Reals.
From Verif Require Import MathModel KinModel.
Local Open Scope R_scope.

(** leptonic_coeff.cpp 12-17 *)
Record lep_born_uu := mk_lep_born_uu { lb1 : R; lb2 : R; lb3 : R; lb4 : R }.
Definition LepBornBaseUU (k : kin) : lep_born_uu :=
  {|
     lb1 := kQ_sq k - 2 * sq (km k);
     lb2 := (1 / 2) * (kS k * kX k - sq (kM k) * kQ_sq k);
     lb3 := (1 / 2) * (kV_1 k * kV_2 k - sq (kmh k) * kQ_sq k);
     lb4 := (1 / 2) * (kS k * kV_2 k + kX k * kV_1 k - kz k * kQ_sq k * kS_x k) |}.

(** leptonic_coeff.cpp 18-21 *)
Record lep_born_up := mk_lep_born_up { lb6 : R; lb8 : R }.
Definition LepBornBaseUP (k : kin) : lep_born_up :=
  {|
     lb6 := - kS_p k * kvol_phi_h k;
     lb8 := -2 * kV_p k * kvol_phi_h k |}.

(** leptonic_coeff.cpp 22-24 *)
Record lep_born_lu := mk_lep_born_lu { lb5 : R }.
Definition LepBornBaseLU (k : kin) : lep_born_lu :=
  {|
     lb5 := (2 * kS k * kvol_phi_h k) / klambda_S_sqrt k |}.

(** leptonic_coeff.cpp 25-37 *)
Record lep_born_lp := mk_lep_born_lp { lb7 : R; lb9 : R }.
Definition LepBornBaseLP (k : kin) : lep_born_lp :=
  {|
     lb7 := kS k / (4 * klambda_S_sqrt k) * (klambda_Y k * kV_p k - kS_p k * kS_x k * (kz k * kQ_sq k + kV_m k));
     lb9 := 1 / (2 * klambda_S_sqrt k) * (kS k * (kQ_sq k * (kz k * kS_x k * kV_p k - sq (kmh k) * kS_p k) + kV_m k
       * (kS k * kV_2 k - kX k * kV_1 k)) + 2 * sq (km k) * (4 * sq (kM k) * sq (kV_m k) + klambda_Y k * sq (kmh k)
       - kz k * sq (kS_x k) * (kz k * kQ_sq k + 2 * kV_m k))) |}.

(** leptonic_coeff.cpp 40-45 *)
Record lep_amm_uu := mk_lep_amm_uu { la1 : R; la2 : R; la3 : R; la4 : R }.
Definition LepAmmBaseUU (k : kin) : lep_amm_uu :=
  {|
     la1 := 6;
     la2 := - klambda_Y k / (2 * kQ_sq k);
     la3 := -2 * sq (kmh k) - 2 * sq (kV_m k) / kQ_sq k;
     la4 := -2 * kS_x k * (kz k + kV_m k / kQ_sq k) |}.

(** leptonic_coeff.cpp 46-50 *)
Record lep_amm_up := mk_lep_amm_up { la6 : R; la8 : R }.
Definition LepAmmBaseUP (k : kin) : lep_amm_up :=
  {|
     la6 := 0;
     la8 := 0 |}.

(** leptonic_coeff.cpp 51-54 *)
Record lep_amm_lu := mk_lep_amm_lu { la5 : R }.
Definition LepAmmBaseLU (k : kin) : lep_amm_lu :=
  {|
     la5 := (2 * (2 * kS k + kS_x k) * kvol_phi_h k) / (klambda_S_sqrt k * kQ_sq k) |}.

(** leptonic_coeff.cpp 55-69 *)
Record lep_amm_lp := mk_lep_amm_lp { la7 : R; la9 : R }.
Definition LepAmmBaseLP (k : kin) : lep_amm_lp :=
  {|
     la7 := (2 * kS k + kS_x k) / (4 * klambda_S_sqrt k * kQ_sq k) * (kS_x k * (kS k * kV_2 k - kX k * kV_1 k - kz k
       * kS_p k * kQ_sq k) + 4 * sq (kM k) * kQ_sq k * kV_p k);
     la9 := 1 / (2 * klambda_S_sqrt k * kQ_sq k) * (sq (kS_x k) * (4 * sq (km k) * (sq (kmh k) - kz k * (kz k *
       kQ_sq k + 2 * kV_m k)) + kV_1 k * kV_m k) - 4 * (sq (kM k) * (kQ_sq k - 4 * sq (km k)) + sq (kS k)) * (sq
       (kmh k) * kQ_sq k + sq (kV_m k)) + kz k * kQ_sq k * kS_x k * (kS_x k * (kz k * kQ_sq k + kV_1 k + kV_m k) + 2
       * kS k * kV_p k) + 2 * kS k * kS_x k * kV_m k * kV_p k) |}.

(** leptonic_coeff.cpp 82-121 *)
Record lep_rad_uu := mk_lep_rad_uu { lr011 : R; lr012 : R; lr013 : R; lr021 : R; lr022 : R; lr023 : R; lr031 : R; lr032 : R; lr033 : R; lr041 : R; lr042 : R; lr043 : R }.
Definition LepRadBaseUU (k : kinrad) : lep_rad_uu :=
  let b := LepBornBaseUU (project k) in
  {|
     lr011 := 4 * rF_IR k * (lb1 b);
     lr012 := 4 * rtau k * rF_IR k;
     lr013 := -4 - 2 * rF_d k * sq (rtau k);
     lr021 := 4 * rF_IR k * (lb2 b);
     lr022 := (1 / 2) * (rF_1p k * rS_x k * rS_p k + 2 * rF_2m k * sq (rm k) * rS_p k + 2 * rF_IR k * (rS_x k - 2 *
       rtau k * sq (rM k)) - rF_d k * rtau k * sq (rS_p k));
     lr023 := (1 / 2) * (rF_d k * (4 * sq (rm k) + rtau k * (2 * rtau k * sq (rM k) - rS_x k)) - rF_1p k * rS_p k +
       4 * sq (rM k));
     lr031 := 4 * rF_IR k * (lb3 b);
     lr032 := 2 * (rF_IR k * (rmu k * rV_m k - rtau k * sq (rmh k)) + rV_p k * (rF_2m k * rmu k * sq (rm k) +
       rF_1p k * rV_m k - rF_d k * rtau k * rV_p k));
     lr033 := rF_d k * (2 * sq (rmu k) * sq (rm k) + rtau k * (rtau k * sq (rmh k) - rmu k * rV_m k)) - rF_1p k *
       rmu k * rV_p k + 2 * sq (rmh k);
     lr041 := 4 * rF_IR k * (lb4 b);
     lr042 := rF_1p k * (rS k * rV_1 k - rX k * rV_2 k) + rF_2m k * sq (rm k) * (rmu k * rS_p k + 2 * rV_p k) - 2 *
       rF_d k * rtau k * rS_p k * rV_p k + rF_IR k * ((rmu k - 2 * rtau k * rz k) * rS_x k + 2 * rV_m k);
     lr043 := (1 / 2) * (rF_d k * (8 * rmu k * sq (rm k) + rtau k * ((2 * rtau k * rz k - rmu k) * rS_x k - 2 *
       rV_m k)) - rF_1p k * (rmu k * rS_p k + 2 * rV_p k) + 4 * rz k * rS_x k) |}.

(** leptonic_coeff.cpp 122-319 *)
Record lep_rad_up := mk_lep_rad_up { lr061 : R; lr062 : R; lr063 : R; lr064 : R; lr081 : R; lr082 : R; lr083 : R; lr084 : R }.
Definition LepRadBaseUP (k : kinrad) : lep_rad_up :=
  let b := LepBornBaseUP (project k) in
  {|
     lr061 := 4 * rF_IR k * (lb6 b);
     lr062 := 1 / (2 * rlambda_1 k) * (rvol_phi_h k * ((4 * sq (rM k) * rQ_sq k * (rQ_sq k + 4 * sq (rm k)) - sq
       (rS_x k) * (rQ_sq k - 4 * sq (rm k)) - 8 * rQ_sq k * rS k * rX k) * (rF_1p k * rS_x k + 2 * rF_2m k * sq
       (rm k) - rF_d k * rtau k * rS_p k) + 2 * rF_IR k * rS_p k * (2 * rtau k * (2 * sq (rM k) * (rQ_sq k + 2 * sq
       (rm k)) - rS k * rX k) - rS_x k * (rQ_sq k + 4 * sq (rm k)))) + 2 * rS_p k * rvol_phi_k_R k * (rF_2m k * sq
       (rm k) * (rS_x k * (rz k * rS_p k * rQ_sq k - rS k * rV_2 k + rV_1 k * rX k) - 4 * sq (rM k) * rQ_sq k *
       rV_p k) + rF_IR k * ((rQ_sq k + 4 * sq (rm k)) * (rz k * sq (rS_x k) - 4 * sq (rM k) * rV_m k) + rS_p k *
       (rX k * rV_1 k - rS k * rV_2 k))));
     lr063 := 1 / (2 * rlambda_1 k) * (2 * rvol_phi_h k * (rF_1p k * (2 * rQ_sq k * (rS k * rX k - 2 * sq (rM k) *
       rQ_sq k) - rtau k * rS_x k * (sq (rS_x k) + 3 * rS k * rX k - 4 * sq (rm k) * sq (rM k)) - (rQ_sq k + 2 * sq
       (rm k)) * sq (rS_x k)) + rF_2m k * sq (rm k) * (2 * rtau k * (2 * sq (rM k) * (rQ_sq k + 2 * sq (rm k)) -
       rS k * rX k) - rS_x k * (rQ_sq k + 4 * sq (rm k))) - rF_IR k * rQ_sq k * rS_p k + rF_d k * rS_p k * (sq
       (rtau k) * (sq (rS_x k) + 2 * rS k * rX k - 2 * sq (rM k) * (rQ_sq k + 4 * sq (rm k))) + 2 * rtau k * rS_x k
       * (rQ_sq k + 2 * sq (rm k)) - 4 * sq (rm k) * rQ_sq k) + rS_p k * sq (rS_x k)) + rvol_phi_k_R k * ((rS_x k *
       rF_1p k + 2 * sq (rm k) * rF_2m k) * ((rQ_sq k + 4 * sq (rm k)) * (rz k * sq (rS_x k) - 4 * sq (rM k) *
       rV_m k) + rS_p k * (rX k * rV_1 k - rS k * rV_2 k)) + 2 * rF_2p k * sq (rm k) * (rS_x k * (rz k * rQ_sq k *
       rS_p k - rS k * rV_2 k + rX k * rV_1 k) - 4 * sq (rM k) * rQ_sq k * rV_p k) + rF_d k * (4 * rtau k * (sq
       (rM k) * rQ_sq k * (4 * rS k * rV_m k + rS_x k * (rV_2 k - rV_m k)) + 2 * rS k * rX k * (rS k * rV_2 k - rX k
       * rV_1 k) + 2 * sq (rm k) * rS_p k * (4 * sq (rM k) * rV_m k - rz k * sq (rS_x k))) + (3 * rtau k * rS_x k +
       2 * (rQ_sq k - 2 * sq (rm k))) * (rS k * rV_2 k - rX k * rV_1 k - rz k * rQ_sq k * rS_p k) * rS_x k + 8 *
       (rQ_sq k - 2 * sq (rm k)) * sq (rM k) * rQ_sq k * rV_p k)));
     lr064 := 1 / (2 * rlambda_1 k) * (rvol_phi_h k * (rF_1p k * ((rQ_sq k + 4 * sq (rm k)) * rS_x k + 2 * rtau k *
       (rS k * rX k - 2 * sq (rM k) * (rQ_sq k + 2 * sq (rm k)))) + rS_p k * (rtau k * rQ_sq k * rF_d k - 2 *
       rS_x k)) + rvol_phi_k_R k * (rF_1p k * ((rQ_sq k + 4 * sq (rm k)) * (4 * sq (rM k) * rV_m k - rz k * sq
       (rS_x k)) + rS_p k * (rS k * rV_2 k - rX k * rV_1 k)) + rF_d k * rtau k * (4 * sq (rM k) * rQ_sq k * rV_p k +
       rS_x k * (rS k * rV_2 k - rX k * rV_1 k - rz k * rQ_sq k * rS_p k))));
     lr081 := 4 * rF_IR k * (lb8 b);
     lr082 := 1 / rlambda_1 k * (rvol_phi_h k * (rF_1p k * (rQ_sq k * rS_x k * (rS_x k * rV_p k - 2 * rS k * rV_2 k)
       - 2 * rV_m k * (2 * rlambda_1 k + rQ_sq k * rS k * rS_x k)) - 2 * rF_2m k * sq (rm k) * (2 * rmu k *
       rlambda_1 k + rQ_sq k * rS_p k * rV_p k) + rV_p k * (2 * rF_2p k * sq (rm k) * (2 * rtau k * (2 * (rQ_sq k +
       2 * sq (rm k)) * sq (rM k) - rS k * rX k) - (rQ_sq k + 4 * sq (rm k)) * rS_x k) + rF_d k * (4 * sq (rm k) *
       ((3 * rQ_sq k + 4 * sq (rm k)) * rS_x k + rtau k * (2 * rS k * rX k - 4 * (3 * rQ_sq k + 2 * sq (rm k)) * sq
       (rM k) - sq (rS_x k))) + rQ_sq k * (rtau k * (12 * rS k * rX k + sq (rS_x k)) + 2 * rQ_sq k * (rS_x k - 6 *
       rtau k * sq (rM k)))))) + 2 * rV_p k * rvol_phi_k_R k * (rF_IR k * ((rQ_sq k + 4 * sq (rm k)) * (rz k * sq
       (rS_x k) - 4 * sq (rM k) * rV_m k) + rS_p k * (rX k * rV_1 k - rS k * rV_2 k)) + rF_2m k * sq (rm k) *
       (rS_x k * (rX k * rV_1 k - rS k * rV_2 k + rz k * rS_p k * rQ_sq k) - 4 * rQ_sq k * rV_p k * sq (rM k))));
     lr083 := 1 / (2 * rlambda_1 k) * (rvol_phi_h k * (rF_d k * (2 * rmu k * (rQ_sq k - 2 * sq (rm k)) * rQ_sq k *
       rS_p k + rtau k * (2 * (rQ_sq k + 8 * sq (rm k)) * rS_x k * rV_p k + rQ_sq k * (rmu k * rS_x k * rS_p k + 2 *
       rS k * rV_1 k - 2 * rX k * rV_2 k)) - 2 * sq (rtau k) * (4 * (rQ_sq k + 4 * sq (rm k)) * rV_p k * sq (rM k) -
       rS_p k * (rS k * rV_1 k + rX k * rV_2 k))) + 2 * rF_2m k * rmu k * sq (rm k) * (2 * rtau k * (2 * (rQ_sq k +
       2 * sq (rm k)) * sq (rM k) - rS k * rX k) - (rQ_sq k + 4 * sq (rm k)) * rS_x k) + 4 * rS_p k * rS_x k *
       rV_m k - 2 * rF_2p k * rmu k * sq (rm k) * rQ_sq k * rS_p k + rF_1p k * (2 * rtau k * (sq (rX k) * rV_2 k -
       sq (rS k) * rV_1 k) + 8 * sq (rm k) * rV_m k * (2 * rtau k * sq (rM k) - rS_x k) + rQ_sq k * (4 * rmu k *
       (rS k * rX k - 2 * rQ_sq k * sq (rM k)) - rS_x k * (2 * rV_m k + rmu k * rS_x k)))) + 2 * rvol_phi_k_R k *
       ((rF_1p k * rV_m k + rF_2m k * rmu k * sq (rm k)) * ((rQ_sq k + 4 * sq (rm k)) * (rz k * sq (rS_x k) - 4 * sq
       (rM k) * rV_m k) + rS_p k * (rX k * rV_1 k - rS k * rV_2 k)) + rF_2p k * rmu k * sq (rm k) * (rS_x k * (rz k
       * rS_p k * rQ_sq k + rX k * rV_1 k - rS k * rV_2 k) - 4 * rQ_sq k * rV_p k * sq (rM k)) + rF_d k * (rmu k *
       (rQ_sq k - 2 * sq (rm k)) * (4 * rQ_sq k * rV_p k * sq (rM k) + rS_x k * (rS k * rV_2 k - rX k * rV_1 k -
       rz k * rS_p k * rQ_sq k)) + rtau k * (rS_x k * rS_p k * rV_2 k * (rV_1 k + rV_p k) + 2 * rV_m k * rV_p k *
       ((rS_x k - 4 * rS k) * rX k + 2 * (3 * rQ_sq k + 8 * sq (rm k)) * sq (rM k)) + rz k * rS_x k * (rQ_sq k *
       (rX k * rV_2 k - rS k * rV_1 k) - (rQ_sq k + 8 * sq (rm k)) * rS_x k * rV_p k)))));
     lr084 := rmu k / (2 * rlambda_1 k) * (rvol_phi_h k * (rF_1p k * ((rQ_sq k + 4 * sq (rm k)) * rS_x k + 2 *
       rtau k * (rS k * rX k - 2 * (rQ_sq k + 2 * sq (rm k)) * sq (rM k))) + rS_p k * (rF_d k * rtau k * rQ_sq k - 2
       * rS_x k)) + rvol_phi_k_R k * (rF_1p k * ((rQ_sq k + 4 * sq (rm k)) * (4 * sq (rM k) * rV_m k - rz k * sq
       (rS_x k)) + rS_p k * (rS k * rV_2 k - rX k * rV_1 k)) + rF_d k * rtau k * (4 * rQ_sq k * rV_p k * sq (rM k) +
       rS_x k * (rS k * rV_2 k - rX k * rV_1 k - rz k * rS_p k * rQ_sq k)))) |}.

(** leptonic_coeff.cpp 320-420 *)
Record lep_rad_lu := mk_lep_rad_lu { lr051 : R; lr052 : R; lr053 : R; lr151 : R; lr152 : R; lr153 : R }.
Definition LepRadBaseLU (k : kinrad) : lep_rad_lu :=
  let b := LepBornBaseLU (project k) in
  let theta_053_hat := (2 * rS k) / (rlambda_1 k * rlambda_S_sqrt k) * rF_21 k * (rvol_phi_k_R k * (2 * (rmu k *
    rQ_sq k + rtau k * rV_1 k) * (rS k * rX k - sq (rM k) * rQ_sq k) + (rQ_sq k + rtau k * rS k) * (rz k * rQ_sq k *
    rS_x k - rS k * rV_2 k - rX k * rV_1 k)) - rvol_phi_h k * sq (rQ_sq k + rtau k * rS k)) in
  {|
     lr051 := 4 * rF_IR k * (lb5 b);
     lr052 := rS k / (rlambda_1 k * rlambda_S_sqrt k) * (rvol_phi_h k * (2 * rF_IR k * (rS_x k * (rQ_sq k + 4 * sq
       (rm k)) + 2 * rtau k * (rS k * rX k - 2 * sq (rM k) * (rQ_sq k + 2 * sq (rm k)))) + rQ_sq k * (rS_p k *
       (rF_1p k * rS_x k + 2 * rF_2m k * sq (rm k)) - rF_d k * rtau k * (4 * rS k * rX k + sq (rS_x k)))) + 2 *
       rvol_phi_k_R k * (rF_2m k * sq (rm k) * (rS_x k * (rS k * rV_2 k - rX k * rV_1 k - rz k * rQ_sq k * rS_p k) +
       4 * sq (rM k) * rQ_sq k * rV_p k) + rF_IR k * ((rQ_sq k + 4 * sq (rm k)) * (4 * sq (rM k) * rV_m k - rz k *
       sq (rS_x k)) + rS_p k * (rS k * rV_2 k - rX k * rV_1 k))));
     lr053 := theta_053_hat + rS k / (rlambda_1 k * rlambda_S_sqrt k) * (rvol_phi_h k * (8 * rF_21 k * sq (rm k) *
       (rtau k * (rtau k * sq (rM k) - rS_x k) - rQ_sq k) + rF_1p k * (rQ_sq k * (4 * rtau k * sq (rM k) + rS_p k) +
       2 * rtau k * rS k * rS_x k) + rF_d k * rtau k * (4 * sq (rm k) * (2 * rtau k * sq (rM k) - rS_x k) + rQ_sq k
       * (rS_x k - 4 * rS k) - 2 * rtau k * sq (rS k))) + 2 * rvol_phi_k_R k * (2 * rF_21 k * sq (rm k) * (rS_x k *
       (2 * rz k * rQ_sq k + 2 * rV_m k + (rtau k * rz k - rmu k) * rS_x k) - 4 * sq (rM k) * (rmu k * rQ_sq k +
       rtau k * rV_m k)) + rF_d k * rtau k * (2 * sq (rm k) * (rz k * sq (rS_x k) - 4 * sq (rM k) * rV_m k) - 2 * sq
       (rM k) * rQ_sq k * rV_1 k + rS k * (rz k * rS_x k * rQ_sq k - rS k * rV_2 k + rX k * rV_1 k))));
     lr151 := 0;
     lr152 := (2 * sq (rm k)) / (rlambda_1 k * rlambda_S_sqrt k) * (rvol_phi_h k * (2 * rF_21 k * (2 * sq (rm k) *
       rlambda_Y k + (rQ_sq k + rtau k * rS k) * (2 * sq (rM k) * rQ_sq k + rS k * rS_x k)) - rF_1p k * rS_x k *
       rlambda_Y k + rF_d k * (2 * rQ_sq k * rX k * rS_x k + rtau k * rS_x k * (2 * sq (rS k) - sq (rS_p k)) + 4 *
       sq (rM k) * rQ_sq k * (rtau k * rS k - rQ_sq k) - 4 * sq (rm k) * rlambda_Y k)) + 2 * rvol_phi_k_R k *
       (rF_d k * rX k - rF_21 k * rS k) * (rS_x k * (rz k * rS_p k * rQ_sq k + rX k * rV_1 k - rS k * rV_2 k) - 4 *
       sq (rM k) * rQ_sq k * rV_p k));
     lr153 := (2 * sq (rm k)) / (rlambda_1 k * rlambda_S_sqrt k) * (rvol_phi_h k * (2 * rF_21 k * ((rQ_sq k + 2 * sq
       (rm k)) * (2 * rtau k * sq (rM k) + rX k) - (rtau k * rX k + 2 * sq (rm k)) * rS k) - rF_1p k * rlambda_Y k +
       rF_d k * (4 * sq (rm k) * (rS_x k - 2 * rtau k * sq (rM k)) + 2 * rQ_sq k * rS k + rtau k * (sq (rS k) + sq
       (rX k)))) + 2 * rvol_phi_k_R k * (rF_21 k * (2 * sq (rm k) * (rz k * sq (rS_x k) - 4 * sq (rM k) * rV_m k) +
       2 * sq (rM k) * rQ_sq k * rV_2 k + rX k * (rX k * rV_1 k - rS k * rV_2 k - rz k * rS_x k * rQ_sq k)) + rF_d k
       * (2 * sq (rm k) * (4 * sq (rM k) * rV_m k - rz k * sq (rS_x k)) + 2 * sq (rM k) * rQ_sq k * rV_1 k + rS k *
       (rS k * rV_2 k - rX k * rV_1 k - rz k * rQ_sq k * rS_x k)))) |}.

(** leptonic_coeff.cpp 421-582 *)
Record lep_rad_lp := mk_lep_rad_lp { lr071 : R; lr072 : R; lr073 : R; lr074 : R; lr171 : R; lr172 : R; lr173 : R; lr174 : R; lr091 : R; lr092 : R; lr093 : R; lr094 : R; lr191 : R; lr192 : R; lr193 : R; lr194 : R }.
Definition LepRadBaseLP (k : kinrad) : lep_rad_lp :=
  let b := LepBornBaseLP (project k) in
  {|
     lr071 := 4 * rF_IR k * (lb7 b);
     lr072 := rS k / (2 * rlambda_S_sqrt k) * (rF_1p k * rQ_sq k * (4 * sq (rM k) * rV_m k - rz k * sq (rS_x k)) +
       rF_2m k * sq (rm k) * (rmu k * rlambda_Y k - 2 * rS_x k * (rz k * rQ_sq k + rV_m k)) + rF_IR k * (2 * (4 *
       rtau k * sq (rM k) - rS_x k) * rV_p k + (rmu k - 2 * rtau k * rz k) * rS_p k * rS_x k - 2 * rS k * rV_2 k + 2
       * rX k * rV_1 k) + rF_d k * rtau k * (rQ_sq k * (rz k * rS_x k * rS_p k - 4 * sq (rM k) * rV_p k) + rS_x k *
       (rX k * rV_1 k - rS k * rV_2 k)));
     lr073 := rS k / (4 * rlambda_S_sqrt k) * (rF_1p k * (rS_x k * (4 * rz k * rQ_sq k + 2 * rV_m k - rmu k *
       rS_x k) - 8 * rmu k * sq (rM k) * rQ_sq k) + 2 * rF_2m k * sq (rm k) * (4 * rmu k * rtau k * sq (rM k) + 2 *
       rV_m k - (rmu k + 2 * rtau k * rz k) * rS_x k) + 2 * rF_IR k * (2 * rV_p k - rmu k * rS_p k) + rF_d k *
       rtau k * (4 * (rS_x k - 2 * rtau k * sq (rM k)) * rV_p k + rS_p k * ((2 * rtau k * rz k - rmu k) * rS_x k - 2
       * rV_m k)));
     lr074 := rS k / (4 * rlambda_S_sqrt k) * (rF_1p k * ((rmu k + 2 * rtau k * rz k) * rS_x k - 2 * rV_m k - 4 *
       rmu k * rtau k * sq (rM k)) + rF_d k * rtau k * (rmu k * rS_p k - 2 * rV_p k));
     lr171 := 0;
     lr172 := sq (rm k) / rlambda_S_sqrt k * (rF_21 k * (4 * sq (rM k) * (rtau k * rS k * rV_m k - rQ_sq k * rV_p k)
       - sq (rS_x k) * (rtau k * rz k * rS k + rz k * rQ_sq k + rV_1 k) + rmu k * rlambda_Y k * rS k) + rF_d k * (4
       * sq (rM k) * (rQ_sq k * rV_p k - rtau k * rX k * rV_m k) + sq (rS_x k) * (rtau k * rz k * rX k + rV_2 k -
       rz k * rQ_sq k) - rmu k * rlambda_Y k * rX k));
     lr173 := sq (rm k) / rlambda_S_sqrt k * (rF_21 k * (2 * sq (rM k) * (rmu k * (rQ_sq k + rtau k * rS k) - 2 *
       rtau k * rV_p k) + rS_x k * ((rtau k * rz k - 2 * rmu k) * rS k + 2 * rV_p k - rz k * rQ_sq k) + (rmu k -
       rtau k * rz k) * sq (rS_x k)) + rF_d k * (2 * sq (rM k) * (rmu k * (rQ_sq k - rtau k * rX k) + 2 * rtau k *
       rV_p k) + rS_x k * ((2 * rmu k - rtau k * rz k) * rS k - rz k * rQ_sq k - 2 * rV_p k) - rmu k * sq (rS_x k)));
     lr174 := sq (rm k) / rlambda_S_sqrt k * (rF_21 k * (2 * rmu k * rtau k * sq (rM k) + rmu k * rX k - rtau k *
       rz k * rS_x k - rV_2 k) + rF_d k * (2 * rmu k * rtau k * sq (rM k) + rV_1 k - rmu k * rS k - rtau k * rz k *
       rS_x k));
     lr091 := (2 * rS k) / rlambda_S_sqrt k * rF_IR k * (rQ_sq k * (rz k * rS_x k * rV_p k - sq (rmh k) * rS_p k) +
       rV_m k * (rS k * rV_2 k - rX k * rV_1 k));
     lr092 := rS k / rlambda_S_sqrt k * (rF_1p k * rQ_sq k * rS_x k * (rz k * rV_m k - sq (rmh k)) + rF_2m k * sq
       (rm k) * (rQ_sq k * (rmu k * rz k * rS_x k - 2 * sq (rmh k)) + rV_m k * (rmu k * rS_x k - 2 * rV_m k)) +
       rF_d k * rtau k * (rQ_sq k * (sq (rmh k) * rS_p k - rz k * rS_x k * rV_p k) + rV_m k * (rX k * rV_1 k - rS k
       * rV_2 k)) + rF_IR k * (2 * rV_m k * (2 * rmu k * rS k - rV_p k) + 2 * rtau k * (rz k * rS_x k * rV_p k - sq
       (rmh k) * rS_p k) - rmu k * (rV_1 k + rV_m k) * rS_x k));
     lr093 := rS k / (2 * rlambda_S_sqrt k) * (rF_1p k * (2 * (2 * sq (rmh k) * rQ_sq k + sq (rV_m k)) - rmu k *
       rS_x k * (2 * rz k * rQ_sq k + rV_m k)) + rF_2m k * sq (rm k) * (rmu k * ((2 * rtau k * rz k - rmu k) *
       rS_x k + 2 * rV_m k) - 4 * rtau k * sq (rmh k)) + rF_IR k * rmu k * (2 * rV_p k - rmu k * rS_p k) + rF_d k *
       rtau k * (2 * rtau k * (sq (rmh k) * rS_p k - rz k * rS_x k * rV_p k) + rmu k * rS_x k * (rV_m k + rV_1 k) +
       2 * rV_m k * (rV_p k - 2 * rmu k * rS k)));
     lr094 := rS k / (4 * rlambda_S_sqrt k) * (rF_1p k * (2 * rtau k * (2 * sq (rmh k) - rmu k * rz k * rS_x k) +
       rmu k * (rmu k * rS_x k - 2 * rV_m k)) + rF_d k * rmu k * rtau k * (rmu k * rS_p k - 2 * rV_p k));
     lr191 := (4 * sq (rm k)) / rlambda_S_sqrt k * rF_IR k * (sq (rmh k) * rlambda_Y k + 4 * sq (rM k) * sq (rV_m k)
       - rz k * sq (rS_x k) * (rz k * rQ_sq k + 2 * rV_m k));
     lr192 := (2 * sq (rm k)) / rlambda_S_sqrt k * (2 * rF_2p k * sq (rm k) * (2 * sq (rmh k) * (2 * rtau k * sq
       (rM k) - rS_x k) + 2 * (rz k * rS_x k - 2 * rmu k * sq (rM k)) * rV_m k + rz k * (rmu k - rtau k * rz k) * sq
       (rS_x k)) + rF_21 k * rS_x k * (rz k * rQ_sq k * (rmu k * rS k - rV_p k) + rV_m k * ((rmu k + rtau k * rz k)
       * rS k - rV_1 k) - sq (rmh k) * (rQ_sq k + rtau k * rS k)) + rF_d k * (rS_x k * ((sq (rmh k) - rz k * rV_m k)
       * (rtau k * rX k + 3 * rQ_sq k + 8 * sq (rm k)) + (rV_m k + rz k * rQ_sq k) * (rV_2 k - rmu k * rX k)) + 2 *
       (rQ_sq k + 2 * sq (rm k)) * (4 * sq (rM k) * (rmu k * rV_m k - rtau k * sq (rmh k)) + (rz k * rtau k - rmu k)
       * rz k * sq (rS_x k))));
     lr193 := sq (rm k) / rlambda_S_sqrt k * (4 * rF_2p k * sq (rm k) * (sq (rmh k) + sq (rmu k) * sq (rM k) - rmu k
       * rz k * rS_x k) + rF_21 k * (2 * sq (rmh k) * (rtau k * rX k - rQ_sq k) + rS_x k * (rmu k * (rtau k * rz k -
       rmu k) * rS k - 2 * rtau k * rz k * rV_p k + rmu k * rz k * rQ_sq k + rmu k * rV_1 k) + 2 * rV_m k * (rV_2 k
       - rmu k * rX k)) + rF_d k * (rmu k * ((rQ_sq k + 2 * sq (rm k)) * (5 * rz k * rS_x k - 4 * rmu k * sq (rM k))
       + (rmu k - rtau k * rz k) * rX k * rS_x k) - 2 * sq (rmh k) * (rtau k * rS k + 3 * rQ_sq k + 4 * sq (rm k)) +
       rS_x k * (2 * rtau k * rz k * rV_p k - rmu k * rV_2 k - 2 * rmu k * rz k * sq (rm k)) + 2 * rV_m k * (rmu k *
       rS k - rV_1 k)));
     lr194 := sq (rm k) / rlambda_S_sqrt k * (rF_21 k * (rmu k * (rtau k * rz k * rS_x k + rmu k * rX k - rV_2 k) -
       2 * rtau k * sq (rmh k)) + rF_d k * (rmu k * (rtau k * rz k * rS_x k + rV_1 k - rmu k * rS k) - 2 * rtau k *
       sq (rmh k))) |}.

(** leptonic_coeff.cpp 75-83 and leptonic_coeff.hpp 137-171: pairs of the two kinds of coefficients *)
Record lep_nrad_uu := mk_lep_nrad_uu { ln_uu_born : lep_born_uu; ln_uu_amm : lep_amm_uu }.
Definition LepNradBaseUU (k : kin) : lep_nrad_uu := mk_lep_nrad_uu (LepBornBaseUU k) (LepAmmBaseUU k).
Record lep_nrad_up := mk_lep_nrad_up { ln_up_born : lep_born_up; ln_up_amm : lep_amm_up }.
Definition LepNradBaseUP (k : kin) : lep_nrad_up := mk_lep_nrad_up (LepBornBaseUP k) (LepAmmBaseUP k).
Record lep_nrad_lu := mk_lep_nrad_lu { ln_lu_born : lep_born_lu; ln_lu_amm : lep_amm_lu }.
Definition LepNradBaseLU (k : kin) : lep_nrad_lu := mk_lep_nrad_lu (LepBornBaseLU k) (LepAmmBaseLU k).
Record lep_nrad_lp := mk_lep_nrad_lp { ln_lp_born : lep_born_lp; ln_lp_amm : lep_amm_lp }.
Definition LepNradBaseLP (k : kin) : lep_nrad_lp := mk_lep_nrad_lp (LepBornBaseLP k) (LepAmmBaseLP k).
