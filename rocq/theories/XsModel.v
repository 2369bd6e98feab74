(** Model of src/cross_section.cpp over the real numbers (no rounding): the coefficients in front of the
    leptonic and hadronic parts, the base cross-sections, the polarization dispatch and the virtual and
    soft-photon corrections. The Monte-Carlo integrators themselves are not modelled, their integrands are. *)
From Coq Require Import Reals Bool.
From Verif Require Import ExtModel MathModel BoundModel VecModel TransModel KinModel SfModel CutModel LepModel HadModel.
Local Open Scope R_scope.

(** phenom.hpp 34-51 *)
Record phenom := Phenom { p_alpha_qed : R; p_delta_vac_had : R }.

(** constant.hpp 25-27 *)
Definition MASS_E : R := 5109989461 / 10 ^ 13.
Definition MASS_MU : R := 1056583745 / 10 ^ 10.
Definition MASS_TAU : R := 177686 / 10 ^ 5.

(** The combination computed in cross_section.cpp 324-335, 481-486, 503-508, 521-524 and 574-578. *)
Definition lepton_L (Q_sq m : R) : R :=
  let diff_m := sqrt1p_1m ((4 * sq m) / Q_sq) in
  let sum_m := 2 + diff_m in
  1 / sqrt (Q_sq * (Q_sq + 4 * sq m)) * ln (sum_m / diff_m).

(** cross_section.cpp 313-355; [dilog] is the function of math.cpp, a parameter here. *)
Definition delta_vert_rad_0 (dilog : R -> R) (k : kin) : R :=
  let Q_m_sq := kQ_sq k + 2 * sq (km k) in
  let S_prime := kS k - kQ_sq k - kV_1 k in
  let X_prime := kX k + kQ_sq k - kV_2 k in
  let lambda_m := kQ_sq k * (kQ_sq k + 4 * sq (km k)) in
  let lambda_S_prime := sq S_prime - 4 * sq (km k) * kmx_sq k in
  let lambda_X_prime := sq X_prime - 4 * sq (km k) * kmx_sq k in
  let lambda_m_sqrt := sqrt lambda_m in
  let lambda_S_prime_sqrt := sqrt lambda_S_prime in
  let lambda_X_prime_sqrt := sqrt lambda_X_prime in
  let diff_m := sqrt1p_1m ((4 * sq (km k)) / kQ_sq k) in
  let diff_S_prime := sqrt1p_1m (- (4 * sq (km k) * kmx_sq k) / sq S_prime) in
  let diff_X_prime := sqrt1p_1m (- (4 * sq (km k) * kmx_sq k) / sq X_prime) in
  let sum_m := 2 + diff_m in
  let sum_S_prime := 2 + diff_S_prime in
  let sum_X_prime := 2 + diff_X_prime in
  let L_m := 1 / lambda_m_sqrt * ln (sum_m / diff_m) in
  let L_S_prime := 1 / lambda_S_prime_sqrt * ln (- sum_S_prime / diff_S_prime) in
  let L_X_prime := 1 / lambda_X_prime_sqrt * ln (- sum_X_prime / diff_X_prime) in
  let rho := 1 / lambda_m_sqrt * ((Q_m_sq + lambda_m_sqrt) * S_prime - 2 * sq (km k) * X_prime) in
  let S_phi := Q_m_sq / lambda_m_sqrt * (
    lambda_S_prime * sq L_S_prime / 4 - lambda_X_prime * sq L_X_prime / 4
    + dilog (1 - 1 / (sum_S_prime * S_prime) * rho)
    + dilog (1 - (sum_S_prime * S_prime) / (4 * sq (km k) * kmx_sq k) * rho)
    - dilog (1 - (sum_X_prime * X_prime) / (kmx_sq k * sq sum_m * kQ_sq k) * rho)
    - dilog (1 - (4 * sq (km k)) / (sum_X_prime * X_prime * sq sum_m * kQ_sq k) * rho)) in
  (1 / 2) * S_prime * L_S_prime + (1 / 2) * X_prime * L_X_prime + S_phi - 2
    + ((3 / 2) * kQ_sq k + 4 * sq (km k)) * L_m
    - Q_m_sq / lambda_m_sqrt * (
      (1 / 2) * lambda_m * sq L_m
      + 2 * dilog ((2 * lambda_m_sqrt) / (kQ_sq k + lambda_m_sqrt))
      - (1 / 2) * sq PI).

(** cross_section.cpp 475-495. The value for a cutoff that is not positive is minus infinity. *)
Definition delta_vert_rad_ir (dilog : R -> R) (k : kin) (k_0_bar : R) : ext :=
  let k0_max := (kmx_sq k - sq (kMth k)) / (2 * kmx k) in
  if negb (rltb 0 k_0_bar) then NInf
  else
    let Q_m_sq := kQ_sq k + 2 * sq (km k) in
    let L_m := lepton_L (kQ_sq k) (km k) in
    let delta_0 := delta_vert_rad_0 dilog k in
    let delta_shift := 2 * (Q_m_sq * L_m - 1) * ln (
      if rltb k_0_bar k0_max then (2 * k_0_bar) / km k
      else (kmx_sq k - sq (kMth k)) / (km k * kmx k)) in
    Fin (delta_0 + delta_shift).
(** cross_section.cpp 496-513 *)
Definition delta_rad_ir_hard (k : kin) (k_0_bar : R) : ext :=
  let k0_max := (kmx_sq k - sq (kMth k)) / (2 * kmx k) in
  if negb (rltb 0 k_0_bar) then PInf
  else if negb (rltb k_0_bar k0_max) then Fin 0
  else
    let Q_m_sq := kQ_sq k + 2 * sq (km k) in
    let L_m := lepton_L (kQ_sq k) (km k) in
    Fin (2 * (Q_m_sq * L_m - 1) * ln ((kmx_sq k - sq (kMth k)) / (2 * k_0_bar * kmx k))).
(** cross_section.cpp 515-531: the loop over the three lepton masses, unrolled. *)
Definition delta_vac_term (Q_sq m : R) : R :=
  let L_m := lepton_L Q_sq m in
  2 / 3 * (Q_sq + 2 * sq m) * L_m - 10 / 9 + (8 * sq m) / (3 * Q_sq) * (1 - 2 * sq m * L_m).
Definition delta_vac_lep (k : kin) : R :=
  0 + delta_vac_term (kQ_sq k) MASS_E + delta_vac_term (kQ_sq k) MASS_MU + delta_vac_term (kQ_sq k) MASS_TAU.

(** cross_section.cpp 534-537 *)
Record Born_t := mk_Born { born_coeff : R }.
Definition Born (k : kin) (ph : phenom) : Born_t :=
  mk_Born ((sq (p_alpha_qed ph) * kS k * sq (kS_x k)) / (8 * kM k * kph_l k * klambda_S k)).
(** cross_section.cpp 572-582 *)
Record Amm_t := mk_Amm { amm_coeff : R }.
Definition Amm (k : kin) (ph : phenom) : Amm_t :=
  let L_m := lepton_L (kQ_sq k) (km k) in
  mk_Amm (L_m * kQ_sq k * (p_alpha_qed ph ^ 3 * sq (km k) * kS k * sq (kS_x k))
    / (16 * PI * kM k * kph_l k * klambda_S k)).
(** cross_section.cpp 617-626; no value when the cutoff is not positive (the factor is minus infinity). *)
Record Nrad_t := mk_Nrad { nrad_coeff_born : R; nrad_coeff_amm : R }.
Definition Nrad (dilog : R -> R) (k : kin) (ph : phenom) (k_0_bar : R) : option Nrad_t :=
  match delta_vert_rad_ir dilog k k_0_bar with
  | Fin delta_vert =>
      let born_factor := 1 + p_alpha_qed ph / PI * (delta_vert + delta_vac_lep k + p_delta_vac_had ph) in
      Some (mk_Nrad (born_factor * born_coeff (Born k ph)) (amm_coeff (Amm k ph)))
  | _ => None
  end.
(** cross_section.cpp 670-675 *)
Record Rad_t := mk_Rad { rad_coeff : R; rad_R : R }.
Definition Rad (k : kinrad) (ph : phenom) : Rad_t :=
  mk_Rad (- (p_alpha_qed ph ^ 3 * rS k * sq (rS_x k))
    / (64 * sq PI * rM k * rph_l k * rlambda_S k * rlambda_Y_sqrt k)) (rR k).

(** cross_section.cpp 538-544 *)
Definition born_base_uu (b : Born_t) (lep : lep_born_uu) (had : had_uu) : R :=
  born_coeff b * (lb1 lep * h10 had + lb2 lep * h20 had + lb3 lep * h30 had + lb4 lep * h40 had).
(** cross_section.cpp 545-547 *)
Definition born_base_ul (b : Born_t) (lep : lep_born_up) (had : had_ul) : R :=
  born_coeff b * (lb6 lep * h63 had + lb8 lep * h83 had).
(** cross_section.cpp 548-550 *)
Definition born_base_ut1 (b : Born_t) (lep : lep_born_up) (had : had_ut) : R :=
  born_coeff b * (lb6 lep * h61 had + lb8 lep * h81 had).
(** cross_section.cpp 551-557 *)
Definition born_base_ut2 (b : Born_t) (lep : lep_born_uu) (had : had_ut) : R :=
  born_coeff b * (lb1 lep * h12 had + lb2 lep * h22 had + lb3 lep * h32 had + lb4 lep * h42 had).
(** cross_section.cpp 558-560 *)
Definition born_base_lu (b : Born_t) (lep : lep_born_lu) (had : had_lu) : R :=
  born_coeff b * lb5 lep * h50 had.
(** cross_section.cpp 561-563 *)
Definition born_base_ll (b : Born_t) (lep : lep_born_lp) (had : had_ll) : R :=
  born_coeff b * (lb7 lep * h73 had + lb9 lep * h93 had).
(** cross_section.cpp 564-566 *)
Definition born_base_lt1 (b : Born_t) (lep : lep_born_lp) (had : had_lt) : R :=
  born_coeff b * (lb7 lep * h71 had + lb9 lep * h91 had).
(** cross_section.cpp 567-569 *)
Definition born_base_lt2 (b : Born_t) (lep : lep_born_lu) (had : had_lt) : R :=
  born_coeff b * lb5 lep * h52 had.

(** cross_section.cpp 583-589 *)
Definition amm_base_uu (b : Amm_t) (lep : lep_amm_uu) (had : had_uu) : R :=
  amm_coeff b * (la1 lep * h10 had + la2 lep * h20 had + la3 lep * h30 had + la4 lep * h40 had).
(** cross_section.cpp 590-592 *)
Definition amm_base_ul (b : Amm_t) (lep : lep_amm_up) (had : had_ul) : R :=
  amm_coeff b * (la6 lep * h63 had + la8 lep * h83 had).
(** cross_section.cpp 593-595 *)
Definition amm_base_ut1 (b : Amm_t) (lep : lep_amm_up) (had : had_ut) : R :=
  amm_coeff b * (la6 lep * h61 had + la8 lep * h81 had).
(** cross_section.cpp 596-602 *)
Definition amm_base_ut2 (b : Amm_t) (lep : lep_amm_uu) (had : had_ut) : R :=
  amm_coeff b * (la1 lep * h12 had + la2 lep * h22 had + la3 lep * h32 had + la4 lep * h42 had).
(** cross_section.cpp 603-605 *)
Definition amm_base_lu (b : Amm_t) (lep : lep_amm_lu) (had : had_lu) : R :=
  amm_coeff b * la5 lep * h50 had.
(** cross_section.cpp 606-608 *)
Definition amm_base_ll (b : Amm_t) (lep : lep_amm_lp) (had : had_ll) : R :=
  amm_coeff b * (la7 lep * h73 had + la9 lep * h93 had).
(** cross_section.cpp 609-611 *)
Definition amm_base_lt1 (b : Amm_t) (lep : lep_amm_lp) (had : had_lt) : R :=
  amm_coeff b * (la7 lep * h71 had + la9 lep * h91 had).
(** cross_section.cpp 612-614 *)
Definition amm_base_lt2 (b : Amm_t) (lep : lep_amm_lu) (had : had_lt) : R :=
  amm_coeff b * la5 lep * h52 had.

(** cross_section.cpp 628-634 *)
Definition nrad_ir_base_uu (b : Nrad_t) (lep : lep_nrad_uu) (had : had_uu) : R :=
  (nrad_coeff_born b * lb1 (ln_uu_born lep) + nrad_coeff_amm b * la1 (ln_uu_amm lep)) * h10 had + (nrad_coeff_born b
    * lb2 (ln_uu_born lep) + nrad_coeff_amm b * la2 (ln_uu_amm lep)) * h20 had + (nrad_coeff_born b * lb3
    (ln_uu_born lep) + nrad_coeff_amm b * la3 (ln_uu_amm lep)) * h30 had + (nrad_coeff_born b * lb4 (ln_uu_born lep)
    + nrad_coeff_amm b * la4 (ln_uu_amm lep)) * h40 had.
(** cross_section.cpp 635-639 *)
Definition nrad_ir_base_ul (b : Nrad_t) (lep : lep_nrad_up) (had : had_ul) : R :=
  (nrad_coeff_born b * lb6 (ln_up_born lep) + nrad_coeff_amm b * la6 (ln_up_amm lep)) * h63 had + (nrad_coeff_born b
    * lb8 (ln_up_born lep) + nrad_coeff_amm b * la8 (ln_up_amm lep)) * h83 had.
(** cross_section.cpp 640-644 *)
Definition nrad_ir_base_ut1 (b : Nrad_t) (lep : lep_nrad_up) (had : had_ut) : R :=
  (nrad_coeff_born b * lb6 (ln_up_born lep) + nrad_coeff_amm b * la6 (ln_up_amm lep)) * h61 had + (nrad_coeff_born b
    * lb8 (ln_up_born lep) + nrad_coeff_amm b * la8 (ln_up_amm lep)) * h81 had.
(** cross_section.cpp 645-651 *)
Definition nrad_ir_base_ut2 (b : Nrad_t) (lep : lep_nrad_uu) (had : had_ut) : R :=
  (nrad_coeff_born b * lb1 (ln_uu_born lep) + nrad_coeff_amm b * la1 (ln_uu_amm lep)) * h12 had + (nrad_coeff_born b
    * lb2 (ln_uu_born lep) + nrad_coeff_amm b * la2 (ln_uu_amm lep)) * h22 had + (nrad_coeff_born b * lb3
    (ln_uu_born lep) + nrad_coeff_amm b * la3 (ln_uu_amm lep)) * h32 had + (nrad_coeff_born b * lb4 (ln_uu_born lep)
    + nrad_coeff_amm b * la4 (ln_uu_amm lep)) * h42 had.
(** cross_section.cpp 652-654 *)
Definition nrad_ir_base_lu (b : Nrad_t) (lep : lep_nrad_lu) (had : had_lu) : R :=
  (nrad_coeff_born b * lb5 (ln_lu_born lep) + nrad_coeff_amm b * la5 (ln_lu_amm lep)) * h50 had.
(** cross_section.cpp 655-659 *)
Definition nrad_ir_base_ll (b : Nrad_t) (lep : lep_nrad_lp) (had : had_ll) : R :=
  (nrad_coeff_born b * lb7 (ln_lp_born lep) + nrad_coeff_amm b * la7 (ln_lp_amm lep)) * h73 had + (nrad_coeff_born b
    * lb9 (ln_lp_born lep) + nrad_coeff_amm b * la9 (ln_lp_amm lep)) * h93 had.
(** cross_section.cpp 660-664 *)
Definition nrad_ir_base_lt1 (b : Nrad_t) (lep : lep_nrad_lp) (had : had_lt) : R :=
  (nrad_coeff_born b * lb7 (ln_lp_born lep) + nrad_coeff_amm b * la7 (ln_lp_amm lep)) * h71 had + (nrad_coeff_born b
    * lb9 (ln_lp_born lep) + nrad_coeff_amm b * la9 (ln_lp_amm lep)) * h91 had.
(** cross_section.cpp 665-667 *)
Definition nrad_ir_base_lt2 (b : Nrad_t) (lep : lep_nrad_lu) (had : had_lt) : R :=
  (nrad_coeff_born b * lb5 (ln_lu_born lep) + nrad_coeff_amm b * la5 (ln_lu_amm lep)) * h52 had.

(** cross_section.cpp 677-694 *)
Definition rad_base_uu (b : Rad_t) (lep_uu : lep_rad_uu) (had : had_rad_uu) : R :=
  rad_coeff b * (1 / rad_R b * (lr011 lep_uu * hr10 had + lr021 lep_uu * hr20 had + lr031 lep_uu * hr30 had + lr041
    lep_uu * hr40 had) + (lr012 lep_uu * hr10 had + lr022 lep_uu * hr20 had + lr032 lep_uu * hr30 had + lr042 lep_uu
    * hr40 had) + rad_R b * (lr013 lep_uu * hr10 had + lr023 lep_uu * hr20 had + lr033 lep_uu * hr30 had + lr043
    lep_uu * hr40 had)).
(** cross_section.cpp 695-721 *)
Definition rad_base_up (b : Rad_t) (lep_uu : lep_rad_uu) (lep_up : lep_rad_up) (had : had_rad_up) : vec3 :=
  scale3 (rad_coeff b) (add3 (add3 (add3 (scale3 (1 / rad_R b) (add3 (add3 (add3 (add3 (add3 (scale3 (lr011 lep_uu)
    (hr1 had)) (scale3 (lr021 lep_uu) (hr2 had))) (scale3 (lr031 lep_uu) (hr3 had))) (scale3 (lr041 lep_uu) (hr4
    had))) (scale3 (lr061 lep_up) (hr6 had))) (scale3 (lr081 lep_up) (hr8 had)))) (add3 (add3 (add3 (add3 (add3
    (scale3 (lr012 lep_uu) (hr1 had)) (scale3 (lr022 lep_uu) (hr2 had))) (scale3 (lr032 lep_uu) (hr3 had))) (scale3
    (lr042 lep_uu) (hr4 had))) (scale3 (lr062 lep_up) (hr6 had))) (scale3 (lr082 lep_up) (hr8 had)))) (scale3 (rad_R
    b) (add3 (add3 (add3 (add3 (add3 (scale3 (lr013 lep_uu) (hr1 had)) (scale3 (lr023 lep_uu) (hr2 had))) (scale3
    (lr033 lep_uu) (hr3 had))) (scale3 (lr043 lep_uu) (hr4 had))) (scale3 (lr063 lep_up) (hr6 had))) (scale3 (lr083
    lep_up) (hr8 had))))) (scale3 (rad_R b * rad_R b) (add3 (scale3 (lr064 lep_up) (hr6 had)) (scale3 (lr084 lep_up)
    (hr8 had))))).
(** cross_section.cpp 722-727 *)
Definition rad_base_lu (b : Rad_t) (lep_lu : lep_rad_lu) (had : had_rad_lu) : R :=
  rad_coeff b * (1 / rad_R b * (lr051 lep_lu + lr151 lep_lu) * hr50 had + (lr052 lep_lu + lr152 lep_lu) * hr50 had +
    rad_R b * (lr053 lep_lu + lr153 lep_lu) * hr50 had).
(** cross_section.cpp 728-745 *)
Definition rad_base_lp (b : Rad_t) (lep_lu : lep_rad_lu) (lep_lp : lep_rad_lp) (had : had_rad_lp) : vec3 :=
  scale3 (rad_coeff b) (add3 (add3 (add3 (scale3 (1 / rad_R b) (add3 (add3 (scale3 (lr051 lep_lu + lr151 lep_lu)
    (hr5 had)) (scale3 (lr071 lep_lp + lr171 lep_lp) (hr7 had))) (scale3 (lr091 lep_lp + lr191 lep_lp) (hr9 had))))
    (add3 (add3 (scale3 (lr052 lep_lu + lr152 lep_lu) (hr5 had)) (scale3 (lr072 lep_lp + lr172 lep_lp) (hr7 had)))
    (scale3 (lr092 lep_lp + lr192 lep_lp) (hr9 had)))) (scale3 (rad_R b) (add3 (add3 (scale3 (lr053 lep_lu + lr153
    lep_lu) (hr5 had)) (scale3 (lr073 lep_lp + lr173 lep_lp) (hr7 had))) (scale3 (lr093 lep_lp + lr193 lep_lp) (hr9
    had))))) (scale3 (rad_R b * rad_R b) (add3 (scale3 (lr074 lep_lp + lr174 lep_lp) (hr7 had)) (scale3 (lr094
    lep_lp + lr194 lep_lp) (hr9 had))))).

(** cross_section.cpp 747-764 *)
Definition rad_f_base_uu (b : Rad_t) (lep_uu : lep_rad_uu) (had : had_rad_f_uu) : R :=
  rad_coeff b * (lr011 lep_uu * hd10 had + lr021 lep_uu * hd20 had + lr031 lep_uu * hd30 had + lr041 lep_uu * hd40
    had + (lr012 lep_uu * hf10 had + lr022 lep_uu * hf20 had + lr032 lep_uu * hf30 had + lr042 lep_uu * hf40 had) +
    rad_R b * (lr013 lep_uu * hf10 had + lr023 lep_uu * hf20 had + lr033 lep_uu * hf30 had + lr043 lep_uu * hf40
    had)).
(** cross_section.cpp 765-791 *)
Definition rad_f_base_up (b : Rad_t) (lep_uu : lep_rad_uu) (lep_up : lep_rad_up) (had : had_rad_f_up) : vec3 :=
  scale3 (rad_coeff b) (add3 (add3 (add3 (add3 (add3 (add3 (add3 (add3 (scale3 (lr011 lep_uu) (hd1 had)) (scale3
    (lr021 lep_uu) (hd2 had))) (scale3 (lr031 lep_uu) (hd3 had))) (scale3 (lr041 lep_uu) (hd4 had))) (scale3 (lr061
    lep_up) (hd6 had))) (scale3 (lr081 lep_up) (hd8 had))) (add3 (add3 (add3 (add3 (add3 (scale3 (lr012 lep_uu) (hf1
    had)) (scale3 (lr022 lep_uu) (hf2 had))) (scale3 (lr032 lep_uu) (hf3 had))) (scale3 (lr042 lep_uu) (hf4 had)))
    (scale3 (lr062 lep_up) (hf6 had))) (scale3 (lr082 lep_up) (hf8 had)))) (scale3 (rad_R b) (add3 (add3 (add3 (add3
    (add3 (scale3 (lr013 lep_uu) (hf1 had)) (scale3 (lr023 lep_uu) (hf2 had))) (scale3 (lr033 lep_uu) (hf3 had)))
    (scale3 (lr043 lep_uu) (hf4 had))) (scale3 (lr063 lep_up) (hf6 had))) (scale3 (lr083 lep_up) (hf8 had)))))
    (scale3 (rad_R b * rad_R b) (add3 (scale3 (lr064 lep_up) (hf6 had)) (scale3 (lr084 lep_up) (hf8 had))))).
(** cross_section.cpp 792-797 *)
Definition rad_f_base_lu (b : Rad_t) (lep_lu : lep_rad_lu) (had : had_rad_f_lu) : R :=
  rad_coeff b * ((lr051 lep_lu + lr151 lep_lu) * hd50 had + (lr052 lep_lu + lr152 lep_lu) * hf50 had + rad_R b *
    (lr053 lep_lu + lr153 lep_lu) * hf50 had).
(** cross_section.cpp 798-815 *)
Definition rad_f_base_lp (b : Rad_t) (lep_lu : lep_rad_lu) (lep_lp : lep_rad_lp) (had : had_rad_f_lp) : vec3 :=
  scale3 (rad_coeff b) (add3 (add3 (add3 (add3 (add3 (scale3 (lr051 lep_lu + lr151 lep_lu) (hd5 had)) (scale3 (lr071
    lep_lp + lr171 lep_lp) (hd7 had))) (scale3 (lr091 lep_lp + lr191 lep_lp) (hd9 had))) (add3 (add3 (scale3 (lr052
    lep_lu + lr152 lep_lu) (hf5 had)) (scale3 (lr072 lep_lp + lr172 lep_lp) (hf7 had))) (scale3 (lr092 lep_lp +
    lr192 lep_lp) (hf9 had)))) (scale3 (rad_R b) (add3 (add3 (scale3 (lr053 lep_lu + lr153 lep_lu) (hf5 had))
    (scale3 (lr073 lep_lp + lr173 lep_lp) (hf7 had))) (scale3 (lr093 lep_lp + lr193 lep_lp) (hf9 had))))) (scale3
    (rad_R b * rad_R b) (add3 (scale3 (lr074 lep_lp + lr174 lep_lp) (hf7 had)) (scale3 (lr094 lep_lp + lr194 lep_lp)
    (hf9 had))))).


(** The macro SIDIS_MACRO_XS_FROM_BASE, cross_section.cpp 33-202. A group object [Lep##XY lep(kin)] holds the base
    objects for its letters, each built from [kin] (leptonic_coeff.hpp 65-90, 123-148, 185-213), so its members are
    written out. The bits of [pol_mask] are the four booleans of the match, in the order lambda_e, x, y, z. *)
Definition nonzero (x : R) : bool := negb (reqb x 0).
Section FromBase.
Context {B LUU LUP LLU LLP : Type}.
Context (base_uu : B -> LUU -> had_uu -> R) (base_ul : B -> LUP -> had_ul -> R)
  (base_ut1 : B -> LUP -> had_ut -> R) (base_ut2 : B -> LUU -> had_ut -> R) (base_lu : B -> LLU -> had_lu -> R)
  (base_ll : B -> LLP -> had_ll -> R) (base_lt1 : B -> LLP -> had_lt -> R) (base_lt2 : B -> LLU -> had_lt -> R).
Context (lep_uu : kin -> LUU) (lep_up : kin -> LUP) (lep_lu : kin -> LLU) (lep_lp : kin -> LLP).
Context (sf_set : SfModel.sf_set sf_point).
Definition from_base_parts (k : kin) (b : B) (lambda_e : R) (eta : vec3) : R * vec3 * R * vec3 :=
  match nonzero lambda_e, nonzero (x3 eta), nonzero (y3 eta), nonzero (z3 eta) with
  | false, false, false, false =>
    let had := HadUU sf_set k in
    (base_uu b (lep_uu k) (Huu_uu had),
     V3 0 0 0,
     0,
     V3 0 0 0)
  | false, false, false, true =>
    let had := HadUL sf_set k in
    (base_uu b (lep_uu k) (Hul_uu had),
     V3 0 0 (base_ul b (lep_up k) (Hul_ul had)),
     0,
     V3 0 0 0)
  | false, false, true, false =>
    let had := HadUT sf_set k in
    (base_uu b (lep_uu k) (Hut_uu had),
     V3 0 (base_ut2 b (lep_uu k) (Hut_ut had)) 0,
     0,
     V3 0 0 0)
  | false, false, true, true =>
    let had := HadUP sf_set k in
    (base_uu b (lep_uu k) (Hup_uu had),
     V3 0 (base_ut2 b (lep_uu k) (Hup_ut had)) (base_ul b (lep_up k) (Hup_ul had)),
     0,
     V3 0 0 0)
  | false, true, false, false =>
    let had := HadUT sf_set k in
    (base_uu b (lep_uu k) (Hut_uu had),
     V3 (base_ut1 b (lep_up k) (Hut_ut had)) 0 0,
     0,
     V3 0 0 0)
  | false, true, false, true =>
    let had := HadUP sf_set k in
    (base_uu b (lep_uu k) (Hup_uu had),
     V3 (base_ut1 b (lep_up k) (Hup_ut had)) 0 (base_ul b (lep_up k) (Hup_ul had)),
     0,
     V3 0 0 0)
  | false, true, true, false =>
    let had := HadUT sf_set k in
    (base_uu b (lep_uu k) (Hut_uu had),
     V3 (base_ut1 b (lep_up k) (Hut_ut had)) (base_ut2 b (lep_uu k) (Hut_ut had)) 0,
     0,
     V3 0 0 0)
  | false, true, true, true =>
    let had := HadUP sf_set k in
    (base_uu b (lep_uu k) (Hup_uu had),
     V3 (base_ut1 b (lep_up k) (Hup_ut had)) (base_ut2 b (lep_uu k) (Hup_ut had)) (base_ul b (lep_up k) (Hup_ul had)),
     0,
     V3 0 0 0)
  | true, false, false, false =>
    let had := HadLU sf_set k in
    (base_uu b (lep_uu k) (Hlu_uu had),
     V3 0 0 0,
     base_lu b (lep_lu k) (Hlu_lu had),
     V3 0 0 0)
  | true, false, false, true =>
    let had := HadLL sf_set k in
    (base_uu b (lep_uu k) (Hll_uu had),
     V3 0 0 (base_ul b (lep_up k) (Hll_ul had)),
     base_lu b (lep_lu k) (Hll_lu had),
     V3 0 0 (base_ll b (lep_lp k) (Hll_ll had)))
  | true, false, true, false =>
    let had := HadLT sf_set k in
    (base_uu b (lep_uu k) (Hlt_uu had),
     V3 0 (base_ut2 b (lep_uu k) (Hlt_ut had)) 0,
     base_lu b (lep_lu k) (Hlt_lu had),
     V3 0 (base_lt2 b (lep_lu k) (Hlt_lt had)) 0)
  | true, false, true, true =>
    let had := HadLP sf_set k in
    (base_uu b (lep_uu k) (Hlp_uu had),
     V3 0 (base_ut2 b (lep_uu k) (Hlp_ut had)) (base_ul b (lep_up k) (Hlp_ul had)),
     base_lu b (lep_lu k) (Hlp_lu had),
     V3 0 (base_lt2 b (lep_lu k) (Hlp_lt had)) (base_ll b (lep_lp k) (Hlp_ll had)))
  | true, true, false, false =>
    let had := HadLT sf_set k in
    (base_uu b (lep_uu k) (Hlt_uu had),
     V3 (base_ut1 b (lep_up k) (Hlt_ut had)) 0 0,
     base_lu b (lep_lu k) (Hlt_lu had),
     V3 (base_lt1 b (lep_lp k) (Hlt_lt had)) 0 0)
  | true, true, false, true =>
    let had := HadLP sf_set k in
    (base_uu b (lep_uu k) (Hlp_uu had),
     V3 (base_ut1 b (lep_up k) (Hlp_ut had)) 0 (base_ul b (lep_up k) (Hlp_ul had)),
     base_lu b (lep_lu k) (Hlp_lu had),
     V3 (base_lt1 b (lep_lp k) (Hlp_lt had)) 0 (base_ll b (lep_lp k) (Hlp_ll had)))
  | true, true, true, false =>
    let had := HadLT sf_set k in
    (base_uu b (lep_uu k) (Hlt_uu had),
     V3 (base_ut1 b (lep_up k) (Hlt_ut had)) (base_ut2 b (lep_uu k) (Hlt_ut had)) 0,
     base_lu b (lep_lu k) (Hlt_lu had),
     V3 (base_lt1 b (lep_lp k) (Hlt_lt had)) (base_lt2 b (lep_lu k) (Hlt_lt had)) 0)
  | true, true, true, true =>
    let had := HadLP sf_set k in
    (base_uu b (lep_uu k) (Hlp_uu had),
     V3 (base_ut1 b (lep_up k) (Hlp_ut had)) (base_ut2 b (lep_uu k) (Hlp_ut had)) (base_ul b (lep_up k) (Hlp_ul had)),
     base_lu b (lep_lu k) (Hlp_lu had),
     V3 (base_lt1 b (lep_lp k) (Hlp_lt had)) (base_lt2 b (lep_lu k) (Hlp_lt had)) (base_ll b (lep_lp k) (Hlp_ll had)))
  end.
(** cross_section.cpp 201 and, in the macros below, 251 and 305 *)
Definition assemble (p : R * vec3 * R * vec3) (lambda_e : R) (eta : vec3) : R :=
  let '(uu, up, lu, lp) := p in uu + dot3 up eta + lambda_e * (lu + dot3 lp eta).
Definition from_base (k : kin) (b : B) (lambda_e : R) (eta : vec3) : R :=
  assemble (from_base_parts k b lambda_e eta) lambda_e eta.
End FromBase.

Section CrossSections.
Context (dilog : R -> R) (sf_set : SfModel.sf_set sf_point).

(** cross_section.cpp 361-364 *)
Definition born (k : kin) (ph : phenom) (lambda_e : R) (eta : vec3) : R :=
  from_base born_base_uu born_base_ul born_base_ut1 born_base_ut2 born_base_lu born_base_ll born_base_lt1 born_base_lt2
    LepBornBaseUU LepBornBaseUP LepBornBaseLU LepBornBaseLP sf_set k (Born k ph) lambda_e eta.
(** cross_section.cpp 366-369 *)
Definition amm (k : kin) (ph : phenom) (lambda_e : R) (eta : vec3) : R :=
  from_base amm_base_uu amm_base_ul amm_base_ut1 amm_base_ut2 amm_base_lu amm_base_ll amm_base_lt1 amm_base_lt2
    LepAmmBaseUU LepAmmBaseUP LepAmmBaseLU LepAmmBaseLP sf_set k (Amm k ph) lambda_e eta.
(** cross_section.cpp 371-374 *)
Definition nrad_ir (k : kin) (ph : phenom) (lambda_e : R) (eta : vec3) (k_0_bar : R) : option R :=
  match Nrad dilog k ph k_0_bar with
  | Some b =>
    Some (from_base nrad_ir_base_uu nrad_ir_base_ul nrad_ir_base_ut1 nrad_ir_base_ut2 nrad_ir_base_lu nrad_ir_base_ll
      nrad_ir_base_lt1 nrad_ir_base_lt2 LepNradBaseUU LepNradBaseUP LepNradBaseLU LepNradBaseLP sf_set k b lambda_e eta)
  | None => None
  end.

(** cross_section.cpp 209-210 and 258-259 *)
Definition any_nonzero (eta : vec3) : bool := nonzero (x3 eta) || nonzero (y3 eta) || nonzero (z3 eta).
(** cross_section.cpp 376-379 with the macro SIDIS_MACRO_XS_FROM_BASE_P of 207-252. A photon with R = 0 makes the C++
    result infinite or not-a-number; theorems about [rad] ask for R > 0. *)
Definition rad (k : kinrad) (ph : phenom) (lambda_e : R) (eta : vec3) : R :=
  let b := Rad k ph in
  assemble (match nonzero lambda_e, any_nonzero eta with
  | false, false =>
    let had := HadRadUU sf_set k in
    (rad_base_uu b (LepRadBaseUU k) (HRuu_uu had), VEC3_ZERO, 0, VEC3_ZERO)
  | false, true =>
    let had := HadRadUP sf_set k in
    (rad_base_uu b (LepRadBaseUU k) (HRup_uu had),
     rad_base_up b (LepRadBaseUU k) (LepRadBaseUP k) (HRup_up had), 0, VEC3_ZERO)
  | true, false =>
    let had := HadRadLU sf_set k in
    (rad_base_uu b (LepRadBaseUU k) (HRlu_uu had), VEC3_ZERO,
     rad_base_lu b (LepRadBaseLU k) (HRlu_lu had), VEC3_ZERO)
  | true, true =>
    let had := HadRadLP sf_set k in
    (rad_base_uu b (LepRadBaseUU k) (HRlp_uu had),
     rad_base_up b (LepRadBaseUU k) (LepRadBaseUP k) (HRlp_up had),
     rad_base_lu b (LepRadBaseLU k) (HRlp_lu had),
     rad_base_lp b (LepRadBaseLU k) (LepRadBaseLP k) (HRlp_lp had))
  end) lambda_e eta.

Definition omap {A C : Type} (f : A -> C) (o : option A) : option C :=
  match o with Some a => Some (f a) | None => None end.
(** The four branches of SIDIS_MACRO_XS_FROM_BASE_P and of SIDIS_MACRO_XS_FROM_BASE_P_0 (cross_section.cpp 256-306)
    for [rad_f]; the two macros differ only in the coefficients without photon that they hand on. [None]: the
    hadronic coefficients are not-a-number. *)
Definition rad_f_with (h_uu : HadUU_t) (h_up : HadUP_t) (h_lu : HadLU_t) (h_lp : HadLP_t)
  (k : kinrad) (ph : phenom) (lambda_e : R) (eta : vec3) : option R :=
  let b := Rad k ph in
  omap (fun p => assemble p lambda_e eta) (match nonzero lambda_e, any_nonzero eta with
  | false, false =>
    omap (fun had => (rad_f_base_uu b (LepRadBaseUU k) (HFuu_uu had), VEC3_ZERO, 0, VEC3_ZERO))
      (HadRadFUU sf_set k h_uu)
  | false, true =>
    omap (fun had => (rad_f_base_uu b (LepRadBaseUU k) (HFup_uu had),
      rad_f_base_up b (LepRadBaseUU k) (LepRadBaseUP k) (HFup_up had), 0, VEC3_ZERO))
      (HadRadFUP sf_set k h_up)
  | true, false =>
    omap (fun had => (rad_f_base_uu b (LepRadBaseUU k) (HFlu_uu had), VEC3_ZERO,
      rad_f_base_lu b (LepRadBaseLU k) (HFlu_lu had), VEC3_ZERO))
      (HadRadFLU sf_set k h_lu)
  | true, true =>
    omap (fun had => (rad_f_base_uu b (LepRadBaseUU k) (HFlp_uu had),
      rad_f_base_up b (LepRadBaseUU k) (LepRadBaseUP k) (HFlp_up had),
      rad_f_base_lu b (LepRadBaseLU k) (HFlp_lu had),
      rad_f_base_lp b (LepRadBaseLU k) (LepRadBaseLP k) (HFlp_lp had)))
      (HadRadFLP sf_set k h_lp)
  end).
(** cross_section.cpp 381-384, with the two-argument constructors of hadronic_coeff.hpp 282-314 *)
Definition rad_f (k : kinrad) (ph : phenom) (lambda_e : R) (eta : vec3) : option R :=
  rad_f_with (HadUU sf_set (project k)) (HadUP sf_set (project k)) (HadLU sf_set (project k))
    (HadLP sf_set (project k)) k ph lambda_e eta.
(** cross_section.cpp 256-306: the coefficients are cut out of one [HadLP]. *)
Definition rad_f_0 (had_0 : HadLP_t) (k : kinrad) (ph : phenom) (lambda_e : R) (eta : vec3) : option R :=
  rad_f_with (mk_HadUU (Hlp_uu had_0)) (mk_HadUP (Hlp_uu had_0) (Hlp_ul had_0) (Hlp_ut had_0))
    (mk_HadLU (Hlp_uu had_0) (Hlp_lu had_0)) had_0 k ph lambda_e eta.

(** cut.hpp 73-87: a default [CutRad] has every interval invalid, i.e. no cut; cross_section.cpp 398-399, 426-427. *)
Definition no_cut : bound := BOUND_INVALID.
Definition cut_k_0_bar (b : bound) : cuts_rad := CutsRad no_cut no_cut no_cut b no_cut no_cut.
(** The integrand of [rad_f_integ], cross_section.cpp 401-418; not-a-number becomes 0. *)
Definition rad_f_integrand (k : kin) (ph : phenom) (lambda_e : R) (eta : vec3) (k_0_bar : R) (x : nat -> R) : R :=
  let had_0 := HadLP sf_set k in
  match take3_cut (cut_k_0_bar (mk_bound (Fin 0) (Fin k_0_bar))) k x with
  | None => 0
  | Some (kin_rad, jac) =>
    match rad_f_0 had_0 kin_rad ph lambda_e eta with
    | Some xs => jac * xs
    | None => 0
    end
  end.
(** The integrand of [rad_integ], cross_section.cpp 429-442. *)
Definition rad_integrand (k : kin) (ph : phenom) (lambda_e : R) (eta : vec3) (k_0_bar : R) (x : nat -> R) : R :=
  match take3_cut (cut_k_0_bar (mk_bound (Fin k_0_bar) PInf)) k x with
  | None => 0
  | Some (kin_rad, jac) => jac * rad kin_rad ph lambda_e eta
  end.
End CrossSections.
