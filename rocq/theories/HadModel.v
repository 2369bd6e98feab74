(** Model of src/hadronic_coeff.cpp and include/sidis/hadronic_coeff.hpp over the real numbers (no rounding).
    The field [H_ij] is written [hij] (standard), [hrij] (radiative), [hfij] and [hdij] (infrared-free radiative:
    the coefficient itself and its [_diff] companion). *)
From Coq Require Import Reals.
From Verif Require Import ExtModel MathModel BoundModel ParticleModel VecModel TransModel FrameBase KinModel FrameModel SfModel CutModel.
Local Open Scope R_scope.

(** hadronic_coeff.hpp: struct HadBaseUU *)
Record had_uu := mk_had_uu { h10 : R; h20 : R; h30 : R; h40 : R }.
(** hadronic_coeff.cpp 25-42 *)
Definition make_had_base_uu (k : kin) (sf : SfBaseUU) : had_uu :=
  let H_00 := kC_1 k * uu_F_UUL sf in
  let H_01 := - kC_1 k * uu_F_UU_cos_phih sf in
  let H_11 := kC_1 k * (uu_F_UU_cos_2phih sf + uu_F_UUT sf) in
  let H_22 := kC_1 k * (uu_F_UUT sf - uu_F_UU_cos_2phih sf) in
  {| h10 := H_22;
     h20 := 4 / (sq (klambda_Y k) * kph_t_sq k) * (klambda_Y k * kph_t_sq k * kQ_sq k * H_00 + sq (klambda_3 k) *
       sq (kS_x k) * H_11 - klambda_2 k * klambda_Y k * H_22 - 2 * kS_x k * klambda_3 k * kph_t k * kQ k *
       klambda_Y_sqrt k * H_01);
     h30 := 1 / kph_t_sq k * (H_11 - H_22);
     h40 := 2 / (klambda_Y k * kph_t_sq k) * (klambda_3 k * kS_x k * (H_22 - H_11) + kph_t k * kQ k * klambda_Y_sqrt k *
       H_01) |}.

(** hadronic_coeff.hpp: struct HadBaseUL *)
Record had_ul := mk_had_ul { h63 : R; h83 : R }.
(** hadronic_coeff.cpp 43-52 *)
Definition make_had_base_ul (k : kin) (sf : SfBaseUL) : had_ul :=
  let H_023 := - kC_1 k * ul_F_UL_sin_phih sf in
  let H_123 := kC_1 k * ul_F_UL_sin_2phih sf in
  {| h63 := 4 / ((klambda_Y_sqrt k) ^ 3 * kph_t_sq k) * (klambda_3 k * kS_x k * H_123 - kQ k * kph_t k * klambda_Y_sqrt k
       * H_023);
     h83 := -2 / (klambda_Y_sqrt k * kph_t_sq k) * H_123 |}.

(** hadronic_coeff.hpp: struct HadBaseUT *)
Record had_ut := mk_had_ut { h12 : R; h22 : R; h32 : R; h42 : R; h61 : R; h81 : R }.
(** hadronic_coeff.cpp 53-76 *)
Definition make_had_base_ut (k : kin) (sf : SfBaseUT) : had_ut :=
  let H_002 := kC_1 k * ut_F_UTL_sin_phih_m_phis sf in
  let H_012 := kC_1 k * (ut_F_UT_sin_phis sf - ut_F_UT_sin_2phih_m_phis sf) in
  let H_021 := - kC_1 k * (ut_F_UT_sin_2phih_m_phis sf + ut_F_UT_sin_phis sf) in
  let H_112 := kC_1 k * (ut_F_UT_sin_3phih_m_phis sf + ut_F_UTT_sin_phih_m_phis sf - ut_F_UT_sin_phih_p_phis sf) in
  let H_121 := kC_1 k * (ut_F_UT_sin_3phih_m_phis sf + ut_F_UT_sin_phih_p_phis sf) in
  let H_222 := kC_1 k * (ut_F_UT_sin_phih_p_phis sf + ut_F_UTT_sin_phih_m_phis sf - ut_F_UT_sin_3phih_m_phis sf) in
  {| h12 := - H_222;
     h22 := 4 / (sq (klambda_Y k) * kph_t_sq k) * (- klambda_Y k * kph_t_sq k * kQ_sq k * H_002 - sq (klambda_3 k) *
       sq (kS_x k) * H_112 + klambda_2 k * klambda_Y k * H_222 + 2 * kS_x k * klambda_3 k * kph_t k * kQ k *
       klambda_Y_sqrt k * H_012);
     h32 := 1 / kph_t_sq k * (H_222 - H_112);
     h42 := 2 / (klambda_Y k * kph_t_sq k) * (klambda_3 k * kS_x k * (H_112 - H_222) - kph_t k * kQ k * klambda_Y_sqrt k
       * H_012);
     h61 := 4 / ((klambda_Y_sqrt k) ^ 3 * kph_t_sq k) * (klambda_3 k * kS_x k * H_121 - kQ k * kph_t k * klambda_Y_sqrt k
       * H_021);
     h81 := -2 / (klambda_Y_sqrt k * kph_t_sq k) * H_121 |}.

(** hadronic_coeff.hpp: struct HadBaseLU *)
Record had_lu := mk_had_lu { h50 : R }.
(** hadronic_coeff.cpp 83-88 *)
Definition make_had_base_lu (k : kin) (sf : SfBaseLU) : had_lu :=
  let H_01 := - kC_1 k * lu_F_LU_sin_phih sf in
  {| h50 := (2 * kQ k) / (kph_t k * klambda_Y_sqrt k) * H_01 |}.

(** hadronic_coeff.hpp: struct HadBaseLL *)
Record had_ll := mk_had_ll { h73 : R; h93 : R }.
(** hadronic_coeff.cpp 89-98 *)
Definition make_had_base_ll (k : kin) (sf : SfBaseLL) : had_ll :=
  let H_023 := kC_1 k * ll_F_LL_cos_phih sf in
  let H_123 := - kC_1 k * ll_F_LL sf in
  {| h73 := 4 / ((klambda_Y_sqrt k) ^ 3 * kph_t_sq k) * (klambda_3 k * kS_x k * H_123 - kQ k * kph_t k * klambda_Y_sqrt k
       * H_023);
     h93 := -2 / (klambda_Y_sqrt k * kph_t_sq k) * H_123 |}.

(** hadronic_coeff.hpp: struct HadBaseLT *)
Record had_lt := mk_had_lt { h52 : R; h71 : R; h91 : R }.
(** hadronic_coeff.cpp 99-110 *)
Definition make_had_base_lt (k : kin) (sf : SfBaseLT) : had_lt :=
  let H_012 := - kC_1 k * (lt_F_LT_cos_phis sf - lt_F_LT_cos_2phih_m_phis sf) in
  let H_021 := kC_1 k * (lt_F_LT_cos_2phih_m_phis sf + lt_F_LT_cos_phis sf) in
  let H_121 := - kC_1 k * lt_F_LT_cos_phih_m_phis sf in
  {| h52 := -(2 * kQ k) / (kph_t k * klambda_Y_sqrt k) * H_012;
     h71 := 4 / ((klambda_Y_sqrt k) ^ 3 * kph_t_sq k) * (klambda_3 k * kS_x k * H_121 - kQ k * kph_t k * klambda_Y_sqrt k
       * H_021);
     h91 := -2 / (klambda_Y_sqrt k * kph_t_sq k) * H_121 |}.

Record had_up := mk_had_up { hup_ul : had_ul; hup_ut : had_ut }.
(** hadronic_coeff.cpp 77-82 *)
Definition make_had_base_up (k : kin) (sf : SfBaseUP) : had_up :=
  mk_had_up (make_had_base_ul k (up_ul sf)) (make_had_base_ut k (up_ut sf)).

Record had_lp := mk_had_lp { hlp_ll : had_ll; hlp_lt : had_lt }.
(** hadronic_coeff.cpp 111-116 *)
Definition make_had_base_lp (k : kin) (sf : SfBaseLP) : had_lp :=
  mk_had_lp (make_had_base_ll k (lp_ll sf)) (make_had_base_lt k (lp_lt sf)).

(** hadronic_coeff.hpp: struct HadRadBaseUU *)
Record had_rad_uu := mk_had_rad_uu { hr10 : R; hr20 : R; hr30 : R; hr40 : R }.
(** hadronic_coeff.cpp 123-140 *)
Definition make_had_rad_base_uu (k : kinrad) (sf : SfBaseUU) : had_rad_uu :=
  let H_00 := rshift_C_1 k * uu_F_UUL sf in
  let H_01 := - rshift_C_1 k * uu_F_UU_cos_phih sf in
  let H_11 := rshift_C_1 k * (uu_F_UU_cos_2phih sf + uu_F_UUT sf) in
  let H_22 := rshift_C_1 k * (uu_F_UUT sf - uu_F_UU_cos_2phih sf) in
  {| hr10 := H_22;
     hr20 := 4 / (sq (rshift_lambda_Y k) * rshift_ph_t_sq k) * (rshift_lambda_Y k * rshift_ph_t_sq k * rshift_Q_sq k *
       H_00 + sq (rshift_lambda_3 k) * sq (rshift_S_x k) * H_11 - rshift_lambda_2 k * rshift_lambda_Y k * H_22 - 2 *
       rshift_S_x k * rshift_lambda_3 k * rshift_ph_t k * rshift_Q k * rshift_lambda_Y_sqrt k * H_01);
     hr30 := 1 / rshift_ph_t_sq k * (H_11 - H_22);
     hr40 := 2 / (rshift_lambda_Y k * rshift_ph_t_sq k) * (rshift_lambda_3 k * rshift_S_x k * (H_22 - H_11) +
       rshift_ph_t k * rshift_Q k * rshift_lambda_Y_sqrt k * H_01) |}.

(** hadronic_coeff.hpp: struct HadRadBaseUP *)
Record had_rad_up := mk_had_rad_up { hr1 : vec3; hr2 : vec3; hr3 : vec3; hr4 : vec3; hr6 : vec3; hr8 : vec3 }.
(** hadronic_coeff.cpp 141-187 *)
Definition make_had_rad_base_up (k : kinrad) (sf : SfBaseUP) : had_rad_up :=
  let shift_rot := hadron_from_shift k in
  let H_002 := rshift_C_1 k * ut_F_UTL_sin_phih_m_phis (up_ut sf) in
  let H_012 := rshift_C_1 k * (ut_F_UT_sin_phis (up_ut sf) - ut_F_UT_sin_2phih_m_phis (up_ut sf)) in
  let H_021 := - rshift_C_1 k * (ut_F_UT_sin_2phih_m_phis (up_ut sf) + ut_F_UT_sin_phis (up_ut sf)) in
  let H_023 := - rshift_C_1 k * ul_F_UL_sin_phih (up_ul sf) in
  let H_112 := rshift_C_1 k * (ut_F_UT_sin_3phih_m_phis (up_ut sf) + ut_F_UTT_sin_phih_m_phis (up_ut sf) -
    ut_F_UT_sin_phih_p_phis (up_ut sf)) in
  let H_121 := rshift_C_1 k * (ut_F_UT_sin_3phih_m_phis (up_ut sf) + ut_F_UT_sin_phih_p_phis (up_ut sf)) in
  let H_123 := rshift_C_1 k * ul_F_UL_sin_2phih (up_ul sf) in
  let H_222 := rshift_C_1 k * (ut_F_UT_sin_phih_p_phis (up_ut sf) + ut_F_UTT_sin_phih_m_phis (up_ut sf) -
    ut_F_UT_sin_3phih_m_phis (up_ut sf)) in
  {| hr1 := tapp3 shift_rot (V3 0 (- H_222) 0);
     hr2 := tapp3 shift_rot (V3 0 (4 / (sq (rshift_lambda_Y k) * rshift_ph_t_sq k) * (- rshift_lambda_Y k *
       rshift_ph_t_sq k * rshift_Q_sq k * H_002 - sq (rshift_lambda_3 k) * sq (rshift_S_x k) * H_112 +
       rshift_lambda_2 k * rshift_lambda_Y k * H_222 + 2 * rshift_S_x k * rshift_lambda_3 k * rshift_ph_t k *
       rshift_Q k * rshift_lambda_Y_sqrt k * H_012)) 0);
     hr3 := tapp3 shift_rot (V3 0 (1 / rshift_ph_t_sq k * (H_222 - H_112)) 0);
     hr4 := tapp3 shift_rot (V3 0 (2 / (rshift_lambda_Y k * rshift_ph_t_sq k) * (rshift_lambda_3 k * rshift_S_x k *
       (H_112 - H_222) - rshift_ph_t k * rshift_Q k * rshift_lambda_Y_sqrt k * H_012)) 0);
     hr6 := tapp3 shift_rot (V3 (4 / ((rshift_lambda_Y_sqrt k) ^ 3 * rshift_ph_t_sq k) * (rshift_lambda_3 k *
       rshift_S_x k * H_121 - rshift_Q k * rshift_ph_t k * rshift_lambda_Y_sqrt k * H_021)) 0 (4 /
       ((rshift_lambda_Y_sqrt k) ^ 3 * rshift_ph_t_sq k) * (rshift_lambda_3 k * rshift_S_x k * H_123 - rshift_Q k *
       rshift_ph_t k * rshift_lambda_Y_sqrt k * H_023)));
     hr8 := tapp3 shift_rot (V3 (-2 / (rshift_lambda_Y_sqrt k * rshift_ph_t_sq k) * H_121) 0 (-2 /
       (rshift_lambda_Y_sqrt k * rshift_ph_t_sq k) * H_123)) |}.

(** hadronic_coeff.hpp: struct HadRadBaseLU *)
Record had_rad_lu := mk_had_rad_lu { hr50 : R }.
(** hadronic_coeff.cpp 188-193 *)
Definition make_had_rad_base_lu (k : kinrad) (sf : SfBaseLU) : had_rad_lu :=
  let H_01 := - rshift_C_1 k * lu_F_LU_sin_phih sf in
  {| hr50 := (2 * rshift_Q k) / (rshift_ph_t k * rshift_lambda_Y_sqrt k) * H_01 |}.

(** hadronic_coeff.hpp: struct HadRadBaseLP *)
Record had_rad_lp := mk_had_rad_lp { hr5 : vec3; hr7 : vec3; hr9 : vec3 }.
(** hadronic_coeff.cpp 194-219 *)
Definition make_had_rad_base_lp (k : kinrad) (sf : SfBaseLP) : had_rad_lp :=
  let shift_rot := hadron_from_shift k in
  let H_012 := - rshift_C_1 k * (lt_F_LT_cos_phis (lp_lt sf) - lt_F_LT_cos_2phih_m_phis (lp_lt sf)) in
  let H_021 := rshift_C_1 k * (lt_F_LT_cos_2phih_m_phis (lp_lt sf) + lt_F_LT_cos_phis (lp_lt sf)) in
  let H_023 := rshift_C_1 k * ll_F_LL_cos_phih (lp_ll sf) in
  let H_121 := - rshift_C_1 k * lt_F_LT_cos_phih_m_phis (lp_lt sf) in
  let H_123 := - rshift_C_1 k * ll_F_LL (lp_ll sf) in
  {| hr5 := tapp3 shift_rot (V3 0 (-(2 * rshift_Q k) / (rshift_ph_t k * rshift_lambda_Y_sqrt k) * H_012) 0);
     hr7 := tapp3 shift_rot (V3 (4 / ((rshift_lambda_Y_sqrt k) ^ 3 * rshift_ph_t_sq k) * (rshift_lambda_3 k *
       rshift_S_x k * H_121 - rshift_Q k * rshift_ph_t k * rshift_lambda_Y_sqrt k * H_021)) 0 (4 /
       ((rshift_lambda_Y_sqrt k) ^ 3 * rshift_ph_t_sq k) * (rshift_lambda_3 k * rshift_S_x k * H_123 - rshift_Q k *
       rshift_ph_t k * rshift_lambda_Y_sqrt k * H_023)));
     hr9 := tapp3 shift_rot (V3 (-2 / (rshift_lambda_Y_sqrt k * rshift_ph_t_sq k) * H_121) 0 (-2 /
       (rshift_lambda_Y_sqrt k * rshift_ph_t_sq k) * H_123)) |}.

(** hadronic_coeff.cpp 227: the square root of twice the machine epsilon 2^-52 *)
Definition DELTA_R_REL : R := sqrt (2 * / 2 ^ 52).
(** hadronic_coeff.cpp 228-235 *)
Definition diff_R (R delta_R f_0 f_1 f_2 : Reals.Rdefinitions.R) : Reals.Rdefinitions.R :=
  let R_rel := R / delta_R in
  1 / (2 * delta_R) * ((R_rel - 3) * f_0 - 2 * (R_rel - 2) * f_1 + (R_rel - 1) * f_2).
Definition diff_R3 (R delta_R : Reals.Rdefinitions.R) (f_0 f_1 f_2 : vec3) : vec3 :=
  let R_rel := R / delta_R in
  scale3 (1 / (2 * delta_R))
    (add3 (sub3 (scale3 (R_rel - 3) f_0) (scale3 (2 * (R_rel - 2)) f_1)) (scale3 (R_rel - 1) f_2)).

(** hadronic_coeff.hpp: struct HadRadFBaseUU *)
Record had_rad_f_uu := mk_had_rad_f_uu { hf10 : R; hf20 : R; hf30 : R; hf40 : R; hd10 : R; hd20 : R; hd30 : R; hd40
    : R }.
(** hadronic_coeff.cpp 238-251 *)
Definition make_had_rad_f_base_uu_diff (R : Reals.Rdefinitions.R) (h : had_rad_uu) (h0 : had_uu) : had_rad_f_uu :=
  {| hf10 := hr10 h;
     hf20 := hr20 h;
     hf30 := hr30 h;
     hf40 := hr40 h;
     hd10 := (hr10 h - h10 h0) / R;
     hd20 := (hr20 h - h20 h0) / R;
     hd30 := (hr30 h - h30 h0) / R;
     hd40 := (hr40 h - h40 h0) / R |}.
(** hadronic_coeff.cpp 252-266 *)
Definition make_had_rad_f_base_uu_deriv (R delta_R : Reals.Rdefinitions.R) (h : had_rad_uu) (h0 : had_uu)
    (h1 h2 : had_rad_uu) : had_rad_f_uu :=
  {| hf10 := hr10 h;
     hf20 := hr20 h;
     hf30 := hr30 h;
     hf40 := hr40 h;
     hd10 := diff_R R delta_R (h10 h0) (hr10 h1) (hr10 h2);
     hd20 := diff_R R delta_R (h20 h0) (hr20 h1) (hr20 h2);
     hd30 := diff_R R delta_R (h30 h0) (hr30 h1) (hr30 h2);
     hd40 := diff_R R delta_R (h40 h0) (hr40 h1) (hr40 h2) |}.

(** hadronic_coeff.hpp: struct HadRadFBaseUP *)
Record had_rad_f_up := mk_had_rad_f_up { hf1 : vec3; hf2 : vec3; hf3 : vec3; hf4 : vec3; hf6 : vec3; hf8 : vec3; hd1
    : vec3; hd2 : vec3; hd3 : vec3; hd4 : vec3; hd6 : vec3; hd8 : vec3 }.
(** hadronic_coeff.cpp 267-284 *)
Definition make_had_rad_f_base_up_diff (R : Reals.Rdefinitions.R) (h : had_rad_up) (h0 : had_up) : had_rad_f_up :=
  {| hf1 := hr1 h;
     hf2 := hr2 h;
     hf3 := hr3 h;
     hf4 := hr4 h;
     hf6 := hr6 h;
     hf8 := hr8 h;
     hd1 := div3 (sub3 (hr1 h) (V3 0 (h12 (hup_ut h0)) 0)) R;
     hd2 := div3 (sub3 (hr2 h) (V3 0 (h22 (hup_ut h0)) 0)) R;
     hd3 := div3 (sub3 (hr3 h) (V3 0 (h32 (hup_ut h0)) 0)) R;
     hd4 := div3 (sub3 (hr4 h) (V3 0 (h42 (hup_ut h0)) 0)) R;
     hd6 := div3 (sub3 (hr6 h) (V3 (h61 (hup_ut h0)) 0 (h63 (hup_ul h0)))) R;
     hd8 := div3 (sub3 (hr8 h) (V3 (h81 (hup_ut h0)) 0 (h83 (hup_ul h0)))) R |}.
(** hadronic_coeff.cpp 285-303 *)
Definition make_had_rad_f_base_up_deriv (R delta_R : Reals.Rdefinitions.R) (h : had_rad_up) (h0 : had_up)
    (h1 h2 : had_rad_up) : had_rad_f_up :=
  {| hf1 := hr1 h;
     hf2 := hr2 h;
     hf3 := hr3 h;
     hf4 := hr4 h;
     hf6 := hr6 h;
     hf8 := hr8 h;
     hd1 := diff_R3 R delta_R (V3 0 (h12 (hup_ut h0)) 0) (hr1 h1) (hr1 h2);
     hd2 := diff_R3 R delta_R (V3 0 (h22 (hup_ut h0)) 0) (hr2 h1) (hr2 h2);
     hd3 := diff_R3 R delta_R (V3 0 (h32 (hup_ut h0)) 0) (hr3 h1) (hr3 h2);
     hd4 := diff_R3 R delta_R (V3 0 (h42 (hup_ut h0)) 0) (hr4 h1) (hr4 h2);
     hd6 := diff_R3 R delta_R (V3 (h61 (hup_ut h0)) 0 (h63 (hup_ul h0))) (hr6 h1) (hr6 h2);
     hd8 := diff_R3 R delta_R (V3 (h81 (hup_ut h0)) 0 (h83 (hup_ul h0))) (hr8 h1) (hr8 h2) |}.

(** hadronic_coeff.hpp: struct HadRadFBaseLU *)
Record had_rad_f_lu := mk_had_rad_f_lu { hf50 : R; hd50 : R }.
(** hadronic_coeff.cpp 304-311 *)
Definition make_had_rad_f_base_lu_diff (R : Reals.Rdefinitions.R) (h : had_rad_lu) (h0 : had_lu) : had_rad_f_lu :=
  {| hf50 := hr50 h;
     hd50 := (hr50 h - h50 h0) / R |}.
(** hadronic_coeff.cpp 312-320 *)
Definition make_had_rad_f_base_lu_deriv (R delta_R : Reals.Rdefinitions.R) (h : had_rad_lu) (h0 : had_lu)
    (h1 h2 : had_rad_lu) : had_rad_f_lu :=
  {| hf50 := hr50 h;
     hd50 := diff_R R delta_R (h50 h0) (hr50 h1) (hr50 h2) |}.

(** hadronic_coeff.hpp: struct HadRadFBaseLP *)
Record had_rad_f_lp := mk_had_rad_f_lp { hf5 : vec3; hf7 : vec3; hf9 : vec3; hd5 : vec3; hd7 : vec3; hd9 : vec3 }.
(** hadronic_coeff.cpp 321-332 *)
Definition make_had_rad_f_base_lp_diff (R : Reals.Rdefinitions.R) (h : had_rad_lp) (h0 : had_lp) : had_rad_f_lp :=
  {| hf5 := hr5 h;
     hf7 := hr7 h;
     hf9 := hr9 h;
     hd5 := div3 (sub3 (hr5 h) (V3 0 (h52 (hlp_lt h0)) 0)) R;
     hd7 := div3 (sub3 (hr7 h) (V3 (h71 (hlp_lt h0)) 0 (h73 (hlp_ll h0)))) R;
     hd9 := div3 (sub3 (hr9 h) (V3 (h91 (hlp_lt h0)) 0 (h93 (hlp_ll h0)))) R |}.
(** hadronic_coeff.cpp 333-345 *)
Definition make_had_rad_f_base_lp_deriv (R delta_R : Reals.Rdefinitions.R) (h : had_rad_lp) (h0 : had_lp)
    (h1 h2 : had_rad_lp) : had_rad_f_lp :=
  {| hf5 := hr5 h;
     hf7 := hr7 h;
     hf9 := hr9 h;
     hd5 := diff_R3 R delta_R (V3 0 (h52 (hlp_lt h0)) 0) (hr5 h1) (hr5 h2);
     hd7 := diff_R3 R delta_R (V3 (h71 (hlp_lt h0)) 0 (h73 (hlp_ll h0))) (hr7 h1) (hr7 h2);
     hd9 := diff_R3 R delta_R (V3 (h91 (hlp_lt h0)) 0 (h93 (hlp_ll h0))) (hr9 h1) (hr9 h2) |}.

(** The arguments at which the structure functions are evaluated: (hadron, x, z, Q_sq, ph_t_sq). *)
Definition sf_point : Type := (hadron * R * R * R * R)%type.
Definition point_of (k : kin) : sf_point := (khadron k, kx k, kz k, kQ_sq k, kph_t_sq k).
Definition shift_point_of (k : kinrad) : sf_point :=
  (rhadron k, rshift_x k, rshift_z k, rshift_Q_sq k, rshift_ph_t_sq k).

Section Constructors.
Context (sf_set : SfModel.sf_set sf_point).

(** hadronic_coeff.cpp 390-393 *)
Record HadUU_t := mk_HadUU { Huu_uu : had_uu }.
Definition HadUU (k : kin) : HadUU_t :=
  let sf := sf_uu sf_set (point_of k) in
  {| Huu_uu := make_had_base_uu k (sfuu_uu sf) |}.
(** hadronic_coeff.cpp 394-398 *)
Record HadUL_t := mk_HadUL { Hul_uu : had_uu; Hul_ul : had_ul }.
Definition HadUL (k : kin) : HadUL_t :=
  let sf := sf_ul sf_set (point_of k) in
  {| Hul_uu := make_had_base_uu k (sful_uu sf);
     Hul_ul := make_had_base_ul k (sful_ul sf) |}.
(** hadronic_coeff.cpp 399-403 *)
Record HadUT_t := mk_HadUT { Hut_uu : had_uu; Hut_ut : had_ut }.
Definition HadUT (k : kin) : HadUT_t :=
  let sf := sf_ut sf_set (point_of k) in
  {| Hut_uu := make_had_base_uu k (sfut_uu sf);
     Hut_ut := make_had_base_ut k (sfut_ut sf) |}.
(** hadronic_coeff.cpp 404-409 *)
Record HadUP_t := mk_HadUP { Hup_uu : had_uu; Hup_ul : had_ul; Hup_ut : had_ut }.
Definition HadUP (k : kin) : HadUP_t :=
  let sf := sf_up sf_set (point_of k) in
  {| Hup_uu := make_had_base_uu k (sfup_uu sf);
     Hup_ul := make_had_base_ul k (sfup_ul sf);
     Hup_ut := make_had_base_ut k (sfup_ut sf) |}.
(** hadronic_coeff.cpp 410-414 *)
Record HadLU_t := mk_HadLU { Hlu_uu : had_uu; Hlu_lu : had_lu }.
Definition HadLU (k : kin) : HadLU_t :=
  let sf := sf_lu sf_set (point_of k) in
  {| Hlu_uu := make_had_base_uu k (sflu_uu sf);
     Hlu_lu := make_had_base_lu k (sflu_lu sf) |}.
(** hadronic_coeff.cpp 415-421 *)
Record HadLL_t := mk_HadLL { Hll_uu : had_uu; Hll_ul : had_ul; Hll_lu : had_lu; Hll_ll : had_ll }.
Definition HadLL (k : kin) : HadLL_t :=
  let sf := sf_ll sf_set (point_of k) in
  {| Hll_uu := make_had_base_uu k (sfll_uu sf);
     Hll_ul := make_had_base_ul k (sfll_ul sf);
     Hll_lu := make_had_base_lu k (sfll_lu sf);
     Hll_ll := make_had_base_ll k (sfll_ll sf) |}.
(** hadronic_coeff.cpp 422-428 *)
Record HadLT_t := mk_HadLT { Hlt_uu : had_uu; Hlt_ut : had_ut; Hlt_lu : had_lu; Hlt_lt : had_lt }.
Definition HadLT (k : kin) : HadLT_t :=
  let sf := sf_lt sf_set (point_of k) in
  {| Hlt_uu := make_had_base_uu k (sflt_uu sf);
     Hlt_ut := make_had_base_ut k (sflt_ut sf);
     Hlt_lu := make_had_base_lu k (sflt_lu sf);
     Hlt_lt := make_had_base_lt k (sflt_lt sf) |}.
(** hadronic_coeff.cpp 429-437 *)
Record HadLP_t := mk_HadLP { Hlp_uu : had_uu; Hlp_ul : had_ul; Hlp_ut : had_ut; Hlp_lu : had_lu; Hlp_ll : had_ll; Hlp_lt : had_lt }.
Definition HadLP (k : kin) : HadLP_t :=
  let sf := sf_lp sf_set (point_of k) in
  {| Hlp_uu := make_had_base_uu k (sflp_uu sf);
     Hlp_ul := make_had_base_ul k (sflp_ul sf);
     Hlp_ut := make_had_base_ut k (sflp_ut sf);
     Hlp_lu := make_had_base_lu k (sflp_lu sf);
     Hlp_ll := make_had_base_ll k (sflp_ll sf);
     Hlp_lt := make_had_base_lt k (sflp_lt sf) |}.

(** hadronic_coeff.cpp 458-461 *)
Record HadRadUU_t := mk_HadRadUU { HRuu_uu : had_rad_uu }.
Definition HadRadUU (k : kinrad) : HadRadUU_t :=
  let sf := sf_uu sf_set (shift_point_of k) in
  {| HRuu_uu := make_had_rad_base_uu k (sfuu_uu sf) |}.
(** hadronic_coeff.cpp 462-466 *)
Record HadRadUP_t := mk_HadRadUP { HRup_uu : had_rad_uu; HRup_up : had_rad_up }.
Definition HadRadUP (k : kinrad) : HadRadUP_t :=
  let sf := sf_up sf_set (shift_point_of k) in
  {| HRup_uu := make_had_rad_base_uu k (sfup_uu sf);
     HRup_up := make_had_rad_base_up k (mkBaseUP (sfup_ul sf) (sfup_ut sf)) |}.
(** hadronic_coeff.cpp 467-471 *)
Record HadRadLU_t := mk_HadRadLU { HRlu_uu : had_rad_uu; HRlu_lu : had_rad_lu }.
Definition HadRadLU (k : kinrad) : HadRadLU_t :=
  let sf := sf_lu sf_set (shift_point_of k) in
  {| HRlu_uu := make_had_rad_base_uu k (sflu_uu sf);
     HRlu_lu := make_had_rad_base_lu k (sflu_lu sf) |}.
(** hadronic_coeff.cpp 472-478 *)
Record HadRadLP_t := mk_HadRadLP { HRlp_uu : had_rad_uu; HRlp_up : had_rad_up; HRlp_lu : had_rad_lu; HRlp_lp : had_rad_lp }.
Definition HadRadLP (k : kinrad) : HadRadLP_t :=
  let sf := sf_lp sf_set (shift_point_of k) in
  {| HRlp_uu := make_had_rad_base_uu k (sflp_uu sf);
     HRlp_up := make_had_rad_base_up k (mkBaseUP (sflp_ul sf) (sflp_ut sf));
     HRlp_lu := make_had_rad_base_lu k (sflp_lu sf);
     HRlp_lp := make_had_rad_base_lp k (mkBaseLP (sflp_ll sf) (sflp_lt sf)) |}.

(** The choice made in every constructor below: a photon momentum below [delta_R] uses the derivative formula.
    [PInf] as the largest allowed R makes delta_R infinite and all results not-a-number: no value. *)
Inductive how := Use_diff | Use_deriv (delta_R : R) | No_value.
Definition choose (k : kinrad) : how :=
  match bmax (R_bound (project k) (rtau k) (rphi_k k)) with
  | Fin mx => let delta_R := mx * DELTA_R_REL in if rltb (rR k) delta_R then Use_deriv delta_R else Use_diff
  | PInf => No_value
  | _ => Use_diff
  end.
(** hadronic_coeff.cpp 539-552 *)
Record HadRadFUU_t := mk_HadRadFUU { HFuu_uu : had_rad_f_uu }.
Definition HadRadFUU (k : kinrad) (had_0 : HadUU_t) : option HadRadFUU_t :=
  let kin_0 := project k in
  let had := HadRadUU k in
  match choose k with
  | Use_deriv delta_R =>
    let had_1 := HadRadUU (make_rad kin_0 (rtau k) (rphi_k k) delta_R) in
    let had_2 := HadRadUU (make_rad kin_0 (rtau k) (rphi_k k) (2 * delta_R)) in
    Some {| HFuu_uu := make_had_rad_f_base_uu_deriv (rR k) delta_R (HRuu_uu had) (Huu_uu had_0) (HRuu_uu had_1) (HRuu_uu had_2) |}
  | Use_diff =>
    Some {| HFuu_uu := make_had_rad_f_base_uu_diff (rR k) (HRuu_uu had) (Huu_uu had_0) |}
  | No_value => None
  end.
(** hadronic_coeff.cpp 553-569 *)
Record HadRadFUP_t := mk_HadRadFUP { HFup_uu : had_rad_f_uu; HFup_up : had_rad_f_up }.
Definition HadRadFUP (k : kinrad) (had_0 : HadUP_t) : option HadRadFUP_t :=
  let kin_0 := project k in
  let had_0_up := mk_had_up (Hup_ul had_0) (Hup_ut had_0) in
  let had := HadRadUP k in
  match choose k with
  | Use_deriv delta_R =>
    let had_1 := HadRadUP (make_rad kin_0 (rtau k) (rphi_k k) delta_R) in
    let had_2 := HadRadUP (make_rad kin_0 (rtau k) (rphi_k k) (2 * delta_R)) in
    Some {| HFup_uu := make_had_rad_f_base_uu_deriv (rR k) delta_R (HRup_uu had) (Hup_uu had_0) (HRup_uu had_1) (HRup_uu had_2);
            HFup_up := make_had_rad_f_base_up_deriv (rR k) delta_R (HRup_up had) had_0_up (HRup_up had_1) (HRup_up had_2) |}
  | Use_diff =>
    Some {| HFup_uu := make_had_rad_f_base_uu_diff (rR k) (HRup_uu had) (Hup_uu had_0);
            HFup_up := make_had_rad_f_base_up_diff (rR k) (HRup_up had) had_0_up |}
  | No_value => None
  end.
(** hadronic_coeff.cpp 570-585 *)
Record HadRadFLU_t := mk_HadRadFLU { HFlu_uu : had_rad_f_uu; HFlu_lu : had_rad_f_lu }.
Definition HadRadFLU (k : kinrad) (had_0 : HadLU_t) : option HadRadFLU_t :=
  let kin_0 := project k in
  let had := HadRadLU k in
  match choose k with
  | Use_deriv delta_R =>
    let had_1 := HadRadLU (make_rad kin_0 (rtau k) (rphi_k k) delta_R) in
    let had_2 := HadRadLU (make_rad kin_0 (rtau k) (rphi_k k) (2 * delta_R)) in
    Some {| HFlu_uu := make_had_rad_f_base_uu_deriv (rR k) delta_R (HRlu_uu had) (Hlu_uu had_0) (HRlu_uu had_1) (HRlu_uu had_2);
            HFlu_lu := make_had_rad_f_base_lu_deriv (rR k) delta_R (HRlu_lu had) (Hlu_lu had_0) (HRlu_lu had_1) (HRlu_lu had_2) |}
  | Use_diff =>
    Some {| HFlu_uu := make_had_rad_f_base_uu_diff (rR k) (HRlu_uu had) (Hlu_uu had_0);
            HFlu_lu := make_had_rad_f_base_lu_diff (rR k) (HRlu_lu had) (Hlu_lu had_0) |}
  | No_value => None
  end.
(** hadronic_coeff.cpp 586-607 *)
Record HadRadFLP_t := mk_HadRadFLP { HFlp_uu : had_rad_f_uu; HFlp_up : had_rad_f_up; HFlp_lu : had_rad_f_lu; HFlp_lp : had_rad_f_lp }.
Definition HadRadFLP (k : kinrad) (had_0 : HadLP_t) : option HadRadFLP_t :=
  let kin_0 := project k in
  let had_0_up := mk_had_up (Hlp_ul had_0) (Hlp_ut had_0) in
  let had_0_lp := mk_had_lp (Hlp_ll had_0) (Hlp_lt had_0) in
  let had := HadRadLP k in
  match choose k with
  | Use_deriv delta_R =>
    let had_1 := HadRadLP (make_rad kin_0 (rtau k) (rphi_k k) delta_R) in
    let had_2 := HadRadLP (make_rad kin_0 (rtau k) (rphi_k k) (2 * delta_R)) in
    Some {| HFlp_uu := make_had_rad_f_base_uu_deriv (rR k) delta_R (HRlp_uu had) (Hlp_uu had_0) (HRlp_uu had_1) (HRlp_uu had_2);
            HFlp_up := make_had_rad_f_base_up_deriv (rR k) delta_R (HRlp_up had) had_0_up (HRlp_up had_1) (HRlp_up had_2);
            HFlp_lu := make_had_rad_f_base_lu_deriv (rR k) delta_R (HRlp_lu had) (Hlp_lu had_0) (HRlp_lu had_1) (HRlp_lu had_2);
            HFlp_lp := make_had_rad_f_base_lp_deriv (rR k) delta_R (HRlp_lp had) had_0_lp (HRlp_lp had_1) (HRlp_lp had_2) |}
  | Use_diff =>
    Some {| HFlp_uu := make_had_rad_f_base_uu_diff (rR k) (HRlp_uu had) (Hlp_uu had_0);
            HFlp_up := make_had_rad_f_base_up_diff (rR k) (HRlp_up had) had_0_up;
            HFlp_lu := make_had_rad_f_base_lu_diff (rR k) (HRlp_lu had) (Hlp_lu had_0);
            HFlp_lp := make_had_rad_f_base_lp_diff (rR k) (HRlp_lp had) had_0_lp |}
  | No_value => None
  end.
End Constructors.
