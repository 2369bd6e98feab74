(** Model of the built-in parameterization (src/sf_set/prokudin.cpp): ProkudinTmdSet, a set of Gaussian distributions with
    WW-type relations, and ProkudinSfSet, the structure functions coded directly. Real numbers; [Rpower] stands for std::pow
    (0 < x < 1 and 0 < z < 1 are assumed where it matters; 0 to the power 0 is 1 in both). The tables and the MSTW library are
    parameters: any functions. Simplification: the hadron is one of the two pions (others throw in both classes). The decimal
    constants E and PI stand for the real numbers. *)
From Coq Require Import Reals ZArith List.
From Verif Require Import SfModel TmdModel.
Import ListNotations.
Local Open Scope R_scope.

Inductive pion := PI_P | PI_M.
(** prokudin.cpp 193-274: the tables, as the interpolations look them up, and the parton densities. *)
Record tables := mk_tables {
  parton : Z -> R -> R -> R;
  i_D1_pi_plus : nat -> R -> R -> R; i_D1_pi_minus : nat -> R -> R -> R;
  i_g1 : nat -> R -> R -> R; i_xgT : nat -> R -> R -> R; i_xh1LperpM1 : nat -> R -> R -> R; i_sb : nat -> R -> R -> R }.

(** constant.hpp 16, 29, 34 *)
Definition CE : R := exp 1.
Definition MASS_P : R := 9382720813 / 10000000000.
Definition MASS_PI : R := 13957061 / 100000000.
Definition pion_mass (h : pion) : R := MASS_PI.
Definition six (a b c d e f : R) (fl : nat) : R := nth fl [a; b; c; d; e; f] 0.
(** prokudin.cpp 31-110 *)
Definition NUM_FLAVORS : nat := 6.
Definition F1_MEAN : R := 25/100.
Definition G1_MEAN : R := 76/100 * F1_MEAN.
Definition D1_MEAN : R := 2/10.
Definition H1_ALPHA : R := 111/100.
Definition H1_BETA : R := 364/100.
Definition H1_N := six (46/100) (-1) 0 0 0 0.
Definition H1_MEAN : R := 25/100.
Definition HT_MEAN : R := 15/100.
Definition COLLINS_M_SQ : R := 15/10.
Definition COLLINS_M : R := sqrt COLLINS_M_SQ.
Definition COLLINS_GAMMA : R := 106/100.
Definition COLLINS_DELTA : R := 7/100.
Definition COLLINS_N_FAV : R := 49/100.
Definition COLLINS_N_DISFAV : R := -1.
Definition COLLINS_MEAN : R := (D1_MEAN * COLLINS_M_SQ) / (D1_MEAN + COLLINS_M_SQ).
Definition SIVERS_M_1_SQ : R := 19/100.
Definition SIVERS_M_1 : R := sqrt SIVERS_M_1_SQ.
Definition SIVERS_ALPHA := six (35/100) (44/100) 0 0 0 0.
Definition SIVERS_BETA := six (26/10) (90/100) 0 0 0 0.
Definition SIVERS_N := six (40/100) (-97/100) 0 0 0 0.
Definition SIVERS_MEAN : R := (F1_MEAN * SIVERS_M_1_SQ) / (F1_MEAN + SIVERS_M_1_SQ).
Definition BM_M_1_SQ : R := 34/100.
Definition BM_M_1 : R := sqrt BM_M_1_SQ.
Definition BM_ALPHA := six (73/100) (108/100) (79/100) (79/100) (79/100) (79/100).
Definition BM_BETA : R := 346/100.
Definition BM_A := six (35/100) (-90/100) (24/100) (4/100) (-40/100) (-1).
Definition BM_LAMBDA := six (21/10) (-1111/1000) 0 0 0 0.
Definition BM_MEAN : R := (F1_MEAN * BM_M_1_SQ) / (F1_MEAN + BM_M_1_SQ).
Definition PRETZ_M_TT_SQ : R := 18/100.
Definition PRETZ_ALPHA : R := 25/10.
Definition PRETZ_BETA : R := 2.
Definition PRETZ_N := six 1 (-1) 0 0 0 0.
Definition PRETZ_MEAN : R := (F1_MEAN * PRETZ_M_TT_SQ) / (F1_MEAN + PRETZ_M_TT_SQ).
(** prokudin.cpp 112-118 *)
Definition G (ph_t_sq l : R) : R := exp (- ph_t_sq / l) / (PI * l).
Definition lambda (z mean_kperp_sq mean_pperp_sq : R) : R := z * z * mean_kperp_sq + mean_pperp_sq.
(** prokudin.cpp 169-190 *)
Definition pcharge (fl : nat) : R :=
  match fl with 0%nat => 2/3 | 1%nat => -1/3 | 2%nat => -1/3 | 3%nat => -2/3 | 4%nat => 1/3 | 5%nat => 1/3 | _ => 0 end.

Section Prokudin.
Context (d : tables).

(** ** ProkudinTmdSet *)
(** prokudin.cpp 358-378. *)
Definition t_xf1 (fl : nat) (x Q_sq : R) : R :=
  let Q := sqrt Q_sq in
  match fl with
  | 0%nat => parton d 8 x Q + parton d (-2) x Q
  | 1%nat => parton d 7 x Q + parton d (-1) x Q
  | 2%nat => parton d 3 x Q
  | 3%nat => parton d (-2) x Q
  | 4%nat => parton d (-1) x Q
  | 5%nat => parton d (-3) x Q
  | _ => 0
  end.
(** prokudin.cpp 447-456. *)
Definition t_D1 (h : pion) (fl : nat) (z Q_sq : R) : R :=
  match h with PI_P => i_D1_pi_plus d fl z Q_sq | PI_M => i_D1_pi_minus d fl z Q_sq end.
(** prokudin.cpp 460-478. *)
Definition t_collins (h : pion) (fl : nat) : R :=
  match h, fl with
  | PI_P, (0%nat | 4%nat) => COLLINS_N_FAV
  | PI_P, (1%nat | 3%nat) => COLLINS_N_DISFAV
  | PI_M, (1%nat | 3%nat) => COLLINS_N_FAV
  | PI_M, (0%nat | 4%nat) => COLLINS_N_DISFAV
  | _, _ => 0
  end.
(** prokudin.cpp 393-395 *)
Definition t_xg1 (fl : nat) (x Q_sq : R) : R := x * i_g1 d fl x Q_sq.
(** prokudin.cpp 403-412 *)
Definition t_xh1 (fl : nat) (x Q_sq : R) : R :=
  x * H1_N fl * Rpower x H1_ALPHA * Rpower (1 - x) H1_BETA * Rpower (H1_ALPHA + H1_BETA) (H1_ALPHA + H1_BETA)
    * Rpower H1_ALPHA (- H1_ALPHA) * Rpower H1_BETA (- H1_BETA) * i_sb d fl x Q_sq.
(** prokudin.cpp 380-391 *)
Definition t_xf1Tperp (fl : nat) (x Q_sq : R) : R :=
  - sqrt (2 * CE) * MASS_P / SIVERS_M_1 * SIVERS_MEAN / F1_MEAN * SIVERS_N fl
    * Rpower x (SIVERS_ALPHA fl) * Rpower (1 - x) (SIVERS_BETA fl)
    * Rpower (SIVERS_ALPHA fl + SIVERS_BETA fl) (SIVERS_ALPHA fl + SIVERS_BETA fl)
    * Rpower (SIVERS_ALPHA fl) (- SIVERS_ALPHA fl) * Rpower (SIVERS_BETA fl) (- SIVERS_BETA fl) * t_xf1 fl x Q_sq.
(** prokudin.cpp 397-401 *)
Definition t_xg1Tperp (fl : nat) (x Q_sq : R) : R := (2 * MASS_P * MASS_P / G1_MEAN) * x * i_xgT d fl x Q_sq.
(** prokudin.cpp 414-424 *)
Definition t_xh1perp (fl : nat) (x Q_sq : R) : R :=
  - sqrt (2 * CE) * MASS_P / BM_M_1 * BM_MEAN / F1_MEAN * BM_LAMBDA fl * BM_A fl
    * Rpower x (BM_ALPHA fl) * Rpower (1 - x) BM_BETA
    * Rpower (BM_ALPHA fl + BM_BETA) (BM_ALPHA fl + BM_BETA)
    * Rpower (BM_ALPHA fl) (- BM_ALPHA fl) * Rpower BM_BETA (- BM_BETA) * t_xf1 fl x Q_sq.
(** prokudin.cpp 426-433 *)
Definition t_xh1Lperp (fl : nat) (x Q_sq : R) : R :=
  match fl with
  | 0%nat | 1%nat => 2 * (MASS_P * MASS_P) / H1_MEAN * i_xh1LperpM1 d fl x Q_sq
  | _ => 0
  end.
(** prokudin.cpp 435-445 *)
Definition t_xh1Tperp (fl : nat) (x Q_sq : R) : R :=
  CE * (MASS_P * MASS_P) / PRETZ_M_TT_SQ * PRETZ_MEAN / F1_MEAN * PRETZ_N fl
    * Rpower x PRETZ_ALPHA * Rpower (1 - x) PRETZ_BETA * Rpower (PRETZ_ALPHA + PRETZ_BETA) (PRETZ_ALPHA + PRETZ_BETA)
    * Rpower PRETZ_ALPHA (- PRETZ_ALPHA) * Rpower PRETZ_BETA (- PRETZ_BETA) * (t_xf1 fl x Q_sq - t_xg1 fl x Q_sq).
(** prokudin.cpp 458-487 *)
Definition t_H1perp (h : pion) (fl : nat) (z Q_sq : R) : R :=
  sqrt (2 * CE) * z * pion_mass h / COLLINS_M * COLLINS_MEAN / D1_MEAN * t_collins h fl
    * Rpower z COLLINS_GAMMA * Rpower (1 - z) COLLINS_DELTA
    * Rpower (COLLINS_GAMMA + COLLINS_DELTA) (COLLINS_GAMMA + COLLINS_DELTA)
    * Rpower COLLINS_GAMMA (- COLLINS_GAMMA) * Rpower COLLINS_DELTA (- COLLINS_DELTA) * t_D1 h fl z Q_sq.
(** prokudin.cpp 282-318: the widths given to the constructor; INF is [None]. *)
Definition ProkudinTmdSet : gww_set pion :=
  mk_gww_set NUM_FLAVORS pcharge
    (fun _ => F1_MEAN) (fun _ => SIVERS_MEAN) (fun _ => None)
    (fun _ => G1_MEAN) (fun _ => G1_MEAN) (fun _ => Some G1_MEAN)
    (fun _ => H1_MEAN) (fun _ => BM_MEAN) (fun _ => H1_MEAN) (fun _ => PRETZ_MEAN)
    (fun _ => None) (fun _ => Some H1_MEAN) (fun _ => Some HT_MEAN) (fun _ => Some HT_MEAN)
    (fun _ => D1_MEAN) (fun _ => COLLINS_MEAN)
    t_xf1 t_xf1Tperp t_xg1 t_xg1Tperp t_xh1 t_xh1perp t_xh1Lperp t_xh1Tperp t_D1 t_H1perp.

(** ** ProkudinSfSet *)
(** prokudin.cpp 740-758. *)
Definition s_xf1 (fl : nat) (x Q_sq : R) : R :=
  let Q := sqrt Q_sq in
  match fl with
  | 0%nat => parton d 8 x Q + parton d (-2) x Q
  | 1%nat => parton d 7 x Q + parton d (-1) x Q
  | 2%nat => parton d 3 x Q
  | 3%nat => parton d (-2) x Q
  | 4%nat => parton d (-1) x Q
  | 5%nat => parton d (-3) x Q
  | _ => 0
  end.
(** prokudin.cpp 701-710. *)
Definition s_D1 (h : pion) (fl : nat) (z Q_sq : R) : R :=
  match h with PI_P => i_D1_pi_plus d fl z Q_sq | PI_M => i_D1_pi_minus d fl z Q_sq end.
(** prokudin.cpp 713-728. *)
Definition s_collins (h : pion) (fl : nat) : R :=
  match h, fl with
  | PI_P, (0%nat | 4%nat) => COLLINS_N_FAV
  | PI_P, (1%nat | 3%nat) => COLLINS_N_DISFAV
  | PI_M, (1%nat | 3%nat) => COLLINS_N_FAV
  | PI_M, (0%nat | 4%nat) => COLLINS_N_DISFAV
  | _, _ => 0
  end.
(** prokudin.cpp 773-775 *)
Definition s_xg1 (fl : nat) (x Q_sq : R) : R := x * i_g1 d fl x Q_sq.
(** prokudin.cpp 779-788 *)
Definition s_xh1 (fl : nat) (x Q_sq : R) : R :=
  x * H1_N fl * Rpower x H1_ALPHA * Rpower (1 - x) H1_BETA * Rpower (H1_ALPHA + H1_BETA) (H1_ALPHA + H1_BETA)
    * Rpower H1_ALPHA (- H1_ALPHA) * Rpower H1_BETA (- H1_BETA) * i_sb d fl x Q_sq.
(** prokudin.cpp 711-737 *)
Definition s_H1perpM1 (h : pion) (fl : nat) (z Q_sq : R) : R :=
  sqrt (CE / 2) / (z * pion_mass h * COLLINS_M) * (COLLINS_MEAN * COLLINS_MEAN) / D1_MEAN * s_collins h fl
    * Rpower z COLLINS_GAMMA * Rpower (1 - z) COLLINS_DELTA
    * Rpower (COLLINS_GAMMA + COLLINS_DELTA) (COLLINS_GAMMA + COLLINS_DELTA)
    * Rpower COLLINS_GAMMA (- COLLINS_GAMMA) * Rpower COLLINS_DELTA (- COLLINS_DELTA) * s_D1 h fl z Q_sq.
(** prokudin.cpp 761-772 *)
Definition s_xf1TperpM1 (fl : nat) (x Q_sq : R) : R :=
  - sqrt (CE / 2) / (MASS_P * SIVERS_M_1) * (SIVERS_MEAN * SIVERS_MEAN) / F1_MEAN * SIVERS_N fl
    * Rpower x (SIVERS_ALPHA fl) * Rpower (1 - x) (SIVERS_BETA fl)
    * Rpower (SIVERS_ALPHA fl + SIVERS_BETA fl) (SIVERS_ALPHA fl + SIVERS_BETA fl)
    * Rpower (SIVERS_ALPHA fl) (- SIVERS_ALPHA fl) * Rpower (SIVERS_BETA fl) (- SIVERS_BETA fl) * s_xf1 fl x Q_sq.
(** prokudin.cpp 776-778 *)
Definition s_xgT (fl : nat) (x Q_sq : R) : R := i_xgT d fl x Q_sq.
(** prokudin.cpp 789-791 *)
Definition s_xh1M1 (fl : nat) (x Q_sq : R) : R := H1_MEAN / (2 * (MASS_P * MASS_P)) * s_xh1 fl x Q_sq.
(** prokudin.cpp 792-799 *)
Definition s_xh1LperpM1 (fl : nat) (x Q_sq : R) : R :=
  match fl with 0%nat | 1%nat => i_xh1LperpM1 d fl x Q_sq | _ => 0 end.
(** prokudin.cpp 800-810 *)
Definition s_xh1TperpM2 (fl : nat) (x Q_sq : R) : R :=
  CE / (2 * (MASS_P * MASS_P) * PRETZ_M_TT_SQ) * PRETZ_MEAN ^ 3 / F1_MEAN * PRETZ_N fl
    * Rpower x PRETZ_ALPHA * Rpower (1 - x) PRETZ_BETA * Rpower (PRETZ_ALPHA + PRETZ_BETA) (PRETZ_ALPHA + PRETZ_BETA)
    * Rpower PRETZ_ALPHA (- PRETZ_ALPHA) * Rpower PRETZ_BETA (- PRETZ_BETA) * (s_xf1 fl x Q_sq - s_xg1 fl x Q_sq).
(** prokudin.cpp 811-821 *)
Definition s_xh1perpM1 (fl : nat) (x Q_sq : R) : R :=
  - sqrt (CE / 2) / (MASS_P * BM_M_1) * (BM_MEAN * BM_MEAN) / F1_MEAN * BM_LAMBDA fl * BM_A fl
    * Rpower x (BM_ALPHA fl) * Rpower (1 - x) BM_BETA
    * Rpower (BM_ALPHA fl + BM_BETA) (BM_ALPHA fl + BM_BETA)
    * Rpower (BM_ALPHA fl) (- BM_ALPHA fl) * Rpower BM_BETA (- BM_BETA) * s_xf1 fl x Q_sq.
(** The loop over the flavors in each structure function. *)
Definition flavors (f : nat -> R -> R -> R) (D : pion -> nat -> R -> R -> R) (h : pion) (x z Q_sq : R) : R :=
  sum_flavors NUM_FLAVORS (fun fl => (pcharge fl * pcharge fl) * f fl x Q_sq * D h fl z Q_sq).
(** prokudin.cpp 513-698; the three functions not overridden are zero (structure_function.cpp 189-230). *)
Definition ProkudinSfSet : sf_set (sf_args (Had := pion)) := fun n '(h, x, z, Q_sq, ph_t_sq) =>
  let mh := pion_mass h in
  let Q := sqrt Q_sq in
  let ph_t := sqrt ph_t_sq in
  match n with
  | F_UUL => 0
  | F_UUT =>
      let l := lambda z F1_MEAN D1_MEAN in G ph_t_sq l * flavors s_xf1 s_D1 h x z Q_sq
  | F_UU_cos_phih =>
      let l := lambda z F1_MEAN D1_MEAN in
      -2 * F1_MEAN / Q * ph_t * (z / l) * G ph_t_sq l * flavors s_xf1 s_D1 h x z Q_sq
  | F_UU_cos_2phih =>
      let l := lambda z BM_MEAN COLLINS_MEAN in
      4 * MASS_P * mh * ph_t_sq * ((z / l) * (z / l)) * G ph_t_sq l * flavors s_xh1perpM1 s_H1perpM1 h x z Q_sq
  | F_UL_sin_phih =>
      let l := lambda z H1_MEAN COLLINS_MEAN in
      -8 * MASS_P * mh * z * ph_t / (Q * l) * G ph_t_sq l * flavors s_xh1LperpM1 s_H1perpM1 h x z Q_sq
  | F_UL_sin_2phih =>
      let l := lambda z H1_MEAN COLLINS_MEAN in
      4 * MASS_P * mh * ph_t_sq * ((z / l) * (z / l)) * G ph_t_sq l * flavors s_xh1LperpM1 s_H1perpM1 h x z Q_sq
  | F_UTL_sin_phih_m_phis => 0
  | F_UTT_sin_phih_m_phis =>
      let l := lambda z SIVERS_MEAN D1_MEAN in
      -2 * MASS_P * z * ph_t / l * G ph_t_sq l * flavors s_xf1TperpM1 s_D1 h x z Q_sq
  | F_UT_sin_2phih_m_phis =>
      let result_1 := flavors s_xf1TperpM1 s_D1 h x z Q_sq in
      let result_2 := flavors s_xh1TperpM2 s_H1perpM1 h x z Q_sq in
      let l_1 := lambda z SIVERS_MEAN D1_MEAN in
      let l_2 := lambda z PRETZ_MEAN COLLINS_MEAN in
      2 * MASS_P * ph_t_sq / Q * (
        SIVERS_MEAN * ((z / l_1) * (z / l_1)) * G ph_t_sq l_1 * result_1
        - 2 * MASS_P * mh * ((z / l_2) * (z / l_2)) * G ph_t_sq l_2 * result_2)
  | F_UT_sin_3phih_m_phis =>
      let l := lambda z PRETZ_MEAN COLLINS_MEAN in
      2 * (MASS_P * MASS_P) * mh * (z * ph_t / l) ^ 3 * G ph_t_sq l * flavors s_xh1TperpM2 s_H1perpM1 h x z Q_sq
  | F_UT_sin_phis =>
      let l := lambda z PRETZ_MEAN COLLINS_MEAN in
      8 * (MASS_P * MASS_P) * mh * (z * z) / (Q * l) * (1 - ph_t_sq / l) * G ph_t_sq l * flavors s_xh1M1 s_H1perpM1 h x z Q_sq
  | F_UT_sin_phih_p_phis =>
      let l := lambda z H1_MEAN COLLINS_MEAN in
      2 * mh * z * ph_t / l * G ph_t_sq l * flavors s_xh1 s_H1perpM1 h x z Q_sq
  | F_LU_sin_phih => 0
  | F_LL =>
      let l := lambda z G1_MEAN D1_MEAN in G ph_t_sq l * flavors s_xg1 s_D1 h x z Q_sq
  | F_LL_cos_phih =>
      let l := lambda z G1_MEAN D1_MEAN in
      -2 * G1_MEAN * z * ph_t / (Q * l) * G ph_t_sq l * flavors s_xg1 s_D1 h x z Q_sq
  | F_LT_cos_phih_m_phis =>
      let l := lambda z G1_MEAN D1_MEAN in
      2 * MASS_P * x * z * ph_t / l * G ph_t_sq l * flavors s_xgT s_D1 h x z Q_sq
  | F_LT_cos_2phih_m_phis =>
      let l := lambda z G1_MEAN D1_MEAN in
      -2 * G1_MEAN * MASS_P * x * ph_t_sq * ((z / l) * (z / l)) / Q * G ph_t_sq l * flavors s_xgT s_D1 h x z Q_sq
  | F_LT_cos_phis =>
      let l := lambda z G1_MEAN D1_MEAN in
      -2 * MASS_P * x / Q * G ph_t_sq l * flavors s_xgT s_D1 h x z Q_sq
  end.
End Prokudin.
