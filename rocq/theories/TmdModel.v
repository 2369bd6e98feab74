(** Model of the transverse momentum distributions (include/sidis/tmd.hpp, src/tmd.cpp) and of the structure
    functions computed from them (src/structure_function.cpp). Real numbers; masses of target and hadron are the
    parameters [M] and [mh]. Gaussian widths may be infinite ([None]). *)
From Coq Require Import Reals List.
From Verif Require Import SfModel.
Import ListNotations.
Local Open Scope R_scope.

(** tmd.hpp 51-74 and 80-85: the names of the distributions and of the fragmentation functions. *)
Inductive tmd :=
  | T_f1 | T_f1Tperp | T_fT | T_fperp | T_fLperp | T_fTperp
  | T_g1 | T_g1Tperp | T_gT | T_gperp | T_gLperp | T_gTperp
  | T_h1 | T_h1perp | T_h1Lperp | T_h1Tperp | T_h | T_hL | T_hT | T_hTperp
  | T_e | T_eL | T_eT | T_eTperp.
Inductive ff := FF_D1 | FF_H1perp | FF_Dperp_tilde | FF_H_tilde | FF_Gperp_tilde | FF_E_tilde.

(** tmd.hpp 26-87: a TmdSet object; the functions are x times the distribution. *)
Record tmd_set (Had : Type) := mk_tmd_set {
  flavor_count : nat;
  charge : nat -> R;
  xtmd : tmd -> nat -> R -> R -> R -> R;         (** fl x Q_sq k_perp_sq *)
  ffun : ff -> Had -> nat -> R -> R -> R -> R    (** h fl z Q_sq p_perp_sq *) }.
Arguments mk_tmd_set {Had}. Arguments flavor_count {Had}. Arguments charge {Had}. Arguments xtmd {Had}. Arguments ffun {Had}.

(** tmd.hpp 94-283: a GaussianTmdSet object: widths per flavor and reduced functions. *)
Record gaussian_set (Had : Type) := mk_gaussian_set {
  gflavor_count : nat;
  gcharge : nat -> R;
  mean_tmd : tmd -> nat -> option R;
  mean_ff : ff -> nat -> option R;
  rtmd : tmd -> nat -> R -> R -> R;              (** fl x Q_sq *)
  rff : ff -> Had -> nat -> R -> R -> R          (** h fl z Q_sq *) }.
Arguments mk_gaussian_set {Had}. Arguments gflavor_count {Had}. Arguments gcharge {Had}.
Arguments mean_tmd {Had}. Arguments mean_ff {Had}. Arguments rtmd {Had}. Arguments rff {Had}.

(** tmd.cpp 11-13; an infinite width gives exp(-0)/inf = 0. *)
Definition gaussian (k_perp_sq : R) (mean : option R) : R :=
  match mean with Some m => exp (- k_perp_sq / m) / (PI * m) | None => 0 end.
(** tmd.cpp 332-422: a GaussianTmdSet used through the TmdSet interface. *)
Definition gaussian_as_tmd_set {Had} (g : gaussian_set Had) : tmd_set Had :=
  mk_tmd_set (gflavor_count g) (gcharge g)
    (fun t fl x Q_sq k_perp_sq => rtmd g t fl x Q_sq * gaussian k_perp_sq (mean_tmd g t fl))
    (fun f h fl z Q_sq p_perp_sq => rff g f h fl z Q_sq * gaussian p_perp_sq (mean_ff g f fl)).

(** tmd.hpp 291-360: a WwTmdSet object: the functions a derived class provides. *)
Record ww_set (Had : Type) := mk_ww_set {
  wflavor_count : nat;
  wcharge : nat -> R;
  ww_xf1 : nat -> R -> R -> R -> R;     ww_xf1Tperp : nat -> R -> R -> R -> R;
  ww_xg1 : nat -> R -> R -> R -> R;     ww_xg1Tperp : nat -> R -> R -> R -> R;
  ww_xh1 : nat -> R -> R -> R -> R;     ww_xh1perp : nat -> R -> R -> R -> R;
  ww_xh1Lperp : nat -> R -> R -> R -> R; ww_xh1Tperp : nat -> R -> R -> R -> R;
  ww_D1 : Had -> nat -> R -> R -> R -> R; ww_H1perp : Had -> nat -> R -> R -> R -> R }.
Arguments mk_ww_set {Had}. Arguments wflavor_count {Had}. Arguments wcharge {Had}.
Arguments ww_xf1 {Had}. Arguments ww_xf1Tperp {Had}. Arguments ww_xg1 {Had}. Arguments ww_xg1Tperp {Had}.
Arguments ww_xh1 {Had}. Arguments ww_xh1perp {Had}. Arguments ww_xh1Lperp {Had}. Arguments ww_xh1Tperp {Had}.
Arguments ww_D1 {Had}. Arguments ww_H1perp {Had}.

(** tmd.cpp 457-538: the moments and the WW-type relations. *)
Section Ww.
Context {Had : Type} (M : R) (s : ww_set Had).
Definition ww_M1 (F : nat -> R -> R -> R -> R) fl x Q_sq k_perp_sq := k_perp_sq / (2 * M * M) * F fl x Q_sq k_perp_sq.
Definition ww_xtmd (t : tmd) (fl : nat) (x Q_sq k : R) : R :=
  match t with
  | T_f1 => ww_xf1 s fl x Q_sq k
  | T_f1Tperp => ww_xf1Tperp s fl x Q_sq k
  | T_fT => - ww_M1 (ww_xf1Tperp s) fl x Q_sq k / x
  | T_fperp => ww_xf1 s fl x Q_sq k / x
  | T_fLperp => 0
  | T_fTperp => ww_xf1Tperp s fl x Q_sq k / x
  | T_g1 => ww_xg1 s fl x Q_sq k
  | T_g1Tperp => ww_xg1Tperp s fl x Q_sq k
  | T_gT => ww_M1 (ww_xg1Tperp s) fl x Q_sq k / x
  | T_gperp => 0
  | T_gLperp => ww_xg1 s fl x Q_sq k / x
  | T_gTperp => ww_xg1Tperp s fl x Q_sq k / x
  | T_h1 => ww_xh1 s fl x Q_sq k
  | T_h1perp => ww_xh1perp s fl x Q_sq k
  | T_h1Lperp => ww_xh1Lperp s fl x Q_sq k
  | T_h1Tperp => ww_xh1Tperp s fl x Q_sq k
  | T_h => - 2 * ww_M1 (ww_xh1perp s) fl x Q_sq k / x
  | T_hL => - 2 * ww_M1 (ww_xh1Lperp s) fl x Q_sq k / x
  | T_hT => - (ww_xh1 s fl x Q_sq k + ww_M1 (ww_xh1Tperp s) fl x Q_sq k) / x
  | T_hTperp => (ww_xh1 s fl x Q_sq k - ww_M1 (ww_xh1Tperp s) fl x Q_sq k) / x
  | T_e | T_eL | T_eT | T_eTperp => 0
  end.
Definition ww_ffun (f : ff) (h : Had) (fl : nat) (z Q_sq p : R) : R :=
  match f with
  | FF_D1 => ww_D1 s h fl z Q_sq p
  | FF_H1perp => ww_H1perp s h fl z Q_sq p
  | FF_Dperp_tilde | FF_H_tilde | FF_Gperp_tilde | FF_E_tilde => 0
  end.
Definition ww_as_tmd_set : tmd_set Had := mk_tmd_set (wflavor_count s) (wcharge s) ww_xtmd ww_ffun.
End Ww.

(** tmd.hpp 372-474: a GaussianWwTmdSet object: widths given to the constructor and base functions. The widths of
    the functions obtained by WW-type relations may be infinite; simplification: those of the base functions are finite. *)
Record gww_set (Had : Type) := mk_gww_set {
  gwflavor_count : nat;
  gwcharge : nat -> R;
  gw_mean_f1 : nat -> R; gw_mean_f1Tperp : nat -> R; gw_mean_fT : nat -> option R;
  gw_mean_g1 : nat -> R; gw_mean_g1Tperp : nat -> R; gw_mean_gT : nat -> option R;
  gw_mean_h1 : nat -> R; gw_mean_h1perp : nat -> R; gw_mean_h1Lperp : nat -> R; gw_mean_h1Tperp : nat -> R;
  gw_mean_h : nat -> option R; gw_mean_hL : nat -> option R; gw_mean_hT : nat -> option R; gw_mean_hTperp : nat -> option R;
  gw_mean_D1 : nat -> R; gw_mean_H1perp : nat -> R;
  gw_xf1 : nat -> R -> R -> R;     gw_xf1Tperp : nat -> R -> R -> R;
  gw_xg1 : nat -> R -> R -> R;     gw_xg1Tperp : nat -> R -> R -> R;
  gw_xh1 : nat -> R -> R -> R;     gw_xh1perp : nat -> R -> R -> R;
  gw_xh1Lperp : nat -> R -> R -> R; gw_xh1Tperp : nat -> R -> R -> R;
  gw_D1 : Had -> nat -> R -> R -> R; gw_H1perp : Had -> nat -> R -> R -> R }.
Arguments mk_gww_set {Had}. Arguments gwflavor_count {Had}. Arguments gwcharge {Had}. Arguments gw_mean_f1 {Had}. Arguments gw_mean_f1Tperp {Had}. Arguments gw_mean_fT {Had}. Arguments gw_mean_g1 {Had}. Arguments gw_mean_g1Tperp {Had}. Arguments gw_mean_gT {Had}. Arguments gw_mean_h1 {Had}. Arguments gw_mean_h1perp {Had}. Arguments gw_mean_h1Lperp {Had}. Arguments gw_mean_h1Tperp {Had}. Arguments gw_mean_h {Had}. Arguments gw_mean_hL {Had}. Arguments gw_mean_hT {Had}. Arguments gw_mean_hTperp {Had}. Arguments gw_mean_D1 {Had}. Arguments gw_mean_H1perp {Had}. Arguments gw_xf1 {Had}. Arguments gw_xf1Tperp {Had}. Arguments gw_xg1 {Had}. Arguments gw_xg1Tperp {Had}. Arguments gw_xh1 {Had}. Arguments gw_xh1perp {Had}. Arguments gw_xh1Lperp {Had}. Arguments gw_xh1Tperp {Had}. Arguments gw_D1 {Had}. Arguments gw_H1perp {Had}. 

(** tmd.cpp 541-677 (both constructors), 715-796. The width of a neglected function is infinite. *)
Section GaussianWw.
Context {Had : Type} (M : R) (s : gww_set Had).
Definition gw_mean_tmd (t : tmd) (fl : nat) : option R :=
  match t with
  | T_f1 => Some (gw_mean_f1 s fl)
  | T_f1Tperp => Some (gw_mean_f1Tperp s fl)
  | T_fT => gw_mean_fT s fl
  | T_fperp => Some (gw_mean_f1 s fl)
  | T_fLperp => None
  | T_fTperp => Some (gw_mean_f1Tperp s fl)
  | T_g1 => Some (gw_mean_g1 s fl)
  | T_g1Tperp => Some (gw_mean_g1Tperp s fl)
  | T_gT => gw_mean_gT s fl
  | T_gperp => None
  | T_gLperp => Some (gw_mean_g1 s fl)
  | T_gTperp => Some (gw_mean_g1Tperp s fl)
  | T_h1 => Some (gw_mean_h1 s fl)
  | T_h1perp => Some (gw_mean_h1perp s fl)
  | T_h1Lperp => Some (gw_mean_h1Lperp s fl)
  | T_h1Tperp => Some (gw_mean_h1Tperp s fl)
  | T_h => gw_mean_h s fl
  | T_hL => gw_mean_hL s fl
  | T_hT => gw_mean_hT s fl
  | T_hTperp => gw_mean_hTperp s fl
  | T_e | T_eL | T_eT | T_eTperp => None
  end.
Definition gw_mean_ff (f : ff) (fl : nat) : option R :=
  match f with
  | FF_D1 => Some (gw_mean_D1 s fl)
  | FF_H1perp => Some (gw_mean_H1perp s fl)
  | FF_Dperp_tilde | FF_H_tilde | FF_Gperp_tilde | FF_E_tilde => None
  end.
Definition gw_M1 (mean : nat -> R) (F : nat -> R -> R -> R) fl x Q_sq := mean fl / (2 * M * M) * F fl x Q_sq.
Definition gw_rtmd (t : tmd) (fl : nat) (x Q_sq : R) : R :=
  match t with
  | T_f1 => gw_xf1 s fl x Q_sq
  | T_f1Tperp => gw_xf1Tperp s fl x Q_sq
  | T_fT => - gw_M1 (gw_mean_f1Tperp s) (gw_xf1Tperp s) fl x Q_sq / x
  | T_fperp => gw_xf1 s fl x Q_sq / x
  | T_fLperp => 0
  | T_fTperp => gw_xf1Tperp s fl x Q_sq / x
  | T_g1 => gw_xg1 s fl x Q_sq
  | T_g1Tperp => gw_xg1Tperp s fl x Q_sq
  | T_gT => gw_M1 (gw_mean_g1Tperp s) (gw_xg1Tperp s) fl x Q_sq / x
  | T_gperp => 0
  | T_gLperp => gw_xg1 s fl x Q_sq / x
  | T_gTperp => gw_xg1Tperp s fl x Q_sq / x
  | T_h1 => gw_xh1 s fl x Q_sq
  | T_h1perp => gw_xh1perp s fl x Q_sq
  | T_h1Lperp => gw_xh1Lperp s fl x Q_sq
  | T_h1Tperp => gw_xh1Tperp s fl x Q_sq
  | T_h => - 2 * gw_M1 (gw_mean_h1perp s) (gw_xh1perp s) fl x Q_sq / x
  | T_hL => - 2 * gw_M1 (gw_mean_h1Lperp s) (gw_xh1Lperp s) fl x Q_sq / x
  | T_hT => - (gw_xh1 s fl x Q_sq + gw_M1 (gw_mean_h1Tperp s) (gw_xh1Tperp s) fl x Q_sq) / x
  | T_hTperp => (gw_xh1 s fl x Q_sq - gw_M1 (gw_mean_h1Tperp s) (gw_xh1Tperp s) fl x Q_sq) / x
  | T_e | T_eL | T_eT | T_eTperp => 0
  end.
Definition gw_rff (f : ff) (h : Had) (fl : nat) (z Q_sq : R) : R :=
  match f with
  | FF_D1 => gw_D1 s h fl z Q_sq
  | FF_H1perp => gw_H1perp s h fl z Q_sq
  | FF_Dperp_tilde | FF_H_tilde | FF_Gperp_tilde | FF_E_tilde => 0
  end.
Definition gww_as_gaussian_set : gaussian_set Had :=
  mk_gaussian_set (gwflavor_count s) (gwcharge s) gw_mean_tmd gw_mean_ff gw_rtmd gw_rff.
End GaussianWw.

(** structure_function.cpp 51-60. *)
Inductive weight := W0 | WA1 | WB1 | WA2 | WB2 | WAB2 | WC2 | W3.

(** Sum of [f fl] for fl = 0, …, n-1, in this order. *)
Fixpoint sum_flavors (n : nat) (f : nat -> R) : R :=
  match n with O => 0 | S n' => sum_flavors n' f + f n' end.

Section Conv.
Context {Had : Type} (M mh : R).

(** structure_function.cpp 73-113: the weight at the polar point ([phi], [k]) of the k_perp plane. *)
Definition conv_weight (w : weight) (z ph_t_sq phi k : R) : R :=
  let ph_t := sqrt ph_t_sq in
  let dot_k_perp := k * cos phi in
  let dot_p_perp := ph_t - z * dot_k_perp in
  let k_perp_sq := k * k in
  let dot_p_k_perp := ph_t * dot_k_perp - z * k_perp_sq in
  match w with
  | W0 => 1
  | WA1 => dot_p_perp / (z * mh)
  | WB1 => dot_k_perp / M
  | WA2 => (2 * dot_p_perp * dot_k_perp) / (z * M * mh)
  | WB2 => - dot_p_k_perp / (z * M * mh)
  | WAB2 => (2 * dot_p_perp * dot_k_perp - dot_p_k_perp) / (z * M * mh)
  | WC2 => (2 * (dot_k_perp * dot_k_perp) - k_perp_sq) / (2 * (M * M))
  | W3 => (4 * dot_p_perp * (dot_k_perp * dot_k_perp) - dot_k_perp * dot_p_k_perp - dot_p_perp * k_perp_sq)
      / (2 * z * (M * M) * mh)
  end.
(** structure_function.cpp 72-121: the integrand handed to the cubature routine. *)
Definition conv_integrand (s : tmd_set Had) (w : weight) (t : tmd) (f : ff) (h : Had) (x z Q_sq ph_t_sq phi k : R) : R :=
  let ph_t := sqrt ph_t_sq in
  let dot_k_perp := k * cos phi in
  let k_perp_sq := k * k in
  let p_perp_sq := ph_t_sq + z * z * k_perp_sq - 2 * ph_t * z * dot_k_perp in
  let jacobian := k in
  jacobian * conv_weight w z ph_t_sq phi k
    * sum_flavors (flavor_count s) (fun fl => (charge s fl * charge s fl)
        * xtmd s t fl x Q_sq (k * k) * ffun s f h fl z Q_sq p_perp_sq).
(** structure_function.cpp 62-127. [cub] stands for the cubature routine over [0, 2 pi] x [0, 10]: any function of
    the integrand. *)
Definition convolve (cub : (R -> R -> R) -> R) (s : tmd_set Had) (w : weight) (t : tmd) (f : ff) (h : Had)
    (x z Q_sq ph_t_sq : R) : R :=
  cub (fun phi k => conv_integrand s w t f h x z Q_sq ph_t_sq phi k).

(** structure_function.cpp 141: sum of widths; infinite if one is (z is nonzero). *)
Definition mean_sum (z : R) (mf mt : option R) : option R :=
  match mf, mt with Some a, Some b => Some (a + z * z * b) | _, _ => None end.
(** structure_function.cpp 148-178. *)
Definition gaussian_weight (w : weight) (mt mf mean z ph_t_sq : R) : R :=
  let ph_t := sqrt ph_t_sq in
  match w with
  | W0 => 1
  | WA1 => (mf * ph_t) / (mh * mean * z)
  | WB1 => (mt * ph_t * z) / (M * mean)
  | WA2 => (mt * mf * (2 * ph_t_sq - mean)) / (M * mh * (mean * mean))
  | WB2 => (mt * mf * (mean - ph_t_sq)) / (M * mh * (mean * mean))
  | WAB2 => (mt * mf * ph_t_sq) / (M * mh * (mean * mean))
  | WC2 => ((mt * mt) * ph_t_sq * (z * z)) / (2 * (M * M) * (mean * mean))
  | W3 => ((mt * mt) * mf * ph_t * ph_t_sq * z) / (2 * (M * M) * mh * mean * (mean * mean))
  end.
(** structure_function.cpp 140-183: the contribution of one flavor; skipped when a width is infinite. *)
Definition gaussian_term (g : gaussian_set Had) (w : weight) (t : tmd) (f : ff) (h : Had) (x z Q_sq ph_t_sq : R)
    (fl : nat) : R :=
  match mean_tmd g t fl, mean_ff g f fl, mean_sum z (mean_ff g f fl) (mean_tmd g t fl) with
  | Some mt, Some mf, Some mean =>
      let gauss := exp (- ph_t_sq / mean) / (PI * mean) in
      (gcharge g fl * gcharge g fl) * gaussian_weight w mt mf mean z ph_t_sq * gauss
        * rtmd g t fl x Q_sq * rff g f h fl z Q_sq
  | _, _, _ => 0
  end.
(** structure_function.cpp 129-185. *)
Definition convolve_gaussian (g : gaussian_set Had) (w : weight) (t : tmd) (f : ff) (h : Had) (x z Q_sq ph_t_sq : R) : R :=
  sum_flavors (gflavor_count g) (gaussian_term g w t f h x z Q_sq ph_t_sq).
End Conv.

(** The structure functions, in terms of the convolution [conv] their macros expand to. *)
Section Formulas.
Context (M mh x z Q_sq : R) (conv : weight -> tmd -> ff -> R).
(** structure_function.cpp 19-24 and 33-38: CONVOLVE_TILDE, CONVOLVE_GAUSSIAN_TILDE. *)
Definition conv_tilde (w : weight) (t : tmd) (f : ff) (tt : tmd) (ft : ff) (sign : R) : R :=
  (2 * M * x) / sqrt Q_sq * conv w t f + sign * (2 * mh) / (z * sqrt Q_sq) * conv w tt ft.
(** structure_function.cpp 363-433: TmdSfSet. *)
Definition TmdSfSet_F (n : sf_name) : R :=
  match n with
  | F_UUL => 0
  | F_UUT => conv W0 T_f1 FF_D1
  | F_UU_cos_phih =>
      (conv_tilde WA1 T_h FF_H1perp T_f1 FF_Dperp_tilde 1)
      - (conv_tilde WB1 T_fperp FF_D1 T_h1perp FF_H_tilde 1)
  | F_UU_cos_2phih => conv WAB2 T_h1perp FF_H1perp
  | F_UL_sin_phih =>
      (conv_tilde WA1 T_hL FF_H1perp T_g1 FF_Gperp_tilde 1)
      + (conv_tilde WB1 T_fLperp FF_D1 T_h1Lperp FF_H_tilde (-1))
  | F_UL_sin_2phih => conv WAB2 T_h1Lperp FF_H1perp
  | F_UTL_sin_phih_m_phis => 0
  | F_UTT_sin_phih_m_phis => -(conv WB1 T_f1Tperp FF_D1)
  | F_UT_sin_2phih_m_phis =>
      1/2 * (conv_tilde WAB2 T_hT FF_H1perp T_g1Tperp FF_Gperp_tilde 1)
      + 1/2 * (conv_tilde WAB2 T_hTperp FF_H1perp T_f1Tperp FF_Dperp_tilde (-1))
      + (conv_tilde WC2 T_fTperp FF_D1 T_h1Tperp FF_H_tilde (-1))
  | F_UT_sin_3phih_m_phis => conv W3 T_h1Tperp FF_H1perp
  | F_UT_sin_phis =>
      (conv_tilde W0 T_fT FF_D1 T_h1 FF_H_tilde (-1))
      - 1/2 * (conv_tilde WB2 T_hT FF_H1perp T_g1Tperp FF_Gperp_tilde 1)
      + 1/2 * (conv_tilde WB2 T_hTperp FF_H1perp T_f1Tperp FF_Dperp_tilde (-1))
  | F_UT_sin_phih_p_phis => conv WA1 T_h1 FF_H1perp
  | F_LU_sin_phih =>
      (conv_tilde WA1 T_e FF_H1perp T_f1 FF_Gperp_tilde 1)
      + (conv_tilde WB1 T_gperp FF_D1 T_h1perp FF_E_tilde 1)
  | F_LL => conv W0 T_g1 FF_D1
  | F_LL_cos_phih =>
      -(conv_tilde WA1 T_eL FF_H1perp T_g1 FF_Dperp_tilde (-1))
      - (conv_tilde WB1 T_gLperp FF_D1 T_h1Lperp FF_E_tilde 1)
  | F_LT_cos_phih_m_phis => conv WB1 T_g1Tperp FF_D1
  | F_LT_cos_2phih_m_phis =>
      -1/2 * (conv_tilde WAB2 T_eT FF_H1perp T_g1Tperp FF_Dperp_tilde (-1))
      + 1/2 * (conv_tilde WAB2 T_eTperp FF_H1perp T_f1Tperp FF_Gperp_tilde 1)
      - (conv_tilde WC2 T_gTperp FF_D1 T_h1Tperp FF_E_tilde 1)
  | F_LT_cos_phis =>
      -(conv_tilde W0 T_gT FF_D1 T_h1 FF_E_tilde 1)
      + 1/2 * (conv_tilde WB2 T_eT FF_H1perp T_g1Tperp FF_Dperp_tilde (-1))
      + 1/2 * (conv_tilde WB2 T_eTperp FF_H1perp T_f1Tperp FF_Gperp_tilde 1)
  end.
(** structure_function.cpp 436-506: GaussianTmdSfSet. *)
Definition GaussianTmdSfSet_F (n : sf_name) : R :=
  match n with
  | F_UUL => 0
  | F_UUT => conv W0 T_f1 FF_D1
  | F_UU_cos_phih =>
      (conv_tilde WA1 T_h FF_H1perp T_f1 FF_Dperp_tilde 1)
      - (conv_tilde WB1 T_fperp FF_D1 T_h1perp FF_H_tilde 1)
  | F_UU_cos_2phih => conv WAB2 T_h1perp FF_H1perp
  | F_UL_sin_phih =>
      (conv_tilde WA1 T_hL FF_H1perp T_g1 FF_Gperp_tilde 1)
      + (conv_tilde WB1 T_fLperp FF_D1 T_h1Lperp FF_H_tilde (-1))
  | F_UL_sin_2phih => conv WAB2 T_h1Lperp FF_H1perp
  | F_UTL_sin_phih_m_phis => 0
  | F_UTT_sin_phih_m_phis => -(conv WB1 T_f1Tperp FF_D1)
  | F_UT_sin_2phih_m_phis =>
      1/2 * (conv_tilde WAB2 T_hT FF_H1perp T_g1Tperp FF_Gperp_tilde 1)
      + 1/2 * (conv_tilde WAB2 T_hTperp FF_H1perp T_f1Tperp FF_Dperp_tilde (-1))
      + (conv_tilde WC2 T_fTperp FF_D1 T_h1Tperp FF_H_tilde (-1))
  | F_UT_sin_3phih_m_phis => conv W3 T_h1Tperp FF_H1perp
  | F_UT_sin_phis =>
      (conv_tilde W0 T_fT FF_D1 T_h1 FF_H_tilde (-1))
      - 1/2 * (conv_tilde WB2 T_hT FF_H1perp T_g1Tperp FF_Gperp_tilde 1)
      + 1/2 * (conv_tilde WB2 T_hTperp FF_H1perp T_f1Tperp FF_Dperp_tilde (-1))
  | F_UT_sin_phih_p_phis => conv WA1 T_h1 FF_H1perp
  | F_LU_sin_phih =>
      (conv_tilde WA1 T_e FF_H1perp T_f1 FF_Gperp_tilde 1)
      + (conv_tilde WB1 T_gperp FF_D1 T_h1perp FF_E_tilde 1)
  | F_LL => conv W0 T_g1 FF_D1
  | F_LL_cos_phih =>
      -(conv_tilde WA1 T_eL FF_H1perp T_g1 FF_Dperp_tilde (-1))
      - (conv_tilde WB1 T_gLperp FF_D1 T_h1Lperp FF_E_tilde 1)
  | F_LT_cos_phih_m_phis => conv WB1 T_g1Tperp FF_D1
  | F_LT_cos_2phih_m_phis =>
      -1/2 * (conv_tilde WAB2 T_eT FF_H1perp T_g1Tperp FF_Dperp_tilde (-1))
      + 1/2 * (conv_tilde WAB2 T_eTperp FF_H1perp T_f1Tperp FF_Gperp_tilde 1)
      - (conv_tilde WC2 T_gTperp FF_D1 T_h1Tperp FF_E_tilde 1)
  | F_LT_cos_phis =>
      -(conv_tilde W0 T_gT FF_D1 T_h1 FF_E_tilde 1)
      + 1/2 * (conv_tilde WB2 T_eT FF_H1perp T_g1Tperp FF_Dperp_tilde (-1))
      + 1/2 * (conv_tilde WB2 T_eTperp FF_H1perp T_f1Tperp FF_Gperp_tilde 1)
  end.
(** structure_function.cpp 509-574: WwTmdSfSet. *)
Definition WwTmdSfSet_F (n : sf_name) : R :=
  match n with
  | F_UUL => 0
  | F_UUT => conv W0 T_f1 FF_D1
  | F_UU_cos_phih => ((2 * M * x) / sqrt Q_sq) * ((conv WA1 T_h FF_H1perp) - (conv WB1 T_fperp FF_D1))
  | F_UU_cos_2phih => conv WAB2 T_h1perp FF_H1perp
  | F_UL_sin_phih => ((2 * M * x) / sqrt Q_sq) * (conv WA1 T_hL FF_H1perp)
  | F_UL_sin_2phih => conv WAB2 T_h1Lperp FF_H1perp
  | F_UTL_sin_phih_m_phis => 0
  | F_UTT_sin_phih_m_phis => -(conv WB1 T_f1Tperp FF_D1)
  | F_UT_sin_2phih_m_phis =>
      ((2 * M * x) / sqrt Q_sq) * (1/2 * (conv WAB2 T_hT FF_H1perp)
      + 1/2 * (conv WAB2 T_hTperp FF_H1perp)
      + (conv WC2 T_fTperp FF_D1))
  | F_UT_sin_3phih_m_phis => conv W3 T_h1Tperp FF_H1perp
  | F_UT_sin_phis =>
      ((2 * M * x) / sqrt Q_sq) * ((conv W0 T_fT FF_D1)
      - 1/2 * (conv WB2 T_hT FF_H1perp)
      + 1/2 * (conv WB2 T_hTperp FF_H1perp))
  | F_UT_sin_phih_p_phis => conv WA1 T_h1 FF_H1perp
  | F_LU_sin_phih => 0
  | F_LL => conv W0 T_g1 FF_D1
  | F_LL_cos_phih => -((2 * M * x) / sqrt Q_sq) * (conv WB1 T_gLperp FF_D1)
  | F_LT_cos_phih_m_phis => conv WB1 T_g1Tperp FF_D1
  | F_LT_cos_2phih_m_phis => -((2 * M * x) / sqrt Q_sq) * (conv WC2 T_gTperp FF_D1)
  | F_LT_cos_phis => -((2 * M * x) / sqrt Q_sq) * (conv W0 T_gT FF_D1)
  end.
(** structure_function.cpp 577-647: GaussianWwTmdSfSet. *)
Definition GaussianWwTmdSfSet_F (n : sf_name) : R :=
  match n with
  | F_UUL => 0
  | F_UUT => conv W0 T_f1 FF_D1
  | F_UU_cos_phih => ((2 * M * x) / sqrt Q_sq) * ((conv WA1 T_h FF_H1perp) - (conv WB1 T_fperp FF_D1))
  | F_UU_cos_2phih => conv WAB2 T_h1perp FF_H1perp
  | F_UL_sin_phih => ((2 * M * x) / sqrt Q_sq) * (conv WA1 T_hL FF_H1perp)
  | F_UL_sin_2phih => conv WAB2 T_h1Lperp FF_H1perp
  | F_UTL_sin_phih_m_phis => 0
  | F_UTT_sin_phih_m_phis => -(conv WB1 T_f1Tperp FF_D1)
  | F_UT_sin_2phih_m_phis =>
      ((2 * M * x) / sqrt Q_sq) * (1/2 * (conv WAB2 T_hT FF_H1perp)
      + 1/2 * (conv WAB2 T_hTperp FF_H1perp)
      + (conv WC2 T_fTperp FF_D1))
  | F_UT_sin_3phih_m_phis => conv W3 T_h1Tperp FF_H1perp
  | F_UT_sin_phis =>
      ((2 * M * x) / sqrt Q_sq) * ((conv W0 T_fT FF_D1)
      - 1/2 * (conv WB2 T_hT FF_H1perp)
      + 1/2 * (conv WB2 T_hTperp FF_H1perp))
  | F_UT_sin_phih_p_phis => conv WA1 T_h1 FF_H1perp
  | F_LU_sin_phih => 0
  | F_LL => conv W0 T_g1 FF_D1
  | F_LL_cos_phih => -((2 * M * x) / sqrt Q_sq) * (conv WB1 T_gLperp FF_D1)
  | F_LT_cos_phih_m_phis => conv WB1 T_g1Tperp FF_D1
  | F_LT_cos_2phih_m_phis => -((2 * M * x) / sqrt Q_sq) * (conv WC2 T_gTperp FF_D1)
  | F_LT_cos_phis => -((2 * M * x) / sqrt Q_sq) * (conv W0 T_gT FF_D1)
  end.
End Formulas.

(** The four structure-function sets (structure_function.hpp 128-316) as functions of their argument list
    (hadron, x, z, Q_sq, ph_t_sq). [mass_h] is the mass of a hadron, [M] that of the target. *)
Section Sets.
Context {Had : Type} (M : R) (mass_h : Had -> R) (cub : (R -> R -> R) -> R).
Definition sf_args := (Had * R * R * R * R)%type.
Definition TmdSfSet (s : tmd_set Had) : sf_set sf_args := fun n '(h, x, z, Q_sq, ph_t_sq) =>
  TmdSfSet_F M (mass_h h) x z Q_sq (fun w t f => convolve M (mass_h h) cub s w t f h x z Q_sq ph_t_sq) n.
Definition GaussianTmdSfSet (g : gaussian_set Had) : sf_set sf_args := fun n '(h, x, z, Q_sq, ph_t_sq) =>
  GaussianTmdSfSet_F M (mass_h h) x z Q_sq (fun w t f => convolve_gaussian M (mass_h h) g w t f h x z Q_sq ph_t_sq) n.
Definition WwTmdSfSet (s : ww_set Had) : sf_set sf_args := fun n '(h, x, z, Q_sq, ph_t_sq) =>
  WwTmdSfSet_F M x Q_sq (fun w t f => convolve M (mass_h h) cub (ww_as_tmd_set M s) w t f h x z Q_sq ph_t_sq) n.
Definition GaussianWwTmdSfSet (s : gww_set Had) : sf_set sf_args := fun n '(h, x, z, Q_sq, ph_t_sq) =>
  GaussianWwTmdSfSet_F M x Q_sq
    (fun w t f => convolve_gaussian M (mass_h h) (gww_as_gaussian_set M s) w t f h x z Q_sq ph_t_sq) n.
End Sets.
