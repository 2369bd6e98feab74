(** Vocabulary for C47, C71, C72: vectors of the transverse plane, weights of the convolutions, integrals over the plane. *)
From Coq Require Import Reals.
From Coquelicot Require Import Coquelicot.
From Verif Require Import SfModel TmdModel.
Local Open Scope R_scope.

Definition dot2 (a b : R * R) : R := fst a * fst b + snd a * snd b.
(** Unit vector along the transverse momentum of the hadron. *)
Definition hhat : R * R := (1, 0).
(** Transverse momentum of the hadron with respect to the struck quark: P_hT = z k + P. *)
Definition P_perp (ph_t z : R) (k : R * R) : R * R := (ph_t - z * fst k, - z * snd k).
(** The weights of the structure functions (Bacchetta et al. 2007, Bastami et al. 2019), written with P for z times
    the transverse momentum of the quark relative to the hadron. *)
Definition vec_weight (M mh : R) (w : weight) (z ph_t : R) (k : R * R) : R :=
  let P := P_perp ph_t z k in
  match w with
  | W0 => 1
  | WA1 => dot2 hhat P / (z * mh)
  | WB1 => dot2 hhat k / M
  | WA2 => 2 * dot2 hhat P * dot2 hhat k / (z * M * mh)
  | WB2 => - dot2 P k / (z * M * mh)
  | WAB2 => (2 * dot2 hhat P * dot2 hhat k - dot2 P k) / (z * M * mh)
  | WC2 => (2 * dot2 hhat k ^ 2 - dot2 k k) / (2 * M ^ 2)
  | W3 => (4 * dot2 hhat P * dot2 hhat k ^ 2 - 2 * dot2 hhat k * dot2 P k - dot2 hhat P * dot2 k k) / (2 * z * M ^ 2 * mh)
  end.

(** The integral over the plane, as an iterated improper integral. *)
Definition is_plane_int (f : R * R -> R) (l : R) : Prop :=
  exists g : R -> R,
    (forall kx, is_RInt_gen (fun ky => f (kx, ky)) (Rbar_locally m_infty) (Rbar_locally p_infty) (g kx)) /\
    is_RInt_gen g (Rbar_locally m_infty) (Rbar_locally p_infty) l.

(** Integrand of the convolution over the plane for a given weight. *)
Definition vec_integrand {Had} (W : R * R -> R) (s : tmd_set Had) t f h x z Q_sq ph_t (k : R * R) : R :=
  W k * sum_flavors (flavor_count s) (fun fl => charge s fl ^ 2 * xtmd s t fl x Q_sq (dot2 k k)
      * ffun s f h fl z Q_sq (dot2 (P_perp ph_t z k) (P_perp ph_t z k))).

(** Widths are infinite or positive. *)
Definition good_width (m : option R) : Prop := match m with Some r => 0 < r | None => True end.
Definition good_widths {Had} (g : gaussian_set Had) : Prop :=
  (forall t fl, good_width (mean_tmd g t fl)) /\ (forall f fl, good_width (mean_ff g f fl)).

(** The functions with transverse momentum a Gaussian WW set describes: Gaussians for the eight base functions, to which the
    WW-type relations are applied point by point. *)
Definition ww_of_gww {Had} (s : gww_set Had) : ww_set Had :=
  let G (F : nat -> R -> R -> R) (m : nat -> R) := fun fl x Q_sq k => F fl x Q_sq * gaussian k (Some (m fl)) in
  mk_ww_set (gwflavor_count s) (gwcharge s)
    (G (gw_xf1 s) (gw_mean_f1 s)) (G (gw_xf1Tperp s) (gw_mean_f1Tperp s))
    (G (gw_xg1 s) (gw_mean_g1 s)) (G (gw_xg1Tperp s) (gw_mean_g1Tperp s))
    (G (gw_xh1 s) (gw_mean_h1 s)) (G (gw_xh1perp s) (gw_mean_h1perp s))
    (G (gw_xh1Lperp s) (gw_mean_h1Lperp s)) (G (gw_xh1Tperp s) (gw_mean_h1Tperp s))
    (fun h fl z Q_sq p => gw_D1 s h fl z Q_sq * gaussian p (Some (gw_mean_D1 s fl)))
    (fun h fl z Q_sq p => gw_H1perp s h fl z Q_sq * gaussian p (Some (gw_mean_H1perp s fl))).
Definition good_gww {Had} (s : gww_set Had) : Prop := forall fl,
  0 < gw_mean_f1 s fl /\ 0 < gw_mean_f1Tperp s fl /\ 0 < gw_mean_g1 s fl /\ 0 < gw_mean_g1Tperp s fl /\
  0 < gw_mean_h1 s fl /\ 0 < gw_mean_h1perp s fl /\ 0 < gw_mean_h1Lperp s fl /\ 0 < gw_mean_h1Tperp s fl.
