(** C47, C71, C72: transverse momentum convolutions. *)
From Coq Require Import Reals Lra.
From Verif Require Import SfModel TmdModel TmdSpec TmdProofs.
Local Open Scope R_scope.

(** C47: the integrand of the numeric convolution, in polar coordinates, is the published one (times the Jacobian) for
    seven of the eight weights. *)
Theorem C47_integrand_partial {Had} M mh (s : tmd_set Had) w t f h x z Q_sq ph phi k : 0 <= ph -> w <> W3 ->
  conv_integrand M mh s w t f h x z Q_sq (ph * ph) phi k
  = k * vec_integrand (vec_weight M mh w z ph) s t f h x z Q_sq ph (k * cos phi, k * sin phi).
Proof. exact (integrand_polar M mh s w t f h x z Q_sq ph phi k). Qed.
Print Assumptions C47_integrand_partial.

(** C47: the closed form for Gaussian sets is the integral over the whole plane, for all eight weights. *)
Theorem C47_gaussian_closed_form {Had} M mh (g : gaussian_set Had) w t f h x z Q_sq ph :
  M <> 0 -> mh <> 0 -> z <> 0 -> 0 <= ph -> good_widths g ->
  is_plane_int (vec_integrand (vec_weight M mh w z ph) (gaussian_as_tmd_set g) t f h x z Q_sq ph)
    (convolve_gaussian M mh g w t f h x z Q_sq (ph * ph)).
Proof. exact (gaussian_conv M mh g w t f h x z Q_sq ph). Qed.
Print Assumptions C47_gaussian_closed_form.
(** An integral over the plane has one value. *)
Theorem C47_plane_integral_unique f l m : is_plane_int f l -> is_plane_int f m -> l = m.
Proof. exact (plane_unique f l m). Qed.
Print Assumptions C47_plane_integral_unique.

(** C47 violated for the eighth weight (third harmonic): by how much it differs from the published one, *)
Theorem C47_W3_difference M mh z ph phi k : 0 <= ph ->
  conv_weight M mh W3 z (ph * ph) phi k - vec_weight M mh W3 z ph (k * cos phi, k * sin phi)
  = k * cos phi * (ph * (k * cos phi) - z * (k * k)) / (2 * z * (M * M) * mh).
Proof. exact (weight_W3_diff M mh z ph phi k). Qed.
Print Assumptions C47_W3_difference.
(** and a Gaussian set for which integrating the coded weight exactly does not give the closed form. *)
Theorem C47_W3_refuted :
  exists (g : gaussian_set unit) (M mh z ph : R), 0 < M /\ 0 < mh /\ 0 < z < 1 /\ 0 < ph /\ good_widths g /\
  forall (W : R * R -> R) l, (forall phi k, W (k * cos phi, k * sin phi) = conv_weight M mh W3 z (ph * ph) phi k) ->
  is_plane_int (vec_integrand W (gaussian_as_tmd_set g) T_h1Tperp FF_H1perp tt (1/2) z 1 ph) l ->
   l <> convolve_gaussian M mh g W3 T_h1Tperp FF_H1perp tt (1/2) z 1 (ph * ph).
Proof. exact W3_refuted. Qed.
Print Assumptions C47_W3_refuted.
(** The hypotheses of the refutation are met by a weight with an integral. *)
Example C47_W3_weight_exists M mh z ph : 0 <= ph ->
  exists W : R * R -> R, forall phi k, W (k * cos phi, k * sin phi) = conv_weight M mh W3 z (ph * ph) phi k.
Proof. intros H. exists (code_W3 M mh z ph). intros. symmetry. apply code_W3_polar, H. Qed.

(** A set with one flavor, finite widths for one pair and an infinite one otherwise. *)
Definition C47_set : gaussian_set unit :=
  mk_gaussian_set 2 (fun fl => match fl with O => 2/3 | _ => -1/3 end)
    (fun t _ => match t with T_f1 => Some (1/4) | _ => None end) (fun _ _ => Some (1/5))
    (fun _ _ x _ => x) (fun _ _ _ z _ => 1 - z).
Example C47_set_good : good_widths C47_set.
Proof. split; [intros t fl; destruct t; cbn; auto; lra|intros; cbn; lra]. Qed.

(** C71: for WW-type sets the specialised structure functions equal the general ones evaluated on the same set. [cub] is
    the cubature routine, any function that maps the zero integrand to zero. *)
Theorem C71_ww_equals_general {Had} M mass_h cub (s : ww_set Had) n p : cub (fun _ _ => 0) = 0 ->
  TmdSfSet M mass_h cub (ww_as_tmd_set M s) n p = WwTmdSfSet M mass_h cub s n p.
Proof. exact (ww_sets M mass_h cub s n p). Qed.
Print Assumptions C71_ww_equals_general.
Theorem C71_gaussian_ww_equals_gaussian {Had} M mass_h (s : gww_set Had) n p :
  GaussianTmdSfSet M mass_h (gww_as_gaussian_set M s) n p = GaussianWwTmdSfSet M mass_h s n p.
Proof. exact (gww_sets M mass_h s n p). Qed.
Print Assumptions C71_gaussian_ww_equals_gaussian.
Example C71_cubature : exists cub : (R -> R -> R) -> R, cub (fun _ _ => 0) = 0 /\ cub (fun a b => a * b) <> 0.
Proof. exists (fun f => f 1 1). split; lra. Qed.

(** C72: the Gaussian profile is normalised and the stored first moment is the k_perp^2 moment. *)
Theorem C72_reduced_is_integral {Had} (g : gaussian_set Had) t fl x Q_sq m : mean_tmd g t fl = Some m -> 0 < m ->
  is_plane_int (fun k => xtmd (gaussian_as_tmd_set g) t fl x Q_sq (dot2 k k)) (rtmd g t fl x Q_sq).
Proof.
  intros E Hm. eapply plane_int_value; [|eapply plane_ext; [|apply (plane_moments m (rtmd g t fl x Q_sq) 0 Hm)]].
  - ring.
  - intros k. cbn [gaussian_as_tmd_set xtmd]. rewrite E. ring.
Qed.
Print Assumptions C72_reduced_is_integral.
Theorem C72_first_moment M (mean : nat -> R) (F : nat -> R -> R -> R) fl x Q_sq : 0 < mean fl ->
  is_plane_int (fun k => dot2 k k / (2 * M * M) * (F fl x Q_sq * gaussian (dot2 k k) (Some (mean fl))))
    (gw_M1 M mean F fl x Q_sq).
Proof.
  intros Hm. eapply plane_int_value; [|eapply plane_ext; [|apply (plane_moments (mean fl) 0 (F fl x Q_sq / (2 * M * M)) Hm)]].
  - unfold gw_M1, Rdiv. ring.
  - intros k. unfold Rdiv. ring.
Qed.
Print Assumptions C72_first_moment.
(** C72: every reduced function of a Gaussian WW set is the integral over k_perp of the WW-type function it stands for. *)
Theorem C72_ww_relations {Had} M (s : gww_set Had) t fl x Q_sq : good_gww s ->
  is_plane_int (fun k => ww_xtmd M (ww_of_gww s) t fl x Q_sq (dot2 k k)) (gw_rtmd M s t fl x Q_sq).
Proof. exact (ww_relations_integrated M s t fl x Q_sq). Qed.
Print Assumptions C72_ww_relations.
(** For the functions that are a base function, or one divided by x, the relation holds at every transverse momentum,
    and so it does for the fragmentation functions. *)
Theorem C72_ww_pointwise {Had} M (s : gww_set Had) t f h fl x z Q_sq k_sq :
  let g := gaussian_as_tmd_set (gww_as_gaussian_set M s) in
  (t <> T_fT -> t <> T_gT -> t <> T_h -> t <> T_hL -> t <> T_hT -> t <> T_hTperp -> xtmd g t fl x Q_sq k_sq = ww_xtmd M (ww_of_gww s) t fl x Q_sq k_sq)
  /\ ffun g f h fl z Q_sq k_sq = ww_ffun (ww_of_gww s) f h fl z Q_sq k_sq.
Proof. exact (ww_pointwise M s t f h fl x z Q_sq k_sq). Qed.
Print Assumptions C72_ww_pointwise.

Example C72_good : exists s : gww_set unit, good_gww s /\ gw_rtmd 1 s T_hT 0 (1/2) 1 <> 0.
Proof.
  set (c := fun _ : nat => 1/4). set (o := fun _ : nat => Some (1/4)). set (f := fun (_ : nat) (x _ : R) => x).
  exists (mk_gww_set 1 (fun _ => 2/3) c c o c c o c c c c o o o o c c f f f f f f f f (fun _ _ z _ => z) (fun _ _ z _ => z)).
  unfold good_gww, gw_rtmd, gw_M1; cbn. unfold c, f. split; [intros; lra|]. lra.
Qed.
