(** Proofs for C47, C71, C72. *)
From Coq Require Import Reals Lra Psatz FunctionalExtensionality.
From Coquelicot Require Import Coquelicot.
From Verif Require Import SfModel TmdModel TmdSpec GaussInt.
From Verif Require FrameBase KinAll.
Set Bullet Behavior "Strict Subproofs".
Local Open Scope R_scope.
Ltac toR := match goal with |- @eq _ ?x ?y => change (@eq R x y) end.

(** * The weights *)
Lemma sincos k phi : k * cos phi * (k * cos phi) + k * sin phi * (k * sin phi) = k * k.
Proof. pose proof (sin2_cos2 phi) as H. unfold Rsqr in H. nra. Qed.

Lemma weight_polar M mh w z ph phi k : 0 <= ph -> w <> W3 ->
  conv_weight M mh w z (ph * ph) phi k = vec_weight M mh w z ph (k * cos phi, k * sin phi).
Proof.
  intros Hp Hw. unfold conv_weight. rewrite sqrt_square by exact Hp.
  pose proof (sincos k phi) as E.
  destruct w; unfold vec_weight, P_perp, hhat, dot2; cbn [fst snd]; rewrite ?Rmult_1_l, ?Rmult_0_l, ?Rplus_0_r;
    try reflexivity; try congruence;
    set (cx := k * cos phi) in *; set (sx := k * sin phi) in *; rewrite <- E; f_equal; ring.
Qed.
(** The weight of the third harmonic in the code is another polynomial. *)
Lemma weight_W3_diff M mh z ph phi k : 0 <= ph ->
  conv_weight M mh W3 z (ph * ph) phi k - vec_weight M mh W3 z ph (k * cos phi, k * sin phi)
  = k * cos phi * (ph * (k * cos phi) - z * (k * k)) / (2 * z * (M * M) * mh).
Proof.
  intros Hp. unfold conv_weight. rewrite sqrt_square by exact Hp. pose proof (sincos k phi) as E.
  unfold vec_weight, P_perp, hhat, dot2; cbn [fst snd].
  set (cx := k * cos phi) in *; set (sx := k * sin phi) in *. rewrite <- E. unfold Rdiv.
  replace (2 * z * M ^ 2 * mh) with (2 * z * (M * M) * mh) by ring. ring.
Qed.
Lemma p_perp_sq_polar z ph phi k : 
  ph * ph + z * z * (k * k) - 2 * ph * z * (k * cos phi)
  = dot2 (P_perp ph z (k * cos phi, k * sin phi)) (P_perp ph z (k * cos phi, k * sin phi)).
Proof. unfold dot2, P_perp; cbn [fst snd]. rewrite <- (sincos k phi). ring. Qed.
Lemma sum_flavors_ext n f g : (forall i, f i = g i) -> sum_flavors n f = sum_flavors n g.
Proof. intros H; induction n; cbn; congruence. Qed.
Lemma integrand_polar {Had} M mh (s : tmd_set Had) w t f h x z Q_sq ph phi k : 0 <= ph -> w <> W3 ->
  conv_integrand M mh s w t f h x z Q_sq (ph * ph) phi k
  = k * vec_integrand (vec_weight M mh w z ph) s t f h x z Q_sq ph (k * cos phi, k * sin phi).
Proof.
  intros Hp Hw. unfold conv_integrand, vec_integrand. rewrite weight_polar, sqrt_square by assumption.
  rewrite (Rmult_assoc k). f_equal. f_equal. apply sum_flavors_ext. intros fl.
  rewrite p_perp_sq_polar. replace (dot2 (k * cos phi, k * sin phi) (k * cos phi, k * sin phi)) with (k * k)
    by (symmetry; apply sincos).
  ring.
Qed.

(** * Integrals over the line and the plane *)
Lemma line_ext f g l : (forall x, f x = g x) -> is_line_int f l -> is_line_int g l.
Proof. intros E H. replace g with f; [exact H|]. apply functional_extensionality, E. Qed.
Lemma line_plus f g l m : is_line_int f l -> is_line_int g m -> is_line_int (fun x => f x + g x) (l + m).
Proof. intros A B. exact (is_RInt_gen_plus (V := R_NormedModule) f g l m A B). Qed.
Lemma line_scal a f l : is_line_int f l -> is_line_int (fun x => a * f x) (a * l).
Proof. intros A. exact (is_RInt_gen_scal (V := R_NormedModule) f a l A). Qed.
Lemma line_zero : is_line_int (fun _ => 0) 0.
Proof.
  pose proof (line_scal 0 _ _ (gauss_moments 1 0 0 0 0 1 ltac:(lra))) as H.
  rewrite Rmult_0_l in H. eapply line_ext; [|exact H]. intros x. cbn beta. ring.
Qed.
Lemma line_unique f l m : is_line_int f l -> is_line_int f m -> l = m.
Proof.
  intros A B. unfold is_line_int in A, B.
  rewrite <- (@is_RInt_gen_unique R_CompleteNormedModule _ _ (Proper_StrongProper _ (Rbar_locally_filter m_infty)) (Proper_StrongProper _ (Rbar_locally_filter p_infty)) f l A).
  exact (@is_RInt_gen_unique R_CompleteNormedModule _ _ (Proper_StrongProper _ (Rbar_locally_filter m_infty)) (Proper_StrongProper _ (Rbar_locally_filter p_infty)) f m B).
Qed.
Lemma plane_ext f g l : (forall k, f k = g k) -> is_plane_int f l -> is_plane_int g l.
Proof. intros E H. replace g with f; [exact H|]. apply functional_extensionality, E. Qed.
Lemma plane_plus f g l m : is_plane_int f l -> is_plane_int g m -> is_plane_int (fun k => f k + g k) (l + m).
Proof.
  intros (F & A & B) (G & C & D). exists (fun x => F x + G x). split.
  - intros kx. apply (line_plus (fun ky => f (kx, ky)) (fun ky => g (kx, ky))); [exact (A kx)|exact (C kx)].
  - apply line_plus; assumption.
Qed.
Lemma plane_scal a f l : is_plane_int f l -> is_plane_int (fun k => a * f k) (a * l).
Proof.
  intros (F & A & B). exists (fun x => a * F x). split.
  - intros kx. apply (line_scal a (fun ky => f (kx, ky))); exact (A kx).
  - apply line_scal; assumption.
Qed.
Lemma plane_zero : is_plane_int (fun _ => 0) 0.
Proof. exists (fun _ => 0). split; intros; apply line_zero. Qed.
Lemma plane_unique f l m : is_plane_int f l -> is_plane_int f m -> l = m.
Proof.
  intros (F & A & B) (G & C & D). assert (E : F = G).
  { apply functional_extensionality. intros x. exact (line_unique _ _ _ (A x) (C x)). }
  subst G. exact (line_unique _ _ _ B D).
Qed.
Lemma plane_sum n (f : nat -> R * R -> R) (l : nat -> R) : (forall i, is_plane_int (f i) (l i)) ->
  is_plane_int (fun k => sum_flavors n (fun i => f i k)) (sum_flavors n l).
Proof.
  intros H; induction n; cbn; [apply plane_zero|]. apply (plane_plus (fun k => sum_flavors n (fun i => f i k)) (f n)); auto.
Qed.

(** Polynomial times a Gaussian of the plane. *)
Lemma plane_poly (N a0 a1 a2 a3 c0 c1 b c : R) : 0 < c ->
  is_plane_int (fun k => let y := fst k - b in
     N * (a0 + a1 * y + a2 * (y * y) + a3 * (y * y * y) + (c0 + c1 * y) * (snd k * snd k))
       * ge b c (fst k) * ge 0 c (snd k))
    (N * (a0 + (a2 + c0) * (c / 2)) * (PI * c)).
Proof.
  intros Hc.
  assert (Hpi : 0 < PI) by apply PI_RGT_0.
  assert (S : sqrt (PI * c) * sqrt (PI * c) = PI * c) by (apply sqrt_sqrt; nra).
  exists (fun kx => let y := kx - b in
    N * sqrt (PI * c) * (((a0 + c0 * (c / 2)) + (a1 + c1 * (c / 2)) * y + a2 * (y * y) + a3 * (y * y * y)) * ge b c kx)).
  split.
  - intros kx. set (y := kx - b).
    set (A := a0 + a1 * y + a2 * (y * y) + a3 * (y * y * y)). set (C := c0 + c1 * y).
    pose proof (gauss_moments A 0 C 0 0 c Hc) as H.
    apply (line_scal (N * ge b c kx)) in H.
    cbn [fst snd]. fold y. fold A C.
    replace (N * sqrt (PI * c) * (((a0 + c0 * (c / 2)) + (a1 + c1 * (c / 2)) * y + a2 * (y * y) + a3 * (y * y * y)) * ge b c kx))
      with (N * ge b c kx * ((A + C * (c / 2)) * sqrt (PI * c))) by (unfold A, C; ring).
    eapply line_ext; [|exact H]. intros ky. cbn beta. rewrite Rminus_0_r. ring.
  - pose proof (gauss_moments (a0 + c0 * (c / 2)) (a1 + c1 * (c / 2)) a2 a3 b c Hc) as H.
    apply (line_scal (N * sqrt (PI * c))) in H.
    replace (N * (a0 + (a2 + c0) * (c / 2)) * (PI * c))
      with (N * sqrt (PI * c) * ((a0 + c0 * (c / 2) + a2 * (c / 2)) * sqrt (PI * c))) by (clear H; revert S; generalize (sqrt (PI * c)); intros q S; rewrite <- S; ring).
    exact H.
Qed.

Section Gauss.
Variables (mt mf z ph : R).
Hypotheses (Hmt : 0 < mt) (Hmf : 0 < mf) (Hz : z <> 0).
Let mean := mf + z * z * mt.
Let b := z * mt * ph / mean.
Let c := mt * mf / mean.
Let p0 := mf * ph / mean.
Let N := exp (- (ph * ph) / mean) / (PI * mt * (PI * mf)).
Lemma mean_pos : 0 < mean. Proof. unfold mean. assert (0 <= z * z) by nra. nra. Qed.
Lemma c_pos : 0 < c. Proof. pose proof mean_pos. unfold c. apply Rdiv_lt_0_compat; nra. Qed.

(** Completing the square. *)
Lemma two_gaussians k : 
  gaussian (dot2 k k) (Some mt) * gaussian (dot2 (P_perp ph z k) (P_perp ph z k)) (Some mf)
  = N * ge b c (fst k) * ge 0 c (snd k).
Proof.
  pose proof mean_pos as Hm. pose proof PI_RGT_0 as Hpi.
  unfold gaussian, ge, N.
  replace (exp (- dot2 k k / mt) / (PI * mt) * (exp (- dot2 (P_perp ph z k) (P_perp ph z k) / mf) / (PI * mf)))
    with (exp (- dot2 k k / mt) * exp (- dot2 (P_perp ph z k) (P_perp ph z k) / mf) / (PI * mt * (PI * mf)))
    by (field; repeat split; lra).
  rewrite <- exp_plus.
  replace (exp (- (ph * ph) / mean) / (PI * mt * (PI * mf)) * exp (- ((fst k - b) * (fst k - b)) / c)
     * exp (- ((snd k - 0) * (snd k - 0)) / c))
    with (exp (- (ph * ph) / mean) * exp (- ((fst k - b) * (fst k - b)) / c)
     * exp (- ((snd k - 0) * (snd k - 0)) / c) / (PI * mt * (PI * mf)))
    by (field; repeat split; lra).
  rewrite <- !exp_plus. f_equal. f_equal.
  unfold b, c, dot2, P_perp, mean; cbn [fst snd]. fold mean. unfold mean in *. field. repeat split; lra.
Qed.
Lemma kx_split kx : kx = b + (kx - b). Proof. ring. Qed.

Lemma N_closed : N * (PI * c) = exp (- (ph * ph) / mean) / (PI * mean).
Proof.
  pose proof mean_pos as Hm. pose proof PI_RGT_0 as Hpi. unfold N, c. field. repeat split; lra.
Qed.

(** An integrand whose weight is a polynomial with the given coefficients. *)
Lemma gauss_weight_int (W : R * R -> R) a0 a1 a2 a3 c0 c1 l :
  (forall kx ky, W (kx, ky) = let y := kx - b in
     a0 + a1 * y + a2 * (y * y) + a3 * (y * y * y) + (c0 + c1 * y) * (ky * ky)) ->
  l = a0 + (a2 + c0) * (c / 2) ->
  is_plane_int (fun k => W k * (gaussian (dot2 k k) (Some mt) * gaussian (dot2 (P_perp ph z k) (P_perp ph z k)) (Some mf)))
    (l * (exp (- (ph * ph) / mean) / (PI * mean))).
Proof.
  intros HW ->. rewrite <- N_closed.
  replace ((a0 + (a2 + c0) * (c / 2)) * (N * (PI * c))) with (N * (a0 + (a2 + c0) * (c / 2)) * (PI * c)) by ring.
  eapply plane_ext; [|apply (plane_poly N a0 a1 a2 a3 c0 c1 b c c_pos)].
  intros [kx ky]. cbn beta. rewrite two_gaussians, HW. cbn [fst snd]. ring.
Qed.

Lemma mean_nz : mean <> 0. Proof. pose proof mean_pos; lra. Qed.
Lemma Px y : ph - z * (b + y) = p0 - z * y.
Proof. pose proof mean_nz as H. unfold p0, b, mean in *. field. exact H. Qed.

Variables (M mh : R).
Hypotheses (HM : M <> 0) (Hmh : mh <> 0) (Hph : 0 <= ph).
Definition coefs (w : weight) : R * R * R * R * R * R :=
  let d := z * M * mh in let e := 2 * z * (M * M) * mh in
  match w with
  | W0 => (1, 0, 0, 0, 0, 0)
  | WA1 => (p0 / (z * mh), - z / (z * mh), 0, 0, 0, 0)
  | WB1 => (b / M, 1 / M, 0, 0, 0, 0)
  | WA2 => (2 * p0 * b / d, 2 * (p0 - z * b) / d, - 2 * z / d, 0, 0, 0)
  | WB2 => (- (p0 * b) / d, - (p0 - z * b) / d, z / d, 0, z / d, 0)
  | WAB2 => (p0 * b / d, (p0 - z * b) / d, - z / d, 0, z / d, 0)
  | WC2 => (b * b / (2 * (M * M)), 2 * b / (2 * (M * M)), 1 / (2 * (M * M)), 0, - 1 / (2 * (M * M)), 0)
  | W3 => (p0 * (b * b) / e, (2 * p0 * b - z * (b * b)) / e, (p0 - 2 * z * b) / e, - z / e, (2 * z * b - p0) / e, 3 * z / e)
  end.
Lemma vec_weight_poly w kx ky : vec_weight M mh w z ph (kx, ky) =
  let '(a0, a1, a2, a3, c0, c1) := coefs w in let y := kx - b in
  a0 + a1 * y + a2 * (y * y) + a3 * (y * y * y) + (c0 + c1 * y) * (ky * ky).
Proof.
  cbn zeta. replace kx with (b + (kx - b)) at 1 by ring. set (y := kx - b).
  unfold vec_weight, P_perp, hhat, dot2; cbn [fst snd].
  assert (E : ph - z * (b + y) = p0 - z * y) by apply Px. 
  destruct w; cbn [coefs]; rewrite ?E; clear E; clearbody y b p0; field; auto.
Qed.
Lemma gaussian_weight_coefs w : gaussian_weight M mh w mt mf mean z (ph * ph) =
  let '(a0, a1, a2, a3, c0, c1) := coefs w in a0 + (a2 + c0) * (c / 2).
Proof.
  pose proof mean_pos as Hm. unfold gaussian_weight. rewrite sqrt_square by exact Hph.
  assert (Hm' : mean <> 0) by lra.
  assert (EE : mf = mean - z * z * mt) by (unfold mean; ring).
  destruct w; cbn [coefs]; unfold p0, b, c; clearbody mean; try (rewrite EE); field; auto.
Qed.
Lemma gaussian_plane w : is_plane_int
  (fun k => vec_weight M mh w z ph k * (gaussian (dot2 k k) (Some mt) * gaussian (dot2 (P_perp ph z k) (P_perp ph z k)) (Some mf)))
  (gaussian_weight M mh w mt mf mean z (ph * ph) * (exp (- (ph * ph) / mean) / (PI * mean))).
Proof.
  pose proof (vec_weight_poly w) as P. pose proof (gaussian_weight_coefs w) as Q.
  destruct (coefs w) as [[[[[a0 a1] a2] a3] c0] c1].
  apply (gauss_weight_int _ a0 a1 a2 a3 c0 c1); assumption.
Qed.
End Gauss.

(** * Whole sets *)
Lemma plane_int_value f l m : l = m -> is_plane_int f l -> is_plane_int f m.
Proof. intros ->; auto. Qed.
Lemma gaussian_conv {Had} M mh (g : gaussian_set Had) w t f h x z Q_sq ph :
  M <> 0 -> mh <> 0 -> z <> 0 -> 0 <= ph -> good_widths g ->
  is_plane_int (vec_integrand (vec_weight M mh w z ph) (gaussian_as_tmd_set g) t f h x z Q_sq ph)
    (convolve_gaussian M mh g w t f h x z Q_sq (ph * ph)).
Proof.
  intros HM Hmh Hz Hph [Gt Gf]. unfold convolve_gaussian.
  apply (plane_ext (fun k => sum_flavors (gflavor_count g) (fun fl =>
    (gcharge g fl * gcharge g fl * rtmd g t fl x Q_sq * rff g f h fl z Q_sq) *
     (vec_weight M mh w z ph k * (gaussian (dot2 k k) (mean_tmd g t fl)
        * gaussian (dot2 (P_perp ph z k) (P_perp ph z k)) (mean_ff g f fl)))))).
  { intros k. unfold vec_integrand, gaussian_as_tmd_set; cbn [flavor_count charge xtmd ffun].
    induction (gflavor_count g) as [|n IH]; cbn [sum_flavors]; [ring|]. rewrite IH. ring. }
  apply (plane_sum (gflavor_count g) (fun fl k =>
    (gcharge g fl * gcharge g fl * rtmd g t fl x Q_sq * rff g f h fl z Q_sq) *
     (vec_weight M mh w z ph k * (gaussian (dot2 k k) (mean_tmd g t fl)
        * gaussian (dot2 (P_perp ph z k) (P_perp ph z k)) (mean_ff g f fl))))).
  intros fl. specialize (Gt t fl). specialize (Gf f fl). unfold gaussian_term.
  destruct (mean_tmd g t fl) as [mt|], (mean_ff g f fl) as [mf|]; cbn [mean_sum good_width] in *.
  - eapply plane_int_value; [|apply plane_scal, (gaussian_plane mt mf z ph Gt Gf Hz M mh HM Hmh Hph w)]. ring.
  - apply (plane_ext (fun _ => 0)); [|apply plane_zero]. intros k; cbn [gaussian]; ring.
  - apply (plane_ext (fun _ => 0)); [|apply plane_zero]. intros k; cbn [gaussian]; ring.
  - apply (plane_ext (fun _ => 0)); [|apply plane_zero]. intros k; cbn [gaussian]; ring.
Qed.

(** The weight of the third harmonic as coded. *)
Definition code_W3 (M mh z ph : R) (k : R * R) : R :=
  (4 * dot2 hhat (P_perp ph z k) * dot2 hhat k ^ 2 - dot2 hhat k * dot2 (P_perp ph z k) k
     - dot2 hhat (P_perp ph z k) * dot2 k k) / (2 * z * M ^ 2 * mh).
Lemma code_W3_polar M mh z ph phi k : 0 <= ph ->
  conv_weight M mh W3 z (ph * ph) phi k = code_W3 M mh z ph (k * cos phi, k * sin phi).
Proof.
  intros Hp. unfold conv_weight. rewrite sqrt_square by exact Hp. pose proof (sincos k phi) as E.
  unfold code_W3, P_perp, hhat, dot2; cbn [fst snd].
  set (cx := k * cos phi) in *; set (sx := k * sin phi) in *. rewrite <- E.
  unfold Rdiv. replace (2 * z * M ^ 2 * mh) with (2 * z * (M * M) * mh) by ring. ring.
Qed.
(** Its integral. *)
Lemma code_W3_int M mh mt mf z ph : M <> 0 -> mh <> 0 -> z <> 0 -> 0 < mt -> 0 < mf ->
  let mean := mf + z * z * mt in
  let b := z * mt * ph / mean in let p0 := mf * ph / mean in let c := mt * mf / mean in
  is_plane_int (fun k => code_W3 M mh z ph k *
     (gaussian (dot2 k k) (Some mt) * gaussian (dot2 (P_perp ph z k) (P_perp ph z k)) (Some mf)))
   ((2 * p0 * (b * b) + (p0 - 3 * z * b) * (c / 2)) / (2 * z * (M * M) * mh)
     * (exp (- (ph * ph) / mean) / (PI * mean))).
Proof.
  intros HM Hmh Hz Hmt Hmf mean b p0 c.
  set (e := 2 * z * (M * M) * mh).
  apply (gauss_weight_int mt mf z ph Hmt Hmf (code_W3 M mh z ph)
    (2 * p0 * (b * b) / e) ((4 * p0 * b - 2 * z * (b * b)) / e) ((2 * p0 - 4 * z * b) / e) (- 2 * z / e)
    ((z * b - p0) / e) (2 * z / e)).
  - intros kx ky. cbn zeta.
    fold mean. fold b. replace kx with (b + (kx - b)) at 1 by ring. set (y := kx - b).
    assert (E : ph - z * (b + y) = p0 - z * y) by (apply (Px mt mf z ph Hmt Hmf)).
    unfold code_W3, P_perp, hhat, dot2; cbn [fst snd]. rewrite E. unfold e. clearbody b p0 y. field. auto.
  - fold mean. fold c. unfold e. clearbody b p0 c. field. auto.
Qed.
Lemma polar_point (k : R * R) : exists r phi, 0 <= r /\ k = (r * cos phi, r * sin phi).
Proof.
  destruct k as [x y]. set (r := sqrt (x * x + y * y)).
  assert (Hr : 0 <= r) by apply sqrt_pos.
  assert (S : r * r = x * x + y * y) by (apply sqrt_sqrt; nra).
  destruct (Rle_lt_or_eq_dec 0 r Hr) as [H|H].
  - destruct (KinAll.atan2_unit (y / r) (x / r)) as (C & D & _).
    { replace (y / r * (y / r) + x / r * (x / r)) with ((x * x + y * y) / (r * r)) by (field; lra).
      rewrite <- S. field. lra. }
    exists r, (FrameBase.atan2 (y / r) (x / r)). split; [exact Hr|]. rewrite C, D. f_equal; field; lra.
  - exists 0, 0. split; [lra|]. rewrite <- H in S. assert (x = 0 /\ y = 0) as [-> ->] by nra. f_equal; ring.
Qed.
(** [W] is the weight of the numeric convolution as a function on the plane. *)
Lemma W3_refuted :
  exists (g : gaussian_set unit) (M mh z ph : R), 0 < M /\ 0 < mh /\ 0 < z < 1 /\ 0 < ph /\ good_widths g /\
  forall (W : R * R -> R) l, (forall phi k, W (k * cos phi, k * sin phi) = conv_weight M mh W3 z (ph * ph) phi k) ->
  is_plane_int (vec_integrand W (gaussian_as_tmd_set g) T_h1Tperp FF_H1perp tt (1/2) z 1 ph) l ->
   l <> convolve_gaussian M mh g W3 T_h1Tperp FF_H1perp tt (1/2) z 1 (ph * ph).
Proof.
  exists (mk_gaussian_set 1 (fun _ => 1) (fun _ _ => Some 1) (fun _ _ => Some 1) (fun _ _ _ _ => 1) (fun _ _ _ _ _ => 1)), 1, 1, (1/2), 1.
  split; [lra|]. split; [lra|]. split; [lra|]. split; [lra|]. split; [split; intros; cbn; lra|].
  intros W l HW Hl.
  assert (Hl' := code_W3_int 1 1 1 1 (1/2) 1 ltac:(lra) ltac:(lra) ltac:(lra) ltac:(lra) ltac:(lra)). cbn zeta in Hl'.
  match type of Hl' with is_plane_int ?f ?v => assert (E : l = v) end.
  { apply (plane_unique _ _ _ Hl). eapply plane_ext; [|exact Hl']. intros k. cbn beta.
    destruct (polar_point k) as (r & phi & _ & ->).
    unfold vec_integrand. rewrite HW, code_W3_polar by lra.
    unfold gaussian_as_tmd_set; cbn [flavor_count charge xtmd ffun gflavor_count gcharge rtmd rff mean_tmd mean_ff sum_flavors].
    ring. }
  rewrite E. unfold convolve_gaussian, gaussian_term, gaussian_weight;
    cbn [gflavor_count gcharge rtmd rff mean_tmd mean_ff sum_flavors mean_sum].
  rewrite sqrt_square by lra.
  replace (1 + 1 / 2 * (1 / 2) * 1) with (5 / 4) by lra. pose proof PI_RGT_0 as HP.
  set (e := exp (- (1 * 1) / (5 / 4)) / (PI * (5 / 4))).
  assert (He : 0 < e) by (unfold e; apply Rdiv_lt_0_compat; [apply exp_pos|lra]).
  intros A.
  match type of A with ?a * e = _ => assert (a = - 4/125) by lra end.
  nra.
Qed.

(** * C71 *)
Lemma conv_zero {Had} M mh cub (s : tmd_set Had) w t f h x z Q_sq p :
  cub (fun _ _ => 0) = 0 ->
  (forall fl k q, xtmd s t fl x Q_sq k * ffun s f h fl z Q_sq q = 0) ->
  convolve M mh cub s w t f h x z Q_sq p = 0.
Proof.
  intros Hc H0. unfold convolve. rewrite <- Hc. f_equal.
  apply functional_extensionality. intros phi. apply functional_extensionality. intros k.
  unfold conv_integrand. set (q := p + _ - _). clearbody q.
  replace (sum_flavors _ _) with 0; [ring|].
  induction (flavor_count s) as [|n IH]; cbn [sum_flavors]; [reflexivity|]. rewrite <- IH, Rmult_assoc, H0. ring.
Qed.
Lemma ww_sets {Had} M mass_h cub (s : ww_set Had) n p : cub (fun _ _ => 0) = 0 ->
  TmdSfSet M mass_h cub (ww_as_tmd_set M s) n p = WwTmdSfSet M mass_h cub s n p.
Proof.
  intros Hc. destruct p as [[[[h x] z] Q_sq] ph]. unfold TmdSfSet, WwTmdSfSet.
  set (cv := fun w t f => convolve M (mass_h h) cub (ww_as_tmd_set M s) w t f h x z Q_sq ph).
  assert (Hf : forall w t, cv w t FF_Dperp_tilde = 0 /\ cv w t FF_H_tilde = 0 /\ cv w t FF_Gperp_tilde = 0 /\ cv w t FF_E_tilde = 0).
  { intros w t. split; [|split; [|split]]; apply conv_zero; auto; intros; cbn; ring. }
  assert (Ht : forall w f, cv w T_fLperp f = 0 /\ cv w T_gperp f = 0 /\ cv w T_e f = 0 /\ cv w T_eL f = 0 /\ cv w T_eT f = 0 /\ cv w T_eTperp f = 0).
  { intros w f. split; [|split; [|split; [|split; [|split]]]]; apply conv_zero; auto; intros; cbn; ring. }
  clearbody cv.
  assert (F1 : forall w t, cv w t FF_Dperp_tilde = 0) by apply Hf.
  assert (F2 : forall w t, cv w t FF_H_tilde = 0) by apply Hf.
  assert (F3 : forall w t, cv w t FF_Gperp_tilde = 0) by apply Hf.
  assert (F4 : forall w t, cv w t FF_E_tilde = 0) by apply Hf.
  assert (T1 : forall w f, cv w T_fLperp f = 0) by apply Ht.
  assert (T2 : forall w f, cv w T_gperp f = 0) by apply Ht.
  assert (T3 : forall w f, cv w T_e f = 0) by apply Ht.
  assert (T4 : forall w f, cv w T_eL f = 0) by apply Ht.
  assert (T5 : forall w f, cv w T_eT f = 0) by apply Ht.
  assert (T6 : forall w f, cv w T_eTperp f = 0) by apply Ht.
  clear Hf Ht. destruct n; cbn [TmdSfSet_F WwTmdSfSet_F]; unfold conv_tilde;
    rewrite ?F1, ?F2, ?F3, ?F4, ?T1, ?T2, ?T3, ?T4, ?T5, ?T6; unfold Rdiv; ring.
Qed.
Lemma gconv_zero {Had} M mh (g : gaussian_set Had) w t f h x z Q_sq p :
  (forall fl, mean_tmd g t fl = None) \/ (forall fl, mean_ff g f fl = None) ->
  convolve_gaussian M mh g w t f h x z Q_sq p = 0.
Proof.
  intros H0. unfold convolve_gaussian. induction (gflavor_count g) as [|n IH]; cbn [sum_flavors]; [reflexivity|].
  rewrite IH. unfold gaussian_term. destruct H0 as [E|E]; rewrite E; [ring|]. destruct (mean_tmd g t n); ring.
Qed.
Lemma gww_sets {Had} M mass_h (s : gww_set Had) n p :
  GaussianTmdSfSet M mass_h (gww_as_gaussian_set M s) n p = GaussianWwTmdSfSet M mass_h s n p.
Proof.
  destruct p as [[[[h x] z] Q_sq] ph]. unfold GaussianTmdSfSet, GaussianWwTmdSfSet.
  set (cv := fun w t f => convolve_gaussian M (mass_h h) (gww_as_gaussian_set M s) w t f h x z Q_sq ph).
  assert (Hf : forall w t, cv w t FF_Dperp_tilde = 0 /\ cv w t FF_H_tilde = 0 /\ cv w t FF_Gperp_tilde = 0 /\ cv w t FF_E_tilde = 0).
  { intros w t. split; [|split; [|split]]; apply gconv_zero; right; reflexivity. }
  assert (Ht : forall w f, cv w T_fLperp f = 0 /\ cv w T_gperp f = 0 /\ cv w T_e f = 0 /\ cv w T_eL f = 0 /\ cv w T_eT f = 0 /\ cv w T_eTperp f = 0).
  { intros w f. split; [|split; [|split; [|split; [|split]]]]; apply gconv_zero; left; reflexivity. }
  clearbody cv.
  assert (F1 : forall w t, cv w t FF_Dperp_tilde = 0) by apply Hf.
  assert (F2 : forall w t, cv w t FF_H_tilde = 0) by apply Hf.
  assert (F3 : forall w t, cv w t FF_Gperp_tilde = 0) by apply Hf.
  assert (F4 : forall w t, cv w t FF_E_tilde = 0) by apply Hf.
  assert (T1 : forall w f, cv w T_fLperp f = 0) by apply Ht.
  assert (T2 : forall w f, cv w T_gperp f = 0) by apply Ht.
  assert (T3 : forall w f, cv w T_e f = 0) by apply Ht.
  assert (T4 : forall w f, cv w T_eL f = 0) by apply Ht.
  assert (T5 : forall w f, cv w T_eT f = 0) by apply Ht.
  assert (T6 : forall w f, cv w T_eTperp f = 0) by apply Ht.
  clear Hf Ht. destruct n; cbn [GaussianTmdSfSet_F GaussianWwTmdSfSet_F]; unfold conv_tilde;
    rewrite ?F1, ?F2, ?F3, ?F4, ?T1, ?T2, ?T3, ?T4, ?T5, ?T6; unfold Rdiv; ring.
Qed.

(** * C72 *)
Lemma plane_moments m a c : 0 < m ->
  is_plane_int (fun k => (a + c * dot2 k k) * gaussian (dot2 k k) (Some m)) (a + c * m).
Proof.
  intros Hm. pose proof PI_RGT_0 as HP.
  eapply plane_int_value; [|eapply plane_ext; [|apply (plane_poly (/ (PI * m)) a 0 c 0 c 0 0 m Hm)]].
  - field. lra.
  - intros [x y]. unfold gaussian, ge, dot2; cbn [fst snd].
    replace (- (x * x + y * y) / m) with (- ((x - 0) * (x - 0)) / m + - ((y - 0) * (y - 0)) / m) by (field; lra).
    rewrite exp_plus. field. lra.
Qed.
Lemma plane_two m1 a1 c1 m2 a2 c2 : 0 < m1 -> 0 < m2 ->
  is_plane_int (fun k => (a1 + c1 * dot2 k k) * gaussian (dot2 k k) (Some m1) + (a2 + c2 * dot2 k k) * gaussian (dot2 k k) (Some m2))
    (a1 + c1 * m1 + (a2 + c2 * m2)).
Proof.
  intros H1 H2. exact (plane_plus _ _ _ _ (plane_moments m1 a1 c1 H1) (plane_moments m2 a2 c2 H2)).
Qed.
Lemma ww_relations_integrated {Had} M (s : gww_set Had) t fl x Q_sq : good_gww s ->
  is_plane_int (fun k => ww_xtmd M (ww_of_gww s) t fl x Q_sq (dot2 k k)) (gw_rtmd M s t fl x Q_sq).
Proof.
  intros H. destruct (H fl) as (H1 & H2 & H3 & H4 & H5 & H6 & H7 & H8).
  set (u := / (2 * M * M)).
  destruct t; cbn [gw_rtmd ww_xtmd]; unfold gw_M1, ww_M1, ww_of_gww;
    cbn [ww_xf1 ww_xf1Tperp ww_xg1 ww_xg1Tperp ww_xh1 ww_xh1perp ww_xh1Lperp ww_xh1Tperp]; unfold Rdiv; fold u;
    clearbody u; try exact plane_zero.
  - (eapply plane_int_value; [|eapply plane_ext; [|apply (plane_moments _ (gw_xf1 s fl x Q_sq) 0 H1)]]); intros; cbv beta zeta; ring.
  - (eapply plane_int_value; [|eapply plane_ext; [|apply (plane_moments _ (gw_xf1Tperp s fl x Q_sq) 0 H2)]]); intros; cbv beta zeta; ring.
  - (eapply plane_int_value; [|eapply plane_ext; [|apply (plane_moments _ 0 (- u * gw_xf1Tperp s fl x Q_sq * / x) H2)]]); intros; cbv beta zeta; ring.
  - (eapply plane_int_value; [|eapply plane_ext; [|apply (plane_moments _ (gw_xf1 s fl x Q_sq * / x) 0 H1)]]); intros; cbv beta zeta; ring.
  - (eapply plane_int_value; [|eapply plane_ext; [|apply (plane_moments _ (gw_xf1Tperp s fl x Q_sq * / x) 0 H2)]]); intros; cbv beta zeta; ring.
  - (eapply plane_int_value; [|eapply plane_ext; [|apply (plane_moments _ (gw_xg1 s fl x Q_sq) 0 H3)]]); intros; cbv beta zeta; ring.
  - (eapply plane_int_value; [|eapply plane_ext; [|apply (plane_moments _ (gw_xg1Tperp s fl x Q_sq) 0 H4)]]); intros; cbv beta zeta; ring.
  - (eapply plane_int_value; [|eapply plane_ext; [|apply (plane_moments _ 0 (u * gw_xg1Tperp s fl x Q_sq * / x) H4)]]); intros; cbv beta zeta; ring.
  - (eapply plane_int_value; [|eapply plane_ext; [|apply (plane_moments _ (gw_xg1 s fl x Q_sq * / x) 0 H3)]]); intros; cbv beta zeta; ring.
  - (eapply plane_int_value; [|eapply plane_ext; [|apply (plane_moments _ (gw_xg1Tperp s fl x Q_sq * / x) 0 H4)]]); intros; cbv beta zeta; ring.
  - (eapply plane_int_value; [|eapply plane_ext; [|apply (plane_moments _ (gw_xh1 s fl x Q_sq) 0 H5)]]); intros; cbv beta zeta; ring.
  - (eapply plane_int_value; [|eapply plane_ext; [|apply (plane_moments _ (gw_xh1perp s fl x Q_sq) 0 H6)]]); intros; cbv beta zeta; ring.
  - (eapply plane_int_value; [|eapply plane_ext; [|apply (plane_moments _ (gw_xh1Lperp s fl x Q_sq) 0 H7)]]); intros; cbv beta zeta; ring.
  - (eapply plane_int_value; [|eapply plane_ext; [|apply (plane_moments _ (gw_xh1Tperp s fl x Q_sq) 0 H8)]]); intros; cbv beta zeta; ring.
  - (eapply plane_int_value; [|eapply plane_ext; [|apply (plane_moments _ 0 (- 2 * u * gw_xh1perp s fl x Q_sq * / x) H6)]]); intros; cbv beta zeta; ring.
  - (eapply plane_int_value; [|eapply plane_ext; [|apply (plane_moments _ 0 (- 2 * u * gw_xh1Lperp s fl x Q_sq * / x) H7)]]); intros; cbv beta zeta; ring.
  - (eapply plane_int_value; [|eapply plane_ext; [|apply (plane_two _ (- gw_xh1 s fl x Q_sq * / x) 0 _ 0 (- u * gw_xh1Tperp s fl x Q_sq * / x) H5 H8)]]); intros; cbv beta zeta; ring.
  - (eapply plane_int_value; [|eapply plane_ext; [|apply (plane_two _ (gw_xh1 s fl x Q_sq * / x) 0 _ 0 (- u * gw_xh1Tperp s fl x Q_sq * / x) H5 H8)]]); intros; cbv beta zeta; ring.
Qed.
Lemma ww_pointwise {Had} M (s : gww_set Had) t f h fl x z Q_sq k_sq :
  let g := gaussian_as_tmd_set (gww_as_gaussian_set M s) in
  (t <> T_fT -> t <> T_gT -> t <> T_h -> t <> T_hL -> t <> T_hT -> t <> T_hTperp -> xtmd g t fl x Q_sq k_sq = ww_xtmd M (ww_of_gww s) t fl x Q_sq k_sq)
  /\ ffun g f h fl z Q_sq k_sq = ww_ffun (ww_of_gww s) f h fl z Q_sq k_sq.
Proof.
  intros g. split.
  - intros. destruct t; try congruence; cbn -[gaussian]; unfold Rdiv; ring.
  - destruct f; cbn -[gaussian]; ring.
Qed.
