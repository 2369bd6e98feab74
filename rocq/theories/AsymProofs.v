From Coq Require Import Reals ZArith Bool Lra Lia FunctionalExtensionality.
From Coquelicot Require Import Coquelicot.
From Verif Require Import ExtModel MathModel BoundModel BoundProofs VecModel TransModel FrameBase KinModel KinSpec SfModel CutModel LepModel HadModel
  KinEqs XsModel XsSpec XsProofs XsBorn AsymModel AsymSpec.
Set Bullet Behavior "Strict Subproofs".
Local Open Scope R_scope.

Ltac eqR := match goal with |- ?a = ?b => change (@eq R a b) end.
(** Integrals of sines and cosines with integer frequency over a full turn. *)
Lemma sin_Z n : sin (IZR n * PI) = 0.
Proof. apply sin_eq_0_1. exists n. reflexivity. Qed.
Lemma int_sin n c : (n <> 0)%Z -> is_RInt (fun t => sin (IZR n * t + c)) (- PI) PI 0.
Proof.
  intros Hn. assert (Hn' : IZR n <> 0) by (now apply not_0_IZR).
  replace 0 with (minus (- cos (IZR n * PI + c) / IZR n) (- cos (IZR n * - PI + c) / IZR n)).
  - apply (is_RInt_derive (fun t => - cos (IZR n * t + c) / IZR n)).
    + intros x _. auto_derive; [exact I|]. field. exact Hn'.
    + intros x _. apply (ex_derive_continuous (fun t => sin (IZR n * t + c))). auto_derive. exact I.
  - unfold minus, plus, opp. cbn.
    replace (IZR n * - PI + c) with (c - IZR n * PI) by ring. replace (IZR n * PI + c) with (c + IZR n * PI) by ring.
    rewrite cos_plus, cos_minus, sin_Z. field. exact Hn'.
Qed.
Lemma int_const c : is_RInt (fun _ => c) (- PI) PI (2 * PI * c).
Proof. replace (2 * PI * c) with (scal (PI - - PI) c); [apply @is_RInt_const|]. unfold scal. cbn. unfold mult. cbn. ring. Qed.
Lemma int_sin_all n c : is_RInt (fun t => sin (IZR n * t + c)) (- PI) PI (if Z.eqb n 0 then 2 * PI * sin c else 0).
Proof.
  destruct (Z.eqb_spec n 0) as [->|H]; [|now apply int_sin].
  apply (is_RInt_ext (fun _ => sin c)); [|apply int_const]. intros x _. f_equal. ring.
Qed.
Lemma int_cos_all n c : is_RInt (fun t => cos (IZR n * t + c)) (- PI) PI (if Z.eqb n 0 then 2 * PI * cos c else 0).
Proof.
  apply (is_RInt_ext (fun t => sin (IZR n * t + (PI / 2 + c)))).
  - intros x _. rewrite (cos_sin (IZR n * x + c)). f_equal. ring.
  - replace (cos c) with (sin (PI / 2 + c)) by (now rewrite <- cos_sin). apply int_sin_all.
Qed.
Lemma is_RInt_lin (f g : R -> R) a b u v k l : is_RInt f a b u -> is_RInt g a b v -> is_RInt (fun t => k * f t + l * g t) a b (k * u + l * v).
Proof. intros H1 H2. apply @is_RInt_plus; apply @is_RInt_scal; assumption. Qed.

(** The moment of a cross-section that is affine in the target polarization. *)
Lemma moment_affine (a b offset : Z) phi_h (sigma : vec3 -> R) u v :
  (forall p q, sigma (V3 p q 0) - sigma (V3 0 0 0) = p * u + q * v) ->
  let d := IZR (a + b) * phi_h + IZR offset * (PI / 2) in
  is_RInt (fun phi_S => weight a b offset phi_S phi_h * (sigma (transverse phi_S phi_h) - sigma (V3 0 0 0))) (- PI) PI
    (if Z.eqb a 1 then PI * (sin d * u + cos d * v) else if Z.eqb a (-1) then PI * (sin d * u - cos d * v) else 0).
Proof.
  intros H d.
  pose (c := IZR b * phi_h + IZR offset * (PI / 2)).
  apply (is_RInt_ext (fun t => (u / 2) * (1 * sin (IZR (a + 1) * t + (c - phi_h)) + 1 * sin (IZR (a - 1) * t + (c + phi_h)))
    + (v / 2) * (1 * cos (IZR (a - 1) * t + (c + phi_h)) + (-1) * cos (IZR (a + 1) * t + (c - phi_h))))).
  { intros t _. unfold transverse. rewrite H. unfold weight.
    replace (IZR a * t + IZR b * phi_h + IZR offset * (PI / 2)) with (IZR a * t + c) by (unfold c; ring).
    replace (IZR (a + 1) * t + (c - phi_h)) with ((IZR a * t + c) + (t - phi_h)) by (rewrite plus_IZR; ring).
    replace (IZR (a - 1) * t + (c + phi_h)) with ((IZR a * t + c) - (t - phi_h)) by (rewrite minus_IZR; ring).
    generalize (IZR a * t + c) (t - phi_h). intros A B. rewrite sin_plus, sin_minus, cos_plus, cos_minus. eqR. field. }
  pose proof (is_RInt_lin _ _ _ _ _ _ (u / 2) (v / 2)
    (is_RInt_lin _ _ _ _ _ _ 1 1 (int_sin_all (a + 1) (c - phi_h)) (int_sin_all (a - 1) (c + phi_h)))
    (is_RInt_lin _ _ _ _ _ _ 1 (-1) (int_cos_all (a - 1) (c + phi_h)) (int_cos_all (a + 1) (c - phi_h)))) as K.
  cbv beta in K. match type of K with is_RInt _ _ _ ?w => match goal with |- is_RInt _ _ _ ?w' => replace w' with w; [exact K|] end end.
  destruct (Z.eqb_spec a 1) as [->|H1]; [|destruct (Z.eqb_spec a (-1)) as [->|H2]].
  - cbn [Z.add Z.sub Z.opp Z.eqb Pos.add Z.pos_sub].
    replace (c + phi_h) with d by (unfold c, d; rewrite plus_IZR; ring). cbn. field.
  - replace (-1 + 1)%Z with 0%Z by reflexivity. replace (-1 - 1)%Z with (-2)%Z by reflexivity. cbn [Z.eqb].
    replace (c - phi_h) with d by (unfold c, d; rewrite plus_IZR; ring). field.
  - destruct (Z.eqb_spec (a + 1) 0) as [E|_]; [lia|]. destruct (Z.eqb_spec (a - 1) 0) as [E|_]; [lia|]. field.
Qed.

(** The weights that the code uses. *)
Lemma moment_eta (a b offset : Z) phi_h sigma u v : (a = 1 \/ a = -1)%Z ->
  (forall p q, sigma (V3 p q 0) - sigma (V3 0 0 0) = p * u + q * v) ->
  let e := eta_h (1 / 2) (a + b) offset (1 / 2 * IZR a) (a + b) (offset + 1) phi_h in
  x3 e * u + y3 e * v = / (2 * PI) * spin_moment a b offset phi_h sigma.
Proof.
  intros Ha H e. unfold spin_moment. rewrite (is_RInt_unique _ _ _ _ (moment_affine a b offset phi_h sigma u v H)).
  unfold e, eta_h. cbn [x3 y3].
  replace (IZR (a + b) * phi_h + 1 / 2 * IZR (offset + 1) * PI) with (PI / 2 + (IZR (a + b) * phi_h + IZR offset * (PI / 2))) by (rewrite !plus_IZR; field).
  replace (IZR (a + b) * phi_h + 1 / 2 * IZR offset * PI) with (IZR (a + b) * phi_h + IZR offset * (PI / 2)) by field.
  rewrite <- cos_sin. pose proof PI_neq0.
  destruct Ha as [-> | ->]; [change (Z.eqb 1 1) with true|change (Z.eqb (-1) 1) with false; change (Z.eqb (-1) (-1)) with true]; cbv iota; field; assumption.
Qed.
Lemma moment_other a b offset phi_h sigma u v : (a <> 1)%Z -> (a <> -1)%Z ->
  (forall p q, sigma (V3 p q 0) - sigma (V3 0 0 0) = p * u + q * v) -> spin_moment a b offset phi_h sigma = 0.
Proof.
  intros H1 H2 H. unfold spin_moment. rewrite (is_RInt_unique _ _ _ _ (moment_affine a b offset phi_h sigma u v H)).
  destruct (Z.eqb_spec a 1); [contradiction|]. destruct (Z.eqb_spec a (-1)); [contradiction|]. reflexivity.
Qed.
Lemma moment_affine_zero a b offset phi_h (sigma : vec3 -> R) :
  (forall p q, sigma (V3 p q 0) - sigma (V3 0 0 0) = 0 - 0) -> spin_moment a b offset phi_h sigma = 0.
Proof.
  intros H. unfold spin_moment.
  rewrite (RInt_ext _ (fun _ => 0)); [|intros t _; unfold transverse; rewrite H; eqR; ring].
  rewrite (is_RInt_unique _ _ _ _ (int_const 0)). eqR. ring.
Qed.

Section Asym.
Context (dilog : R -> R) (sf : SfModel.sf_set sf_point) (phen : R -> phenom).
Context (integrate1 : (R -> R) -> R -> R -> EstErr) (integrate4 : ((nat -> R) -> R) -> EstErr).
Context (ps : parts) (S x y z ph_t_sq : R).
Notation kphi := (kin_at_phi ps S x y z ph_t_sq).

(** The structure-function part does not depend on phi_h. *)
Lemma point_phi phi_h : point_of (kphi phi_h) = point_of (kphi 0).
Proof. reflexivity. Qed.
Lemma had_ut_phi phi_h s : make_had_base_ut (kphi phi_h) s = make_had_base_ut (kphi 0) s.
Proof. reflexivity. Qed.
Lemma had_ul_phi phi_h s : make_had_base_ul (kphi phi_h) s = make_had_base_ul (kphi 0) s.
Proof. reflexivity. Qed.
Lemma had_uu_phi phi_h s : make_had_base_uu (kphi phi_h) s = make_had_base_uu (kphi 0) s.
Proof. reflexivity. Qed.
Lemma Q_sq_phi phi_h : kQ_sq (kphi phi_h) = kQ_sq (kphi 0).
Proof. reflexivity. Qed.

Lemma born_affine k ph p q : born sf k ph 0 (V3 p q 0) - born sf k ph 0 (V3 0 0 0) =
  p * born_base_ut1 (Born k ph) (LepBornBaseUP k) (make_had_base_ut k (sf_base_ut sf (point_of k)))
  + q * born_base_ut2 (Born k ph) (LepBornBaseUU k) (make_had_base_ut k (sf_base_ut sf (point_of k))).
Proof. rewrite !born_full. cbv zeta. cbn [x3 y3 z3]. ring. Qed.
Definition code_eta (a b offset : Z) : R -> vec3 := eta_h (1 / 2) (a + b) offset (1 / 2 * IZR a) (a + b) (offset + 1).
Lemma ut_born_is a b offset phi_h : (a = 1 \/ a = -1)%Z ->
  ut_born_integrand sf phen ps S x y z ph_t_sq (code_eta a b offset) phi_h =
  / (2 * PI) * spin_moment a b offset phi_h (born sf (kphi phi_h) (phen (kQ_sq (kphi phi_h))) 0).
Proof.
  intros Ha. rewrite <- (moment_eta a b offset phi_h _ _ _ Ha (born_affine _ _)). reflexivity.
Qed.
Lemma born_other a b offset phi_h k ph : (a <> 1)%Z -> (a <> -1)%Z -> spin_moment a b offset phi_h (born sf k ph 0) = 0.
Proof. intros H1 H2. exact (moment_other a b offset phi_h _ _ _ H1 H2 (born_affine k ph)). Qed.
Lemma uu_born_is phi_h : uu_born_integrand sf phen ps S x y z ph_t_sq phi_h = born sf (kphi phi_h) (phen (kQ_sq (kphi phi_h))) 0 (V3 0 0 0).
Proof. rewrite born_full. cbv zeta. cbn [x3 y3 z3]. rewrite !Rmult_0_l, !Rplus_0_r. reflexivity. Qed.

(** Infinite photon cutoff. *)
Lemma nrad_inf k ph k0 : 0 < k0 -> (kmx_sq k - sq (kMth k)) / (2 * kmx k) <= k0 ->
  Nrad dilog k ph k0 = Nrad dilog k ph (cutoff_inf k) /\ exists b, Nrad dilog k ph k0 = Some b.
Proof.
  intros H0 H1. unfold Nrad, delta_vert_rad_ir. cbv zeta.
  set (m := (kmx_sq k - sq (kMth k)) / (2 * kmx k)) in *.
  assert (C0 : 0 < cutoff_inf k) by (unfold cutoff_inf; pose proof (Rmax_l 1 m); fold m; lra).
  assert (C1 : m <= cutoff_inf k) by (unfold cutoff_inf; fold m; apply Rmax_r).
  rewrite (proj2 (rltb_spec 0 k0) H0), (proj2 (rltb_spec 0 (cutoff_inf k)) C0).
  rewrite (proj2 (rltb_false k0 m) H1), (proj2 (rltb_false (cutoff_inf k) m) C1). cbn [negb].
  split; [reflexivity|]. eexists. reflexivity.
Qed.
Lemma nrad_affine k ph k0 b : Nrad dilog k ph k0 = Some b -> forall p q,
  or_zero (nrad_ir dilog sf k ph 0 (V3 p q 0) k0) - or_zero (nrad_ir dilog sf k ph 0 (V3 0 0 0) k0) =
  p * nrad_ir_base_ut1 b (LepNradBaseUP k) (make_had_base_ut k (sf_base_ut sf (point_of k)))
  + q * nrad_ir_base_ut2 b (LepNradBaseUU k) (make_had_base_ut k (sf_base_ut sf (point_of k))).
Proof. intros H p q. rewrite !nrad_ir_full. cbv zeta. rewrite H. cbn [omap or_zero x3 y3 z3]. ring. Qed.
Lemma ut_nrad_is a b offset phi_h k0 : (a = 1 \/ a = -1)%Z -> let k := kphi phi_h in
  0 < k0 -> (kmx_sq k - sq (kMth k)) / (2 * kmx k) <= k0 ->
  exists sigma, (forall eta, nrad_ir dilog sf k (phen (kQ_sq k)) 0 eta k0 = Some (sigma eta)) /\
  ut_nrad_integrand dilog sf phen ps S x y z ph_t_sq (code_eta a b offset) phi_h = / (2 * PI) * spin_moment a b offset phi_h sigma.
Proof.
  intros Ha k H0 H1. destruct (nrad_inf k (phen (kQ_sq k)) k0 H0 H1) as [E (n & En)].
  exists (fun eta => or_zero (nrad_ir dilog sf k (phen (kQ_sq k)) 0 eta k0)). split.
  - intros eta. unfold nrad_ir. rewrite En. reflexivity.
  - rewrite <- (moment_eta a b offset phi_h _ _ _ Ha (nrad_affine k (phen (kQ_sq k)) k0 n En)).
    unfold ut_nrad_integrand. fold k. unfold Phenom_of. rewrite <- E, En. reflexivity.
Qed.
Lemma uu_nrad_is phi_h k0 : let k := kphi phi_h in 0 < k0 -> (kmx_sq k - sq (kMth k)) / (2 * kmx k) <= k0 ->
  nrad_ir dilog sf k (phen (kQ_sq k)) 0 (V3 0 0 0) k0 = Some (uu_nrad_integrand dilog sf phen ps S x y z ph_t_sq phi_h).
Proof.
  intros k H0 H1. destruct (nrad_inf k (phen (kQ_sq k)) k0 H0 H1) as [E (n & En)].
  rewrite nrad_ir_full. cbv zeta. rewrite En. cbn [omap x3 y3 z3]. unfold uu_nrad_integrand. fold k. unfold Phenom_of. rewrite <- E, En.
  f_equal. rewrite !Rmult_0_l, !Rplus_0_r. reflexivity.
Qed.

(** Photon emission. *)
Lemma had_f_up r phi_h : project r = kphi phi_h ->
  HadRadFBaseUP sf r (had_0_up sf ps S x y z ph_t_sq) = omap HFlp_up (HadRadFLP sf r (HadLP sf (project r))).
Proof.
  intros H. unfold HadRadFBaseUP, HadRadFLP. cbv zeta. rewrite H. destruct (choose r) as [|d|]; reflexivity.
Qed.
Lemma had_f_uu r phi_h : project r = kphi phi_h ->
  omap HFuu_uu (HadRadFUU sf r (mk_HadUU (had_0_uu sf ps S x y z ph_t_sq))) = omap HFlp_uu (HadRadFLP sf r (HadLP sf (project r))).
Proof.
  intros H. unfold HadRadFUU, HadRadFLP. cbv zeta. rewrite H. destruct (choose r) as [|d|]; reflexivity.
Qed.

Lemma take3_project k p r jac : take3_kin k p = Some (r, jac) -> project r = k.
Proof.
  unfold take3_kin. destruct (take3_space k p) as [[w j]|]; [|discriminate]. intros [= <- _]. apply make_rad_copies.
Qed.
Lemma rad_f_affine r ph h : HadRadFLP sf r (HadLP sf (project r)) = Some h -> forall p q,
  or_zero (rad_f sf r ph 0 (V3 p q 0)) - or_zero (rad_f sf r ph 0 (V3 0 0 0)) =
  let up := rad_f_base_up (Rad r ph) (LepRadBaseUU r) (LepRadBaseUP r) (HFlp_up h) in p * x3 up + q * y3 up.
Proof. intros H p q. rewrite !rad_f_full, H. cbn [omap or_zero]. unfold full_f, dot3. cbn [x3 y3 z3]. cbv zeta. ring. Qed.
Lemma lerp_phi_is t : lerp_phi t = (2 * t - 1) * PI.
Proof. unfold lerp_phi. ring. Qed.
Lemma ut_rad_is a b offset p : (a = 1 \/ a = -1)%Z -> let phi_h := (2 * p 0%nat - 1) * PI in let k := kphi phi_h in
  ut_rad_integrand sf phen ps S x y z ph_t_sq (code_eta a b offset) p =
  match take3_kin k (fun i => p (Datatypes.S i)) with
  | Some (r, jac) => jac * spin_moment a b offset phi_h (fun eta => or_zero (rad_f sf r (phen (kQ_sq k)) 0 eta))
  | None => 0 end.
Proof.
  intros Ha phi_h k. unfold ut_rad_integrand. cbv zeta. rewrite lerp_phi_is. fold phi_h. fold k.
  change (tail1 p) with (fun i => p (Datatypes.S i)).
  destruct (take3_kin k (fun i => p (Datatypes.S i))) as [[r jac]|] eqn:T; [|reflexivity].
  pose proof (take3_project _ _ _ _ T) as Hp. rewrite (had_f_up r phi_h Hp).
  destruct (HadRadFLP sf r (HadLP sf (project r))) as [h|] eqn:Hh; cbn [omap].
  - pose proof (moment_eta a b offset phi_h (fun eta => or_zero (rad_f sf r (phen (kQ_sq k)) 0 eta)) _ _ Ha (rad_f_affine r (phen (kQ_sq k)) h Hh)) as M. cbv zeta in M.
    replace (jac * spin_moment a b offset phi_h (fun eta => or_zero (rad_f sf r (phen (kQ_sq k)) 0 eta)))
      with (jac * size_phi * (/ (2 * PI) * spin_moment a b offset phi_h (fun eta => or_zero (rad_f sf r (phen (kQ_sq k)) 0 eta))))
      by (unfold size_phi; field; exact PI_neq0).
    rewrite <- M. unfold dot3, Phenom_of, code_eta. change (z3 (eta_h _ _ _ _ _ _ _)) with 0. ring.
  - rewrite (moment_affine_zero a b offset phi_h); [ring|]. intros p' q'. rewrite !rad_f_full, Hh. reflexivity.
Qed.
Lemma uu_rad_is p : let phi_h := (2 * p 0%nat - 1) * PI in let k := kphi phi_h in
  uu_rad_integrand sf phen ps S x y z ph_t_sq p =
  match take3_kin k (fun i => p (Datatypes.S i)) with
  | Some (r, jac) => 2 * PI * jac * or_zero (rad_f sf r (phen (kQ_sq k)) 0 (V3 0 0 0))
  | None => 0 end.
Proof.
  intros phi_h k. unfold uu_rad_integrand. cbv zeta. rewrite lerp_phi_is. fold phi_h. fold k.
  change (tail1 p) with (fun i => p (Datatypes.S i)).
  destruct (take3_kin k (fun i => p (Datatypes.S i))) as [[r jac]|] eqn:T; [|reflexivity].
  pose proof (take3_project _ _ _ _ T) as Hp. pose proof (had_f_uu r phi_h Hp) as E. rewrite rad_f_full.
  destruct (HadRadFUU sf r _) as [u|]; destruct (HadRadFLP sf r _) as [h|]; cbn [omap] in E; try discriminate; cbn [omap or_zero].
  - injection E as ->. unfold full_f, dot3, size_phi, Phenom_of. cbn [x3 y3 z3]. ring.
  - ring.
Qed.

(** * Whole integrals *)
Definition times_2pi (e : EstErr) : EstErr := mkEstErr (2 * PI * est_val e) (2 * PI * est_err e).
Definition quadrature (e f : EstErr) : EstErr := mkEstErr (est_val e + est_val f) (sqrt (est_err e * est_err e + est_err f * est_err f)).
Lemma sign_ok a : (a = 1 \/ a = -1)%Z -> ((a =? 0) || (a >? 1) || (a <? -1))%Z = false.
Proof. intros [-> | ->]; reflexivity. Qed.
Lemma sign_other a : (a <> 1)%Z -> (a <> -1)%Z -> ((a =? 0) || (a >? 1) || (a <? -1))%Z = true.
Proof.
  intros H1 H2. destruct (Z.eqb_spec a 0); [reflexivity|]. rewrite Z.gtb_ltb.
  destruct (Z.ltb_spec 1 a); [reflexivity|]. destruct (Z.ltb_spec a (-1)); [reflexivity|]. lia.
Qed.
Lemma ut_integ_born a b offset : (a = 1 \/ a = -1)%Z ->
  ut_integ dilog sf phen integrate1 integrate4 ps S x y z ph_t_sq a b offset false =
  times_2pi (integrate1 (fun phi_h => / (2 * PI) * spin_moment a b offset phi_h (born sf (kphi phi_h) (phen (kQ_sq (kphi phi_h))) 0)) (- PI) PI).
Proof.
  intros Ha. unfold ut_integ. rewrite (sign_ok a Ha). cbv zeta. unfold ut_integ_h. cbn [negb]. cbv zeta.
  change (eta_h (1 / 2) (a + b) offset (1 / 2 * IZR a) (a + b) (offset + 1)) with (code_eta a b offset).
  replace (ut_born_integrand sf phen ps S x y z ph_t_sq (code_eta a b offset)) with
    (fun phi_h => / (2 * PI) * spin_moment a b offset phi_h (born sf (kphi phi_h) (phen (kQ_sq (kphi phi_h))) 0)); [reflexivity|].
  apply functional_extensionality. intros t. symmetry. apply ut_born_is. exact Ha.
Qed.
Lemma ut_integ_rc a b offset (k0 : R -> R) : (a = 1 \/ a = -1)%Z ->
  (forall phi_h, 0 < k0 phi_h /\ (kmx_sq (kphi phi_h) - sq (kMth (kphi phi_h))) / (2 * kmx (kphi phi_h)) <= k0 phi_h) ->
  ut_integ dilog sf phen integrate1 integrate4 ps S x y z ph_t_sq a b offset true =
  times_2pi (quadrature
    (integrate1 (fun phi_h => / (2 * PI) * spin_moment a b offset phi_h
      (fun eta => or_zero (nrad_ir dilog sf (kphi phi_h) (phen (kQ_sq (kphi phi_h))) 0 eta (k0 phi_h)))) (- PI) PI)
    (integrate4 (fun p => let phi_h := (2 * p 0%nat - 1) * PI in
      match take3_kin (kphi phi_h) (fun i => p (Datatypes.S i)) with
      | Some (r, jac) => jac * spin_moment a b offset phi_h (fun eta => or_zero (rad_f sf r (phen (kQ_sq (kphi phi_h))) 0 eta))
      | None => 0 end))).
Proof.
  intros Ha Hk. unfold ut_integ. rewrite (sign_ok a Ha). cbv zeta. unfold ut_integ_h. cbn [negb]. cbv zeta.
  change (eta_h (1 / 2) (a + b) offset (1 / 2 * IZR a) (a + b) (offset + 1)) with (code_eta a b offset).
  replace (ut_nrad_integrand dilog sf phen ps S x y z ph_t_sq (code_eta a b offset)) with
    (fun phi_h => / (2 * PI) * spin_moment a b offset phi_h
      (fun eta => or_zero (nrad_ir dilog sf (kphi phi_h) (phen (kQ_sq (kphi phi_h))) 0 eta (k0 phi_h)))).
  2: { apply functional_extensionality. intros t. destruct (Hk t) as [A B].
    destruct (ut_nrad_is a b offset t (k0 t) Ha A B) as (sg & H1 & ->). f_equal. f_equal.
    apply functional_extensionality. intros eta. rewrite H1. reflexivity. }
  replace (ut_rad_integrand sf phen ps S x y z ph_t_sq (code_eta a b offset)) with
    (fun p : nat -> R => match take3_kin (kphi ((2 * p 0%nat - 1) * PI)) (fun i => p (Datatypes.S i)) with
      | Some (r, jac) => jac * spin_moment a b offset ((2 * p 0%nat - 1) * PI) (fun eta => or_zero (rad_f sf r (phen (kQ_sq (kphi ((2 * p 0%nat - 1) * PI)))) 0 eta))
      | None => 0 end); [reflexivity|].
  apply functional_extensionality. intros p. symmetry. apply (ut_rad_is a b offset p Ha).
Qed.
Lemma ut_integ_other a b offset rc : (a <> 1)%Z -> (a <> -1)%Z ->
  ut_integ dilog sf phen integrate1 integrate4 ps S x y z ph_t_sq a b offset rc = mkEstErr 0 0.
Proof. intros H1 H2. unfold ut_integ. rewrite (sign_other a H1 H2). reflexivity. Qed.
Lemma uu_integ_born : uu_integ dilog sf phen integrate1 integrate4 ps S x y z ph_t_sq false =
  times_2pi (integrate1 (fun phi_h => born sf (kphi phi_h) (phen (kQ_sq (kphi phi_h))) 0 (V3 0 0 0)) (- PI) PI).
Proof.
  unfold uu_integ. cbn [negb]. cbv zeta. replace (uu_born_integrand sf phen ps S x y z ph_t_sq) with
    (fun phi_h => born sf (kphi phi_h) (phen (kQ_sq (kphi phi_h))) 0 (V3 0 0 0)); [reflexivity|].
  apply functional_extensionality. intros t. symmetry. apply uu_born_is.
Qed.
Lemma uu_integ_rc (k0 : R -> R) :
  (forall phi_h, 0 < k0 phi_h /\ (kmx_sq (kphi phi_h) - sq (kMth (kphi phi_h))) / (2 * kmx (kphi phi_h)) <= k0 phi_h) ->
  uu_integ dilog sf phen integrate1 integrate4 ps S x y z ph_t_sq true =
  times_2pi (quadrature
    (integrate1 (fun phi_h => or_zero (nrad_ir dilog sf (kphi phi_h) (phen (kQ_sq (kphi phi_h))) 0 (V3 0 0 0) (k0 phi_h))) (- PI) PI)
    (integrate4 (fun p => let phi_h := (2 * p 0%nat - 1) * PI in
      match take3_kin (kphi phi_h) (fun i => p (Datatypes.S i)) with
      | Some (r, jac) => 2 * PI * jac * or_zero (rad_f sf r (phen (kQ_sq (kphi phi_h))) 0 (V3 0 0 0))
      | None => 0 end))).
Proof.
  intros Hk. unfold uu_integ. cbn [negb]. cbv zeta.
  replace (uu_nrad_integrand dilog sf phen ps S x y z ph_t_sq) with
    (fun phi_h => or_zero (nrad_ir dilog sf (kphi phi_h) (phen (kQ_sq (kphi phi_h))) 0 (V3 0 0 0) (k0 phi_h))).
  2: { apply functional_extensionality. intros t. destruct (Hk t) as [A B]. rewrite (uu_nrad_is t (k0 t) A B). reflexivity. }
  replace (uu_rad_integrand sf phen ps S x y z ph_t_sq) with
    (fun p : nat -> R => match take3_kin (kphi ((2 * p 0%nat - 1) * PI)) (fun i => p (Datatypes.S i)) with
      | Some (r, jac) => 2 * PI * jac * or_zero (rad_f sf r (phen (kQ_sq (kphi ((2 * p 0%nat - 1) * PI)))) 0 (V3 0 0 0))
      | None => 0 end); [reflexivity|].
  apply functional_extensionality. intros p. symmetry. apply (uu_rad_is p).
Qed.
End Asym.
