(** The Gaussian integral and its moments, on the line and on the plane. *)
From Coq Require Import Reals Lra Psatz.
From Coquelicot Require Import Coquelicot.
Set Bullet Behavior "Strict Subproofs".
Local Open Scope R_scope.
Ltac toR := match goal with |- @eq _ ?x ?y => change (@eq R x y) end.

(** * The integral of exp(-x^2) *)
Definition gI (t : R) : R := RInt (fun x => exp (- (x * x))) 0 t.
Lemma cont_e x : continuous (fun x => exp (- (x * x))) x.
Proof. apply (ex_derive_continuous (fun x => exp (- (x * x)))). auto_derive. auto. Qed.
Lemma ex_e a b : ex_RInt (fun x => exp (- (x * x))) a b.
Proof. apply (ex_RInt_continuous (V := R_CompleteNormedModule)). intros; apply cont_e. Qed.
Lemma gI_derive (t : R) : is_derive gI t (exp (- (t * t))).
Proof.
  unfold gI. apply (is_derive_RInt (V := R_NormedModule) (fun x => exp (- (x * x))) _ 0).
  - apply filter_forall. intros y. apply (@RInt_correct R_CompleteNormedModule), ex_e.
  - apply cont_e.
Qed.
Lemma gI_0 : gI 0 = 0.
Proof. unfold gI. exact (@RInt_point R_CompleteNormedModule 0 _). Qed.
Lemma gI_pos t : 0 <= t -> 0 <= gI t.
Proof.
  intros Ht. unfold gI. apply RInt_ge_0; [exact Ht|apply ex_e|]. intros; apply Rlt_le, exp_pos.
Qed.

(** Polar trick: second function of t. *)
Definition gf (t v : R) : R := exp (- (t * t) * (1 + v * v)) / (1 + v * v).
Definition gK (t : R) : R := RInt (fun v => gf t v) 0 1.
Lemma one_sq v : 0 < 1 + v * v. Proof. nra. Qed.
Lemma gf_derive (t v : R) : is_derive (fun u => gf u v) t (- 2 * t * exp (- (t * t) * (1 + v * v))).
Proof.
  unfold gf. pose proof (one_sq v). auto_derive; [exact I|]. field. lra.
Qed.
Lemma gf_cont (t v : R) : continuous (fun v => gf t v) v.
Proof.
  apply (ex_derive_continuous (fun v => gf t v)). unfold gf. pose proof (one_sq v). auto_derive. lra.
Qed.
Lemma ex_gf t : ex_RInt (fun v => gf t v) 0 1.
Proof. apply (ex_RInt_continuous (V := R_CompleteNormedModule)). intros; apply gf_cont. Qed.
Lemma gf_2d (t v : R) : continuity_2d_pt (fun u v => - 2 * u * exp (- (u * u) * (1 + v * v))) t v.
Proof.
  apply continuity_2d_pt_mult.
  - apply continuity_2d_pt_mult; [apply continuity_2d_pt_const|apply continuity_2d_pt_id1].
  - apply (continuity_1d_2d_pt_comp exp (fun u v => - (u * u) * (1 + v * v))).
    + apply derivable_continuous_pt, derivable_pt_exp.
    + apply continuity_2d_pt_mult.
      * apply continuity_2d_pt_opp, continuity_2d_pt_mult; apply continuity_2d_pt_id1.
      * apply continuity_2d_pt_plus; [apply continuity_2d_pt_const|].
        apply continuity_2d_pt_mult; apply continuity_2d_pt_id2.
Qed.
Lemma gK_derive (t : R) : is_derive gK t (RInt (fun v => - 2 * t * exp (- (t * t) * (1 + v * v))) 0 1).
Proof.
  unfold gK.
  replace (RInt (fun v => - 2 * t * exp (- (t * t) * (1 + v * v))) 0 1)
    with (RInt (fun v => Derive (fun u => gf u v) t) 0 1).
  2:{ apply RInt_ext. intros v _. apply is_derive_unique, gf_derive. }
  apply is_derive_RInt_param.
  - apply filter_forall. intros y v _. eexists; apply gf_derive.
  - intros v _. apply (continuity_2d_pt_ext (fun u v => - 2 * u * exp (- (u * u) * (1 + v * v)))).
    + intros u w. symmetry. apply is_derive_unique, gf_derive.
    + apply gf_2d.
  - apply filter_forall. intros y. apply ex_gf.
Qed.
Lemma gK_derive' (t : R) : is_derive gK t (- 2 * exp (- (t * t)) * gI t).
Proof.
  pose proof (gK_derive t) as H.
  replace (- 2 * exp (- (t * t)) * gI t) with (RInt (fun v => - 2 * t * exp (- (t * t) * (1 + v * v))) 0 1); [exact H|].
  assert (A : is_RInt (V := R_NormedModule) (fun v => scal t (exp (- ((t * v + 0) * (t * v + 0))))) 0 1 (gI t)).
  { apply (is_RInt_comp_lin (V := R_NormedModule) (fun x => exp (- (x * x))) t 0 0 1).
    replace (t * 0 + 0) with 0 by ring. replace (t * 1 + 0) with t by ring.
    apply (@RInt_correct R_CompleteNormedModule), ex_e. }
  apply (is_RInt_scal (V := R_NormedModule) _ _ _ (- 2 * exp (- (t * t)))) in A.
  apply is_RInt_unique. eapply is_RInt_ext; [|exact A].
  intros v _. unfold scal; cbn; unfold mult; cbn.
  replace (- (t * t) * (1 + v * v)) with (- (t * t) + - ((t * v + 0) * (t * v + 0))) by ring.
  rewrite exp_plus. ring.
Qed.
Lemma gK_0 : gK 0 = PI / 4.
Proof.
  unfold gK. transitivity (RInt (fun v => / (1 + v ^ 2)) 0 1).
  { apply RInt_ext. intros v _. unfold gf. replace (- (0 * 0) * (1 + v * v)) with 0 by ring. rewrite exp_0.
    pose proof (one_sq v). toR. field. nra. }
  apply is_RInt_unique.
  replace (PI / 4) with (minus (atan 1) (atan 0)).
  2:{ rewrite atan_1, atan_0. unfold minus, plus, opp; cbn. toR. field. }
  apply (is_RInt_derive atan).
  - intros v _. auto_derive; [exact I|]. toR. field. nra.
  - intros v _. apply (ex_derive_continuous (fun v => / (1 + v ^ 2))). auto_derive. nra.
Qed.
Lemma gI_sq t : gI t * gI t + gK t = PI / 4.
Proof.
  assert (D : forall u, is_derive (fun t => gI t * gI t + gK t) u 0).
  { intros u. pose proof (gI_derive u) as A. pose proof (gK_derive' u) as B.
    evar_last. { apply (is_derive_plus (fun t => gI t * gI t) gK u); [|exact B].
      apply (is_derive_mult gI gI u); [exact A|exact A|]. intros; apply Rmult_comm. }
    unfold plus, mult; cbn. toR. ring. }
  rewrite <- gK_0.
  transitivity (gI 0 * gI 0 + gK 0); [|rewrite gI_0; ring].
  destruct (MVT_gen (fun t => gI t * gI t + gK t) 0 t (fun _ => 0)) as (c & _ & E).
  - intros; apply D.
  - intros y _. apply continuity_pt_filterlim.
    apply (ex_derive_continuous (fun t => gI t * gI t + gK t)). eexists; apply D.
  - lra.
Qed.
Lemma gK_bound t : 0 <= gK t <= exp (- (t * t)).
Proof.
  unfold gK. split.
  - apply RInt_ge_0; [lra|apply ex_gf|]. intros v _. unfold gf. pose proof (one_sq v).
    apply Rlt_le, Rdiv_lt_0_compat; [apply exp_pos|lra].
  - replace (exp (- (t * t))) with (RInt (fun _ => exp (- (t * t))) 0 1).
    2:{ rewrite RInt_const. unfold scal; cbn; unfold mult; cbn. ring. }
    apply RInt_le; [lra|apply ex_gf|apply ex_RInt_const|]. intros v _. unfold gf. pose proof (one_sq v).
    assert (H1 : exp (- (t * t) * (1 + v * v)) <= exp (- (t * t))).
    { destruct (Req_dec (t * t * (v * v)) 0) as [E|E].
      - right. f_equal. nra.
      - left. apply exp_increasing. nra. }
    apply Rle_div_l; [lra|]. pose proof (exp_pos (- (t * t))). nra.
Qed.

Lemma exp_neg_sq_lim : is_lim (fun t => exp (- (t * t))) p_infty 0.
Proof.
  apply (is_lim_comp exp (fun t => - (t * t)) p_infty 0 m_infty).
  - apply is_lim_exp_m.
  - evar_last. { apply is_lim_opp. apply (is_lim_mult (fun t => t) (fun t => t) p_infty p_infty p_infty); try apply is_lim_id. exact I. }
    reflexivity.
  - exists 0. intros; discriminate.
Qed.
Lemma gI_lim : is_lim gI p_infty (sqrt PI / 2).
Proof.
  assert (K : is_lim gK p_infty 0).
  { apply (is_lim_le_le_loc (fun _ => 0) (fun t => exp (- (t * t)))).
    - apply filter_forall. intros t. apply gK_bound.
    - apply is_lim_const.
    - apply exp_neg_sq_lim. }
  assert (S : is_lim (fun t => sqrt (PI / 4 - gK t)) p_infty (sqrt (PI / 4))).
  { assert (L : is_lim (fun t => PI / 4 - gK t) p_infty (PI / 4)).
    { replace (Finite (PI / 4)) with (Finite (PI / 4 - 0)) by (f_equal; ring). apply (is_lim_minus' (fun _ => PI / 4) gK p_infty (PI / 4) 0); [apply is_lim_const|exact K]. }
    unfold is_lim in *. eapply filterlim_comp; [exact L|]. apply continuous_sqrt. }
  replace (sqrt PI / 2) with (sqrt (PI / 4)).
  2:{ rewrite sqrt_div_alt by lra. f_equal. replace 4 with (2 * 2) by ring. apply sqrt_square; lra. }
  apply (is_lim_ext_loc (fun t => sqrt (PI / 4 - gK t))); [|exact S].
  exists 0. intros t Ht. rewrite <- (gI_sq t). replace (gI t * gI t + gK t - gK t) with (gI t * gI t) by ring.
  apply sqrt_square, gI_pos. lra.
Qed.
Lemma gI_odd t : gI (- t) = - gI t.
Proof.
  assert (A : is_RInt (V := R_NormedModule) (fun y => opp (exp (- ((- y) * (- y))))) 0 t (gI (- t))).
  { apply (is_RInt_comp_opp (V := R_NormedModule) (fun x => exp (- (x * x)))). rewrite Ropp_0.
    apply (@RInt_correct R_CompleteNormedModule), ex_e. }
  assert (B : is_RInt (V := R_NormedModule) (fun y => opp (exp (- (y * y)))) 0 t (opp (gI t))).
  { apply (is_RInt_opp (V := R_NormedModule)). apply (@RInt_correct R_CompleteNormedModule), ex_e. }
  apply (is_RInt_ext (V := R_NormedModule) _ (fun y => opp (exp (- (y * y))))) in A.
  2:{ intros y _. do 3 f_equal. ring. }
  apply (@is_RInt_unique R_CompleteNormedModule) in A. apply (@is_RInt_unique R_CompleteNormedModule) in B.
  exact (eq_trans (eq_sym A) B).
Qed.
Lemma gI_lim_m : is_lim gI m_infty (- (sqrt PI / 2)).
Proof.
  apply (is_lim_ext (fun t => - gI (- t))).
  { intros t. rewrite gI_odd. ring. }
  apply (is_lim_opp (fun t => gI (- t)) m_infty (sqrt PI / 2)).
  apply (is_lim_comp gI Ropp m_infty (sqrt PI / 2) p_infty).
  - apply gI_lim.
  - evar_last. { apply is_lim_opp, is_lim_id. } reflexivity.
  - exists 0. intros; discriminate.
Qed.

(** * Improper integrals over the line *)
Definition is_line_int (f : R -> R) (l : R) : Prop :=
  is_RInt_gen f (Rbar_locally m_infty) (Rbar_locally p_infty) l.
Lemma line_int_antiderivative (G g : R -> R) (lm lp : R) :
  (forall x, is_derive G x (g x)) -> (forall x, continuous g x) ->
  is_lim G m_infty lm -> is_lim G p_infty lp -> is_line_int g (lp - lm).
Proof.
  intros D C Hm Hp P HP.
  assert (Q : exists Qm Qp : R -> Prop, Rbar_locally m_infty Qm /\ Rbar_locally p_infty Qp /\
    forall a b, Qm a -> Qp b -> P (G b - G a)).
  { destruct HP as [eps He].
    assert (e2 : 0 < eps / 2) by (pose proof (cond_pos eps); lra).
    exists (fun a => ball lm (mkposreal _ e2) (G a)), (fun b => ball lp (mkposreal _ e2) (G b)).
    split; [|split].
    - apply (Hm (ball lm (mkposreal _ e2))). exists (mkposreal _ e2); auto.
    - apply (Hp (ball lp (mkposreal _ e2))). exists (mkposreal _ e2); auto.
    - intros a b Ha Hb. apply He. unfold ball in *; cbn in *. unfold AbsRing_ball, abs, minus, plus, opp in *; cbn in *.
      unfold Rabs in *. repeat destruct Rcase_abs; lra. }
  destruct Q as (Qm & Qp & H1 & H2 & H3).
  apply (Filter_prod _ _ _ Qm Qp H1 H2). intros a b Ha Hb. exists (G b - G a). split; [|auto].
  apply (is_RInt_derive G g); intros; auto.
Qed.

(** Powers times a Gaussian vanish at infinity. *)
Lemma pow_gauss_le c y : 0 < c -> y * y * exp (- (y * y) / c) * (y * y) <= 4 * (c * c).
Proof.
  intros Hc.
  assert (E : exp (- (y * y) / c) = / exp (y * y / c)).
  { rewrite <- exp_Ropp. f_equal. field. lra. }
  set (u := y * y / c) in *. assert (Hu : 0 <= u) by (apply Rdiv_le_0_compat; [nra|lra]).
  assert (H : u * u / 4 <= exp u).
  { pose proof (exp_ineq1_le (u / 2)) as H. replace u with (u / 2 + u / 2) at 3 by field. rewrite exp_plus. nra. }
  rewrite E. replace (y * y) with (c * u) by (unfold u; field; lra).
  replace (c * u * / exp u * (c * u)) with (c * c * (u * u / exp u)) by (field; apply Rgt_not_eq, exp_pos).
  assert (u * u / exp u <= 4).
  { apply Rle_div_l; [apply exp_pos|]. lra. }
  nra.
Qed.

Definition ge (b c x : R) : R := exp (- ((x - b) * (x - b)) / c).
Definition q2 (q0 q1 q2 y : R) : R := q0 + q1 * y + q2 * (y * y).
Lemma q2_bound a0 a1 a2 y : 1 <= Rabs y -> Rabs (q2 a0 a1 a2 y) <= (Rabs a0 + Rabs a1 + Rabs a2) * (y * y).
Proof.
  intros Hy. unfold q2.
  assert (E : y * y = Rabs y * Rabs y) by (rewrite <- Rabs_mult; symmetry; apply Rabs_pos_eq, Rle_0_sqr).
  assert (H0 : Rabs (a0 + a1 * y + a2 * (y * y)) <= Rabs a0 + Rabs a1 * Rabs y + Rabs a2 * (y * y)).
  { eapply Rle_trans; [apply Rabs_triang|]. apply Rplus_le_compat.
    - eapply Rle_trans; [apply Rabs_triang|]. rewrite Rabs_mult. lra.
    - rewrite Rabs_mult. right. f_equal. apply Rabs_pos_eq, Rle_0_sqr. }
  rewrite E in *. pose proof (Rabs_pos a0). pose proof (Rabs_pos a1). pose proof (Rabs_pos a2).
  assert (1 <= Rabs y * Rabs y) by nra. assert (Rabs y <= Rabs y * Rabs y) by nra. 
  eapply Rle_trans; [exact H0|]. set (r := Rabs y * Rabs y) in *. clearbody r.
  set (s := Rabs y) in *. clearbody s. nra.
Qed.
Lemma q2_gauss_bound a0 a1 a2 b c x : 0 < c -> 1 <= Rabs (x - b) ->
  Rabs (q2 a0 a1 a2 (x - b) * ge b c x) <= (Rabs a0 + Rabs a1 + Rabs a2) * (4 * (c * c)) / Rabs (x - b).
Proof.
  intros Hc Hy. unfold ge. set (y := x - b) in *. clearbody y.
  pose proof (pow_gauss_le c y Hc) as P. pose proof (q2_bound a0 a1 a2 y Hy) as Q.
  set (K := Rabs a0 + Rabs a1 + Rabs a2) in *.
  assert (HK : 0 <= K) by (unfold K; pose proof (Rabs_pos a0); pose proof (Rabs_pos a1); pose proof (Rabs_pos a2); lra).
  clearbody K.
  set (e := exp (- (y * y) / c)) in *. assert (He : 0 < e) by apply exp_pos. clearbody e.
  rewrite Rabs_mult, (Rabs_pos_eq e) by lra.
  assert (E : y * y = Rabs y * Rabs y) by (rewrite <- Rabs_mult; symmetry; apply Rabs_pos_eq, Rle_0_sqr).
  assert (Hs0 : Rabs y > 0) by lra. apply (proj1 (Rle_div_r _ _ _ Hs0)). clear Hs0.
  rewrite E in *. set (s := Rabs y) in *. clearbody s. clear E.
  assert (H1 : Rabs (q2 a0 a1 a2 y) * e * s <= K * (s * s) * e * (s * s)).
  { assert (0 <= Rabs (q2 a0 a1 a2 y)) by apply Rabs_pos.
    apply Rmult_le_compat; [nra|lra| |nra]. apply Rmult_le_compat_r; lra. }
  eapply Rle_trans; [exact H1|]. replace (K * (s * s) * e * (s * s)) with (K * (s * s * e * (s * s))) by ring.
  apply Rmult_le_compat_l; assumption.
Qed.
Lemma q2_gauss_small a0 a1 a2 b c : 0 < c -> forall eps : posreal,
  exists m, 0 < m /\ forall x, m < Rabs (x - b) -> Rabs (q2 a0 a1 a2 (x - b) * ge b c x) < eps.
Proof.
  intros Hc eps. set (K := (Rabs a0 + Rabs a1 + Rabs a2) * (4 * (c * c))).
  assert (HK : 0 <= K) by (unfold K; pose proof (Rabs_pos a0); pose proof (Rabs_pos a1); pose proof (Rabs_pos a2); nra).
  pose proof (cond_pos eps) as He.
  exists (1 + K / eps). assert (0 <= K / eps) by (apply Rdiv_le_0_compat; lra).
  split; [lra|]. intros x Hx.
  eapply Rle_lt_trans; [apply q2_gauss_bound; [exact Hc|lra]|]. fold K.
  apply Rlt_div_l; [lra|]. 
  assert (K / eps * eps = K) by (field; lra). nra.
Qed.
Lemma q2_gauss_lim a0 a1 a2 b c : 0 < c ->
  is_lim (fun x => q2 a0 a1 a2 (x - b) * ge b c x) p_infty 0 /\ is_lim (fun x => q2 a0 a1 a2 (x - b) * ge b c x) m_infty 0.
Proof.
  intros Hc; split; apply is_lim_spec; intros eps; destruct (q2_gauss_small a0 a1 a2 b c Hc eps) as (m & Hm & H).
  - exists (b + m). intros x Hx. rewrite Rminus_0_r. apply H. rewrite Rabs_pos_eq; lra.
  - exists (b - m). intros x Hx. rewrite Rminus_0_r. apply H. rewrite Rabs_left1; lra.
Qed.

(** Antiderivative of a Gaussian. *)
Definition gPhi (b c x : R) : R := sqrt c * gI ((x - b) / sqrt c).
Lemma gPhi_derive (b c x : R) : 0 < c -> is_derive (gPhi b c) x (ge b c x).
Proof.
  intros Hc. assert (Hs : 0 < sqrt c) by (apply sqrt_lt_R0; exact Hc).
  unfold gPhi. evar_last.
  { apply (is_derive_scal (fun x => gI ((x - b) / sqrt c))).
    apply (is_derive_comp gI (fun x => (x - b) / sqrt c)); [apply gI_derive|].
    evar_last. { auto_derive; [exact I|reflexivity]. } reflexivity. }
  unfold scal; cbn; unfold mult; cbn. unfold ge.
  replace (- ((x - b) / sqrt c * ((x - b) / sqrt c))) with (- ((x - b) * (x - b)) / c).
  - toR. field. lra.
  - rewrite <- (sqrt_sqrt c) at 1 by lra. field. lra.
Qed.
Lemma gPhi_lim b c : 0 < c ->
  is_lim (gPhi b c) p_infty (sqrt (PI * c) / 2) /\ is_lim (gPhi b c) m_infty (- (sqrt (PI * c) / 2)).
Proof.
  intros Hc. assert (Hs : 0 < sqrt c) by (apply sqrt_lt_R0; exact Hc).
  pose proof PI_RGT_0.
  assert (Hi : 0 < / sqrt c) by (apply Rinv_0_lt_compat; exact Hs).
  assert (Lp : is_lim (fun x => (x - b) / sqrt c) p_infty p_infty).
  { apply is_lim_spec. intros m. exists (m * sqrt c + b). intros x Hx. apply Rlt_div_r; [exact Hs|]. lra. }
  assert (Lm : is_lim (fun x => (x - b) / sqrt c) m_infty m_infty).
  { apply is_lim_spec. intros m. exists (m * sqrt c + b). intros x Hx. apply Rlt_div_l; [exact Hs|]. lra. }
  unfold gPhi. rewrite sqrt_mult by lra. split.
  - replace (Finite (sqrt PI * sqrt c / 2)) with (Rbar_mult (sqrt c) (sqrt PI / 2)) by (cbn; f_equal; field).
    apply (is_lim_scal_l (fun x => gI ((x - b) / sqrt c))).
    apply (is_lim_comp gI (fun x => (x - b) / sqrt c) p_infty (sqrt PI / 2) p_infty); [apply gI_lim|exact Lp|].
    exists 0. intros; discriminate.
  - replace (Finite (- (sqrt PI * sqrt c / 2))) with (Rbar_mult (sqrt c) (- (sqrt PI / 2))) by (cbn; f_equal; field).
    apply (is_lim_scal_l (fun x => gI ((x - b) / sqrt c))).
    apply (is_lim_comp gI (fun x => (x - b) / sqrt c) m_infty (- (sqrt PI / 2)) m_infty); [apply gI_lim_m|exact Lm|].
    exists 0. intros; discriminate.
Qed.

Lemma ge_derive (b c x : R) : 0 < c -> is_derive (ge b c) x (- 2 * (x - b) / c * ge b c x).
Proof.
  intros Hc. unfold ge. auto_derive; [lra|].
  match goal with |- _ * exp ?a = _ => replace a with (- ((x - b) * (x - b)) / c) by (field; lra) end.
  toR. field. lra.
Qed.
(** Moments up to the third. *)
Lemma gauss_moments (a0 a1 a2 a3 b c : R) : 0 < c ->
  is_line_int (fun x => (a0 + a1 * (x - b) + a2 * ((x - b) * (x - b)) + a3 * ((x - b) * (x - b) * (x - b))) * ge b c x)
    ((a0 + a2 * (c / 2)) * sqrt (PI * c)).
Proof.
  intros Hc.
  set (G := fun x => (a0 + a2 * (c / 2)) * gPhi b c x
     + q2 (- (c / 2) * (a1 + a3 * c)) (- (c / 2) * a2) (- (c / 2) * a3) (x - b) * ge b c x).
  destruct (gPhi_lim b c Hc) as [Pp Pm].
  destruct (q2_gauss_lim (- (c / 2) * (a1 + a3 * c)) (- (c / 2) * a2) (- (c / 2) * a3) b c Hc) as [Qp Qm].
  replace ((a0 + a2 * (c / 2)) * sqrt (PI * c)) with
    (((a0 + a2 * (c / 2)) * (sqrt (PI * c) / 2) + 0) - ((a0 + a2 * (c / 2)) * (- (sqrt (PI * c) / 2)) + 0)) by field.
  apply (line_int_antiderivative G).
  - intros x. unfold G.
    assert (D : is_derive (fun x => q2 (- (c / 2) * (a1 + a3 * c)) (- (c / 2) * a2) (- (c / 2) * a3) (x - b) * ge b c x) x
       ((a1 * (x - b) + a2 * ((x - b) * (x - b)) + a3 * ((x - b) * (x - b) * (x - b)) - a2 * (c / 2)) * ge b c x)).
    { evar_last. { apply (is_derive_mult (fun x => q2 (- (c / 2) * (a1 + a3 * c)) (- (c / 2) * a2) (- (c / 2) * a3) (x - b)) (ge b c) x
          ((- (c / 2) * a2) + 2 * (- (c / 2) * a3) * (x - b))).
        - unfold q2. auto_derive; [exact I|]. toR. ring.
        - apply ge_derive, Hc.
        - intros; apply Rmult_comm. }
      unfold q2, plus, mult; cbn. toR. field. lra. }
    evar_last. { apply (is_derive_plus (fun x => (a0 + a2 * (c / 2)) * gPhi b c x)); [|exact D].
      apply is_derive_scal, gPhi_derive, Hc. }
    unfold plus; cbn. toR. ring.
  - intros x.
    apply (ex_derive_continuous (fun x => (a0 + a1 * (x - b) + a2 * ((x - b) * (x - b)) + a3 * ((x - b) * (x - b) * (x - b))) * ge b c x)).
    unfold ge. auto_derive. lra.
  - apply (is_lim_plus' (fun x => (a0 + a2 * (c / 2)) * gPhi b c x)); [|exact Qm].
    apply (is_lim_scal_l (gPhi b c) (a0 + a2 * (c / 2)) m_infty (- (sqrt (PI * c) / 2))), Pm.
  - apply (is_lim_plus' (fun x => (a0 + a2 * (c / 2)) * gPhi b c x)); [|exact Qp].
    apply (is_lim_scal_l (gPhi b c) (a0 + a2 * (c / 2)) p_infty (sqrt (PI * c) / 2)), Pp.
Qed.
