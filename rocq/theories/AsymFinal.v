(** The Born-level asymmetries in closed form, for an integrator without error. *)
From Coq Require Import Reals ZArith Bool Lra Lia.
From Coquelicot Require Import Coquelicot.
From Verif Require Import ExtModel MathModel BoundModel BoundProofs VecModel TransModel FrameBase KinModel KinSpec SfModel CutModel LepModel HadModel
  KinEqs XsModel XsSpec XsProofs XsBorn XsFinal AsymModel AsymSpec AsymProofs.
Set Bullet Behavior "Strict Subproofs".
Local Open Scope R_scope.

Section Closed.
Context (dilog : R -> R) (sf : SfModel.sf_set sf_point) (phen : R -> phenom).
Context (integrate1 : (R -> R) -> R -> R -> EstErr) (integrate4 : ((nat -> R) -> R) -> EstErr).
Context (ps : parts) (S x y z ph_t_sq : R).
Notation kphi := (kin_at_phi ps S x y z ph_t_sq).
Notation sp0 := (PhaseSpace x y z ph_t_sq 0 0).
Context (A : admissible ps S sp0) (Ht : 0 < ph_t_sq) (Hs : ph_t_sq + sq (a_mh ps) < sq (z * (S * y) / (2 * a_M ps))).
Definition Q2 : R := S * x * y.
Definition g2 : R := gamma_sq x Q2 (a_M ps).
Definition E_S : R := Q2 / (x * y).
Definition l_S : R := E_S ^ 2 - 4 * a_M ps ^ 2 * a_m ps ^ 2.
Definition fl : fluxes := massive_fluxes y g2 (4 * a_m ps ^ 2 / Q2) E_S l_S (E_S * y * sqrt (1 + g2)).
Definition FF (n : sf_name) : R := sf n (point_of (kphi 0)).
Definition norm0 : R := p_alpha_qed (phen Q2) ^ 2 / (x * y * Q2) * (y ^ 2 / 2) * (1 + g2 / (2 * x)) * (E_S ^ 2 / l_S).

Lemma Q2_is phi_h : kQ_sq (kphi phi_h) = Q2.
Proof. reflexivity. Qed.
Lemma born_at phi_h S_T phi_S : born sf (kphi phi_h) (phen (kQ_sq (kphi phi_h))) 0 (V3 (S_T * cos (phi_S - phi_h)) (S_T * sin (phi_S - phi_h)) 0) =
  norm0 * modulations fl FF 0 0 S_T phi_h phi_S.
Proof. exact (born_textbook ps S (PhaseSpace x y z ph_t_sq phi_h 0) sf (phen Q2) 0 0 S_T phi_S A Ht Hs). Qed.
Lemma born_zero phi_h : born sf (kphi phi_h) (phen (kQ_sq (kphi phi_h))) 0 (V3 0 0 0) =
  norm0 * (flat fl FF + f_LT fl * cos phi_h * FF F_UU_cos_phih + f_TT fl * cos (2 * phi_h) * FF F_UU_cos_2phih).
Proof.
  pose proof (born_at phi_h 0 0) as H. rewrite !Rmult_0_l in H. rewrite H. unfold modulations, flat. ring.
Qed.
Definition A_S := amplitude fl FF (-1) 1.
Definition A_C := amplitude fl FF 1 1.
Definition A_P := amplitude fl FF (-1) 3.
Definition A_s := amplitude fl FF 1 0.
Definition A_2 := amplitude fl FF (-1) 2.
Lemma born_spin phi_h phi_S : born sf (kphi phi_h) (phen (kQ_sq (kphi phi_h))) 0 (transverse phi_S phi_h)
  - born sf (kphi phi_h) (phen (kQ_sq (kphi phi_h))) 0 (V3 0 0 0) =
  norm0 * (A_S * sin (phi_h - phi_S) + A_C * sin (phi_h + phi_S) + A_P * sin (3 * phi_h - phi_S) + A_s * sin phi_S + A_2 * sin (2 * phi_h - phi_S)).
Proof.
  pose proof (born_at phi_h 1 phi_S) as H. rewrite !Rmult_1_l in H. unfold transverse. rewrite H, born_zero. unfold modulations, flat, A_S, A_C, A_P, A_s, A_2, amplitude.
  cbn [Z.eqb Pos.eqb andb]. ring.
Qed.

(** One harmonic of the spin moment over the spin azimuth. *)
Lemma born_moment a b offset phi_h : (a = 1 \/ a = -1)%Z ->
  let D := IZR (a + b) * phi_h + IZR offset * (PI / 2) in
  spin_moment a b offset phi_h (born sf (kphi phi_h) (phen (kQ_sq (kphi phi_h))) 0) =
  PI * norm0 * IZR a * (- A_S * cos D + A_C * cos (D - IZR a * (2 * phi_h)) - A_P * cos (D + IZR a * (2 * phi_h))
    + A_s * cos (D - IZR a * phi_h) - A_2 * cos (D + IZR a * phi_h)).
Proof.
  intros Ha D. pose proof (born_affine sf (kphi phi_h) (phen (kQ_sq (kphi phi_h)))) as H.
  set (u := born_base_ut1 _ _ _) in H. set (v := born_base_ut2 _ _ _) in H. clearbody u v.
  assert (Hu : u = norm0 * ((A_C + A_P) * sin (2 * phi_h) + (A_s + A_2) * sin phi_h)).
  { pose proof (born_spin phi_h phi_h) as K. unfold transverse in K. rewrite H in K. 
    replace (phi_h - phi_h) with 0 in K by ring. rewrite cos_0, sin_0 in K.
    replace (phi_h + phi_h) with (2 * phi_h) in K by ring. replace (3 * phi_h - phi_h) with (2 * phi_h) in K by ring.
    replace (2 * phi_h - phi_h) with phi_h in K by ring. lra. }
  assert (Hv : v = norm0 * (- A_S + (A_C - A_P) * cos (2 * phi_h) + (A_s - A_2) * cos phi_h)).
  { pose proof (born_spin phi_h (phi_h + PI / 2)) as K. unfold transverse in K. rewrite H in K. 
    replace (phi_h + PI / 2 - phi_h) with (PI / 2) in K by ring. rewrite cos_PI2, sin_PI2 in K.
    replace (phi_h - (phi_h + PI / 2)) with (- (PI / 2)) in K by ring. rewrite sin_neg, sin_PI2 in K.
    replace (phi_h + (phi_h + PI / 2)) with (PI / 2 + 2 * phi_h) in K by ring.
    replace (3 * phi_h - (phi_h + PI / 2)) with (- (PI / 2 - 2 * phi_h)) in K by ring.
    replace (2 * phi_h - (phi_h + PI / 2)) with (- (PI / 2 - phi_h)) in K by ring.
    replace (phi_h + PI / 2) with (PI / 2 + phi_h) in K by ring.
    rewrite <- !cos_sin, !sin_neg, !sin_shift in K. lra. }
  unfold spin_moment. rewrite (is_RInt_unique _ _ _ _ (moment_affine a b offset phi_h _ u v H)). cbv zeta. fold D. clearbody D.
  eqR. rewrite Hu, Hv. destruct Ha as [-> | ->].
  - change (Z.eqb 1 1) with true. cbv iota. rewrite !Rmult_1_l, !cos_minus, !cos_plus. ring.
  - change (Z.eqb (-1) 1) with false. change (Z.eqb (-1) (-1)) with true. cbv iota.
    replace (D - -1 * (2 * phi_h)) with (D + 2 * phi_h) by ring. replace (D + -1 * (2 * phi_h)) with (D - 2 * phi_h) by ring.
    replace (D - -1 * phi_h) with (D + phi_h) by ring. replace (D + -1 * phi_h) with (D - phi_h) by ring.
    rewrite !cos_minus, !cos_plus. ring.
Qed.
Definition ind (n : Z) : R := if Z.eqb n 0 then 1 else 0.
Lemma int_cos n c : is_RInt (fun t => cos (IZR n * t + c)) (- PI) PI (2 * PI * (ind n * cos c)).
Proof.
  pose proof (int_cos_all n c) as H. unfold ind. destruct (Z.eqb n 0); [replace (2 * PI * (1 * cos c)) with (2 * PI * cos c) by ring|replace (2 * PI * (0 * cos c)) with 0 by ring]; exact H.
Qed.
Lemma int5 n1 n2 n3 n4 n5 c k1 k2 k3 k4 k5 : is_RInt (fun t => k1 * cos (IZR n1 * t + c) + 1 * (k2 * cos (IZR n2 * t + c) + 1 * (k3 * cos (IZR n3 * t + c)
   + 1 * (k4 * cos (IZR n4 * t + c) + k5 * cos (IZR n5 * t + c))))) (- PI) PI
   (k1 * (2 * PI * (ind n1 * cos c)) + 1 * (k2 * (2 * PI * (ind n2 * cos c)) + 1 * (k3 * (2 * PI * (ind n3 * cos c))
   + 1 * (k4 * (2 * PI * (ind n4 * cos c)) + k5 * (2 * PI * (ind n5 * cos c)))))).
Proof.
  exact (is_RInt_lin _ _ _ _ _ _ k1 1 (int_cos n1 c) (is_RInt_lin _ _ _ _ _ _ k2 1 (int_cos n2 c) (is_RInt_lin _ _ _ _ _ _ k3 1 (int_cos n3 c)
    (is_RInt_lin _ _ _ _ _ _ k4 k5 (int_cos n4 c) (int_cos n5 c))))).
Qed.
Lemma amplitude_sum a b : (a = 1 \/ a = -1)%Z ->
  amplitude fl FF a b - amplitude fl FF (- a) (- b) =
  IZR a * (- A_S * ind (a + b) + A_C * ind (a + b - a * 2) - A_P * ind (a + b + a * 2) + A_s * ind (a + b - a) - A_2 * ind (a + b + a)).
Proof.
  assert (D : forall b, (b = -3 \/ b = -2 \/ b = -1 \/ b = 0 \/ b = 1 \/ b = 2 \/ b = 3 \/ b < -3 \/ 3 < b)%Z) by (intros; lia).
  intros [-> | ->]; (destruct (D b) as [-> | [-> | [-> | [-> | [-> | [-> | [-> | H]]]]]]];
   [unfold ind, A_S, A_C, A_P, A_s, A_2, amplitude; cbn [Z.eqb Z.add Z.opp Z.mul Z.sub Pos.eqb Pos.mul Pos.add Z.pos_sub Z.succ_double Z.pred_double Z.double Pos.pred_double Pos.succ andb]; ring ..|]).
  - unfold ind. repeat match goal with |- context [(?p =? 0)%Z] => destruct (Z.eqb_spec p 0); [lia|] end.
    unfold amplitude at 1 2. change ((1 =? -1)%Z) with false. change ((- (1) =? 1)%Z) with false. change ((1 =? 1)%Z) with true. change ((- (1) =? -1)%Z) with true. cbn [andb].
    repeat match goal with |- context [if (?p =? ?q)%Z then _ else _] => destruct (Z.eqb_spec p q); [lia|] end. ring.
  - unfold ind. repeat match goal with |- context [(?p =? 0)%Z] => destruct (Z.eqb_spec p 0); [lia|] end.
    unfold amplitude at 1 2. change ((-1 =? -1)%Z) with true. change ((- -1 =? 1)%Z) with true. change ((-1 =? 1)%Z) with false. change ((- -1 =? -1)%Z) with false. cbn [andb].
    repeat match goal with |- context [if (?p =? ?q)%Z then _ else _] => destruct (Z.eqb_spec p q); [lia|] end. ring.
Qed.
Lemma ut_integral a b offset : (a = 1 \/ a = -1)%Z ->
  RInt (fun phi_h => / (2 * PI) * spin_moment a b offset phi_h (born sf (kphi phi_h) (phen (kQ_sq (kphi phi_h))) 0)) (- PI) PI =
  PI * norm0 * cos (IZR offset * (PI / 2)) * (amplitude fl FF a b - amplitude fl FF (- a) (- b)).
Proof.
  intros Ha. pose proof PI_neq0 as P. set (c := IZR offset * (PI / 2)).
  pose (N := / (2 * PI) * (PI * norm0 * IZR a)).
  rewrite (RInt_ext _ (fun t => N * - A_S * cos (IZR (a + b) * t + c) + 1 * (N * A_C * cos (IZR (a + b - a * 2) * t + c)
    + 1 * (N * - A_P * cos (IZR (a + b + a * 2) * t + c) + 1 * (N * A_s * cos (IZR (a + b - a) * t + c) + N * - A_2 * cos (IZR (a + b + a) * t + c)))))).
  - rewrite (is_RInt_unique _ _ _ _ (int5 (a + b) (a + b - a * 2) (a + b + a * 2) (a + b - a) (a + b + a) c (N * - A_S) (N * A_C) (N * - A_P) (N * A_s) (N * - A_2))).
    rewrite (amplitude_sum a b Ha). eqR. unfold N. field. exact P.
  - intros t _. rewrite (born_moment a b offset t Ha). fold c.
    replace (IZR (a + b - a * 2) * t + c) with (IZR (a + b) * t + c - IZR a * (2 * t)) by (rewrite minus_IZR, mult_IZR; ring).
    replace (IZR (a + b + a * 2) * t + c) with (IZR (a + b) * t + c + IZR a * (2 * t)) by (rewrite (plus_IZR (a + b)), mult_IZR; ring).
    replace (IZR (a + b - a) * t + c) with (IZR (a + b) * t + c - IZR a * t) by (rewrite minus_IZR; ring).
    replace (IZR (a + b + a) * t + c) with (IZR (a + b) * t + c + IZR a * t) by (rewrite (plus_IZR (a + b)); ring).
    eqR. unfold N. ring.
Qed.
Lemma uu_integral : RInt (fun phi_h => born sf (kphi phi_h) (phen (kQ_sq (kphi phi_h))) 0 (V3 0 0 0)) (- PI) PI = 2 * PI * norm0 * flat fl FF.
Proof.
  rewrite (RInt_ext _ (fun t => norm0 * flat fl FF * cos (IZR 0 * t + 0) + 1 * (norm0 * f_LT fl * FF F_UU_cos_phih * cos (IZR 1 * t + 0)
    + 1 * (norm0 * f_TT fl * FF F_UU_cos_2phih * cos (IZR 2 * t + 0) + 1 * (0 * cos (IZR 1 * t + 0) + 0 * cos (IZR 1 * t + 0)))))).
  - rewrite (is_RInt_unique _ _ _ _ (int5 0 1 2 1 1 0 (norm0 * flat fl FF) (norm0 * f_LT fl * FF F_UU_cos_phih) (norm0 * f_TT fl * FF F_UU_cos_2phih) 0 0)).
    unfold ind. cbn [Z.eqb]. rewrite cos_0. eqR. ring.
  - intros t _. rewrite born_zero. replace (IZR 0 * t + 0) with 0 by ring. rewrite cos_0. replace (1 * t + 0) with t by ring.
    replace (2 * t + 0) with (2 * t) by ring. eqR. ring.
Qed.

Context (exact1 : forall f, est_val (integrate1 f (- PI) PI) = RInt f (- PI) PI).
Context (Halpha : p_alpha_qed (phen Q2) <> 0) (Hflat : flat fl FF <> 0).
Lemma norm0_nz : norm0 <> 0.
Proof.
  destruct A as (HM & Hm & Hmh & HS & Hx & Hy & Hz & _ & HQ & _). cbn [s_x s_y s_z s_ph_t_sq] in *.
  assert (0 < Q2) by (unfold Q2; repeat apply Rmult_lt_0_compat; assumption).
  assert (E : E_S = S) by (unfold E_S, Q2; field; lra).
  assert (0 < l_S).
  { unfold l_S. rewrite E. destruct (Rle_or_lt (sq (a_m ps) * 4 * sq (a_M ps)) 0) as [L|L]; [unfold sq in *; assert (0 < S ^ 2) by (apply pow_lt; lra); nra|].
    apply Rnot_le_lt. intros L2.
    assert (Q : S * x * y * (S * (S * (1 - y)) - sq (a_M ps) * (S * x * y)) <= S * x * y * (sq S)).
    { apply Rmult_le_compat_l; [fold Q2; lra|]. unfold sq. assert (0 <= S * S * y) by (repeat apply Rmult_le_pos; lra).
      assert (0 <= a_M ps * a_M ps * (S * x * y)) by (apply Rmult_le_pos; [apply Rle_0_sqr|fold Q2; lra]). lra. }
    assert (Q' : S * x * y * (4 * sq (a_M ps) * sq (a_m ps)) < S * x * y * sq S).
    { eapply Rle_lt_trans; [|eapply Rlt_le_trans; [exact HQ|exact Q]].
      unfold sq. assert (0 <= a_m ps * a_m ps * (S * y * (S * y))) by (apply Rmult_le_pos; apply Rle_0_sqr). lra. }
    apply Rmult_lt_reg_l in Q'; [|fold Q2; lra]. unfold sq in Q'. lra. }
  assert (0 <= g2) by (unfold g2, gamma_sq; apply Rmult_le_pos; [apply pow2_ge_0|left; apply Rinv_0_lt_compat; assumption]).
  unfold norm0. rewrite E.
  assert (0 < p_alpha_qed (phen Q2) ^ 2) by (apply pow2_gt_0; exact Halpha). set (al := p_alpha_qed (phen Q2) ^ 2) in *. clearbody al.
  apply Rgt_not_eq. repeat apply Rmult_lt_0_compat; try lra; try (apply pow_lt; lra); try (apply Rinv_0_lt_compat; repeat apply Rmult_lt_0_compat; lra).
  assert (0 <= g2 / (2 * x)) by (apply Rmult_le_pos; [assumption|left; apply Rinv_0_lt_compat; lra]). lra.
Qed.
Lemma ut_asym_is a b offset : (a = 1 \/ a = -1)%Z ->
  fst (ut_asym dilog sf phen integrate1 integrate4 ps S x y z ph_t_sq a b offset false) =
  Fin (cos (IZR offset * (PI / 2)) * (amplitude fl FF a b - amplitude fl FF (- a) (- b)) / flat fl FF).
Proof.
  intros Ha. unfold ut_asym. cbn [fst]. rewrite (ut_integ_born dilog sf phen integrate1 integrate4 ps S x y z ph_t_sq a b offset Ha), uu_integ_born.
  unfold times_2pi. cbn [est_val]. rewrite !exact1, (ut_integral a b offset Ha), uu_integral.
  pose proof norm0_nz as N. pose proof PI_neq0 as P. unfold ediv.
  assert (NZ : 2 * PI * (2 * PI * norm0 * flat fl FF) <> 0).
  { generalize norm0 (flat fl FF) PI N Hflat P. intros n f pi Hn Hf Hpi. repeat apply Rmult_integral_contrapositive_currified; try assumption; discrR. }
  rewrite (proj2 (reqb_false _ 0) NZ). f_equal. field. repeat split; assumption.
Qed.
End Closed.
Lemma sivers_collins dilog sf phen integ1 integ4 ps S x y z ph_t_sq :
  admissible ps S (PhaseSpace x y z ph_t_sq 0 0) -> 0 < ph_t_sq -> ph_t_sq + sq (a_mh ps) < sq (z * (S * y) / (2 * a_M ps)) ->
  (forall f, est_val (integ1 f (- PI) PI) = RInt f (- PI) PI) ->
  p_alpha_qed (phen (S * x * y)) <> 0 ->
  let f := event_fluxes (a_M ps) (a_m ps) S x y in let F n := sf n (a_hadron ps, x, z, S * x * y, ph_t_sq) in
  let u := f_T f * F F_UUT + f_L f * F F_UUL in u <> 0 ->
  fst (sivers dilog sf phen integ1 integ4 ps S x y z ph_t_sq false) =
    Fin ((f_T f * F F_UTT_sin_phih_m_phis + f_L f * F F_UTL_sin_phih_m_phis) / u) /\
  fst (collins dilog sf phen integ1 integ4 ps S x y z ph_t_sq false) = Fin (f_TT f * F F_UT_sin_phih_p_phis / u).
Proof.
  intros A Ht Hs E Ha f F u Hu. unfold sivers, collins.
  rewrite (ut_asym_is dilog sf phen integ1 integ4 ps S x y z ph_t_sq A Ht Hs E Ha Hu (-1) 1 0 ltac:(now right)).
  rewrite (ut_asym_is dilog sf phen integ1 integ4 ps S x y z ph_t_sq A Ht Hs E Ha Hu 1 1 0 ltac:(now left)).
  rewrite Rmult_0_l, cos_0.
  change (flat (fl ps S x y) (FF sf ps S x y z ph_t_sq)) with u.
  unfold amplitude. cbn [Z.eqb Z.opp Pos.eqb andb].
  change (fl ps S x y) with f. split; f_equal.
  - change (FF sf ps S x y z ph_t_sq) with F. unfold Rdiv. ring.
  - change (FF sf ps S x y z ph_t_sq) with F. unfold Rdiv. ring.
Qed.
Lemma asym_error dilog sf phen integ1 integ4 ps S x y z ph_t_sq (a b offset : Z) rc :
  let uu := uu_integ dilog sf phen integ1 integ4 ps S x y z ph_t_sq rc in
  let ut := ut_integ dilog sf phen integ1 integ4 ps S x y z ph_t_sq a b offset rc in
  est_val uu <> 0 -> est_val ut <> 0 ->
  exists val err, ut_asym dilog sf phen integ1 integ4 ps S x y z ph_t_sq a b offset rc = (Fin val, Fin err) /\
    val = 2 * est_val ut / est_val uu /\ 0 <= err /\
    sq (err / val) = sq (est_err ut / est_val ut) + sq (est_err uu / est_val uu).
Proof.
  intros uu ut Hu Ht. unfold ut_asym. fold uu. fold ut. cbv zeta. unfold ediv.
  rewrite (proj2 (reqb_false _ 0) Hu), (proj2 (reqb_false _ 0) Ht). cbn [ehypot eabs emul].
  eexists. eexists. split; [reflexivity|]. split; [reflexivity|].
  set (v := 2 * est_val ut / est_val uu).
  assert (V : v <> 0) by (unfold v, Rdiv; apply Rmult_integral_contrapositive_currified; [apply Rmult_integral_contrapositive_currified; [discrR|exact Ht]|apply Rinv_neq_0_compat; exact Hu]).
  unfold hypot. set (p := est_err ut / est_val ut). set (q := est_err uu / est_val uu). clearbody v p q.
  split; [apply Rmult_le_pos; [apply sqrt_pos|apply Rabs_pos]|].
  assert (P : 0 <= p * p + q * q) by (apply Rplus_le_le_0_compat; apply Rle_0_sqr).
  unfold sq. replace (sqrt (p * p + q * q) * Rabs v / v * (sqrt (p * p + q * q) * Rabs v / v)) with
    ((sqrt (p * p + q * q) * sqrt (p * p + q * q)) * (Rabs v * Rabs v) / (v * v)) by (field; exact V).
  rewrite sqrt_sqrt by exact P. rewrite <- Rabs_mult, Rabs_right by (apply Rle_ge, Rle_0_sqr). field. exact V.
Qed.
Lemma asym_error_nan dilog sf phen integ1 integ4 ps S x y z ph_t_sq (a b offset : Z) rc : (a <> 1)%Z -> (a <> -1)%Z ->
  snd (ut_asym dilog sf phen integ1 integ4 ps S x y z ph_t_sq a b offset rc) = NaN.
Proof.
  intros H1 H2. unfold ut_asym. rewrite ut_integ_other by assumption. cbn [snd est_val est_err].
  set (u := uu_integ _ _ _ _ _ _ _ _ _ _ _ _). clearbody u. unfold ediv. rewrite (proj2 (reqb_spec 0 0) eq_refl).
  unfold sinf. rewrite !(proj2 (rltb_false 0 0) (Rle_refl 0)). rewrite Rmult_0_r.
  destruct (reqb (est_val u) 0); rewrite ?(proj2 (rltb_false 0 0) (Rle_refl 0));
  destruct (rltb 0 (est_err u)); try destruct (rltb (est_err u) 0); reflexivity.
Qed.
