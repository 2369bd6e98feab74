(** The hadronic tensor of the code in terms of momenta, spin and structure functions; proofs. *)
From Coq Require Import Reals List Lra Ring Field Psatz Lia.
From Verif Require Import ParamModel MathModel ParticleModel VecModel TransModel FrameBase FrameModel FrameSpec SfModel KinModel KinSpec KinRadProofs KinEqs KinEvent KinFinal FrameRot KinAll KinFin HadModel
  QedSpec QedAlg QedWord QedTab QedEvent QedXsSpec QedHadSpec QedFrame QedHad QedSpin.
Import ListNotations.
Local Open Scope R_scope.

(** ** Coefficients *)
Ltac coeffs := unfold weights, weights_rad, code_weights, HadLP, HadRadLP, make_had_base_uu, make_had_base_ul, make_had_base_ut, make_had_base_lu, make_had_base_ll, make_had_base_lt,
  make_had_rad_base_uu, make_had_rad_base_up, make_had_rad_base_lu, make_had_rad_base_lp, sf_lp, sf_base_uu, sf_base_ul, sf_base_ut, sf_base_up, sf_base_lu, sf_base_ll, sf_base_lt, sf_base_lp;
  cbv zeta; cbn [Hlp_uu Hlp_ul Hlp_ut Hlp_lu Hlp_ll Hlp_lt HRlp_uu HRlp_up HRlp_lu HRlp_lp h10 h20 h30 h40 h12 h22 h32 h42 h61 h81 h63 h83 h50 h52 h71 h91 h73 h93
    kin_vals shift_vals ll_F_LL ll_F_LL_cos_phih lp_ll lp_lt lt_F_LT_cos_2phih_m_phis lt_F_LT_cos_phih_m_phis lt_F_LT_cos_phis lu_F_LU_sin_phih sfll_ll sfll_lu sfll_ul sfll_uu sflp_ll sflp_lt sflp_lu sflp_ul sflp_ut sflp_uu sflt_lt sflt_lu sflt_ut sflt_uu sflu_lu sflu_uu sful_ul sful_uu sfup_ul sfup_ut sfup_uu sfut_ut sfut_uu sfuu_uu ul_F_UL_sin_2phih ul_F_UL_sin_phih up_ul up_ut ut_F_UTL_sin_phih_m_phis ut_F_UTT_sin_phih_m_phis ut_F_UT_sin_2phih_m_phis ut_F_UT_sin_3phih_m_phis ut_F_UT_sin_phih_p_phis ut_F_UT_sin_phis uu_F_UUL uu_F_UUT uu_F_UU_cos_2phih uu_F_UU_cos_phih iQ_sq iQ ix iy iz it iW_sq iS_x iV_m iph_0 ilambda_Y ilambda_1 ilambda_2 ilambda_3 ilambda_Y_sqrt iph_t_sq iph_t iC_1
    hr10 hr20 hr30 hr40 hr50 hr1 hr2 hr3 hr4 hr5 hr6 hr7 hr8 hr9].
Lemma weights_code sf k eta i : weights (HadLP sf k) eta i = code_weights (kin_vals k) (fun n => sf n (point_of k)) eta i.
Proof. destruct i as [|[|[|[|[|[|[|[|[|[|]]]]]]]]]]; coeffs; try reflexivity. all: unfold Rdiv; ring. Qed.

Lemma turned A v eta : dot3 (tapp3 (transpose3 A) v) eta = dot3 v (tapp3 A eta).
Proof. destruct A as [[] [] []]. unfold transpose3, tapp3, dot3. cbn. ring. Qed.
Lemma weights_rad_code sf r eta i : weights_rad (HadRadLP sf r) eta i = code_weights (shift_vals r) (fun n => sf n (shift_point_of r)) (tapp3 (shift_from_hadron r) eta) i.
Proof.
  destruct i as [|[|[|[|[|[|[|[|[|[|]]]]]]]]]]; coeffs; try reflexivity; unfold hadron_from_shift; rewrite turned;
    generalize (tapp3 (shift_from_hadron r) eta); intros [a b c]; unfold dot3; cbn [x3 y3 z3]; unfold Rdiv; ring.
Qed.

(** ** Arguments and normalization *)
Section Norm.
Variables (v : transfer_vals) (p k1 q h : vec4).
Hypothesis N : transfer_names v p k1 q h.
Hypothesis Hpp : 0 < dot4 p p.
Hypothesis Hqq : dot4 q q < 0.
Hypothesis Hpq : dot4 p q <> 0.
Lemma norm_eq : iC_1 v = had_norm q p h.
Proof.
  rewrite (n_C_1 _ _ _ _ _ N). unfold had_norm, norm_sq4.
  assert (A : forall x, dot4 (project_off p q) x = - sdot p q x).
  { intros x. unfold project_off, sdot. rewrite dot_sub_l, dot_scale_l, ?(dot_comm q p). field. lra. }
  assert (B : dot4 (project_off p q) (project_off p q) = - sdot p q q).
  { rewrite A. f_equal. unfold sdot, project_off. rewrite !dot_sub_r, !dot_scale_r, (dot_comm q p). field. lra. }
  assert (C : dot4 (dual q p h 3) h = along p h q).
  { unfold dual, axis, norm_sq4. rewrite B, !dot_scale_l, A, Ropp_involutive. unfold along, Rdiv.
    replace (sdot p h q) with (sdot p q h) by (unfold sdot; rewrite (dot_comm h q); f_equal; ring). ring. }
  rewrite C. unfold sq. unfold Rdiv. f_equal. f_equal. ring.
Qed.
Lemma point_eq (had : hadron) : (had, KinSpec.ix v, iz v, iQ_sq v, iph_t_sq v) = point_at had q p h.
Proof.
  unfold point_at. rewrite (n_x _ _ _ _ _ N), (n_z _ _ _ _ _ N), (n_Q_sq _ _ _ _ _ N). f_equal. unfold norm_sq4. rewrite (TTe _ _ _ _ _ N) by assumption. ring.
Qed.
End Norm.

Lemma proj_norm a b : dot3 a a <> 0 -> let w := sub3 b (scale3 (dot3 b a / dot3 a a) a) in dot3 w w = (dot3 a a * dot3 b b - dot3 b a * dot3 b a) / dot3 a a.
Proof.
  intros Ha. cbv zeta. transitivity (dot3 b b - 2 * (dot3 b a / dot3 a a) * dot3 b a + dot3 b a / dot3 a a * (dot3 b a / dot3 a a) * dot3 a a); [|field; exact Ha].
  generalize (dot3 b a / dot3 a a). intros x. unfold dot3, sub3, scale3. cbn [x3 y3 z3]. ring.
Qed.
(** ** Completeness of the axes *)
Lemma at_lin_l W a u b v w : tensor_at W (add4 (scale4 a u) (scale4 b v)) w = cadd (cmul (creal a) (tensor_at W u w)) (cmul (creal b) (tensor_at W v w)).
Proof.
  induction W as [|[[c x] y] W IH]; [apply cx_eq; cbn [re im tensor_at fold_right c0 cadd cmul creal]; ring|].
  unfold tensor_at in *. cbn [fold_right fst snd]. rewrite IH, dot_add_r, !dot_scale_r. apply cx_eq; cbn [re im cadd cmul creal]; ring.
Qed.
Lemma at_lin_r W a u b v w : tensor_at W w (add4 (scale4 a u) (scale4 b v)) = cadd (cmul (creal a) (tensor_at W w u)) (cmul (creal b) (tensor_at W w v)).
Proof.
  induction W as [|[[c x] y] W IH]; [apply cx_eq; cbn [re im tensor_at fold_right c0 cadd cmul creal]; ring|].
  unfold tensor_at in *. cbn [fold_right fst snd]. rewrite IH, dot_add_r, !dot_scale_r. apply cx_eq; cbn [re im cadd cmul creal]; ring.
Qed.
Section Complete.
Variables (v : transfer_vals) (p k1 q h : vec4).
Hypothesis N : transfer_names v p k1 q h.
Hypothesis Hpp : 0 < dot4 p p.
Hypothesis Hqq : dot4 q q < 0.
Hypothesis Hpq : dot4 p q <> 0.
Hypothesis Hpt : 0 < iph_t v.
Let n := normal q p h.
Let ax := axis q p h.
Let P := project_off q p.
Let Hh := project_off q h.
Let T := transverse q p h.
Lemma only_zero x : dot4 q x = 0 -> dot4 P x = 0 -> dot4 T x = 0 -> dot4 n x = 0 -> forall w, dot4 x w = 0.
Proof.
  intros Xq XP XT Xn w.
  assert (Xp : dot4 p x = 0) by (unfold P, project_off in XP; rewrite dot_sub_l, dot_scale_l, Xq in XP; lra).
  assert (XH : dot4 Hh x = 0) by (unfold T, transverse in XT; fold P Hh in XT; rewrite dot_sub_l, dot_scale_l, XP in XT; lra).
  assert (Xh : dot4 h x = 0) by (unfold Hh, project_off in XH; rewrite dot_sub_l, dot_scale_l, Xq in XH; lra).
  pose proof (cramer5 x q p h n w) as C. unfold n in C at 2 3 4. rewrite !det_normal in C. unfold det3 in C.
  rewrite (dot_comm x q), (dot_comm x p), (dot_comm x h), Xq, Xp, Xh in C.
  pose proof Xn as X2. unfold n in X2. rewrite normal_dot in X2. 
  pose proof (nn _ _ _ _ _ N Hpp Hqq Hpt) as NN. fold n in NN. unfold n in NN at 1. rewrite normal_dot, det_cyc in NN.
  assert (Z : 0 < ilambda_Y_sqrt v * iph_t v / 2 * (ilambda_Y_sqrt v * iph_t v / 2)).
  { pose proof (Y_pos _ _ _ _ _ N Hpp Hqq) as Y. assert (0 < ilambda_Y_sqrt v * iph_t v / 2) by (apply Rdiv_lt_0_compat; [apply Rmult_lt_0_compat; assumption|lra]). apply Rmult_lt_0_compat; assumption. }
  assert (D : det_rows q p h n <> 0) by lra.
  apply (Rmult_eq_reg_l (det_rows q p h n)); [|exact D]. rewrite Rmult_0_r. assert (Y : det_rows x q p h = 0) by lra. rewrite Y in C. lra.
Qed.
Lemma axes_complete u : u = add4 (scale4 (dot4 q u / dot4 q q) q) (scale4 1 (add4 (scale4 (dot4 (ax 0%nat) u) (dual q p h 0)) (scale4 1 (add4 (scale4 (dot4 (ax 1%nat) u) (dual q p h 1)) (scale4 (dot4 (ax 2%nat) u) (dual q p h 2)))))).
Proof.
  set (s := add4 _ _). apply ext4. intros w. apply Rminus_diag_uniq. rewrite <- dot_sub_l. revert w.
  pose proof (Q_pos _ _ _ _ _ N Hqq) as QP. pose proof (Y_pos _ _ _ _ _ N Hpp Hqq) as YP.
  pose proof (ax0 _ _ _ _ _ N Hpp Hqq) as A0. pose proof (ax1 _ _ _ _ _ N Hpp Hqq Hpt) as A1. pose proof (ax2 _ _ _ _ _ N Hpp Hqq Hpt) as A2. fold P in A0. fold T in A1. fold n in A2.
  assert (O : forall a b, (a < 3)%nat -> (b < 3)%nat -> dot4 (ax a) (dual q p h b) = if Nat.eqb a b then 1 else 0).
  { intros a b Ha Hb. pose proof (d_d _ _ _ _ _ N Hpp Hqq Hpq Hpt a b Ha Hb) as E. cbv beta in E. unfold dual in E at 1. destruct a as [|a].
    - fold ax in E. rewrite E. destruct b; reflexivity.
    - rewrite dot_scale_l in E. fold ax in E. destruct (Nat.eqb (Datatypes.S a) b); cbn [Nat.eqb] in E; lra. }
  assert (Eq : forall b, (b < 3)%nat -> dot4 q (dual q p h b) = 0).
  { intros b Hb. destruct b as [|[|[|]]]; [eapply q_d0|eapply q_d1|eapply q_d2|lia]; eassumption. }
  assert (Aq : forall b, (b < 3)%nat -> dot4 (ax b) q = 0).
  { intros b Hb. pose proof (Eq b Hb) as E. rewrite dot_comm. unfold dual in E. destruct b; [exact E|]. rewrite dot_scale_r in E. fold ax in E. lra. }
  assert (K : forall b, (b < 3)%nat -> dot4 (ax b) (sub4 u s) = 0).
  { intros b Hb. unfold s. rewrite dot_sub_r, !dot_add_r, !dot_scale_r, !dot_add_r, !dot_scale_r, !dot_add_r, !dot_scale_r, (Aq b Hb), !O by lia.
    destruct b as [|[|[|]]]; [| | |lia]; cbn [Nat.eqb]; ring. }
  apply only_zero.
  - unfold s. rewrite dot_sub_r, !dot_add_r, !dot_scale_r, !dot_add_r, !dot_scale_r, !dot_add_r, !dot_scale_r, !Eq by lia. field. lra.
  - pose proof (K 0%nat ltac:(lia)) as E. unfold ax in E. rewrite A0, dot_scale_l in E. apply Rmult_integral in E. destruct E as [E|E]; [|exact E]. exfalso. revert E. apply Rgt_not_eq, Rdiv_lt_0_compat; lra.
  - pose proof (K 1%nat ltac:(lia)) as E. unfold ax in E. rewrite A1, dot_scale_l in E. apply Rmult_integral in E. destruct E as [E|E]; [|exact E]. exfalso. revert E. apply Rgt_not_eq, Rinv_0_lt_compat; lra.
  - pose proof (K 2%nat ltac:(lia)) as E. unfold ax in E. rewrite A2, dot_scale_l in E. apply Rmult_integral in E. destruct E as [E|E]; [|exact E]. exfalso. revert E. apply Rgt_not_eq, Rinv_0_lt_compat.
    apply Rdiv_lt_0_compat; [apply Rmult_lt_0_compat; assumption|lra].
Qed.
Lemma tensor_whole W C u w : (forall x, tensor_at W q x = c0 /\ tensor_at W x q = c0) ->
  (forall i j, (i < 3)%nat -> (j < 3)%nat -> tensor_at W (dual q p h i) (dual q p h j) = C i j) ->
  tensor_at W u w = tensor_at (flat_map (fun i => map (fun j => (C i j, ax i, ax j)) [0; 1; 2]%nat) [0; 1; 2]%nat) u w.
Proof.
  intros Tq Tc. rewrite (axes_complete u) at 1. rewrite !at_lin_l. rewrite (proj1 (Tq w)).
  rewrite (axes_complete w) at 1 2 3. rewrite !at_lin_r, !(fun x => proj2 (Tq x)), !Tc by lia.
  unfold tensor_at. cbn [flat_map map app fold_right fst snd]. apply cx_eq; cbn [re im c0 cadd cmul creal]; ring.
Qed.
End Complete.

(** ** Events *)
Section Ev.
Variables (ps : parts) (S : R) (sp : phase_space) (e : event) (tr : tr4).
Hypothesis He : same_event e ps S sp.
Hypothesis Ht : lorentz tr.
Hypothesis Hpt : 0 < s_ph_t_sq sp.
Let t := tapp4 tr.
Let k := make_kin ps S sp.
Let p := t (v_p e). Let k1 := t (v_k1 e). Let q := t (v_q e). Let h := t (v_ph e).
Let td a b : dot4 (t a) (t b) = dot4 a b. Proof. apply Ht. Qed.
Let PH : physical e. Proof. apply He. Qed.
Let HM : 0 < e_M e. Proof. apply PH. Qed.
Let Hpp : 0 < dot4 p p.
Proof. unfold p. rewrite td. unfold v_p, dot4, dot3, r4. cbn [t4 x4 y4 z4 x3 y3 z3]. nra. Qed.
Let Hqq : dot4 q q < 0.
Proof. unfold q. rewrite td. exact (ph_space _ PH). Qed.
Let Hpq : dot4 p q <> 0.
Proof. unfold p, q. rewrite td. destruct PH. unfold v_p, v_q, dot4, dot3, r4. cbn [t4 x4 y4 z4 x3 y3 z3]. nra. Qed.
Let Hp : 0 < e_pt e.
Proof. pose proof (same_pt _ _ _ _ He) as E. unfold sq in E. pose proof (ph_pt _ PH). nra. Qed.
Let Hk : 0 < kph_t k.
Proof. unfold k, make_kin. cbn [kph_t]. apply sqrt_lt_R0. exact Hpt. Qed.
Let N : transfer_names (kin_vals k) p k1 q h. Proof. exact (proj1 (same_names e ps S sp tr He Ht)). Qed.
Let ph_mk : v_ph e = mk4 (e_Eh e) (turn (cos (e_phi_h e)) (sin (e_phi_h e)) (V3 (e_pt e) 0 (e_pl e))).
Proof. unfold v_ph, turn, mk4. cbn [x3 y3 z3]. f_equal; ring. Qed.
Let q_mk : v_q e = mk4 (e_q0 e) (V3 0 0 (e_qz e)). Proof. reflexivity. Qed.
Let cs : cos (e_phi_h e) * cos (e_phi_h e) + sin (e_phi_h e) * sin (e_phi_h e) = 1.
Proof. pose proof (sin2_cos2 (e_phi_h e)) as X. unfold Rsqr in X. lra. Qed.
Let qq0 : e_q0 e * e_q0 e < e_qz e * e_qz e.
Proof. pose proof (ph_space _ PH) as X. unfold v_q, norm_sq4, dot4, dot3, r4 in X. cbn [t4 x4 y4 z4 x3 y3 z3] in X. lra. Qed.
Lemma spin_self eta : spin_along q p h (spin_vector q p h eta) = eta.
Proof.
  unfold q, p, h, t. rewrite along_cov by exact Ht. rewrite ph_mk, q_mk. unfold v_p. set (c := cos (e_phi_h e)) in *. set (s := sin (e_phi_h e)) in *.
  pose proof (ph_qz _ PH) as Qz.
  rewrite rest_spin by assumption.
  assert (A : dot3 (V3 0 0 (e_qz e)) (V3 0 0 (e_qz e)) = e_qz e * e_qz e) by (unfold dot3; cbn [x3 y3 z3]; ring).
  assert (B : sub3 (turn c s (V3 (e_pt e) 0 (e_pl e))) (scale3 (dot3 (turn c s (V3 (e_pt e) 0 (e_pl e))) (V3 0 0 (e_qz e)) / dot3 (V3 0 0 (e_qz e)) (V3 0 0 (e_qz e))) (V3 0 0 (e_qz e))) = turn c s (V3 (e_pt e) 0 0)).
  { rewrite A. unfold turn, sub3, scale3, dot3. cbn [x3 y3 z3]. f_equal; field; lra. }
  assert (D : dot3 (turn c s (V3 (e_pt e) 0 0)) (turn c s (V3 (e_pt e) 0 0)) = e_pt e * e_pt e) by (rewrite turn_dot by exact cs; unfold dot3; cbn [x3 y3 z3]; ring).
  assert (P1 : 0 < e_qz e * e_qz e) by nra. assert (P2 : 0 < e_pt e * e_pt e) by nra.
  rewrite rest_along by (rewrite ?B, ?D, ?A; assumption). rewrite !B, !D, !A, !sqrt_square by lra.
  destruct eta as [a b d]. unfold tapp3, turn, cross3, scale3, dot3. cbn [TransModel.rx TransModel.ry TransModel.rz x3 y3 z3].
  f_equal; [transitivity ((c * c + s * s) * a)|transitivity ((c * c + s * s) * b)|]; try (field; lra); rewrite cs; ring.
Qed.
Theorem tensor_born sf eta i j : (i < 3)%nat -> (j < 3)%nat ->
  tensor_at (had_tensor q p h (weights (HadLP sf k) eta)) (dual q p h i) (dual q p h j) = hadron_tensor_at (khadron k) sf q p h (spin_vector q p h eta) i j.
Proof.
  intros Hi Hj. unfold hadron_tensor_at. rewrite spin_self, <- (norm_eq _ _ _ _ _ N), <- (point_eq _ _ _ _ _ N) by assumption.
  rewrite <- (components _ _ _ _ _ N Hpp Hqq Hpq Hk _ eta i j Hi Hj). f_equal. unfold had_tensor. cbn [flat_map]. rewrite !weights_code. reflexivity.
Qed.
Theorem whole_born sf eta u w : tensor_at (had_tensor q p h (weights (HadLP sf k) eta)) u w = tensor_at (hadron_tensor (khadron k) sf q p h (spin_vector q p h eta)) u w.
Proof.
  apply (tensor_whole _ _ _ _ _ N Hpp Hqq Hpq Hk).
  - intros x. apply at_transverse. lra.
  - intros i j. apply tensor_born.
Qed.
(** After radiation. *)
Variables (tau phi_k R : R) (f : photon).
Hypothesis Hf : same_photon f e tau phi_k R.
Hypothesis HR : R < S * s_y sp.
Let r := make_rad k tau phi_k R.
Hypothesis Hs : 0 < rshift_ph_t r.
Let q' := sub4 q (t (v_k e f)).
Let N' : transfer_names (shift_vals r) p k1 q' h.
Proof. unfold q', q, t. rewrite <- (t_sub tr Ht). exact (same_shift_names e f ps S sp tau phi_k R tr He Hf HR Ht). Qed.
Let kk := f_R f / (2 * e_M e).
Let OK := physical_ok e PH.
Let OKf : ph_ok kk (f_ct f) (f_st f). Proof. apply photon_ok_ph; [exact HM|apply Hf]. Qed.
Let Hkk : kk < e_q0 e.
Proof.
  destruct (same_Sx _ _ _ _ He) as [Ex _]. assert (EM : e_M e = a_M ps) by apply He. rewrite <- EM in Ex. assert (EfR : f_R f = R) by apply Hf.
  unfold kk. rewrite EfR. apply Rmult_lt_reg_r with (2 * e_M e); [lra|]. unfold Rdiv. rewrite Rmult_assoc, Rinv_l by lra. lra.
Qed.
Let HL := SL_pos _ _ _ _ _ _ _ _ _ _ _ _ _ _ OK OKf Hkk.
Let HX : 0 < SHX (e_qz e) (e_pt e) (e_pl e) (e_phi_h e) kk (f_ct f) (f_st f) (f_phi f).
Proof.
  pose proof Hs as Hs'. pose proof (same_rad_at _ _ _ _ _ _ _ _ He Hf) as B. fold k r kk in B. rewrite (rat_shift_ph_t _ _ _ _ _ _ _ _ _ _ _ _ _ _ _ _ _ B HL) in Hs'.
  destruct (Rlt_le_dec 0 (SHX (e_qz e) (e_pt e) (e_pl e) (e_phi_h e) kk (f_ct f) (f_st f) (f_phi f))) as [|X]; auto. exfalso.
  rewrite sqrt_neg_0 in Hs'; [lra|]. apply Rmult_le_reg_r with (SL (e_qz e) kk (f_ct f) (f_st f)); auto. unfold Rdiv. rewrite Rmult_assoc, Rinv_l by lra. lra.
Qed.
Let c := cos (e_phi_h e). Let s := sin (e_phi_h e).
Let a' := V3 (- (kk * f_st f * cosd (e_phi_h e) (f_phi f))) (- (kk * f_st f * (c * sin (f_phi f) - s * cos (f_phi f)))) (e_qz e - kk * f_ct f).
Let q'_mk : sub4 (v_q e) (v_k e f) = mk4 (e_q0 e - kk) (turn c s a').
Proof.
  unfold v_q, v_k, v_n, sub4, scale4, a', turn, mk4, cosd. fold kk c s. cbn [t4 x4 y4 z4 x3 y3 z3]. f_equal; try ring.
  - transitivity (- (kk * f_st f) * ((c * c + s * s) * cos (f_phi f))); [unfold c, s; rewrite cs; ring|unfold c, s; ring].
  - transitivity (- (kk * f_st f) * ((c * c + s * s) * sin (f_phi f))); [unfold c, s; rewrite cs; ring|unfold c, s; ring].
Qed.
Let a'_a' : dot3 a' a' = SL (e_qz e) kk (f_ct f) (f_st f). Proof. exact (h_q'q' _ _ _ _ _ _). Qed.
Let qq' : (e_q0 e - kk) * (e_q0 e - kk) < dot3 a' a'.
Proof.
  pose proof (SQ_pos _ _ _ _ _ _ _ _ _ _ _ _ _ _ OK OKf Hkk) as X. pose proof (st_sq _ _ _ OKf) as Y. rewrite a'_a'. unfold SQ in X. unfold SL.
  assert (Z : kk * f_st f * (kk * f_st f) + (e_qz e - kk * f_ct f) * (e_qz e - kk * f_ct f) - (e_q0 e - kk) * (e_q0 e - kk) = e_qz e * e_qz e - e_q0 e * e_q0 e + 2 * kk * (e_q0 e - f_ct f * e_qz e)) by ring [Y].
  lra.
Qed.
Lemma spin_shift eta : spin_along q' p h (spin_vector q p h eta) = tapp3 (shift_from_hadron r) eta.
Proof.
  unfold q', q, p, h. unfold t at 2. rewrite <- (t_sub tr Ht). unfold t. rewrite along_cov by exact Ht. rewrite ph_mk, q'_mk, q_mk. unfold v_p. fold c s.
  assert (PR : project r = k) by apply make_rad_copies.
  pose proof (same_kin_at _ _ _ _ He) as A. fold k in A. rewrite <- PR in A. pose proof (same_rad_at _ _ _ _ _ _ _ _ He Hf) as B. fold k r kk in B.
  pose proof a'_a' as L1.
  assert (L2 : dot3 (V3 (e_pt e) 0 (e_pl e)) a' = SH (e_qz e) (e_pt e) (e_pl e) (e_phi_h e) kk (f_ct f) (f_st f) (f_phi f)) by exact (h_phq' _ _ _ _ _ _ _ _).
  assert (L3 : dot3 (sub3 (V3 (e_pt e) 0 (e_pl e)) (scale3 (dot3 (V3 (e_pt e) 0 (e_pl e)) a' / dot3 a' a') a')) (sub3 (V3 (e_pt e) 0 (e_pl e)) (scale3 (dot3 (V3 (e_pt e) 0 (e_pl e)) a' / dot3 a' a') a'))
    = SHX (e_qz e) (e_pt e) (e_pl e) (e_phi_h e) kk (f_ct f) (f_st f) (f_phi f) / SL (e_qz e) kk (f_ct f) (f_st f)).
  { unfold SHX. rewrite <- L2, <- L1. pose proof HL as HL2. rewrite <- L1 in HL2. replace (e_pt e * e_pt e + e_pl e * e_pl e) with (dot3 (V3 (e_pt e) 0 (e_pl e)) (V3 (e_pt e) 0 (e_pl e))) by (unfold dot3; cbn [x3 y3 z3]; ring).
    apply proj_norm. lra. }
  rewrite rest_shift; try assumption; try exact (ph_qz _ PH).
  - rewrite (shift_rows _ _ _ _ _ _ _ _ _ _ _ _ _ _ _ _ _ _ OK OKf _ A B Hp HL HX). rewrite L3, L1, L2. reflexivity.
  - rewrite L3. apply Rdiv_lt_0_compat; assumption.
Qed.
Let space : dot4 q' q' < 0 /\ dot4 p q' <> 0.
Proof.
  assert (E : q' = t (mk4 (e_q0 e - kk) (turn c s a'))) by (unfold q', q, t; rewrite <- (t_sub tr Ht), q'_mk; reflexivity).
  assert (Hqq2 : dot4 q' q' < 0).
  { rewrite E, td. assert (B : dot4 (mk4 (e_q0 e - kk) (turn c s a')) (mk4 (e_q0 e - kk) (turn c s a')) = (e_q0 e - kk) * (e_q0 e - kk) - dot3 (turn c s a') (turn c s a'))
      by (generalize (turn c s a'); intros [x y z]; unfold mk4, dot4, dot3, r4; cbn [t4 x4 y4 z4 x3 y3 z3]; ring). rewrite B, turn_dot by exact cs. lra. }
  assert (Hpq' : dot4 p q' <> 0).
  { unfold p. rewrite E, td. apply Rgt_not_eq. unfold v_p. generalize (turn c s a'). intros [x y z]. unfold mk4, dot4, dot3, r4. cbn [t4 x4 y4 z4 x3 y3 z3].
    pose proof (Rmult_lt_0_compat (e_M e) (e_q0 e - kk) HM ltac:(lra)). lra. }
  split; assumption.
Qed.
Theorem tensor_rad sf eta i j : (i < 3)%nat -> (j < 3)%nat ->
  tensor_at (had_tensor q' p h (weights_rad (HadRadLP sf r) eta)) (dual q' p h i) (dual q' p h j) = hadron_tensor_at (khadron k) sf q' p h (spin_vector q p h eta) i j.
Proof.
  intros Hi Hj. destruct space as [Hqq2 Hpq'].
  unfold hadron_tensor_at. rewrite spin_shift, <- (norm_eq _ _ _ _ _ N'), <- (point_eq _ _ _ _ _ N') by assumption.
  rewrite <- (components _ _ _ _ _ N' Hpp Hqq2 Hpq' Hs _ _ i j Hi Hj). f_equal. unfold had_tensor. cbn [flat_map]. rewrite !weights_rad_code. reflexivity.
Qed.
Theorem whole_rad sf eta u w : tensor_at (had_tensor q' p h (weights_rad (HadRadLP sf r) eta)) u w = tensor_at (hadron_tensor (khadron k) sf q' p h (spin_vector q p h eta)) u w.
Proof.
  destruct space as [Hqq2 Hpq'].
  apply (tensor_whole _ _ _ _ _ N' Hpp Hqq2 Hpq' Hs).
  - intros x. apply at_transverse. lra.
  - intros i j. apply tensor_rad.
Qed.
End Ev.

(** When the photon is emitted in the half-plane of the hadron, the transverse momentum does not vanish. *)
Lemma aligned_pos e f ps S sp tau phi_k R : same_event e ps S sp -> same_photon f e tau phi_k R -> R < S * s_y sp -> 0 < s_ph_t_sq sp -> phi_k = s_phi_h sp ->
  0 < rshift_ph_t (make_rad (make_kin ps S sp) tau phi_k R).
Proof.
  intros He Hf HR Hpt Hphi. pose proof (same_rad_at _ _ _ _ _ _ _ _ He Hf) as B.
  pose proof (physical_ok e (proj1 He)) as OK. assert (HM : 0 < e_M e) by apply OK. assert (OKf : ph_ok (f_R f / (2 * e_M e)) (f_ct f) (f_st f)) by (apply photon_ok_ph; [exact HM|apply Hf]).
  destruct (same_Sx _ _ _ _ He) as [Ex _]. assert (EM : e_M e = a_M ps) by apply He. rewrite <- EM in Ex. assert (EfR : f_R f = R) by apply Hf.
  pose proof (same_pt _ _ _ _ He) as Ept. unfold sq in Ept. assert (Hp0 : 0 <= e_pt e) by apply OK. assert (Hp : 0 < e_pt e) by nra.
  set (kk := f_R f / (2 * e_M e)) in *.
  assert (Hkk : kk < e_q0 e). { unfold kk. rewrite EfR. apply Rmult_lt_reg_r with (2 * e_M e); [lra|]. unfold Rdiv. rewrite Rmult_assoc, Rinv_l by lra. lra. }
  pose proof (SL_pos _ _ _ _ _ _ _ _ _ _ _ _ _ _ OK OKf Hkk) as HL.
  rewrite (rat_shift_ph_t _ _ _ _ _ _ _ _ _ _ _ _ _ _ _ _ _ B HL). apply sqrt_lt_R0, Rdiv_lt_0_compat; [|exact HL].
  assert (E1 : f_phi f = e_phi_h e). { destruct Hf as (_ & _ & F & _). destruct He as (_ & <- & _). rewrite F, Hphi. reflexivity. }
  assert (C : cosd (e_phi_h e) (f_phi f) = 1) by (unfold cosd; rewrite E1; pose proof (sin2_cos2 (e_phi_h e)) as X; unfold Rsqr in X; lra).
  unfold SHX, SL, SH. rewrite C.
  assert (Hb : 0 < e_qz e - kk * f_ct f). { destruct OK, OKf. assert (f_ct f <= 1) by nra. assert (e_q0 e < e_qz e) by nra. assert (kk * f_ct f <= kk) by nra. lra. }
  assert (Ha : 0 <= kk * f_st f) by (destruct OKf; apply Rmult_le_pos; assumption).
  assert (Hl : 0 <= e_pl e) by apply (ph_pl _ (proj1 He)).
  set (b := e_qz e - kk * f_ct f) in *. set (a := kk * f_st f) in *.
  replace ((a * a + b * b) * (e_pt e * e_pt e + e_pl e * e_pl e) - (b * e_pl e - a * e_pt e * 1) * (b * e_pl e - a * e_pt e * 1)) with ((b * e_pt e + a * e_pl e) * (b * e_pt e + a * e_pl e)) by ring.
  assert (0 < b * e_pt e) by (apply Rmult_lt_0_compat; assumption). assert (0 <= a * e_pl e) by (apply Rmult_le_pos; assumption). apply Rmult_lt_0_compat; lra.
Qed.
