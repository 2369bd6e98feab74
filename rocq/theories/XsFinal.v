(** Cross-sections at points of phase space. *)
From Coq Require Import Reals Lra Psatz Bool.
From Verif Require Import ExtModel MathModel MathProofs BoundModel BoundProofs ParticleModel VecModel VecProofs TransModel VecTac FrameBase KinModel KinSpec KinProofs KinEqs KinFinal KinAll KinFin SfModel
  CutModel CutProofs LepModel HadModel XsModel XsProofs XsSoft XsDelta XsSpec XsBorn XsMirror CutSpec CutNames.
Local Open Scope R_scope.

(** * Polarization *)
Lemma four_dot uu up lu lp l eta : four_parts uu up lu lp l eta = uu + dot3 up eta + l * (lu + dot3 lp eta).
Proof. unfold four_parts, dot3. ring. Qed.
Section Pol.
Context (sf : sf_set sf_point) (ph : phenom) (dilog : R -> R).
Lemma born_parts k : exists uu up lu lp, forall l eta, born sf k ph l eta = four_parts uu up lu lp l eta.
Proof.
  exists (born_base_uu (Born k ph) (LepBornBaseUU k) (make_had_base_uu k (sf_base_uu sf (point_of k)))).
  exists (V3 (born_base_ut1 (Born k ph) (LepBornBaseUP k) (make_had_base_ut k (sf_base_ut sf (point_of k))))
    (born_base_ut2 (Born k ph) (LepBornBaseUU k) (make_had_base_ut k (sf_base_ut sf (point_of k)))) (born_base_ul (Born k ph) (LepBornBaseUP k) (make_had_base_ul k (sf_base_ul sf (point_of k))))).
  exists (born_base_lu (Born k ph) (LepBornBaseLU k) (make_had_base_lu k (sf_base_lu sf (point_of k)))).
  exists (V3 (born_base_lt1 (Born k ph) (LepBornBaseLP k) (make_had_base_lt k (sf_base_lt sf (point_of k))))
    (born_base_lt2 (Born k ph) (LepBornBaseLU k) (make_had_base_lt k (sf_base_lt sf (point_of k)))) (born_base_ll (Born k ph) (LepBornBaseLP k) (make_had_base_ll k (sf_base_ll sf (point_of k))))).
  intros l eta. rewrite born_full. cbv zeta. unfold four_parts. cbn [x3 y3 z3]. ring.
Qed.
Lemma amm_parts k : exists uu up lu lp, forall l eta, amm sf k ph l eta = four_parts uu up lu lp l eta.
Proof.
  exists (amm_base_uu (Amm k ph) (LepAmmBaseUU k) (make_had_base_uu k (sf_base_uu sf (point_of k)))).
  exists (V3 (amm_base_ut1 (Amm k ph) (LepAmmBaseUP k) (make_had_base_ut k (sf_base_ut sf (point_of k))))
    (amm_base_ut2 (Amm k ph) (LepAmmBaseUU k) (make_had_base_ut k (sf_base_ut sf (point_of k)))) (amm_base_ul (Amm k ph) (LepAmmBaseUP k) (make_had_base_ul k (sf_base_ul sf (point_of k))))).
  exists (amm_base_lu (Amm k ph) (LepAmmBaseLU k) (make_had_base_lu k (sf_base_lu sf (point_of k)))).
  exists (V3 (amm_base_lt1 (Amm k ph) (LepAmmBaseLP k) (make_had_base_lt k (sf_base_lt sf (point_of k))))
    (amm_base_lt2 (Amm k ph) (LepAmmBaseLU k) (make_had_base_lt k (sf_base_lt sf (point_of k)))) (amm_base_ll (Amm k ph) (LepAmmBaseLP k) (make_had_base_ll k (sf_base_ll sf (point_of k))))).
  intros l eta. rewrite amm_full. cbv zeta. unfold four_parts. cbn [x3 y3 z3]. ring.
Qed.
Lemma rad_parts k : exists uu up lu lp, forall l eta, rad sf k ph l eta = four_parts uu up lu lp l eta.
Proof. do 4 eexists. intros l eta. rewrite rad_full, four_dot. cbv zeta. reflexivity. Qed.
Lemma rad_f_parts k : (forall l eta, rad_f sf k ph l eta = None) \/
  exists uu up lu lp, forall l eta, rad_f sf k ph l eta = Some (four_parts uu up lu lp l eta).
Proof.
  destruct (HadRadFLP sf k (HadLP sf (project k))) as [h|] eqn:E.
  - right. do 4 eexists. intros l eta. rewrite rad_f_full, E, four_dot. cbn [omap]. unfold full_f. reflexivity.
  - left. intros l eta. rewrite rad_f_full, E. reflexivity.
Qed.
Lemma nrad_parts k k0 : (forall l eta, nrad_ir dilog sf k ph l eta k0 = None) \/
  exists uu up lu lp, forall l eta, nrad_ir dilog sf k ph l eta k0 = Some (four_parts uu up lu lp l eta).
Proof.
  destruct (born_parts k) as (a & b & c & d & B). destruct (amm_parts k) as (a' & b' & c' & d' & A).
  destruct (delta_vert_rad_ir dilog k k0) as [dv| | |] eqn:E.
  - right. set (f := 1 + p_alpha_qed ph / PI * (dv + delta_vac_lep k + p_delta_vac_had ph)).
    exists (f * a + a'), (V3 (f * x3 b + x3 b') (f * y3 b + y3 b') (f * z3 b + z3 b')), (f * c + c'), (V3 (f * x3 d + x3 d') (f * y3 d + y3 d') (f * z3 d + z3 d')).
    intros l eta. rewrite (nrad_ir_is dilog sf _ _ _ _ _ _ E), B, A. fold f. f_equal. unfold four_parts. cbn [x3 y3 z3]. ring.
  - left. intros l eta. rewrite nrad_ir_full. unfold Nrad. rewrite E. reflexivity.
  - left. intros l eta. rewrite nrad_ir_full. unfold Nrad. rewrite E. reflexivity.
  - left. intros l eta. rewrite nrad_ir_full. unfold Nrad. rewrite E. reflexivity.
Qed.
End Pol.

(** * Soft photons *)
Lemma adm_nonzero ps S sp : admissible ps S sp -> s_ph_t_sq sp + sq (a_mh ps) < sq (s_z sp * (S * s_y sp) / (2 * a_M ps)) ->
  exists e, same_event e ps S sp /\ 0 < e_pl e.
Proof.
  intros A H. destruct (admissible_event _ _ _ A) as [e He]. exists e. split; [auto|].
  pose proof (same_kin_at _ _ _ _ He) as K. destruct He as (P & Es & ES & EM & Em & Eh).
  pose proof (ph_pl e P) as L. destruct L as [L|L]; [auto|exfalso].
  pose proof (ph_ph e P) as N. rewrite <- Es, <- ES, <- EM, <- Eh in H.
  pose proof (ph_M e P). pose proof (ph_q0 e P). pose proof (ph_E e P).
  unfold event_space, event_S in H. cbn [s_ph_t_sq s_z s_y] in H. unfold v_p, v_q, v_ph, v_k1 in *. unfold dot4, norm_sq4, dot4, sq in *. cbn [t4 x4 y4 z4] in *.
  rewrite <- L in N. pose proof (sin2_cos2 (e_phi_h e)) as SC. unfold Rsqr in SC.
  match type of H with _ < ?a * ?a => replace a with (e_Eh e) in H by (field; repeat split; lra) end.
  assert (e_pt e * cos (e_phi_h e) * (e_pt e * cos (e_phi_h e)) + e_pt e * sin (e_phi_h e) * (e_pt e * sin (e_phi_h e)) = e_pt e * e_pt e) by (transitivity (e_pt e * e_pt e * (sin (e_phi_h e) * sin (e_phi_h e) + cos (e_phi_h e) * cos (e_phi_h e))); [ring|rewrite SC; ring]).
  lra.
Qed.

(** A massive particle and a photon direction. *)
Lemma time_null E a b c x y z m : 0 < E -> 0 < m -> E * E - (a * a + b * b + c * c) = m * m -> x * x + y * y + z * z = 1 ->
  0 < E - (a * x + b * y + c * z).
Proof.
  intros HE Hm N U. set (d := a * x + b * y + c * z).
  assert (CS : d * d <= a * a + b * b + c * c).
  { assert (X : (a * a + b * b + c * c) * (x * x + y * y + z * z) - d * d = (a * y - b * x) * (a * y - b * x) + (a * z - c * x) * (a * z - c * x) + (b * z - c * y) * (b * z - c * y)) by (unfold d; ring).
    rewrite U in X. pose proof (Rle_0_sqr (a * y - b * x)). pose proof (Rle_0_sqr (a * z - c * x)). pose proof (Rle_0_sqr (b * z - c * y)). unfold Rsqr in *. lra. }
  clearbody d. assert (0 < m * m) by (apply Rmult_lt_0_compat; auto).
  destruct (Rlt_le_dec d E); [lra|]. exfalso. assert (E * E <= d * d) by (apply Rmult_le_compat; lra). lra.
Qed.

Section Soft.
Context (ps : parts) (S : R) (sp : phase_space) (tau phi_k R : R) (e : event) (f : photon).
Hypothesis He : same_event e ps S sp.
Hypothesis Hf : same_photon f e tau phi_k R.
Hypothesis Hm : 0 < a_m ps.
Let k := make_kin ps S sp.
Let r := make_rad k tau phi_k R.

Lemma dir_unit : f_st f * cos (f_phi f) * (f_st f * cos (f_phi f)) + f_st f * sin (f_phi f) * (f_st f * sin (f_phi f)) + f_ct f * f_ct f = 1.
Proof.
  destruct Hf as ((_ & _ & U) & _). unfold sq in U. pose proof (sin2_cos2 (f_phi f)) as SC. unfold Rsqr in SC.
  transitivity (f_ct f * f_ct f + f_st f * f_st f * (sin (f_phi f) * sin (f_phi f) + cos (f_phi f) * cos (f_phi f))); [ring|rewrite SC; lra].
Qed.
Lemma n_k1_pos : 0 < dot4 (v_n f) (v_k1 e).
Proof.
  destruct He as (P & _ & _ & _ & Em & _). pose proof (ph_k1 e P) as N. rewrite Em in N. pose proof (ph_E e P) as HE.
  unfold v_n, v_k1 in *. unfold norm_sq4, dot4, sq in *. cbn [t4 x4 y4 z4] in *.
  pose proof (time_null (e_E e) (e_kx e) 0 (e_kz e) _ _ _ (a_m ps) HE Hm ltac:(lra) dir_unit) as T. lra.
Qed.
Lemma n_k2_pos : 0 < dot4 (v_n f) (v_k2 e).
Proof.
  destruct He as (P & _ & _ & _ & Em & _). pose proof (ph_k2 e P) as N. rewrite Em in N. pose proof (ph_E2 e P) as HE.
  set (k2 := v_k2 e) in *. destruct k2 as [a b c d]. unfold v_n. unfold norm_sq4, dot4, sq in *. cbn [t4 x4 y4 z4] in *.
  pose proof (time_null a b c d _ _ _ (a_m ps) HE Hm ltac:(lra) dir_unit) as T. lra.
Qed.
Lemma F_IR_eikonal : 0 < R -> rF_IR r = sq R / 4 * norm_sq4 (eikonal (v_k1 e) (v_k2 e) (v_k e f)).
Proof.
  intros HR. pose proof (same_photon_names e f ps S sp tau phi_k R _ He Hf lorentz_id) as N. cbv zeta in N. rewrite !id4_app in N.
  pose proof n_k1_pos as P1. pose proof n_k2_pos as P2.
  assert (HM : 0 < e_M e) by (destruct He as (P & _); apply (ph_M e P)).
  unfold r, k. rewrite (n_F_IR _ _ _ _ _ _ _ N); [|lra|unfold v_k2 in P2; lra]. fold (v_k2 e).
  assert (ER : f_R f = R) by apply Hf. unfold eikonal, v_k. rewrite ER.
  assert (ND : forall w, dot4 (scale4 (R / (2 * e_M e)) (v_n f)) w = R / (2 * e_M e) * dot4 (v_n f) w) by (intros [a b c d]; unfold dot4, scale4; cbn [t4 x4 y4 z4]; ring).
  rewrite !ND. assert (EP : dot4 (v_n f) (v_p e) = e_M e) by (unfold v_n, v_p, dot4; cbn [t4 x4 y4 z4]; ring). rewrite EP.
  set (a := dot4 (v_n f) (v_k1 e)) in *. set (b := dot4 (v_n f) (v_k2 e)) in *. clearbody a b.
  destruct (v_k1 e) as [a0 a1 a2 a3]. destruct (v_k2 e) as [b0 b1 b2 b3]. unfold norm_sq4, dot4, sub4, scale4, sq. cbn [t4 x4 y4 z4].
  field. repeat split; lra.
Qed.
(** The soft-photon vector is space-like: the soft factor is never negative. *)
Lemma eikonal_neg : 0 < R -> norm_sq4 (eikonal (v_k1 e) (v_k2 e) (v_k e f)) <= 0.
Proof.
  intros HR. pose proof n_k1_pos as P1. pose proof n_k2_pos as P2. assert (HM : 0 < e_M e) by (destruct He as (P & _); apply (ph_M e P)).
  assert (ER : f_R f = R) by apply Hf. set (v := eikonal _ _ _).
  assert (O : dot4 (v_n f) v = 0).
  { unfold v, eikonal, v_k. rewrite ER.
    assert (ND : forall w, dot4 (scale4 (R / (2 * e_M e)) (v_n f)) w = R / (2 * e_M e) * dot4 (v_n f) w) by (intros [a b c d]; unfold dot4, scale4; cbn [t4 x4 y4 z4]; ring).
    rewrite !ND.
    assert (DD : forall n s x t y, dot4 n (sub4 (scale4 s x) (scale4 t y)) = s * dot4 n x - t * dot4 n y) by (intros [a b c d] s [a1 b1 c1 d1] t [a2 b2 c2 d2]; unfold dot4, sub4, scale4; cbn [t4 x4 y4 z4]; ring).
    rewrite DD. field. repeat split; lra. }
  pose proof dir_unit as U. clearbody v. destruct v as [t x y z]. unfold v_n, dot4, norm_sq4, dot4 in *. cbn [t4 x4 y4 z4] in *.
  set (a := f_st f * cos (f_phi f)) in *. set (b := f_st f * sin (f_phi f)) in *. set (c := f_ct f) in *. clearbody a b c.
  assert (T : t = a * x + b * y + c * z) by lra.
  assert (X : (x * x + y * y + z * z) * (a * a + b * b + c * c) - t * t = (a * y - b * x) * (a * y - b * x) + (a * z - c * x) * (a * z - c * x) + (b * z - c * y) * (b * z - c * y)) by (rewrite T; ring).
  rewrite U in X. pose proof (Rle_0_sqr (a * y - b * x)). pose proof (Rle_0_sqr (a * z - c * x)). pose proof (Rle_0_sqr (b * z - c * y)). unfold Rsqr in *. lra.
Qed.

Lemma choose_diff mx : bmax (R_bound k tau phi_k) = Fin mx -> mx * DELTA_R_REL <= R -> choose r = Use_diff.
Proof.
  intros B H. unfold choose, r. rewrite make_rad_copies. change (rtau (make_rad k tau phi_k R)) with tau. change (rphi_k (make_rad k tau phi_k R)) with phi_k.
  rewrite B. cbv zeta. change (rR (make_rad k tau phi_k R)) with R. replace (rltb R (mx * DELTA_R_REL)) with false; [reflexivity|]. symmetry. apply rltb_false. lra.
Qed.

Lemma rad_minus sf ph lambda_e eta mx : 0 < e_pl e -> 0 < R -> bmax (R_bound k tau phi_k) = Fin mx -> mx * DELTA_R_REL <= R ->
  rad_f sf r ph lambda_e eta = Some (rad sf r ph lambda_e eta
    - p_alpha_qed ph / (8 * sq PI) * (R / sqrt (4 * (sq (dot4 (v_p e) (v_q e)) - norm_sq4 (v_p e) * norm_sq4 (v_q e)))) * (- norm_sq4 (eikonal (v_k1 e) (v_k2 e) (v_k e f))) * born sf k ph lambda_e eta).
Proof.
  intros L HR B H. pose proof (same_kin_at _ _ _ _ He) as K. fold k in K.
  assert (P : project r = k) by apply make_rad_copies.
  destruct He as (PH & _ & _ & _). pose proof (ph_M e PH) as HM'. pose proof (ph_qz e PH) as Hqz'. pose proof (ph_kx e PH) as Hux'.
  assert (E1 : rlambda_S_sqrt r = 2 * e_M e * sqrt (e_kx e * e_kx e + e_kz e * e_kz e)).
  { change (rlambda_S_sqrt r) with (klambda_S_sqrt (project r)). rewrite P, (at_lambda_S_sqrt _ _ _ _ _ _ _ _ _ _ _ _ _ _ _ K). reflexivity. }
  assert (KX : 0 < e_kx e * e_kx e + e_kz e * e_kz e) by (pose proof (Rle_0_sqr (e_kz e)); assert (0 < e_kx e * e_kx e) by (apply Rmult_lt_0_compat; auto); unfold Rsqr in *; lra).
  assert (KS : 0 < sqrt (e_kx e * e_kx e + e_kz e * e_kz e)) by (apply sqrt_lt_R0; auto).
  assert (E2 : rlambda_S r = 4 * (e_M e * e_M e) * (e_kx e * e_kx e + e_kz e * e_kz e)).
  { change (rlambda_S r) with (klambda_S (project r)). rewrite P, (at_lambda_S _ _ _ _ _ _ _ _ _ _ _ _ _ _ _ K). reflexivity. }
  assert (E3 : rlambda_Y_sqrt r = 2 * e_M e * e_qz e).
  { change (rlambda_Y_sqrt r) with (klambda_Y_sqrt (project r)). rewrite P, (at_lambda_Y_sqrt _ _ _ _ _ _ _ _ _ _ _ _ _ _ _ K). reflexivity. }
  assert (E4 : rM r = e_M e) by (change (rM r) with (kM (project r)); rewrite P; apply (at_M _ _ _ _ _ _ _ _ _ _ _ _ _ _ _ K)).
  assert (E5 : rph_l r = e_pl e) by (change (rph_l r) with (kph_l (project r)); rewrite P; apply (at_ph_l _ _ _ _ _ _ _ _ _ _ _ _ _ _ _ K)).
  assert (ER : rR r = R) by reflexivity.
  assert (MM : 0 < e_M e * e_M e) by (apply Rmult_lt_0_compat; auto).
  rewrite (rad_sub sf r ph lambda_e eta).
  - rewrite P, ER, E3, F_IR_eikonal by auto. f_equal. f_equal.
    replace (4 * (sq (dot4 (v_p e) (v_q e)) - norm_sq4 (v_p e) * norm_sq4 (v_q e))) with ((2 * e_M e * e_qz e) * (2 * e_M e * e_qz e)).
    2:{ unfold v_p, v_q, norm_sq4, dot4, sq. cbn [t4 x4 y4 z4]. ring. }
    rewrite sqrt_square by (apply Rmult_le_pos; lra). f_equal. set (v := norm_sq4 _). pose proof PI_neq0. unfold sq. field. repeat split; lra.
  - rewrite ER. lra.
  - rewrite E1. apply Rgt_not_eq. repeat apply Rmult_lt_0_compat; lra.
  - rewrite E2, E4, E5. apply Rgt_not_eq. repeat apply Rmult_lt_0_compat; lra.
  - rewrite E3. apply Rgt_not_eq. repeat apply Rmult_lt_0_compat; lra.
  - apply (choose_diff mx); auto.
Qed.
End Soft.

(** * Textbook form *)
Lemma born_textbook ps S sp sf ph lambda_e S_L S_T phi_S : admissible ps S sp -> 0 < s_ph_t_sq sp ->
  s_ph_t_sq sp + sq (a_mh ps) < sq (s_z sp * (S * s_y sp) / (2 * a_M ps)) ->
  let k := make_kin ps S sp in
  born sf k ph lambda_e (V3 (S_T * cos (phi_S - s_phi_h sp)) (S_T * sin (phi_S - s_phi_h sp)) S_L) =
  massive_sidis (p_alpha_qed ph) (s_x sp) (s_y sp) (S * s_x sp * s_y sp) (a_M ps) (a_m ps) (fun n => sf n (point_of k)) lambda_e S_L S_T (s_phi_h sp) phi_S.
Proof.
  intros A Ht H k. destruct (adm_nonzero _ _ _ A H) as (e & He & L). pose proof (same_kin_at _ _ _ _ He) as K. fold k in K.
  pose proof (make_kin_inputs ps S sp) as I. fold k in I.
  destruct He as (PH & Es & ES & EM & Em & Eh). pose proof (physical_ok e PH) as OK.
  assert (Hpt : 0 < e_pt e).
  { pose proof (ph_pt e PH) as P0. destruct P0 as [P0|P0]; [auto|exfalso]. rewrite <- Es in Ht. unfold event_space in Ht. cbn [s_ph_t_sq] in Ht. rewrite <- P0 in Ht. unfold sq in Ht. lra. }
  assert (Ephi : s_phi_h sp = e_phi_h e) by (rewrite <- Es; reflexivity). rewrite Ephi.
  pose proof (born_at _ _ _ _ _ _ _ _ _ _ _ _ _ _ OK Hpt L k K sf ph lambda_e S_L S_T phi_S) as B. rewrite B.
  replace (kx k) with (s_x sp) by reflexivity. replace (ky k) with (s_y sp) by reflexivity. replace (kQ_sq k) with (S * s_x sp * s_y sp) by reflexivity.
  replace (kM k) with (a_M ps) by reflexivity. replace (km k) with (a_m ps) by reflexivity. reflexivity.
Qed.

(** * Integrands *)
Lemma rad_f_integrand_is sf k ph l eta k0 x : rad_f_integrand sf k ph l eta k0 x =
  match take3_cut (cut_k_0_bar (mk_bound (Fin 0) (Fin k0))) k x with
  | Some (r, jac) => match rad_f sf r ph l eta with Some s => jac * s | None => 0 end
  | None => 0 end.
Proof.
  unfold rad_f_integrand. cbv zeta. destruct (take3_cut _ k x) as [[r jac]|] eqn:E; [|reflexivity]. rewrite rad_f_is_0.
  unfold take3_cut in E. destruct (sample3 _ _ _ _ _) as [[[[tau phi_k] R] j]|]; [|discriminate]. cbv zeta in E.
  destruct (valid_cut_rad _ _); [|discriminate]. assert (r = make_rad k tau phi_k R) as -> by congruence. rewrite make_rad_copies. reflexivity.
Qed.

(** What the integrands are evaluated at. *)
Lemma le_fin_inv a b : BoundSpec.ext_le (Fin a) (Fin b) -> a <= b.
Proof. intros H. inversion H. assumption. Qed.
Lemma fin_window a b k0 : contains (mk_bound (Fin 0) (Fin k0)) (ediv (Fin a) (Fin b)) = true -> 0 <= k0 -> b <> 0 /\ 0 <= a / b <= k0.
Proof.
  intros H H0. apply contains_points in H. destruct (proj1 (mk_bound_points _ _ _) H) as [H1 H2]. clear H.
  cbn [ediv] in *. unfold sinf in *. destruct (reqb b 0) eqn:E.
  - exfalso. destruct (rltb 0 a); [inversion H2|]. destruct (rltb a 0); inversion H1.
  - apply le_fin_inv in H1, H2. split; [|split; assumption]. intros ->. rewrite (proj2 (reqb_spec 0 0) eq_refl) in E. discriminate.
Qed.
Lemma rad_f_window sf k ph l eta k0 x : 0 <= k0 -> rad_f_integrand sf k ph l eta k0 x <> 0 ->
  exists tau phi_k R jac v, let r := make_rad k tau phi_k R in rad_f sf r ph l eta = Some v /\
    rad_f_integrand sf k ph l eta k0 x = jac * v /\ valid_rad r = true /\ rmx r <> 0 /\ 0 <= rk_0_bar r <= k0.
Proof.
  intros H0. rewrite rad_f_integrand_is. destruct (take3_cut _ k x) as [[r jac]|] eqn:E; [|congruence].
  destruct (rad_f sf r ph l eta) as [v|] eqn:F; [|congruence]. intros _.
  unfold take3_cut in E. destruct (sample3 _ _ _ _ _) as [[[[tau phi_k] R] j]|]; [|discriminate]. cbv zeta in E.
  destruct (valid_cut_rad _ _) eqn:V; [|discriminate]. assert (r = make_rad k tau phi_k R /\ jac = j) as [-> <-] by (split; congruence).
  exists tau, phi_k, R, jac, v. cbv zeta. split; [exact F|]. split; [reflexivity|].
  unfold valid_cut_rad in V. cbv zeta in V. rewrite chain in V. destruct V as [V1 V]. split; [exact V1|].
  rewrite !fails_chain in V. destruct V as (_ & _ & _ & V & _).
  cbn [cut_k_0_bar d_k_0_bar] in V.
  assert (IS : CutSpec.is_set (mk_bound (Fin 0) (Fin k0))) by (apply mk_bound_valid; constructor; exact H0). specialize (V IS).
  apply fin_window in V; [|exact H0]. destruct V as [V2 V3].
  rewrite (re_k_0_bar _ (make_rad_eqs k tau phi_k R)). split; [|exact V3]. intros Z. apply V2. rewrite Z. ring.
Qed.
Lemma rad_window sf k ph l eta k0 x : rad_integrand sf k ph l eta k0 x <> 0 ->
  exists tau phi_k R jac, let r := make_rad k tau phi_k R in
    rad_integrand sf k ph l eta k0 x = jac * rad sf r ph l eta /\ valid_rad r = true /\ (rmx r <> 0 -> k0 <= rk_0_bar r).
Proof.
  unfold rad_integrand. destruct (take3_cut _ k x) as [[r jac]|] eqn:E; [|congruence]. intros _.
  unfold take3_cut in E. destruct (sample3 _ _ _ _ _) as [[[[tau phi_k] R] j]|]; [|discriminate]. cbv zeta in E.
  destruct (valid_cut_rad _ _) eqn:V; [|discriminate]. assert (r = make_rad k tau phi_k R /\ jac = j) as [-> <-] by (split; congruence).
  exists tau, phi_k, R, jac. cbv zeta. split; [reflexivity|].
  unfold valid_cut_rad in V. cbv zeta in V. rewrite chain in V. destruct V as [V1 V]. split; [exact V1|].
  rewrite !fails_chain in V. destruct V as (_ & _ & _ & V & _). cbn [cut_k_0_bar d_k_0_bar] in V.
  assert (IS : CutSpec.is_set (mk_bound (Fin k0) PInf)) by (apply mk_bound_valid; constructor). specialize (V IS).
  apply contains_points in V. apply (proj1 (mk_bound_points _ _ _)) in V. destruct V as [V _].
  intros Z. rewrite (re_k_0_bar _ (make_rad_eqs k tau phi_k R)). cbn [ediv] in V.
  destruct (reqb _ 0) eqn:Q; [apply reqb_spec in Q; exfalso; apply Z; lra|apply le_fin_inv; exact V].
Qed.

Lemma negative_window : exists k0, k0 < 0 /\
  forall k x r jac, take3_cut (cut_k_0_bar BOUND_INVALID) k x = Some (r, jac) -> take3_cut (cut_k_0_bar (mk_bound (Fin 0) (Fin k0))) k x = Some (r, jac).
Proof.
  exists (-1). split; [lra|]. intros k x r jac H. replace (mk_bound (Fin 0) (Fin (-1))) with BOUND_INVALID; [exact H|].
  unfold mk_bound. cbn [eleb]. replace (rleb 0 (-1)) with false; [reflexivity|]. symmetry. destruct (rleb 0 (-1)) eqn:E; [|reflexivity]. apply rleb_spec in E. lra.
Qed.

(** * Derivative formula at the switching point *)
Lemma diff_R3_match h f0 f1 f2 : h <> 0 -> diff_R3 h h f0 f1 f2 = div3 (sub3 f1 f0) h.
Proof. intros H. rewrite diff_R3_components, !diff_R_match by auto. unfold div3, sub3. reflexivity. Qed.
Lemma deriv_match h : h <> 0 ->
  (forall h1 h0 h2, make_had_rad_f_base_uu_deriv h h h1 h0 h1 h2 = make_had_rad_f_base_uu_diff h h1 h0) /\
  (forall h1 h0 h2, make_had_rad_f_base_up_deriv h h h1 h0 h1 h2 = make_had_rad_f_base_up_diff h h1 h0) /\
  (forall h1 h0 h2, make_had_rad_f_base_lu_deriv h h h1 h0 h1 h2 = make_had_rad_f_base_lu_diff h h1 h0) /\
  (forall h1 h0 h2, make_had_rad_f_base_lp_deriv h h h1 h0 h1 h2 = make_had_rad_f_base_lp_diff h h1 h0).
Proof.
  intros H. repeat split; intros h1 h0 h2.
  - unfold make_had_rad_f_base_uu_deriv, make_had_rad_f_base_uu_diff. rewrite !diff_R_match by auto. reflexivity.
  - unfold make_had_rad_f_base_up_deriv, make_had_rad_f_base_up_diff. rewrite !diff_R3_match by auto. unfold div3, sub3, scale3. cbn [x3 y3 z3]. f_equal; f_equal; field; auto.
  - unfold make_had_rad_f_base_lu_deriv, make_had_rad_f_base_lu_diff. rewrite !diff_R_match by auto. reflexivity.
  - unfold make_had_rad_f_base_lp_deriv, make_had_rad_f_base_lp_diff. rewrite !diff_R3_match by auto. unfold div3, sub3, scale3. cbn [x3 y3 z3]. f_equal; f_equal; field; auto.
Qed.

Lemma nrad_cutoff dilog sf k ph lambda_e eta k0 k1 : 0 < km k -> 0 < kmx k -> sq (kMth k) < kmx_sq k -> 0 < k0 -> 0 < k1 ->
  exists n0 n1 h0 h1, nrad_ir dilog sf k ph lambda_e eta k0 = Some n0 /\ nrad_ir dilog sf k ph lambda_e eta k1 = Some n1 /\
    delta_rad_ir_hard k k0 = Fin h0 /\ delta_rad_ir_hard k k1 = Fin h1 /\
    n0 + p_alpha_qed ph / PI * h0 * born sf k ph lambda_e eta = n1 + p_alpha_qed ph / PI * h1 * born sf k ph lambda_e eta.
Proof.
  intros Hm Hx HT H0 H1. pose proof (cutoff_sum dilog k Hm Hx HT k0 H0) as A. pose proof (cutoff_sum dilog k Hm Hx HT k1 H1) as B.
  set (s := delta_vert_rad_0 dilog k + _) in *.
  assert (X : forall a b c, eadd a b = Fin c -> exists u v, a = Fin u /\ b = Fin v /\ u + v = c).
  { intros [a| | |] [b| | |] c; cbn [eadd]; try discriminate. intros E. exists a, b. assert (FI : forall u v, Fin u = Fin v -> u = v) by (intros u v [=]; auto). apply FI in E. auto. }
  destruct (X _ _ _ A) as (v0 & h0 & E0 & F0 & S0). destruct (X _ _ _ B) as (v1 & h1 & E1 & F1 & S1).
  do 2 eexists. exists h0, h1. rewrite (nrad_ir_is dilog sf _ _ _ _ _ _ E0), (nrad_ir_is dilog sf _ _ _ _ _ _ E1).
  split; [reflexivity|]. split; [reflexivity|]. split; [auto|]. split; [auto|]. replace v0 with (s - h0) by lra. replace v1 with (s - h1) by lra. ring.
Qed.
Lemma born_parity ps S sp sf ph :
  let sp' := PhaseSpace (s_x sp) (s_y sp) (s_z sp) (s_ph_t_sq sp) (- s_phi_h sp) (s_phi sp) in
  let b s := born sf (make_kin ps S s) ph in
  b sp' 0 (V3 0 0 0) = b sp 0 (V3 0 0 0) /\
  (forall l, b sp' l (V3 0 0 0) - b sp' 0 (V3 0 0 0) = - (b sp l (V3 0 0 0) - b sp 0 (V3 0 0 0))) /\
  (forall a, b sp' 0 (V3 0 0 a) - b sp' 0 (V3 0 0 0) = - (b sp 0 (V3 0 0 a) - b sp 0 (V3 0 0 0))).
Proof.
  intros sp' b.
  assert (M : forall l x y z, b sp' l (V3 x y z) = b sp (- l) (V3 (- x) y (- z))).
  { intros l x y z. unfold b. exact (born_m _ _ (make_kin_mirror ps S sp) sf ph l (V3 x y z)). }
  destruct (born_parts sf ph (make_kin ps S sp)) as (uu & up & lu & lp & P).
  assert (Q : forall l eta, b sp l eta = four_parts uu up lu lp l eta) by exact P.
  repeat split; intros; rewrite !M, !Q; unfold four_parts; cbn [x3 y3 z3]; ring.
Qed.
(** A structure-function set that is 1 for the transverse unpolarised one and 0 for the other unpolarised ones. *)
Lemma born_uut ps S sp sf ph : admissible ps S sp -> 0 < s_ph_t_sq sp ->
  s_ph_t_sq sp + sq (a_mh ps) < sq (s_z sp * (S * s_y sp) / (2 * a_M ps)) ->
  (forall p, sf F_UUT p = 1) -> (forall p, sf F_UUL p = 0) -> (forall p, sf F_UU_cos_phih p = 0) -> (forall p, sf F_UU_cos_2phih p = 0) ->
  let Q_sq := S * s_x sp * s_y sp in let g2 := gamma_sq (s_x sp) Q_sq (a_M ps) in let y := s_y sp in
  born sf (make_kin ps S sp) ph 0 (V3 0 0 0) =
  p_alpha_qed ph ^ 2 / (s_x sp * y * Q_sq) * (y ^ 2 / 2) * (1 + g2 / (2 * s_x sp)) * (S ^ 2 / (S ^ 2 - 4 * a_M ps ^ 2 * a_m ps ^ 2))
  * (((2 - y) ^ 2 / (y ^ 2 * (1 + g2)) + 1 - 4 * a_m ps ^ 2 / Q_sq) / 2).
Proof.
  intros A Ht H U1 U2 U3 U4 Q_sq g2 y. pose proof (born_textbook ps S sp sf ph 0 0 0 0 A Ht H) as B. cbv zeta in B. rewrite !Rmult_0_l in B.
  assert (Hs : Q_sq / (s_x sp * s_y sp) = S). { destruct A as (_ & _ & _ & HS & Hx & Hy & _). unfold Q_sq. field. lra. }
  rewrite B. unfold massive_sidis. cbv zeta. fold Q_sq. fold g2. rewrite Hs. fold y. unfold modulations, massive_fluxes. cbv zeta. cbn [f_T f_L f_TT f_LT f_LT' f_T'].
  rewrite U1, U2, U3, U4. ring.
Qed.
