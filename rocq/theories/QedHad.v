(** The hadronic coefficients of the code against the components of the hadronic tensor. *)
From Coq Require Import Reals List Lra Ring Field Psatz Lia.
From Verif Require Import ParamModel MathModel ParticleModel VecModel TransModel FrameBase FrameModel SfModel KinModel KinSpec KinRadProofs KinEqs KinEvent KinFinal FrameRot KinAll HadModel
  QedSpec QedAlg QedWord QedTab QedEvent QedXsSpec QedHadSpec QedFrame.
Import ListNotations.
Local Open Scope R_scope.

Lemma at_app w w' u v : tensor_at (w ++ w') u v = cadd (tensor_at w u v) (tensor_at w' u v).
Proof. unfold tensor_at. induction w as [|t w IH]; cbn [app fold_right]; [apply cx_eq; cbn [re im cadd c0 creal]; ring|]. rewrite IH. apply cx_eq; cbn [re im cadd]; ring. Qed.
Lemma at_weigh x w u v : tensor_at (weigh x w) u v = cmul (creal x) (tensor_at w u v).
Proof. unfold tensor_at, weigh. induction w as [|t w IH]; cbn [map fold_right fst snd]; [apply cx_eq; cbn [re im cmul c0 creal]; ring|]. rewrite IH. apply cx_eq; cbn [re im cadd cmul creal]; ring. Qed.
Lemma at_both c d a b u v : tensor_at (both c d a b) u v = cadd (cmul c (creal (dot4 a u * dot4 b v))) (cmul d (creal (dot4 b u * dot4 a v))).
Proof. unfold tensor_at, both. cbn [fold_right fst snd]. apply cx_eq; cbn [re im cadd cmul creal c0]; ring. Qed.

Section At.
Variables (q p h : vec4) (H : nat -> R).
Hypothesis Hq : dot4 q q <> 0.
Let P := project_off q p.
Let Hh := project_off q h.
Let n := normal q p h.
Lemma at_g u v : tensor_at (had_struct q p h 1) u v = creal (- dot4 u v + dot4 q u * dot4 q v / dot4 q q).
Proof.
  assert (T : forall x, dot4 VEC4_T x = t4 x) by (intros; unfold VEC4_T; vec). assert (X : forall x, dot4 VEC4_X x = - x4 x) by (intros; unfold VEC4_X; vec).
  assert (Y : forall x, dot4 VEC4_Y x = - y4 x) by (intros; unfold VEC4_Y; vec). assert (Z : forall x, dot4 VEC4_Z x = - z4 x) by (intros; unfold VEC4_Z; vec).
  assert (D : dot4 u v = t4 u * t4 v - x4 u * x4 v - y4 u * y4 v - z4 u * z4 v) by vec.
  unfold tensor_at, had_struct. cbn [map metric app fold_right fst snd]. rewrite !T, !X, !Y, !Z, D.
  apply cx_eq; cbn [re im cadd cmul creal c0]; [|ring]. field. exact Hq.
Qed.
Lemma at_tensor u v : tensor_at (had_tensor q p h H) u v =
  Cx (H 1%nat * (- dot4 u v + dot4 q u * dot4 q v / dot4 q q) + H 2%nat * (dot4 P u * dot4 P v) + H 3%nat * (dot4 Hh u * dot4 Hh v)
      + H 4%nat * (dot4 P u * dot4 Hh v + dot4 Hh u * dot4 P v) + H 6%nat * (dot4 P u * dot4 n v + dot4 n u * dot4 P v) + H 8%nat * (dot4 Hh u * dot4 n v + dot4 n u * dot4 Hh v))
     (H 5%nat * (dot4 P u * dot4 Hh v - dot4 Hh u * dot4 P v) + H 7%nat * (dot4 P u * dot4 n v - dot4 n u * dot4 P v) + H 9%nat * (dot4 Hh u * dot4 n v - dot4 n u * dot4 Hh v)).
Proof.
  unfold had_tensor. cbn [flat_map]. rewrite !at_app, !at_weigh, at_g. unfold had_struct at 3 4 5 6 7 8. fold P Hh n. rewrite !at_both.
  unfold had_struct. fold P Hh n. unfold tensor_at. cbn [fold_right fst snd].
  apply cx_eq; cbn [re im cadd cmul creal c0 c1 ci cmi]; ring.
Qed.
Lemma q_P : dot4 q P = 0. Proof. unfold P, project_off. rewrite dot_sub_r, dot_scale_r, (dot_comm q p). field. exact Hq. Qed.
Lemma q_H : dot4 q Hh = 0. Proof. unfold Hh, project_off. rewrite dot_sub_r, dot_scale_r, (dot_comm q h). field. exact Hq. Qed.
Lemma n_q : dot4 n q = 0. Proof. unfold n. rewrite normal_dot. vec. Qed.
Lemma n_p : dot4 n p = 0. Proof. unfold n. rewrite normal_dot. vec. Qed.
Lemma n_h : dot4 n h = 0. Proof. unfold n. rewrite normal_dot. vec. Qed.
Lemma n_P : dot4 n P = 0. Proof. unfold P, project_off. rewrite dot_sub_r, dot_scale_r, n_p, n_q. ring. Qed.
Lemma n_H : dot4 n Hh = 0. Proof. unfold Hh, project_off. rewrite dot_sub_r, dot_scale_r, n_h, n_q. ring. Qed.
(** The tensor is transverse. *)
Lemma at_transverse u : tensor_at (had_tensor q p h H) q u = c0 /\ tensor_at (had_tensor q p h H) u q = c0.
Proof.
  rewrite !at_tensor, n_q, (dot_comm P q), (dot_comm Hh q), q_P, q_H, (dot_comm u q). split; apply cx_eq; cbn [re im c0 creal]; try ring; field; exact Hq.
Qed.
End At.

(** ** Axes and invariants *)
Section Axes.
Variables (v : transfer_vals) (p k1 q h : vec4).
Hypothesis N : transfer_names v p k1 q h.
Hypothesis Hpp : 0 < dot4 p p.
Hypothesis Hqq : dot4 q q < 0.
Hypothesis Hpq : dot4 p q <> 0.
Hypothesis Hpt : 0 < iph_t v.
Let P := project_off q p.
Let Hh := project_off q h.
Let n := normal q p h.
Let T := transverse q p h.
Let pp := dot4 p p. Let pq := dot4 p q. Let qq := dot4 q q. Let hp := dot4 p h. Let hq := dot4 q h. Let hh := dot4 h h.
Let g2 := pq * pq - pp * qq.
Lemma g2_pos : 0 < g2.
Proof. unfold g2. assert (0 < pp * - qq) by (apply Rmult_lt_0_compat; unfold pp, qq; lra). pose proof (Rle_0_sqr pq) as X. unfold Rsqr in X. lra. Qed.
Lemma PP : dot4 P P = g2 / - qq.
Proof. unfold P, project_off. rewrite !dot_sub_l, !dot_sub_r, !dot_scale_l, !dot_scale_r, (dot_comm q p). fold pp pq qq. unfold g2. field. unfold qq. lra. Qed.
Lemma HP : dot4 Hh P = hp - hq * pq / qq.
Proof. unfold P, Hh, project_off. rewrite !dot_sub_l, !dot_sub_r, !dot_scale_l, !dot_scale_r, (dot_comm q p), (dot_comm h p), (dot_comm h q). fold pp pq qq hp hq. field. unfold qq. lra. Qed.
Lemma HHe : dot4 Hh Hh = hh - hq * hq / qq.
Proof. unfold Hh, project_off. rewrite !dot_sub_l, !dot_sub_r, !dot_scale_l, !dot_scale_r, (dot_comm h q). fold qq hq hh. field. unfold qq. lra. Qed.
Lemma TP : dot4 T P = 0.
Proof. unfold T, transverse. fold P Hh. rewrite dot_sub_l, dot_scale_l. field. rewrite PP. pose proof g2_pos. apply Rgt_not_eq, Rdiv_lt_0_compat; [exact H|unfold qq; lra]. Qed.
Lemma qT : dot4 q T = 0.
Proof. unfold T, transverse. fold P Hh. rewrite dot_sub_r, dot_scale_r. unfold P, Hh. rewrite q_P, q_H by (unfold qq in *; lra). ring. Qed.
Lemma HT : dot4 Hh T = dot4 T T.
Proof.
  assert (E : dot4 T T = dot4 Hh T - dot4 Hh P / dot4 P P * dot4 P T) by (unfold T at 1; unfold transverse; fold P Hh; rewrite dot_sub_l, dot_scale_l; reflexivity).
  rewrite E, (dot_comm P T), TP. ring.
Qed.
Lemma TT : dot4 T T = dot4 Hh Hh - dot4 Hh P * dot4 Hh P / dot4 P P.
Proof. rewrite <- HT. unfold T, transverse. fold P Hh. rewrite dot_sub_r, dot_scale_r. unfold Rdiv. ring. Qed.
Lemma TTe : dot4 T T = - iph_t_sq v.
Proof.
  rewrite TT, HHe, HP, PP, (n_ph_t_sq _ _ _ _ _ N). pose proof g2_pos as G. unfold gram3, gram2, TransModel.det3, mk_tr3, dot3, cross3. cbn [rx ry rz x3 y3 z3].
  rewrite (dot_comm q p), (dot_comm h p), (dot_comm h q). fold pp pq qq hp hq hh. unfold g2. field. unfold g2 in G. unfold qq in *. lra.
Qed.
Let Q := iQ v. Let Y := ilambda_Y_sqrt v. Let pt := iph_t v.
Lemma Q_pos : 0 < Q. Proof. unfold Q. rewrite (n_Q _ _ _ _ _ N). apply sqrt_lt_R0. unfold norm_sq4. lra. Qed.
Lemma Q_Q : Q * Q = - qq. Proof. unfold Q. rewrite (n_Q _ _ _ _ _ N). apply sqrt_sqrt. unfold norm_sq4, qq. lra. Qed.
Lemma sdq : sdot p q q = g2 / pp. Proof. unfold sdot. fold pp pq qq. reflexivity. Qed.
Lemma sdq_pos : 0 < sdot p q q. Proof. rewrite sdq. apply Rdiv_lt_0_compat; [exact g2_pos|exact Hpp]. Qed.
Lemma Y_pos : 0 < Y.
Proof. unfold Y. rewrite (n_lambda_Y_sqrt _ _ _ _ _ N). pose proof (sqrt_lt_R0 _ sdq_pos). pose proof (sqrt_lt_R0 _ Hpp). unfold norm_sq4. apply Rmult_lt_0_compat; [lra|assumption]. Qed.
Lemma Y_Y : Y * Y = 4 * g2.
Proof.
  unfold Y. rewrite (n_lambda_Y_sqrt _ _ _ _ _ N). pose proof (sqrt_sqrt _ (Rlt_le _ _ sdq_pos)) as A. pose proof (sqrt_sqrt _ (Rlt_le _ _ Hpp)) as B. unfold norm_sq4.
  transitivity (4 * (sqrt (dot4 p p) * sqrt (dot4 p p)) * (sqrt (sdot p q q) * sqrt (sdot p q q))); [ring|]. rewrite A, B, sdq. fold pp. field. unfold pp. lra.
Qed.
Lemma lY : ilambda_Y v = Y * Y. Proof. rewrite Y_Y, (n_lambda_Y _ _ _ _ _ N). unfold gram2, g2. fold pp pq qq. ring. Qed.
Lemma pt_pt : pt * pt = iph_t_sq v.
Proof.
  pose proof Hpt as X. unfold pt. rewrite (n_ph_t _ _ _ _ _ N) in *. unfold across in *.
  assert (A : 0 < sdot p h h - sq (along p h q)). { destruct (Rlt_le_dec 0 (sdot p h h - sq (along p h q))) as [|C]; auto. rewrite (sqrt_neg_0 _ C) in X. lra. }
  rewrite sqrt_sqrt by lra. unfold along, sq. pose proof (sqrt_lt_R0 _ sdq_pos). pose proof (sqrt_sqrt _ (Rlt_le _ _ sdq_pos)) as B.
  replace (sdot p h q / sqrt (sdot p q q) * (sdot p h q / sqrt (sdot p q q))) with (sdot p h q * sdot p h q / (sqrt (sdot p q q) * sqrt (sdot p q q))) by (field; lra).
  rewrite B, (n_ph_t_sq _ _ _ _ _ N). pose proof g2_pos as G. unfold sdot, gram3, gram2, TransModel.det3, mk_tr3.
  rewrite (dot_comm q p), (dot_comm h p), (dot_comm h q). fold pp pq qq hp hq hh. unfold g2 in G. field. unfold pp in *. lra.
Qed.
Lemma TTp : dot4 T T = - (pt * pt). Proof. rewrite TTe, pt_pt. reflexivity. Qed.
Lemma nn : dot4 n n = - (Y * pt / 2 * (Y * pt / 2)).
Proof.
  assert (E : dot4 n n = g2 * dot4 T T).
  { rewrite TT, HHe, HP, PP. unfold n at 1. rewrite normal_dot. unfold n. rewrite det_cyc, det_normal. unfold det3.
    rewrite (dot_comm q p), (dot_comm h p), (dot_comm h q). fold pp pq qq hp hq hh. pose proof g2_pos as G. unfold g2 in *. field. unfold qq in *. lra. }
  rewrite E, TTp. replace g2 with (Y * Y / 4) by (rewrite Y_Y; field). field.
Qed.
Lemma sqrt_sqp x : 0 <= x -> sqrt (x * x) = x. Proof. apply sqrt_square. Qed.
Lemma ax0 : axis q p h 0 = scale4 (2 * Q / Y) P.
Proof.
  unfold axis. fold P. unfold norm_sq4. f_equal. rewrite PP. pose proof Q_pos. pose proof Y_pos.
  replace (g2 / - qq) with (Y / (2 * Q) * (Y / (2 * Q))). { rewrite sqrt_sqp by (apply Rlt_le, Rdiv_lt_0_compat; lra). field. lra. }
  transitivity (Y * Y / 4 / (Q * Q)); [field; lra|]. rewrite Q_Q, Y_Y. field. unfold qq. lra.
Qed.
Lemma ax1 : axis q p h 1 = scale4 (/ pt) T.
Proof. unfold axis. fold T. unfold norm_sq4. do 2 f_equal. rewrite TTp, Ropp_involutive. apply sqrt_sqp. unfold pt. lra. Qed.
Lemma ax2 : axis q p h 2 = scale4 (/ (Y * pt / 2)) n.
Proof. unfold axis. fold n. unfold norm_sq4. do 2 f_equal. rewrite nn, Ropp_involutive. apply sqrt_sqp. pose proof Y_pos. unfold pt. apply Rlt_le. apply Rmult_lt_0_compat; [apply Rmult_lt_0_compat; assumption|lra]. Qed.
Lemma HPe : dot4 Hh P = ilambda_3 v * iS_x v / (2 * (Q * Q)).
Proof. rewrite HP, (n_lambda_3 _ _ _ _ _ N), (n_S_x _ _ _ _ _ N), Q_Q. unfold norm_sq4. fold pp pq qq hp hq. field. unfold qq, pq in *. lra. Qed.
Lemma PPe : dot4 P P = Y * Y / (4 * (Q * Q)).
Proof. rewrite PP, Q_Q, Y_Y. field. unfold qq. lra. Qed.
Lemma l2e : ilambda_2 v = ilambda_3 v * iS_x v * (ilambda_3 v * iS_x v) / (Y * Y) - Q * Q * (pt * pt).
Proof.
  pose proof TT as E. rewrite TTp, HPe, PPe, HHe in E. assert (L : ilambda_2 v = Q * Q * (hh - hq * hq / qq)).
  { rewrite (n_lambda_2 _ _ _ _ _ N), Q_Q. unfold gram2. fold qq hq hh. field. unfold qq. lra. }
  rewrite L. replace (hh - hq * hq / qq) with (- (pt * pt) + ilambda_3 v * iS_x v / (2 * (Q * Q)) * (ilambda_3 v * iS_x v / (2 * (Q * Q))) / (Y * Y / (4 * (Q * Q)))) by lra.
  pose proof Q_pos. pose proof Y_pos. field. lra.
Qed.
(** Products of the structures with the dual axes. *)
Let d i := dual q p h i.
Let a := ilambda_3 v * iS_x v / (Q * Y).
Lemma P_d0 : dot4 P (d 0%nat) = Y / (2 * Q). Proof. unfold d, dual. rewrite ax0, dot_scale_r, PPe. pose proof Q_pos. pose proof Y_pos. field. lra. Qed.
Lemma H_d0 : dot4 Hh (d 0%nat) = a. Proof. unfold d, dual, a. rewrite ax0, dot_scale_r, HPe. pose proof Q_pos. pose proof Y_pos. field. lra. Qed.
Lemma n_d0 : dot4 n (d 0%nat) = 0. Proof. unfold d, dual. rewrite ax0, dot_scale_r. unfold n, P. rewrite n_P. ring. Qed.
Lemma q_d0 : dot4 q (d 0%nat) = 0. Proof. unfold d, dual. rewrite ax0, dot_scale_r. unfold P. rewrite q_P by lra. ring. Qed.
Lemma P_d1 : dot4 P (d 1%nat) = 0. Proof. unfold d, dual. rewrite ax1, !dot_scale_r, dot_comm, TP. ring. Qed.
Lemma H_d1 : dot4 Hh (d 1%nat) = pt. Proof. unfold d, dual. rewrite ax1, !dot_scale_r, HT, TTp. field. unfold pt. lra. Qed.
Lemma n_d1 : dot4 n (d 1%nat) = 0.
Proof. unfold d, dual. rewrite ax1, !dot_scale_r. unfold T, transverse. fold P Hh. rewrite dot_sub_r, dot_scale_r. unfold n, P, Hh. rewrite n_P, n_H. ring. Qed.
Lemma q_d1 : dot4 q (d 1%nat) = 0. Proof. unfold d, dual. rewrite ax1, !dot_scale_r, qT. ring. Qed.
Lemma P_d2 : dot4 P (d 2%nat) = 0. Proof. unfold d, dual. rewrite ax2, !dot_scale_r, dot_comm. unfold n, P. rewrite n_P. ring. Qed.
Lemma H_d2 : dot4 Hh (d 2%nat) = 0. Proof. unfold d, dual. rewrite ax2, !dot_scale_r, dot_comm. unfold n, Hh. rewrite n_H. ring. Qed.
Lemma n_d2 : dot4 n (d 2%nat) = Y * pt / 2. Proof. unfold d, dual. rewrite ax2, !dot_scale_r, nn. pose proof Y_pos. unfold pt. field. lra. Qed.
Lemma q_d2 : dot4 q (d 2%nat) = 0. Proof. unfold d, dual. rewrite ax2, !dot_scale_r, dot_comm. unfold n. rewrite n_q. ring. Qed.
Lemma d_d i j : (i < 3)%nat -> (j < 3)%nat -> dot4 (d i) (d j) = if Nat.eqb i j then (if Nat.eqb i 0 then 1 else -1) else 0.
Proof.
  pose proof Q_pos. pose proof Y_pos. assert (0 < pt) by exact Hpt.
  assert (D0 : forall x, dot4 (d 0%nat) x = 2 * Q / Y * dot4 P x) by (intros; unfold d, dual; rewrite ax0, dot_scale_l; reflexivity).
  assert (D1 : forall x, dot4 (d 1%nat) x = - / pt * (dot4 Hh x - dot4 Hh P / dot4 P P * dot4 P x)) by (intros; unfold d, dual; rewrite ax1, !dot_scale_l; unfold T, transverse; fold P Hh; rewrite dot_sub_l, dot_scale_l; ring).
  assert (D2 : forall x, dot4 (d 2%nat) x = - / (Y * pt / 2) * dot4 n x) by (intros; unfold d, dual; rewrite ax2, !dot_scale_l; ring).
  intros Hi Hj. destruct i as [|[|[|]]]; [| | |lia]; (destruct j as [|[|[|]]]; [| | |lia]); cbn [Nat.eqb];
    rewrite ?D0, ?D1, ?D2, ?P_d0, ?H_d0, ?n_d0, ?P_d1, ?H_d1, ?n_d1, ?P_d2, ?H_d2, ?n_d2, ?HPe, ?PPe; unfold a; field; lra.
Qed.
(** The weights of the code, written with the quantities [v]. *)
Variables (F : sf_name -> R) (w : vec3).
Definition code_weights (v : transfer_vals) (F : sf_name -> R) (s : vec3) (i : nat) : R :=
  let C := iC_1 v in let L := ilambda_Y v in let Ls := ilambda_Y_sqrt v in let l3 := ilambda_3 v in let Sx := iS_x v in let t2 := iph_t_sq v in let t := iph_t v in let Q := iQ v in
  let H00 := C * F F_UUL in let H01 := - C * F F_UU_cos_phih in let H11 := C * (F F_UU_cos_2phih + F F_UUT) in let H22 := C * (F F_UUT - F F_UU_cos_2phih) in
  let H002 := C * F F_UTL_sin_phih_m_phis in let H012 := C * (F F_UT_sin_phis - F F_UT_sin_2phih_m_phis) in
  let H021 := - C * (F F_UT_sin_2phih_m_phis + F F_UT_sin_phis) in
  let H112 := C * (F F_UT_sin_3phih_m_phis + F F_UTT_sin_phih_m_phis - F F_UT_sin_phih_p_phis) in
  let H121 := C * (F F_UT_sin_3phih_m_phis + F F_UT_sin_phih_p_phis) in
  let H222 := C * (F F_UT_sin_phih_p_phis + F F_UTT_sin_phih_m_phis - F F_UT_sin_3phih_m_phis) in
  let H023 := - C * F F_UL_sin_phih in let H123 := C * F F_UL_sin_2phih in
  let G01 := - C * F F_LU_sin_phih in let G012 := - C * (F F_LT_cos_phis - F F_LT_cos_2phih_m_phis) in let G021 := C * (F F_LT_cos_2phih_m_phis + F F_LT_cos_phis) in
  let G121 := - C * F F_LT_cos_phih_m_phis in let G023 := C * F F_LL_cos_phih in let G123 := - C * F F_LL in
  let w2 a00 a11 a22 a01 := 4 / (sq L * t2) * (L * t2 * iQ_sq v * a00 + sq l3 * sq Sx * a11 - ilambda_2 v * L * a22 - 2 * Sx * l3 * t * Q * Ls * a01) in
  let w4 a11 a22 a01 := 2 / (L * t2) * (l3 * Sx * (a22 - a11) + t * Q * Ls * a01) in
  let w6 a12 a02 := 4 / (Ls ^ 3 * t2) * (l3 * Sx * a12 - Q * t * Ls * a02) in
  let w8 a12 := -2 / (Ls * t2) * a12 in
  let w5 a01 := (2 * Q) / (t * Ls) * a01 in
  let x := x3 s in let y := y3 s in let z := z3 s in
  match i with
  | 1%nat => H22 + y * - H222 | 2%nat => w2 H00 H11 H22 H01 + y * - w2 H002 H112 H222 H012 | 3%nat => 1 / t2 * (H11 - H22) + y * (1 / t2 * (H222 - H112))
  | 4%nat => w4 H11 H22 H01 + y * - w4 H112 H222 H012 | 5%nat => w5 G01 + y * - w5 G012
  | 6%nat => x * w6 H121 H021 + z * w6 H123 H023 | 7%nat => x * w6 G121 G021 + z * w6 G123 G023
  | 8%nat => x * w8 H121 + z * w8 H123 | 9%nat => x * w8 G121 + z * w8 G123 | _ => 0
  end.
Lemma components i j : (i < 3)%nat -> (j < 3)%nat ->
  tensor_at (had_tensor q p h (code_weights v F w)) (d i) (d j) = cmul (creal (iC_1 v)) (had_components F w i j).
Proof.
  intros Hi Hj. rewrite at_tensor by lra. fold P Hh n. rewrite d_d by assumption.
  pose proof Q_pos. pose proof Y_pos. assert (0 < pt) by exact Hpt.
  assert (EQ : iQ_sq v = Q * Q) by (rewrite Q_Q, (n_Q_sq _ _ _ _ _ N); reflexivity).
  destruct i as [|[|[|]]]; [| | |lia]; (destruct j as [|[|[|]]]; [| | |lia]); cbn [Nat.eqb];
    rewrite ?P_d0, ?H_d0, ?n_d0, ?q_d0, ?P_d1, ?H_d1, ?n_d1, ?q_d1, ?P_d2, ?H_d2, ?n_d2, ?q_d2;
    unfold code_weights, had_components, conj, sq; cbv zeta; rewrite lY, l2e, EQ, <- pt_pt; fold Q Y pt; unfold a;
    apply cx_eq; cbn [re im cmul creal]; field; lra.
Qed.
End Axes.
