(** From events and phase-space points to the table of scalar products. *)
From Coq Require Import Reals List Lia Lra Arith Ring Field Psatz.
From Verif Require Import ParamModel MathModel ParticleModel VecModel TransModel FrameBase KinModel LepModel KinSpec KinAll QedSpec QedEval QedTab QedEvent QedMain QedPoint.
Local Open Scope R_scope.
Ltac vec := unfold scale4, add4, sub4, dot4, det_rows, dot3, cross3, r4; cbn [t4 x4 y4 z4 x3 y3 z3]; ring.
Lemma dot_comm a b : dot4 a b = dot4 b a. Proof. vec. Qed.
Lemma dot_sub_l a b c : dot4 (sub4 a b) c = dot4 a c - dot4 b c. Proof. vec. Qed.
Lemma dot_sub_r a b c : dot4 a (sub4 b c) = dot4 a b - dot4 a c. Proof. vec. Qed.
Lemma dot_add_l a b c : dot4 (add4 a b) c = dot4 a c + dot4 b c. Proof. vec. Qed.
Lemma dot_add_r a b c : dot4 a (add4 b c) = dot4 a b + dot4 a c. Proof. vec. Qed.
Lemma dot_scale_l x a c : dot4 (scale4 x a) c = x * dot4 a c. Proof. vec. Qed.
Lemma dot_scale_r x a c : dot4 a (scale4 x c) = x * dot4 a c. Proof. vec. Qed.
Lemma sub_sub a b : sub4 a (sub4 a b) = b.
Proof. destruct b as [b0 b1 b2 b3]. unfold sub4. cbn [t4 x4 y4 z4]. f_equal; ring. Qed.
Lemma gram3_eq a b c : gram3 a b c = dot4 a a * (dot4 b b * dot4 c c - dot4 b c * dot4 b c) - dot4 a b * (dot4 a b * dot4 c c - dot4 b c * dot4 a c) + dot4 a c * (dot4 a b * dot4 b c - dot4 b b * dot4 a c).
Proof. unfold gram3, TransModel.det3, mk_tr3. rewrite (dot_comm b a), (dot_comm c a), (dot_comm c b). cbn. unfold dot3. cbn [x3 y3 z3]. ring. Qed.

Section Names.
Variables (M m mh : R) (p k1 q h kk : vec4) (z mu z1 z2 : R).
Let k2 := sub4 k1 q.
Let nn := normal (sub4 (sub4 k1 k2) kk) p h.
Let d := Dots M m (dot4 p k1) (dot4 p k2) (dot4 k1 k2) (dot4 p kk) z (dot4 h k1) (dot4 h k2) mh mu z1 z2 (dot4 nn k1) (dot4 nn k2).
Hypothesis pp : dot4 p p = M * M.
Hypothesis k11 : dot4 k1 k1 = m * m.
Hypothesis k22 : dot4 k2 k2 = m * m.
Hypothesis hh : dot4 h h = mh * mh.
Hypothesis ph : dot4 p h = z * dot4 p q.
Hypothesis kk0 : dot4 kk kk = 0.
Hypothesis hk : dot4 h kk = dot4 p kk * mu.
Hypothesis k1k : dot4 k1 kk = dot4 p kk * z1.
Hypothesis k2k : dot4 k2 kk = dot4 p kk * z2.
Definition the_dots := d.
Lemma names_tabled : tabled d (named p h nn k1 k2 kk).
Proof.
  unfold d. split; unfold edot; cbn [named dM dm ds dx dc dr dz dv1 dv2 dmh dmu dz1 dz2 dn1 dn2]; try assumption; try reflexivity.
  - rewrite ph. unfold k2. rewrite dot_sub_r. ring.
  - unfold nn. rewrite normal_dot. vec.
  - unfold nn. rewrite normal_dot. vec.
  - unfold nn. rewrite !normal_dot. vec.
Qed.
Lemma q_dot x : dot4 x q = dot4 x k1 - dot4 x k2.
Proof. unfold k2. rewrite dot_sub_r. ring. Qed.
Lemma qq : dot4 q q = 2 * (m * m) - 2 * dot4 k1 k2.
Proof. rewrite q_dot, (dot_comm q k1), (dot_comm q k2), !q_dot, k11, k22, (dot_comm k2 k1). ring. Qed.
Variable k : kin.
Hypothesis N1 : transfer_names (kin_vals k) p k1 q h.
Hypothesis N2 : lepton_names k p k1 q h.
Hypothesis HM : 0 < M.
Hypothesis Hm : 0 <= m.
Hypothesis Hmh : 0 <= mh.
Hypothesis Hz : z = kz k.
Lemma names_fits : fits d (det_rows p h k1 (sub4 k1 k2)) k.
Proof.
  pose proof qq as QQ. unfold d. split; cbn [dM dm ds dx dc dr dz dv1 dv2 dmh dmu dz1 dz2 dn1 dn2].
  - apply (n_S _ _ _ _ _ N2).
  - apply (n_X _ _ _ _ _ N2).
  - rewrite (n_M _ _ _ _ _ N2). unfold norm_sq4. rewrite pp. apply sqrt_square; lra.
  - rewrite (n_m _ _ _ _ _ N2). unfold norm_sq4. rewrite k11. apply sqrt_square; lra.
  - rewrite (n_mh _ _ _ _ _ N2). unfold norm_sq4. rewrite hh. apply sqrt_square; lra.
  - now symmetry.
  - pose proof (n_Q_sq _ _ _ _ _ N1) as E. cbn [kin_vals iQ_sq] in E. rewrite E. unfold norm_sq4. rewrite QQ. ring.
  - pose proof (n_S_x _ _ _ _ _ N1) as E. cbn [kin_vals iS_x] in E. rewrite E, q_dot. ring.
  - rewrite (n_S_p _ _ _ _ _ N2). fold k2. rewrite dot_add_r. ring.
  - rewrite (n_V_1 _ _ _ _ _ N2), (dot_comm k1). reflexivity.
  - rewrite (n_V_2 _ _ _ _ _ N2). fold k2. rewrite (dot_comm k2). reflexivity.
  - pose proof (n_V_m _ _ _ _ _ N1) as E. cbn [kin_vals iV_m] in E. rewrite E, (dot_comm q), q_dot. ring.
  - rewrite (n_V_p _ _ _ _ _ N2). fold k2. rewrite dot_add_l, (dot_comm k1), (dot_comm k2). ring.
  - pose proof (n_lambda_Y _ _ _ _ _ N1) as E. cbn [kin_vals ilambda_Y] in E. rewrite E. unfold gram2, dLY. cbn [dM dm ds dx dc]. rewrite pp, QQ, q_dot. ring.
  - pose proof (n_lambda_1 _ _ _ _ _ N1) as E. cbn [kin_vals ilambda_1] in E. rewrite E, gram3_eq. unfold dL1, dLY. cbn [dM dm ds dx dc]. rewrite pp, QQ, k11, !q_dot, k11. ring.
  - pose proof (n_vol_phi_h _ _ _ _ _ N1) as E. cbn [kin_vals ivol_phi_h] in E. rewrite E. unfold k2. now rewrite sub_sub.
Qed.
(** Polarization vector. *)
Hypothesis Hm' : 0 < m.
Hypothesis HD : M * M * (m * m) < dot4 p k1 * dot4 p k1.
Lemma names_spin s lam : helicity_vector p k1 s ->
  scale4 lam s = add4 (scale4 (lam * / klambda_S_sqrt k * (2 * ds d * / m)) k1) (scale4 (lam * / klambda_S_sqrt k * (- 2 * dm d)) p).
Proof.
  intros (S1 & S2 & S3 & a & b & ->). unfold d. cbn [ds dm]. set (x := dot4 p k1) in *.
  rewrite dot_add_l, !dot_scale_l, k11 in S1. fold x in S1.
  rewrite dot_add_l, !dot_add_r, !dot_scale_l, !dot_scale_r, k11, pp, (dot_comm k1 p) in S2. fold x in S2.
  rewrite dot_add_l, !dot_scale_l, (dot_comm k1 p), pp in S3. fold x in S3.
  assert (EL : klambda_S_sqrt k * klambda_S_sqrt k = 4 * (x * x - M * M * (m * m)) /\ 0 < klambda_S_sqrt k).
  { rewrite (n_lambda_S_sqrt _ _ _ _ _ N2). unfold norm_sq4, sdot. rewrite pp, k11. fold x. rewrite sqrt_square by lra.
    assert (P : 0 < (x * x - M * M * (m * m)) / (M * M)) by (apply Rdiv_lt_0_compat; nra).
    set (y := (x * x - M * M * (m * m)) / (M * M)) in *. pose proof (sqrt_lt_R0 y P) as Y. pose proof (sqrt_sqrt y ltac:(lra)) as Y2.
    split; [|nra]. transitivity (4 * (M * M) * (sqrt y * sqrt y)); [ring|]. rewrite Y2. unfold y. field. lra. }
  destruct EL as [EL PL]. set (l := klambda_S_sqrt k) in *.
  assert (A : a = - (b * x) / (m * m)) by (apply (Rmult_eq_reg_r (m * m)); [|nra]; replace (- (b * x) / (m * m) * (m * m)) with (- (b * x)) by (field; lra); lra).
  assert (B : (b * l) * (b * l) = (2 * m) * (2 * m)).
  { transitivity (b * b * (l * l)); [ring|]. rewrite EL.
    assert (b * b * (x * x - M * M * (m * m)) = m * m); [|nra]. rewrite A in S2.
    assert (E : (b * b * (x * x - M * M * (m * m))) / (m * m) = 1).
    { replace 1 with (- (- (b * x) / (m * m) * (- (b * x) / (m * m) * (m * m) + b * x) + b * (- (b * x) / (m * m) * x + b * (M * M)))) by lra. field. lra. }
    apply (Rmult_eq_reg_r (/ (m * m))); [|apply Rinv_neq_0_compat; nra]. unfold Rdiv in E. rewrite E. field. lra. }
  assert (Bn : b < 0).
  { assert (E : a * x + b * (M * M) = - b * ((x * x - M * M * (m * m)) / (m * m))) by (rewrite A; field; lra). rewrite E in S3.
    assert (P : 0 < (x * x - M * M * (m * m)) / (m * m)) by (apply Rdiv_lt_0_compat; nra). nra. }
  assert (Bl : b * l = - (2 * m)).
  { assert (Z : (b * l - 2 * m) * (b * l + 2 * m) = 0) by lra. destruct (Rmult_integral _ _ Z); [|lra]. nra. }
  assert (Eb : b = / l * (-2 * m)) by (apply (Rmult_eq_reg_r l); [|lra]; rewrite Bl; field; lra).
  assert (Ea : a = / l * (2 * x * / m)) by (rewrite A, Eb; field; lra).
  assert (X : forall u v, scale4 lam (add4 (scale4 u k1) (scale4 v p)) = add4 (scale4 (lam * u) k1) (scale4 (lam * v) p)).
  { intros u v. unfold scale4, add4. cbn [t4 x4 y4 z4]. f_equal; ring. }
  rewrite X, Ea, Eb. f_equal; f_equal; ring.
Qed.
End Names.

(** ** Events *)
Section Event.
Variables (ps : parts) (S : R) (sp : phase_space) (e : event) (tr : tr4).
Hypothesis He : same_event e ps S sp.
Hypothesis Ht : lorentz tr.
Hypothesis Hm : 0 < a_m ps.
Let t := tapp4 tr.
Lemma t_dot a b : dot4 (t a) (t b) = dot4 a b. Proof. apply Ht. Qed.
Lemma t_sub a b : t (sub4 a b) = sub4 (t a) (t b).
Proof. unfold t, tapp4, sub4, dot4, dot3, r4. cbn [t4 x4 y4 z4 x3 y3 z3]. destruct tr. cbn. f_equal; ring. Qed.
Lemma t_scale x a : t (scale4 x a) = scale4 x (t a).
Proof. unfold t, tapp4, scale4, dot4, dot3, r4. cbn [t4 x4 y4 z4 x3 y3 z3]. destruct tr. cbn. f_equal; ring. Qed.
Let k := make_kin ps S sp.
Let p := t (v_p e). Let k1 := t (v_k1 e). Let q := t (v_q e). Let h := t (v_ph e). Let k2 := sub4 k1 q.
Lemma ev_phys : physical e. Proof. apply He. Qed.
Lemma ev_k2 : k2 = t (v_k2 e). Proof. unfold k2, k1, q, v_k2. now rewrite t_sub. Qed.
Lemma ev_masses : e_M e = a_M ps /\ e_m e = a_m ps /\ e_mh e = a_mh ps /\ 0 < a_M ps /\ 0 <= a_mh ps.
Proof. destruct He as ([? ? ? _ _ _ _ _ _ _ _ _ _ _ _] & _ & _ & EM & Em & Emh). rewrite <- EM, <- Emh. rewrite EM, Emh in *. auto. Qed.
Lemma ev_dots : dot4 p p = a_M ps * a_M ps /\ dot4 k1 k1 = a_m ps * a_m ps /\ dot4 k2 k2 = a_m ps * a_m ps /\ dot4 h h = a_mh ps * a_mh ps.
Proof.
  destruct He as ([_ _ _ K1 K2 H _ _ _ _ _ _ _ _ _] & _ & _ & EM & Em & Emh). rewrite ev_k2. unfold p, k1, h. rewrite !t_dot.
  unfold norm_sq4, sq in *. rewrite K1, K2, H, Em, Emh. rewrite <- EM. split; [|auto]. unfold v_p, dot4, dot3, r4. cbn [t4 x4 y4 z4 x3 y3 z3]. ring.
Qed.
Lemma ev_pq : dot4 p q <> 0.
Proof. unfold p, q. rewrite t_dot. destruct ev_phys as [PM _ _ _ _ _ _ Pq _ _ _ _ _ _ _]. unfold v_p, v_q, dot4, dot3, r4. cbn [t4 x4 y4 z4 x3 y3 z3]. nra. Qed.
Lemma ev_D : a_M ps * a_M ps * (a_m ps * a_m ps) < dot4 p k1 * dot4 p k1.
Proof.
  unfold p, k1. rewrite t_dot. destruct ev_masses as (<- & <- & _). destruct ev_phys as [PM Pm _ K1 _ _ Px _ _ _ PE _ _ _ _].
  unfold norm_sq4, v_k1, v_p, dot4, dot3, r4, sq in *. cbn [t4 x4 y4 z4 x3 y3 z3] in *. rewrite <- K1.
  replace (e_M e * e_E e - (0 * e_kx e + 0 * 0 + 0 * e_kz e)) with (e_M e * e_E e) by ring.
  assert (0 < e_M e * e_M e) by nra. assert (0 < e_kx e * e_kx e) by nra. assert (0 <= e_kz e * e_kz e) by nra. nra.
Qed.
Lemma ev_names : transfer_names (kin_vals k) p k1 q h /\ lepton_names k p k1 q h.
Proof. exact (same_names e ps S sp tr He Ht). Qed.
Lemma ev_z : dot4 p h = kz k * dot4 p q.
Proof. destruct ev_names as [N _]. pose proof (n_z _ _ _ _ _ N) as E. cbn [kin_vals iz] in E. rewrite E. field. exact ev_pq. Qed.
Lemma ev_Q : kQ_sq k <> 0.
Proof.
  destruct ev_names as [N _]. pose proof (n_Q_sq _ _ _ _ _ N) as E. cbn [kin_vals iQ_sq] in E. rewrite E. unfold norm_sq4, q. rewrite t_dot.
  destruct ev_phys as [_ _ _ _ _ _ _ _ _ P _ _ _ _ _]. unfold norm_sq4 in P. lra.
Qed.
Lemma ev_lambda1 : klambda_1 k <> 0.
Proof.
  destruct ev_names as [N _]. pose proof (n_lambda_1 _ _ _ _ _ N) as E. cbn [kin_vals ilambda_1] in E. rewrite E, gram3_eq. unfold p, k1, q. rewrite !t_dot.
  destruct ev_phys as [PM _ _ _ _ _ Px _ Pq _ _ _ _ _ _]. unfold v_k1, v_p, v_q, dot4, dot3, r4. cbn [t4 x4 y4 z4 x3 y3 z3].
  match goal with |- ?x <> 0 => replace x with (4 * ((e_M e * e_kx e * e_qz e) * (e_M e * e_kx e * e_qz e))) by ring end.
  assert (0 < e_M e * e_kx e * e_qz e) by (repeat apply Rmult_lt_0_compat; assumption). nra.
Qed.
Variables (s : vec4) (lam : R).
Hypothesis Hs : helicity_vector p k1 s.
Let vz := VEC4_ZERO.
Let nz := normal (sub4 (sub4 k1 k2) vz) p h.
Let d := Dots (a_M ps) (a_m ps) (dot4 p k1) (dot4 p k2) (dot4 k1 k2) (dot4 p vz) (kz k) (dot4 h k1) (dot4 h k2) (a_mh ps) 0 0 0 (dot4 nz k1) (dot4 nz k2).
Lemma zero_dot x : dot4 x vz = 0. Proof. unfold vz, VEC4_ZERO. unfold dot4, dot3, r4. cbn [t4 x4 y4 z4 x3 y3 z3]. ring. Qed.
Lemma ev_qz : sub4 (sub4 k1 k2) vz = q.
Proof. unfold k2. rewrite sub_sub. unfold vz, VEC4_ZERO. destruct q as [a b c f]. unfold sub4. cbn [t4 x4 y4 z4]. now rewrite !Rminus_0_r. Qed.
Lemma ev_tab : tabled d (named p h nz k1 k2 vz) /\ fits d (det_rows p h k1 (sub4 k1 k2)) k /\
  scale4 lam s = add4 (scale4 (lam * / klambda_S_sqrt k * (2 * ds d * / dm d)) k1) (scale4 (lam * / klambda_S_sqrt k * (- 2 * dm d)) p).
Proof.
  destruct ev_dots as (D1 & D2 & D3 & D4). destruct ev_masses as (_ & _ & _ & M1 & M2). destruct ev_names as [N1 N2]. 
  split; [|split].
  - apply names_tabled; try assumption; try (rewrite ?zero_dot; ring). exact ev_z.
  - apply names_fits; try assumption; lra || reflexivity.
  - eapply (names_spin (a_M ps) (a_m ps) (a_mh ps) p k1 q h); try eassumption; exact ev_D.
Qed.
Theorem event_born : let m := a_m ps in let W i := contract (lepton_born m k1 k2 (scale4 lam s)) (had_struct q p h i) in
  let U := LepBornBaseUU k in let P := LepBornBaseUP k in let L := LepBornBaseLU k in let C := LepBornBaseLP k in
  W 1%nat = creal (2 * lb1 U) /\ W 2%nat = creal (2 * lb2 U) /\ W 3%nat = creal (2 * lb3 U) /\ W 4%nat = creal (2 * lb4 U) /\
  W 5%nat = creal (lam * (2 * lb5 L)) /\ W 6%nat = creal (2 * lb6 P) /\ W 7%nat = creal (lam * (2 * lb7 C)) /\ W 8%nat = creal (2 * lb8 P) /\ W 9%nat = creal (lam * (2 * lb9 C)).
Proof.
  cbv zeta. destruct ev_tab as (T1 & T2 & T3).
  pose proof (born_contract p h k1 k2 vz d T1 lam (/ dm d) (/ klambda_S_sqrt k) ltac:(unfold d; cbn [dm]; field; lra) k eq_refl (zero_dot p) T2 eq_refl) as B.
  rewrite ev_qz, <- T3 in B. exact B.
Qed.
Theorem event_pauli : let m := a_m ps in let W i := contract (lepton_pauli m k1 k2 (scale4 lam s)) (had_struct q p h i) in
  let U := LepAmmBaseUU k in let P := LepAmmBaseUP k in let L := LepAmmBaseLU k in let C := LepAmmBaseLP k in let a := 2 * m * kQ_sq k in
  W 1%nat = creal (a * la1 U) /\ W 2%nat = creal (a * la2 U) /\ W 3%nat = creal (a * la3 U) /\ W 4%nat = creal (a * la4 U) /\
  W 5%nat = creal (lam * (a * la5 L)) /\ W 6%nat = creal (a * la6 P) /\ W 7%nat = creal (lam * (a * la7 C)) /\ W 8%nat = creal (a * la8 P) /\ W 9%nat = creal (lam * (a * la9 C)).
Proof.
  cbv zeta. destruct ev_tab as (T1 & T2 & T3).
  pose proof (pauli_contract p h k1 k2 vz d T1 lam (/ dm d) (/ klambda_S_sqrt k) ltac:(unfold d; cbn [dm]; field; lra) k eq_refl (zero_dot p) T2 eq_refl ev_Q) as B.
  rewrite ev_qz, <- T3 in B. exact B.
Qed.

(** ** Radiation *)
Variables (tau phi_k Rk : R) (f : photon).
Hypothesis Hf : same_photon f e tau phi_k Rk.
Hypothesis HR : 0 < Rk.
Let kk := t (v_k e f).
Let nv := t (v_n f).
Let r := make_rad k tau phi_k Rk.
Lemma null_time (E a b c n1 n2 n3 : R) : 0 < E -> 0 < E * E - a * a - b * b - c * c -> n1 * n1 + n2 * n2 + n3 * n3 = 1 -> 0 < E - (n1 * a + n2 * b + n3 * c).
Proof.
  intros HE HP Hn. assert (G : (n1 * a + n2 * b + n3 * c) * (n1 * a + n2 * b + n3 * c) <= (a * a + b * b + c * c)).
  { assert (I : (n1 * a + n2 * b + n3 * c) * (n1 * a + n2 * b + n3 * c) + ((n1 * b - n2 * a) * (n1 * b - n2 * a) + (n1 * c - n3 * a) * (n1 * c - n3 * a) + (n2 * c - n3 * b) * (n2 * c - n3 * b)) = (n1 * n1 + n2 * n2 + n3 * n3) * (a * a + b * b + c * c)) by ring.
    rewrite Hn in I. pose proof (Rle_0_sqr (n1 * b - n2 * a)). pose proof (Rle_0_sqr (n1 * c - n3 * a)). pose proof (Rle_0_sqr (n2 * c - n3 * b)). unfold Rsqr in *. lra. }
  set (x := n1 * a + n2 * b + n3 * c) in *. destruct (Rlt_dec x E) as [L|L]; [lra|]. exfalso. assert (E * E <= x * x) by nra. lra.
Qed.
Lemma n_unit : f_st f * cos (f_phi f) * (f_st f * cos (f_phi f)) + f_st f * sin (f_phi f) * (f_st f * sin (f_phi f)) + f_ct f * f_ct f = 1.
Proof.
  destruct Hf as ((_ & _ & H) & _). unfold sq in H. pose proof (sin2_cos2 (f_phi f)) as Y. unfold Rsqr in Y.
  transitivity (f_st f * f_st f * (sin (f_phi f) * sin (f_phi f) + cos (f_phi f) * cos (f_phi f)) + f_ct f * f_ct f); [ring|]. rewrite Y. lra.
Qed.
Lemma ev_np : dot4 nv p = a_M ps.
Proof. unfold nv, p. rewrite t_dot. destruct ev_masses as (<- & _). unfold v_n, v_p, dot4, dot3, r4. cbn [t4 x4 y4 z4 x3 y3 z3]. ring. Qed.
Lemma ev_nk1 : 0 < dot4 nv k1.
Proof.
  unfold nv, k1. rewrite t_dot. destruct ev_masses as (_ & Em & _). destruct ev_phys as [_ _ _ K1 _ _ _ _ _ _ PE _ _ _ _].
  pose proof (null_time (e_E e) (e_kx e) 0 (e_kz e) (f_st f * cos (f_phi f)) (f_st f * sin (f_phi f)) (f_ct f) PE) as N. unfold norm_sq4, v_k1, dot4, dot3, r4, sq in K1. cbn [t4 x4 y4 z4 x3 y3 z3] in K1.
  rewrite Em in K1. unfold v_n, v_k1, dot4, dot3, r4. cbn [t4 x4 y4 z4 x3 y3 z3]. 
  rewrite Rmult_1_l. pose proof (N ltac:(nra) n_unit). lra.
Qed.
Lemma ev_nk2 : 0 < dot4 nv k2.
Proof.
  rewrite ev_k2. unfold nv. rewrite t_dot. destruct ev_masses as (_ & Em & _). destruct ev_phys as [_ _ _ _ K2 _ _ _ _ _ _ PE _ _ _].
  unfold v_k2, v_k1, v_q, sub4 in *. cbn [t4 x4 y4 z4] in *.
  pose proof (null_time (e_E e - e_q0 e) (e_kx e - 0) (0 - 0) (e_kz e - e_qz e) (f_st f * cos (f_phi f)) (f_st f * sin (f_phi f)) (f_ct f) PE) as N.
  unfold norm_sq4, dot4, dot3, r4, sq in K2. cbn [t4 x4 y4 z4 x3 y3 z3] in K2.
  rewrite Em in K2. unfold v_n, dot4, dot3, r4. cbn [t4 x4 y4 z4 x3 y3 z3]. 
  rewrite Rmult_1_l. pose proof (N ltac:(nra) n_unit). lra.
Qed.
Lemma ev_photon : photon_names r p k1 q h kk nv.
Proof. exact (same_photon_names e f ps S sp tau phi_k Rk tr He Hf Ht). Qed.
Lemma ev_kn : kk = scale4 (Rk / (2 * a_M ps)) nv.
Proof. unfold kk, v_k. rewrite t_scale. fold nv. destruct ev_masses as (<- & _). destruct Hf as (_ & _ & _ & <-). reflexivity. Qed.
Lemma ev_pk : 2 * dot4 p kk = Rk.
Proof. rewrite ev_kn, dot_scale_r, (dot_comm p), ev_np. field. destruct ev_masses as (_ & _ & _ & ? & _). lra. Qed.
Let nk := normal (sub4 (sub4 k1 k2) kk) p h.
Let mu := rmu r. Let z1 := rz_1 r. Let z2 := rz_2 r.
Let dd := Dots (a_M ps) (a_m ps) (dot4 p k1) (dot4 p k2) (dot4 k1 k2) (dot4 p kk) (kz k) (dot4 h k1) (dot4 h k2) (a_mh ps) mu z1 z2 (dot4 nk k1) (dot4 nk k2).
Lemma ev_z1 : 0 < z1.
Proof. unfold z1. rewrite (n_z_1 _ _ _ _ _ _ _ ev_photon), ev_np. apply Rdiv_lt_0_compat; [exact ev_nk1|]. apply ev_masses. Qed.
Lemma ev_z2 : 0 < z2.
Proof. unfold z2. rewrite (n_z_2 _ _ _ _ _ _ _ ev_photon), ev_np. apply Rdiv_lt_0_compat; [exact ev_nk2|]. apply ev_masses. Qed.
Lemma ev_radtab : tabled dd (named p h nk k1 k2 kk) /\ fitsrad dd (det_rows p h k1 (sub4 k1 k2)) (rvol_phi_k_R r) (/ z1) (/ z2) r.
Proof.
  destruct ev_dots as (D1 & D2 & D3 & D4). destruct ev_masses as (_ & _ & _ & M1 & M2). destruct ev_names as [N1 N2]. pose proof ev_photon as N3. pose proof ev_z1. pose proof ev_z2.
  assert (X : forall x, dot4 x kk = dot4 p kk * (dot4 nv x / dot4 nv p)).
  { intros x. rewrite ev_np, ev_kn, !dot_scale_r, (dot_comm p), ev_np, (dot_comm nv). field. lra. }
  split.
  - apply names_tabled; try assumption; [exact ev_z|exact (n_null _ _ _ _ _ _ _ N3)| | |]; rewrite X.
    + unfold mu. now rewrite (n_mu _ _ _ _ _ _ _ N3).
    + unfold z1. now rewrite (n_z_1 _ _ _ _ _ _ _ N3).
    + unfold z2. now rewrite (n_z_2 _ _ _ _ _ _ _ N3).
  - destruct (names_fits (a_M ps) (a_m ps) (a_mh ps) p k1 q h kk (kz k) mu z1 z2 D1 D2 D3 D4 k N1 N2 M1 ltac:(lra) M2 eq_refl) as [? ? ? ? ? ? FQ ? ? ? ? ? ? ? ? ?].
    split; try assumption; try reflexivity.
    + rewrite (n_tau _ _ _ _ _ _ _ N3). unfold dd. cbn [dz1 dz2]. unfold z1, z2. rewrite (n_z_1 _ _ _ _ _ _ _ N3), (n_z_2 _ _ _ _ _ _ _ N3). rewrite dot_sub_r, ev_np. field. lra.
    + transitivity (1 / sq z1); [reflexivity|]. unfold sq. field. lra.
    + transitivity (1 / sq z2); [reflexivity|]. unfold sq. field. lra.
    + transitivity (1 / sq z2 + 1 / sq z1); [reflexivity|]. unfold sq. field. lra.
    + transitivity (1 / sq z2 - 1 / sq z1); [reflexivity|]. unfold sq. field. lra.
    + transitivity (1 / (z1 * z2)); [reflexivity|]. field. lra.
    + transitivity (1 / z1 + 1 / z2); [reflexivity|]. field. lra.
    + transitivity (sq (km k) * (1 / sq z2 + 1 / sq z1) - (kQ_sq k + 2 * sq (km k)) * (1 / (z1 * z2))); [reflexivity|].
      rewrite FQ. replace (km k) with (a_m ps) by (symmetry; assumption). unfold dd, sq. cbn [dm dc]. fold k2. field. lra.
Qed.
Lemma ev_qk : sub4 (sub4 k1 k2) kk = sub4 q kk.
Proof. unfold k2. now rewrite sub_sub. Qed.
Theorem event_rad : let m := a_m ps in let W i := contract (lepton_rad m k1 k2 kk (scale4 lam s)) (had_struct (sub4 q kk) p h i) in
  let sum a b c e := - 2 * (a / (Rk * Rk) + b / Rk + c + e * Rk) in
  let B := LepRadBaseUU r in let P := LepRadBaseUP r in let A := LepRadBaseLU r in let C := LepRadBaseLP r in
  W 1%nat = creal (sum (lr011 B) (lr012 B) (lr013 B) 0) /\ W 2%nat = creal (sum (lr021 B) (lr022 B) (lr023 B) 0) /\
  W 3%nat = creal (sum (lr031 B) (lr032 B) (lr033 B) 0) /\ W 4%nat = creal (sum (lr041 B) (lr042 B) (lr043 B) 0) /\
  W 5%nat = creal (lam * sum (lr051 A + lr151 A) (lr052 A + lr152 A) (lr053 A + lr153 A) 0) /\
  W 6%nat = creal (sum (lr061 P) (lr062 P) (lr063 P) (lr064 P)) /\
  W 7%nat = creal (lam * sum (lr071 C + lr171 C) (lr072 C + lr172 C) (lr073 C + lr173 C) (lr074 C + lr174 C)) /\
  W 8%nat = creal (sum (lr081 P) (lr082 P) (lr083 P) (lr084 P)) /\
  W 9%nat = creal (lam * sum (lr091 C + lr191 C) (lr092 C + lr192 C) (lr093 C + lr193 C) (lr094 C + lr194 C)).
Proof.
  cbv zeta. destruct ev_tab as (_ & _ & T3). destruct ev_radtab as (T1 & T2). pose proof ev_z1. pose proof ev_z2. pose proof ev_pk as PK.
  assert (HV : rvol_phi_k_R r * (2 * dr dd) = det_rows p kk k1 (sub4 k1 k2)).
  { unfold dd. cbn [dr]. rewrite PK. unfold k2. rewrite sub_sub. exact (n_vol_phi_k _ _ _ _ _ _ _ ev_photon). }
  pose proof (rad_contract p h k1 k2 kk dd T1 lam (/ dm dd) (/ klambda_S_sqrt k) ltac:(unfold dd; cbn [dm]; field; lra)
    _ _ (/ z1) (/ z2) r ltac:(unfold dd; cbn [dz1]; field; lra) ltac:(unfold dd; cbn [dz2]; field; lra) ltac:(unfold dd; cbn [dr]; lra) T2 eq_refl HV ev_lambda1 eq_refl) as B.
  change (ds dd) with (ds d) in B. change (dm dd) with (dm d) in B. rewrite <- T3 in B. rewrite ev_qk in B. unfold rad_sum in B. change (dr dd) with (dot4 p kk) in B. rewrite PK in B. exact B.
Qed.
End Event.
