(** Tensors of QedSpec.v: Dirac adjoints, bilinearity, symmetry, gauge invariance. *)
From Coq Require Import Reals List Lia Lra Arith Ring Field.
From Verif Require Import VecModel KinSpec QedSpec QedAlg QedWord.
Import ListNotations.
Local Open Scope R_scope.

(** ** Dirac adjoint *)
Lemma conj_add a b : conj (cadd a b) = cadd (conj a) (conj b). Proof. apply cx_eq; cbn [re im conj cadd]; ring. Qed.
Lemma conj_mul a b : conj (cmul a b) = cmul (conj a) (conj b). Proof. apply cx_eq; cbn [re im conj cmul]; ring. Qed.
Lemma dagger_mul a b : dagger (mmul a b) = mmul (dagger b) (dagger a).
Proof.
  dm a; dm b. rewrite mmul_ex. unfold dagger. cbn [m0 m1 m2 m3 QedSpec.e0 QedSpec.e1 QedSpec.e2 QedSpec.e3]. rewrite mmul_ex.
  rewrite !conj_add, !conj_mul. apply mat_eq; apply row_eq; ring.
Qed.
Lemma dagger_add a b : dagger (madd a b) = madd (dagger a) (dagger b).
Proof. dm a; dm b. rewrite madd_ex. unfold dagger. cbn [m0 m1 m2 m3 QedSpec.e0 QedSpec.e1 QedSpec.e2 QedSpec.e3]. rewrite madd_ex, !conj_add. reflexivity. Qed.
Lemma dagger_scal r a : dagger (mscal (creal r) a) = mscal (creal r) (dagger a).
Proof.
  dm a. rewrite mscal_ex. unfold dagger. cbn [m0 m1 m2 m3 QedSpec.e0 QedSpec.e1 QedSpec.e2 QedSpec.e3]. rewrite mscal_ex, !conj_mul.
  replace (conj (creal r)) with (creal r); [reflexivity|]. apply cx_eq; cbn [re im conj creal]; ring.
Qed.
Lemma gam0_sq : mmul gam0 gam0 = mone. Proof. unfold gam0, mone. onel. Qed.
Lemma bar_mul a b : bar (mmul a b) = mmul (bar b) (bar a).
Proof.
  unfold bar. rewrite dagger_mul. rewrite <- !mmul_assoc. do 2 f_equal. rewrite (mmul_assoc gam0 gam0), gam0_sq, mmul_1_l. reflexivity.
Qed.
Lemma bar_add a b : bar (madd a b) = madd (bar a) (bar b).
Proof. unfold bar. now rewrite dagger_add, mmul_add_l, mmul_add_r. Qed.
Lemma bar_scal r a : bar (mscal (creal r) a) = mscal (creal r) (bar a).
Proof. unfold bar. now rewrite dagger_scal, mmul_scal_l, mmul_scal_r. Qed.
Lemma g0_conj a00 a01 a02 a03 a10 a11 a12 a13 a20 a21 a22 a23 a30 a31 a32 a33 : mmul gam0 (mmul (Mat (Row a00 a01 a02 a03) (Row a10 a11 a12 a13) (Row a20 a21 a22 a23) (Row a30 a31 a32 a33)) gam0) = Mat (Row a00 a01 (copp a02) (copp a03)) (Row a10 a11 (copp a12) (copp a13)) (Row (copp a20) (copp a21) a22 a23) (Row (copp a30) (copp a31) a32 a33).
Proof. unfold gam0. rewrite !mmul_ex, cm1_opp. apply mat_eq; apply row_eq; ring. Qed.
Lemma bar_slash a : bar (slash a) = slash a.
Proof.
  rewrite slash_explicit. cbv zeta. unfold bar, dagger. cbn [m0 m1 m2 m3 QedSpec.e0 QedSpec.e1 QedSpec.e2 QedSpec.e3]. rewrite g0_conj.
  apply mat_eq; apply row_eq; apply cx_eq; cbn [re im conj copp creal c0 c1 cm1 ci cmi]; ring.
Qed.
Lemma bar_one : bar mone = mone.
Proof.
  unfold bar, dagger, mone. cbn [m0 m1 m2 m3 QedSpec.e0 QedSpec.e1 QedSpec.e2 QedSpec.e3]. rewrite g0_conj.
  apply mat_eq; apply row_eq; apply cx_eq; cbn [re im conj copp creal c0 c1 cm1 ci cmi]; ring.
Qed.
Lemma bar_num m l : bar (num m l) = num m l.
Proof. unfold num. now rewrite bar_add, bar_scal, bar_slash, bar_one. Qed.
Lemma bar_prop m l : bar (prop m l) = prop m l.
Proof. unfold prop. now rewrite bar_scal, bar_num. Qed.
Lemma bar_emit m k1 k2 k e u : bar (emit m k1 k2 k e u)
  = madd (mmul (slash e) (mmul (prop m (sub4 k1 k)) (slash u))) (mmul (slash u) (mmul (prop m (add4 k2 k)) (slash e))).
Proof. unfold emit. rewrite bar_add, !bar_mul, !bar_slash, !bar_prop, !mmul_assoc. reflexivity. Qed.
Lemma cm1_real : cm1 = creal (-1). Proof. reflexivity. Qed.
Lemma isigma_neg u l : isigma u (neg4 l) = mscal cm1 (isigma u l).
Proof.
  unfold isigma. replace (slash (neg4 l)) with (mscal cm1 (slash l)).
  2:{ rewrite cm1_real, <- slash_scale. f_equal. unfold scale4, neg4. f_equal; ring. }
  rewrite mmul_scal_l, mmul_scal_r, !mscal_add, !mscal_mscal. f_equal; f_equal; ring.
Qed.
Lemma bar_isigma u l : bar (isigma u l) = mscal cm1 (isigma u l).
Proof.
  unfold isigma. rewrite bar_scal, bar_add, cm1_real, bar_scal, !bar_mul, !bar_slash.
  rewrite !mscal_add, !mscal_mscal. rewrite madd_comm. f_equal; f_equal; rewrite <- ?creal_mul; f_equal; ring.
Qed.

(** ** Reversal: an anti-automorphism that fixes the slashes and the fifth matrix *)
Definition transp (a : mat) : mat :=
  Mat (Row (e0 (m0 a)) (e0 (m1 a)) (e0 (m2 a)) (e0 (m3 a))) (Row (e1 (m0 a)) (e1 (m1 a)) (e1 (m2 a)) (e1 (m3 a)))
      (Row (e2 (m0 a)) (e2 (m1 a)) (e2 (m2 a)) (e2 (m3 a))) (Row (e3 (m0 a)) (e3 (m1 a)) (e3 (m2 a)) (e3 (m3 a))).
Definition g13 := Mat (Row c0 c1 c0 c0) (Row cm1 c0 c0 c0) (Row c0 c0 c0 c1) (Row c0 c0 cm1 c0).
Definition rev (a : mat) : mat := mscal cm1 (mmul g13 (mmul (transp a) g13)).
Lemma g13_sq : mmul g13 g13 = mscal cm1 mone. Proof. unfold g13, mone. onel. Qed.
Lemma transp_mul a b : transp (mmul a b) = mmul (transp b) (transp a).
Proof. dm a; dm b. rewrite mmul_ex. unfold transp. cbn [m0 m1 m2 m3 QedSpec.e0 QedSpec.e1 QedSpec.e2 QedSpec.e3]. rewrite mmul_ex. apply mat_eq; apply row_eq; ring. Qed.
Lemma transp_add a b : transp (madd a b) = madd (transp a) (transp b). Proof. reflexivity. Qed.
Lemma transp_scal c a : transp (mscal c a) = mscal c (transp a). Proof. reflexivity. Qed.
Lemma rev_mul a b : rev (mmul a b) = mmul (rev b) (rev a).
Proof.
  unfold rev. rewrite transp_mul, mmul_scal_l, mmul_scal_r, mscal_mscal, <- !mmul_assoc. rewrite (mmul_assoc g13 g13), g13_sq, mmul_scal_l, mmul_1_l.
  rewrite !mmul_scal_r, mscal_mscal. f_equal. cxr.
Qed.
Lemma rev_add a b : rev (madd a b) = madd (rev a) (rev b).
Proof. unfold rev. now rewrite transp_add, mmul_add_l, mmul_add_r, mscal_add. Qed.
Lemma rev_scal c a : rev (mscal c a) = mscal c (rev a).
Proof. unfold rev. rewrite transp_scal, mmul_scal_l, mmul_scal_r, !mscal_mscal. f_equal. ring. Qed.
Lemma g13_conj a00 a01 a02 a03 a10 a11 a12 a13 a20 a21 a22 a23 a30 a31 a32 a33 : mscal cm1 (mmul g13 (mmul (Mat (Row a00 a01 a02 a03) (Row a10 a11 a12 a13) (Row a20 a21 a22 a23) (Row a30 a31 a32 a33)) g13)) = Mat (Row a11 (copp a10) a13 (copp a12)) (Row (copp a01) a00 (copp a03) a02) (Row a31 (copp a30) a33 (copp a32)) (Row (copp a21) a20 (copp a23) a22).
Proof. unfold g13. rewrite !mmul_ex, mscal_ex, cm1_opp. apply mat_eq; apply row_eq; ring. Qed.
Lemma rev_slash a : rev (slash a) = slash a.
Proof.
  rewrite slash_explicit. cbv zeta. unfold rev, transp. cbn [m0 m1 m2 m3 QedSpec.e0 QedSpec.e1 QedSpec.e2 QedSpec.e3]. rewrite g13_conj.
  apply mat_eq; apply row_eq; apply cx_eq; cbn [re im conj copp creal c0 c1 cm1 ci cmi]; ring.
Qed.
Lemma rev_one : rev mone = mone.
Proof.
  unfold rev, transp, mone. cbn [m0 m1 m2 m3 QedSpec.e0 QedSpec.e1 QedSpec.e2 QedSpec.e3]. rewrite g13_conj.
  apply mat_eq; apply row_eq; apply cx_eq; cbn [re im conj copp creal c0 c1 cm1 ci cmi]; ring.
Qed.
Lemma rev_g5 : rev gam5 = gam5.
Proof.
  rewrite g5_explicit. unfold rev, transp. cbn [m0 m1 m2 m3 QedSpec.e0 QedSpec.e1 QedSpec.e2 QedSpec.e3]. rewrite g13_conj.
  apply mat_eq; apply row_eq; apply cx_eq; cbn [re im conj copp creal c0 c1 cm1 ci cmi]; ring.
Qed.
Lemma tr_transp a : tr (transp a) = tr a. Proof. reflexivity. Qed.
Lemma tr_rev a : tr (rev a) = tr a.
Proof.
  unfold rev. rewrite tr_scal, tr_comm, <- mmul_assoc, g13_sq, mmul_scal_r, mmul_1_r, tr_scal, tr_transp.
  apply cx_eq; cbn [re im cmul cm1 creal]; ring.
Qed.
Lemma rev_num m l : rev (num m l) = num m l.
Proof. unfold num. now rewrite rev_add, rev_scal, rev_slash, rev_one. Qed.
Lemma rev_prop m l : rev (prop m l) = prop m l.
Proof. unfold prop. now rewrite rev_scal, rev_num. Qed.

(** ** Spin *)
Lemma spin_split m k s : spin m k s = madd (num m k) (mmul (num m k) (mmul gam5 (slash s))).
Proof. unfold spin. now rewrite mmul_add_r, mmul_1_r. Qed.
Lemma num_g5s m k s : dot4 s k = 0 -> mmul (num m k) (mmul gam5 (slash s)) = mmul (mmul gam5 (slash s)) (num m k).
Proof.
  intros H. unfold num. rewrite mmul_add_l, mmul_add_r. f_equal.
  - rewrite mmul_assoc, slash_g5, mmul_scal_l, <- !mmul_assoc, (slash_anti k s).
    replace (dot4 k s) with 0 by (rewrite <- H; unfold dot4; ring).
    rewrite mmul_add_r, !mmul_scal_r, mmul_1_r, mscal_add, !mscal_mscal.
    replace (cmul cm1 (creal (2 * 0))) with c0 by cxr. replace (cmul cm1 cm1) with c1 by cxr. rewrite mscal_0, madd_0_l, mscal_1. reflexivity.
  - now rewrite mmul_scal_l, mmul_scal_r, mmul_1_l, mmul_1_r.
Qed.
(** The trace over the two currents, without and with the polarization. *)
Definition half0 m k1 k2 (A B : mat) : cx := tr (mmul (num m k2) (mmul A (mmul (num m k1) B))).
Definition half5 m k1 k2 s (A B : mat) : cx := tr (mmul (num m k2) (mmul A (mmul (mmul (num m k1) (mmul gam5 (slash s))) B))).
Lemma current2_split m k1 k2 s V W u v : current2 m k1 k2 s V W u v = cmul (creal (1 / 2)) (cadd (half0 m k1 k2 (V u) (bar (W v))) (half5 m k1 k2 s (V u) (bar (W v)))).
Proof. unfold current2, half0, half5. rewrite spin_split, mmul_add_l, !mmul_add_r, tr_add. reflexivity. Qed.
Lemma half0_rev m k1 k2 A B : half0 m k1 k2 A B = half0 m k1 k2 (rev B) (rev A).
Proof.
  unfold half0. rewrite <- tr_rev, !rev_mul, !rev_num, !mmul_assoc. rewrite (tr_comm _ (num m k2)), !mmul_assoc. reflexivity.
Qed.
Lemma half5_rev m k1 k2 s A B : dot4 s k1 = 0 -> half5 m k1 k2 s A B = cmul cm1 (half5 m k1 k2 s (rev B) (rev A)).
Proof.
  intros H. unfold half5. rewrite <- tr_rev, !rev_mul, !rev_num, rev_g5, rev_slash. rewrite slash_g5.
  rewrite num_g5s by exact H. rewrite !mmul_scal_l, !mmul_scal_r, ?mmul_scal_l, tr_scal. f_equal.
  rewrite (tr_comm _ (num m k2)), !mmul_assoc. reflexivity.
Qed.

(** ** Bilinearity *)
Definition lin (V : vec4 -> mat) : Prop := forall c a b, V (add4 a (scale4 c b)) = madd (V a) (mscal (creal c) (V b)).
Lemma lin_slash : lin slash.
Proof. intros c a b. now rewrite slash_add, slash_scale. Qed.
Lemma lin_emit m k1 k2 k e : lin (emit m k1 k2 k e).
Proof.
  intros c a b. unfold emit. rewrite slash_add, slash_scale, !mmul_add_l, !mmul_add_r, !mmul_scal_l, !mmul_scal_r, mscal_add.
  rewrite <- !madd_assoc. f_equal. rewrite !madd_assoc. f_equal. apply madd_comm.
Qed.
Lemma lin_isigma l : lin (fun u => isigma u l).
Proof.
  intros c a b. unfold isigma. rewrite slash_add, slash_scale, !mmul_add_l, !mmul_add_r, !mmul_scal_l, !mmul_scal_r.
  rewrite !mscal_add, !mscal_mscal.
  rewrite <- !madd_assoc. f_equal. rewrite !madd_assoc. f_equal; [rewrite madd_comm; f_equal; f_equal; ring|f_equal; ring].
Qed.
Definition bilin (L : lower2) : Prop :=
  (forall c a b v, L (add4 a (scale4 c b)) v = cadd (L a v) (cmul (creal c) (L b v))) /\
  (forall c u a b, L u (add4 a (scale4 c b)) = cadd (L u a) (cmul (creal c) (L u b))).
Lemma bilin_current m k1 k2 s V W : lin V -> lin W -> bilin (current2 m k1 k2 s V W).
Proof.
  intros HV HW. unfold current2. split; intros c a b v.
  - rewrite HV, mmul_add_l, mmul_add_r, mmul_scal_l, mmul_scal_r, tr_add, tr_scal. ring.
  - rewrite HW, bar_add, bar_scal, !mmul_add_r, !mmul_scal_r, tr_add, tr_scal. ring.
Qed.
Lemma bilin_add L1 L2 : bilin L1 -> bilin L2 -> bilin (fun u v => cadd (L1 u v) (L2 u v)).
Proof. intros [A B] [C D]. split; intros; rewrite ?A, ?B, ?C, ?D; ring. Qed.
Lemma bilin_scal c L1 : bilin L1 -> bilin (fun u v => cmul c (L1 u v)).
Proof. intros [A B]. split; intros; rewrite ?A, ?B; ring. Qed.
Lemma bilin_born m k1 k2 s : bilin (lepton_born m k1 k2 s).
Proof. exact (bilin_current m k1 k2 s slash slash lin_slash lin_slash). Qed.
Lemma bilin_pauli m k1 k2 s : bilin (lepton_pauli m k1 k2 s).
Proof.
  pose (V := fun u => isigma u (sub4 k2 k1)).
  exact (bilin_add (current2 m k1 k2 s V slash) (current2 m k1 k2 s slash V) (bilin_current m k1 k2 s V slash (lin_isigma _) lin_slash)
    (bilin_current m k1 k2 s slash V lin_slash (lin_isigma _))).
Qed.
Lemma bilin_fold (F : R * vec4 -> lower2) l : (forall t, bilin (F t)) ->
  bilin (fun u v => fold_right (fun t c => cadd (cmul (creal (- fst t)) (F t u v)) c) c0 l).
Proof.
  intros H. induction l as [|x l [IH1 IH2]]; cbn [fold_right]; split; intros; [ring|ring|rewrite IH1, (proj1 (H x)); ring|rewrite IH2, (proj2 (H x)); ring].
Qed.
Lemma bilin_rad m k1 k2 k s : bilin (lepton_rad m k1 k2 k s).
Proof.
  exact (bilin_fold (fun t => current2 m k1 k2 s (emit m k1 k2 k (snd t)) (emit m k1 k2 k (snd t))) metric
    (fun t => bilin_current m k1 k2 s _ _ (lin_emit m k1 k2 k (snd t)) (lin_emit m k1 k2 k (snd t)))).
Qed.

(** A tensor annihilated by [q] does not see the projection. *)
Definition transverse (q : vec4) (L : lower2) : Prop := (forall v, L q v = c0) /\ (forall u, L u q = c0).
Lemma proj_add q a : project_off q a = add4 a (scale4 (- (dot4 a q / dot4 q q)) q).
Proof. unfold project_off, sub4, add4, scale4. cbn [t4 x4 y4 z4]. f_equal; ring. Qed.
Lemma proj_l q L a v : bilin L -> transverse q L -> L (project_off q a) v = L a v.
Proof. intros [A _] [T _]. rewrite proj_add, A, T. ring. Qed.
Lemma proj_r q L u b : bilin L -> transverse q L -> L u (project_off q b) = L u b.
Proof. intros [_ A] [_ T]. rewrite proj_add, A, T. ring. Qed.

(** ** Gauge invariance *)
Lemma num_sq_gen A x y : cadd x y = c0 -> mmul (madd A (mscal x mone)) (madd A (mscal y mone)) = madd (mmul A A) (mscal (cmul x y) mone).
Proof.
  intros H. rewrite mmul_add_l, !mmul_add_r, !mmul_scal_l, !mmul_scal_r, !mmul_1_l, mmul_1_r, mscal_mscal.
  rewrite <- madd_assoc. f_equal. rewrite madd_assoc, <- mscal_add_l. replace (cadd y x) with c0 by (rewrite <- H; ring). now rewrite mscal_0, madd_0_l.
Qed.
Lemma num_sq m l : mmul (num m l) (num (- m) l) = mscal (creal (dot4 l l - m * m)) mone.
Proof. unfold num. rewrite num_sq_gen by cxr. rewrite slash_sq, <- mscal_add_l. f_equal. cxr. Qed.
Lemma num_sq' m l : mmul (num (- m) l) (num m l) = mscal (creal (dot4 l l - m * m)) mone.
Proof. unfold num. rewrite num_sq_gen by cxr. rewrite slash_sq, <- mscal_add_l. f_equal. cxr. Qed.
Lemma slash_split m a b : slash (sub4 a b) = madd (num (- m) a) (mscal cm1 (num (- m) b)).
Proof.
  unfold num. rewrite slash_sub, mscal_add, mscal_mscal.
  rewrite (madd_comm (mscal cm1 (slash b))), <- madd_assoc, (madd_assoc (mscal (creal (- m)) mone)), <- mscal_add_l.
  replace (cadd (creal (- m)) (cmul cm1 (creal (- m)))) with c0 by cxr. now rewrite mscal_0, madd_0_l.
Qed.
Lemma prop_inv m l : dot4 l l - m * m <> 0 -> mmul (num (- m) l) (prop m l) = mone.
Proof. intros H. unfold prop. rewrite mmul_scal_r, num_sq', mscal_mscal, <- creal_mul, Rinv_l by exact H. apply mscal_1. Qed.
Lemma prop_inv' m l : dot4 l l - m * m <> 0 -> mmul (prop m l) (num (- m) l) = mone.
Proof. intros H. unfold prop. rewrite mmul_scal_l, num_sq, mscal_mscal, <- creal_mul, Rinv_l by exact H. apply mscal_1. Qed.
Lemma num_zero m l : dot4 l l = m * m -> mmul (num m l) (num (- m) l) = mzero /\ mmul (num (- m) l) (num m l) = mzero.
Proof.
  intros H. rewrite num_sq, num_sq'. replace (dot4 l l - m * m) with 0 by lra. split; apply mscal_0.
Qed.
(** Ward identity: the emission amplitude vanishes on the momentum transfer. *)
Lemma ward_rad m k1 k2 k e : dot4 k1 k1 = m * m -> dot4 k2 k2 = m * m ->
  dot4 (sub4 k1 k) (sub4 k1 k) - m * m <> 0 -> dot4 (add4 k2 k) (add4 k2 k) - m * m <> 0 ->
  mmul (num m k2) (mmul (emit m k1 k2 k e (sub4 (sub4 k1 k2) k)) (num m k1)) = mzero.
Proof.
  intros H1 H2 D1 D2. unfold emit. set (l1 := sub4 k1 k) in *. set (l2 := add4 k2 k) in *. set (qs := sub4 (sub4 k1 k2) k).
  destruct (num_zero m k1 H1) as [_ Z1]. destruct (num_zero m k2 H2) as [Z2 _].
  assert (A : mmul (num m k2) (mmul (slash qs) (prop m l1)) = num m k2).
  { replace qs with (sub4 l1 k2) by (unfold qs, l1, sub4; cbn [t4 x4 y4 z4]; f_equal; ring).
    rewrite (slash_split m), mmul_assoc, mmul_add_r, mmul_scal_r, Z2, mscal_zero, madd_0_r, <- mmul_assoc, prop_inv by exact D1. apply mmul_1_r. }
  assert (B : mmul (prop m l2) (mmul (slash qs) (num m k1)) = mscal cm1 (num m k1)).
  { replace qs with (sub4 k1 l2) by (unfold qs, l2, sub4, add4; cbn [t4 x4 y4 z4]; f_equal; ring).
    rewrite (slash_split m), mmul_add_l, Z1, madd_0_l, mmul_scal_l, mmul_scal_r, mmul_assoc, prop_inv' by exact D2. now rewrite mmul_1_l. }
  rewrite mmul_add_l, mmul_add_r, <- !mmul_assoc, B.
  rewrite (mmul_assoc (slash qs)), (mmul_assoc (num m k2)), A.
  rewrite !mmul_scal_r. rewrite <- (mscal_1 (mmul (num m k2) (mmul (slash e) (num m k1)))) at 1. rewrite <- mscal_add_l.
  replace (cadd c1 cm1) with c0 by cxr. apply mscal_0.
Qed.
Lemma ward_born m k1 k2 : dot4 k1 k1 = m * m -> dot4 k2 k2 = m * m -> mmul (num m k2) (mmul (slash (sub4 k1 k2)) (num m k1)) = mzero.
Proof.
  intros H1 H2. destruct (num_zero m k1 H1) as [_ Z1]. destruct (num_zero m k2 H2) as [Z2 _].
  rewrite (slash_split m), mmul_add_l, Z1, madd_0_l, mmul_scal_l, mmul_scal_r, mmul_assoc, Z2, mmul_0_l, mscal_zero. reflexivity.
Qed.
Lemma isigma_self l : isigma l l = mzero.
Proof.
  unfold isigma. rewrite slash_sq, mscal_mscal, <- mscal_add_l.
  replace (cadd (creal (dot4 l l)) (cmul cm1 (creal (dot4 l l)))) with c0 by cxr. now rewrite mscal_0, mscal_zero.
Qed.
Lemma ward_pauli m k1 k2 : mmul (num m k2) (mmul (isigma (sub4 k1 k2) (sub4 k2 k1)) (num m k1)) = mzero.
Proof.
  replace (sub4 k2 k1) with (neg4 (sub4 k1 k2)) by (unfold neg4, sub4; cbn [t4 x4 y4 z4]; f_equal; ring).
  rewrite isigma_neg, isigma_self, mscal_zero, mmul_0_l. apply mmul_0_r.
Qed.
Lemma dagger_zero : dagger mzero = mzero.
Proof. rewrite <- (mscal_0 mone). unfold c0. rewrite dagger_scal. fold c0. apply mscal_0. Qed.
Lemma bar_zero : bar mzero = mzero.
Proof. unfold bar. rewrite dagger_zero, mmul_0_l. apply mmul_0_r. Qed.
Lemma transverse_current m k1 k2 s V W q : dot4 s k1 = 0 ->
  mmul (num m k2) (mmul (V q) (num m k1)) = mzero -> mmul (num m k2) (mmul (W q) (num m k1)) = mzero -> transverse q (current2 m k1 k2 s V W).
Proof.
  intros Hs HV HW. unfold current2. split; intros x.
  - unfold spin. rewrite !mmul_assoc, <- (mmul_assoc (num m k2)), HV, !mmul_0_l, tr_zero. ring.
  - assert (E : mmul (num m k1) (mmul (bar (W q)) (num m k2)) = mzero).
    { rewrite <- bar_zero, <- HW, !bar_mul, !bar_num, mmul_assoc. reflexivity. }
    assert (S : spin m k1 s = mmul (madd mone (mmul gam5 (slash s))) (num m k1)).
    { rewrite spin_split, num_g5s by exact Hs. now rewrite mmul_add_l, mmul_1_l. }
    rewrite S, tr_comm, <- !mmul_assoc, E, !mmul_0_r, tr_zero. ring.
Qed.
Lemma transverse_born m k1 k2 s : dot4 k1 k1 = m * m -> dot4 k2 k2 = m * m -> dot4 s k1 = 0 -> transverse (sub4 k1 k2) (lepton_born m k1 k2 s).
Proof. intros. apply (transverse_current m k1 k2 s slash slash); auto using ward_born. Qed.
Lemma transverse_pauli m k1 k2 s : dot4 k1 k1 = m * m -> dot4 k2 k2 = m * m -> dot4 s k1 = 0 -> transverse (sub4 k1 k2) (lepton_pauli m k1 k2 s).
Proof.
  intros H1 H2 Hs. pose (V := fun u => isigma u (sub4 k2 k1)).
  destruct (transverse_current m k1 k2 s V slash (sub4 k1 k2) Hs (ward_pauli m k1 k2) (ward_born m k1 k2 H1 H2)) as [A B].
  destruct (transverse_current m k1 k2 s slash V (sub4 k1 k2) Hs (ward_born m k1 k2 H1 H2) (ward_pauli m k1 k2)) as [C D].
  split; intros x; unfold lepton_pauli; cbv zeta; fold V; [rewrite A, C|rewrite B, D]; ring.
Qed.
Lemma transverse_rad m k1 k2 k s : dot4 k1 k1 = m * m -> dot4 k2 k2 = m * m -> dot4 s k1 = 0 ->
  dot4 (sub4 k1 k) (sub4 k1 k) - m * m <> 0 -> dot4 (add4 k2 k) (add4 k2 k) - m * m <> 0 ->
  transverse (sub4 (sub4 k1 k2) k) (lepton_rad m k1 k2 k s).
Proof.
  intros H1 H2 Hs D1 D2.
  assert (T : forall e, transverse (sub4 (sub4 k1 k2) k) (current2 m k1 k2 s (emit m k1 k2 k e) (emit m k1 k2 k e))).
  { intros e. apply transverse_current; auto using ward_rad. }
  unfold lepton_rad. split; intros x; induction metric as [|t l IH]; cbn [fold_right]; auto; rewrite IH; [rewrite (proj1 (T (snd t)))|rewrite (proj2 (T (snd t)))]; ring.
Qed.

(** ** Symmetry: the part without polarization is symmetric, the other antisymmetric *)
Lemma rev_bar_emit m k1 k2 k e u : rev (bar (emit m k1 k2 k e u)) = emit m k1 k2 k e u.
Proof. rewrite bar_emit, rev_add, !rev_mul, !rev_slash, !rev_prop, <- !mmul_assoc. reflexivity. Qed.
Lemma rev_emit m k1 k2 k e u : rev (emit m k1 k2 k e u) = bar (emit m k1 k2 k e u).
Proof. rewrite bar_emit. unfold emit. rewrite rev_add, !rev_mul, !rev_slash, !rev_prop, <- !mmul_assoc. reflexivity. Qed.
Lemma rev_isigma u l : rev (isigma u l) = mscal cm1 (isigma u l).
Proof.
  unfold isigma. rewrite rev_scal, rev_add, rev_scal, !rev_mul, !rev_slash.
  rewrite !mscal_add, !mscal_mscal. rewrite madd_comm. f_equal; f_equal; apply cx_eq; cbn [re im cmul cm1 creal]; ring.
Qed.
