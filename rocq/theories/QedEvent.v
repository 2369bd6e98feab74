(** From traces to tensors: hermiticity, contraction with the hadronic structures, determinants with the normal. *)
From Coq Require Import Reals List Lia Lra Arith Ring Field.
From Verif Require Import MathModel VecModel KinSpec QedSpec QedAlg QedWord QedTensor QedEval QedTab.
Import ListNotations.
Local Open Scope R_scope.

(** ** Hermiticity *)
Lemma tr_bar a : tr (bar a) = conj (tr a).
Proof.
  unfold bar. rewrite tr_comm, <- mmul_assoc, gam0_sq, mmul_1_r. unfold dagger, tr. cbn [m0 m1 m2 m3 QedSpec.e0 QedSpec.e1 QedSpec.e2 QedSpec.e3].
  now rewrite !conj_add.
Qed.
Lemma bar_g5 : bar gam5 = mscal cm1 gam5.
Proof. rewrite g5_explicit. unfold bar, dagger. cbn [m0 m1 m2 m3 QedSpec.e0 QedSpec.e1 QedSpec.e2 QedSpec.e3]. rewrite g0_conj, mscal_ex. apply mat_eq; apply row_eq; apply cx_eq; cbn [re im conj copp creal c0 c1 cm1 ci cmi cmul]; ring. Qed.
Lemma bar_spin m k s : dot4 s k = 0 -> bar (spin m k s) = spin m k s.
Proof.
  intros H. rewrite spin_split, bar_add, !bar_mul, bar_slash, bar_num, bar_g5, mmul_scal_r. f_equal.
  rewrite num_g5s by exact H. f_equal. rewrite slash_g5, mscal_mscal. replace (cmul cm1 cm1) with c1 by cxr. apply mscal_1.
Qed.
Lemma bar_bar a : bar (bar a) = a.
Proof.
  assert (D : forall x, dagger (dagger x) = x).
  { intros x. unfold dagger. dm x. cbn [m0 m1 m2 m3 QedSpec.e0 QedSpec.e1 QedSpec.e2 QedSpec.e3]. 
    assert (C : forall c, conj (conj c) = c) by (intros c; apply cx_eq; unfold conj; cbn [re im]; ring). now rewrite !C. }
  assert (G : dagger gam0 = gam0) by (unfold gam0, dagger; cbn [m0 m1 m2 m3 QedSpec.e0 QedSpec.e1 QedSpec.e2 QedSpec.e3]; apply mat_eq; apply row_eq; apply cx_eq; cbn [re im conj c0 c1 cm1 creal]; ring).
  unfold bar. rewrite !dagger_mul, D, G, !mmul_assoc, gam0_sq, mmul_1_l, <- !mmul_assoc, gam0_sq, mmul_1_r. reflexivity.
Qed.
Lemma current2_swap m k1 k2 s V W u v : dot4 s k1 = 0 -> current2 m k1 k2 s W V v u = conj (current2 m k1 k2 s V W u v).
Proof.
  intros H. unfold current2. rewrite conj_mul, <- tr_bar. f_equal; [apply cx_eq; cbn [re im conj creal]; ring|].
  rewrite !bar_mul, bar_bar, bar_num, bar_spin by exact H. rewrite <- !mmul_assoc.
  rewrite (tr_comm (num m k2)), <- !mmul_assoc. reflexivity.
Qed.
Definition hermitian (L : lower2) : Prop := forall u v, L v u = conj (L u v).
Lemma herm_born m k1 k2 s : dot4 s k1 = 0 -> hermitian (lepton_born m k1 k2 s).
Proof. intros H u v. exact (current2_swap m k1 k2 s slash slash u v H). Qed.
Lemma herm_pauli m k1 k2 s : dot4 s k1 = 0 -> hermitian (lepton_pauli m k1 k2 s).
Proof.
  intros H u v. unfold lepton_pauli. cbv zeta. pose (V := fun u => isigma u (sub4 k2 k1)).
  pose proof (current2_swap m k1 k2 s V slash u v H) as E1. pose proof (current2_swap m k1 k2 s slash V u v H) as E2.
  rewrite conj_add. unfold V in E1, E2. rewrite <- E1, <- E2. ring.
Qed.
Lemma herm_rad m k1 k2 k s : dot4 s k1 = 0 -> hermitian (lepton_rad m k1 k2 k s).
Proof.
  intros H u v. unfold lepton_rad. induction metric as [|t l IH]; cbn [fold_right]; [apply cx_eq; cbn [re im conj c0 creal]; ring|].
  pose proof (current2_swap m k1 k2 s (emit m k1 k2 k (snd t)) (emit m k1 k2 k (snd t)) u v H) as E.
  rewrite conj_add, conj_mul, <- IH, <- E. f_equal. f_equal. apply cx_eq; cbn [re im conj creal]; ring.
Qed.

(** ** Contraction *)
Record good (q : vec4) (L : lower2) : Prop := Good { g_b : bilin L; g_t : transverse q L; g_h : hermitian L }.
Lemma contract_same q L a : good q L -> contract L [(c1, project_off q a, project_off q a)] = creal (re (L a a)).
Proof.
  intros [B T H]. unfold contract. cbn [fold_right fst snd]. rewrite (proj_l q L), (proj_r q L) by assumption.
  pose proof (f_equal im (H a a)) as E. unfold conj in E. cbn [im] in E. apply cx_eq; cbn [re im cadd cmul c1 c0 creal]; lra.
Qed.
Lemma both_sym L a b : hermitian L -> contract L (both c1 c1 a b) = creal (2 * re (L a b)).
Proof. intros H. unfold contract, both. cbn [fold_right fst snd]. rewrite (H a b). apply cx_eq; cbn [re im cadd cmul c1 c0 creal conj]; ring. Qed.
Lemma both_anti L a b : hermitian L -> contract L (both ci cmi a b) = creal (- 2 * im (L a b)).
Proof. intros H. unfold contract, both. cbn [fold_right fst snd]. rewrite (H a b). apply cx_eq; cbn [re im cadd cmul ci cmi c0 creal conj]; ring. Qed.
Lemma hermitian_project q L a b : good q L -> L (project_off q a) b = L a b /\ L a (project_off q b) = L a b /\ L (project_off q a) (project_off q b) = L a b.
Proof. intros [B T H]. rewrite !(proj_l q L), !(proj_r q L) by assumption. auto. Qed.
Lemma both_proj L a b a' b' c d : L a b = L a' b' -> L b a = L b' a' -> contract L (both c d a b) = contract L (both c d a' b').
Proof. intros E F. unfold contract, both. cbn [fold_right fst snd]. now rewrite E, F. Qed.
Lemma contract_struct q p h L : good q L ->
  let n := normal q p h in let W i := contract L (had_struct q p h i) in
  W 2%nat = creal (re (L p p)) /\ W 3%nat = creal (re (L h h)) /\ W 4%nat = creal (2 * re (L p h)) /\ W 5%nat = creal (- 2 * im (L p h)) /\
  W 6%nat = creal (2 * re (L p n)) /\ W 7%nat = creal (- 2 * im (L p n)) /\ W 8%nat = creal (2 * re (L h n)) /\ W 9%nat = creal (- 2 * im (L h n)).
Proof.
  intros G n W. unfold W, had_struct. fold n.
  assert (PP : forall x y, L (project_off q x) (project_off q y) = L x y) by (intros; now apply hermitian_project).
  assert (PL : forall x y, L (project_off q x) y = L x y) by (intros; now apply hermitian_project).
  assert (PR : forall x y, L x (project_off q y) = L x y) by (intros; now apply hermitian_project).
  split; [now apply contract_same|]. split; [now apply contract_same|].
  rewrite !(both_proj L (project_off q p) (project_off q h) p h) by (apply PP).
  rewrite !(both_proj L (project_off q p) n p n) by (apply PL || apply PR).
  rewrite !(both_proj L (project_off q h) n h n) by (apply PL || apply PR).
  destruct G as [_ _ H]. rewrite !both_sym, !both_anti by exact H. tauto.
Qed.
Lemma contract_trace q p h L : good q L -> contract L (had_struct q p h 1) = cmul cm1 (fold_right (fun t s => cadd (cmul (creal (fst t)) (L (snd t) (snd t))) s) c0 metric).
Proof.
  intros [_ [T _] _]. unfold had_struct, contract. rewrite fold_right_app. cbn [fold_right fst snd]. rewrite T.
  induction metric as [|t l IH]; cbn [map fold_right fst snd]; [cxr|]. rewrite IH. 
  match goal with |- context [fold_right ?f c0 l] => set (A := fold_right f c0 l) end. generalize (L (snd t) (snd t)). intros B.
  apply cx_eq; cbn [re im cadd cmul cm1 creal]; ring.
Qed.

(** ** The normal *)
Lemma normal_dot q p h x : dot4 (normal q p h) x = - det_rows x q p h.
Proof. unfold normal, dot4, dot3, det_rows, dot3, cross3, r4, VEC4_T, VEC4_X, VEC4_Y, VEC4_Z. cbn [t4 x4 y4 z4 x3 y3 z3]. ring. Qed.
Lemma cramer5 v0 v1 v2 v3 v4 x :
  det_rows v1 v2 v3 v4 * dot4 v0 x - det_rows v0 v2 v3 v4 * dot4 v1 x + det_rows v0 v1 v3 v4 * dot4 v2 x - det_rows v0 v1 v2 v4 * dot4 v3 x + det_rows v0 v1 v2 v3 * dot4 v4 x = 0.
Proof. unfold dot4, det_rows, dot3, cross3, r4. cbn [x3 y3 z3]. ring. Qed.
Lemma det_normal q p h a b c : det_rows a b c (normal q p h) =
  - det3 (dot4 a q) (dot4 a p) (dot4 a h) (dot4 b q) (dot4 b p) (dot4 b h) (dot4 c q) (dot4 c p) (dot4 c h).
Proof. unfold normal, det3, dot4, det_rows, dot3, cross3, r4, VEC4_T, VEC4_X, VEC4_Y, VEC4_Z. cbn [t4 x4 y4 z4 x3 y3 z3]. ring. Qed.
