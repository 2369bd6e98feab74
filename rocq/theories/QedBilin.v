(** Lepton tensors are bilinear; contractions depend on the values of the hadronic tensor only. *)
From Coq Require Import Reals List Lra Ring Field Lia.
From Coquelicot Require Import Coquelicot.
From Verif Require Import ParamModel MathModel ParticleModel VecModel TransModel FrameBase SfModel KinModel KinSpec HadModel LepModel XsModel
  QedSpec QedAlg QedWord QedXsSpec QedHadSpec QedFrame QedHad QedSpin QedHadTensor QedXs.
Import ListNotations.
Local Open Scope R_scope.

Record linear (V : vec4 -> mat) : Prop := Linear {
  lin_add : forall a b, V (add4 a b) = madd (V a) (V b); lin_scale : forall x a, V (scale4 x a) = mscal (creal x) (V a) }.
Record bilinear (L : lower2) : Prop := Bilinear {
  bil_add_l : forall a b v, L (add4 a b) v = cadd (L a v) (L b v); bil_scale_l : forall x a v, L (scale4 x a) v = cmul (creal x) (L a v);
  bil_add_r : forall a b v, L v (add4 a b) = cadd (L v a) (L v b); bil_scale_r : forall x a v, L v (scale4 x a) = cmul (creal x) (L v a) }.

Lemma dagger_add a b : dagger (madd a b) = madd (dagger a) (dagger b).
Proof. unfold dagger, madd, radd. cbn [m0 m1 m2 m3 e0 e1 e2 e3]. apply mat_eq; apply row_eq; apply cx_eq; cbn [re im conj cadd]; ring. Qed.
Lemma dagger_scal x a : dagger (mscal (creal x) a) = mscal (creal x) (dagger a).
Proof. unfold dagger, mscal, rscal. cbn [m0 m1 m2 m3 e0 e1 e2 e3]. apply mat_eq; apply row_eq; apply cx_eq; cbn [re im conj cmul creal]; ring. Qed.
Lemma bar_add a b : bar (madd a b) = madd (bar a) (bar b).
Proof. unfold bar. rewrite dagger_add, mmul_add_l, mmul_add_r. reflexivity. Qed.
Lemma bar_scal x a : bar (mscal (creal x) a) = mscal (creal x) (bar a).
Proof. unfold bar. rewrite dagger_scal, mmul_scal_l, mmul_scal_r. reflexivity. Qed.
Lemma slash_linear : linear slash. Proof. split; [exact slash_add|exact slash_scale]. Qed.
Lemma current_bilinear m k1 k2 s V W : linear V -> linear W -> bilinear (current2 m k1 k2 s V W).
Proof.
  intros HV HW. split; intros; unfold current2; rewrite ?(lin_add _ HV), ?(lin_scale _ HV), ?(lin_add _ HW), ?(lin_scale _ HW), ?bar_add, ?bar_scal;
    rewrite ?mmul_add_l, ?mmul_add_r, ?mmul_add_r, ?mmul_scal_l, ?mmul_scal_r, ?mmul_scal_r, ?tr_add, ?tr_scal; ring.
Qed.
Lemma bil_sum L M : bilinear L -> bilinear M -> bilinear (fun u v => cadd (L u v) (M u v)).
Proof.
  intros HL HM. split; intros; rewrite ?(bil_add_l _ HL), ?(bil_add_l _ HM), ?(bil_scale_l _ HL), ?(bil_scale_l _ HM), ?(bil_add_r _ HL), ?(bil_add_r _ HM), ?(bil_scale_r _ HL), ?(bil_scale_r _ HM); ring.
Qed.
Lemma bil_mul x L : bilinear L -> bilinear (fun u v => cmul x (L u v)).
Proof. intros HL. split; intros; rewrite ?(bil_add_l _ HL), ?(bil_scale_l _ HL), ?(bil_add_r _ HL), ?(bil_scale_r _ HL); ring. Qed.
Lemma bil_zero : bilinear (fun _ _ => c0).
Proof. split; intros; ring. Qed.
Lemma isigma_linear l : linear (fun u => isigma u l).
Proof.
  split; intros; unfold isigma; rewrite ?slash_add, ?slash_scale, ?mmul_add_l, ?mmul_add_r, ?mmul_scal_l, ?mmul_scal_r, ?mscal_add, ?mscal_mscal.
  - rewrite !madd_assoc. f_equal. rewrite <- !madd_assoc. f_equal. apply madd_comm.
  - do 2 f_equal; ring.
Qed.
Lemma emit_linear m k1 k2 k e : linear (emit m k1 k2 k e).
Proof.
  split; intros; unfold emit; rewrite ?slash_add, ?slash_scale, ?mmul_add_l, ?mmul_add_r, ?mmul_scal_l, ?mmul_scal_r, ?mmul_add_r, ?mmul_scal_r, ?mscal_add.
  - rewrite !madd_assoc. f_equal. rewrite <- !madd_assoc. f_equal. apply madd_comm.
  - reflexivity.
Qed.
Lemma born_bilinear m k1 k2 s : bilinear (lepton_born m k1 k2 s).
Proof. exact (current_bilinear m k1 k2 s _ _ slash_linear slash_linear). Qed.
Lemma pauli_bilinear m k1 k2 s : bilinear (lepton_pauli m k1 k2 s).
Proof. unfold lepton_pauli. cbv zeta. exact (bil_sum _ _ (current_bilinear m k1 k2 s _ _ (isigma_linear _) slash_linear) (current_bilinear m k1 k2 s _ _ slash_linear (isigma_linear _))). Qed.
Lemma rad_bilinear m k1 k2 k s : bilinear (lepton_rad m k1 k2 k s).
Proof.
  unfold lepton_rad, metric. cbn [fold_right fst snd].
  exact (bil_sum _ _ (bil_mul _ _ (current_bilinear m k1 k2 s _ _ (emit_linear _ _ _ _ _) (emit_linear _ _ _ _ _)))
    (bil_sum _ _ (bil_mul _ _ (current_bilinear m k1 k2 s _ _ (emit_linear _ _ _ _ _) (emit_linear _ _ _ _ _)))
    (bil_sum _ _ (bil_mul _ _ (current_bilinear m k1 k2 s _ _ (emit_linear _ _ _ _ _) (emit_linear _ _ _ _ _)))
    (bil_sum _ _ (bil_mul _ _ (current_bilinear m k1 k2 s _ _ (emit_linear _ _ _ _ _) (emit_linear _ _ _ _ _))) bil_zero)))).
Qed.

(** ** Contraction *)
Definition basis (i : nat) : vec4 := match i with 0%nat => VEC4_T | 1%nat => VEC4_X | 2%nat => VEC4_Y | _ => VEC4_Z end.
Definition csum (f : nat -> cx) : cx := cadd (f 0%nat) (cadd (f 1%nat) (cadd (f 2%nat) (f 3%nat))).
Definition dualb (i : nat) : vec4 := match i with 0%nat => VEC4_T | _ => scale4 (-1) (basis i) end.
Lemma basis_sum u : u = add4 (scale4 (dot4 u (dualb 0)) (basis 0)) (add4 (scale4 (dot4 u (dualb 1)) (basis 1)) (add4 (scale4 (dot4 u (dualb 2)) (basis 2)) (scale4 (dot4 u (dualb 3)) (basis 3)))).
Proof. destruct u as [a b c d]. unfold add4, scale4, dot4, dot3, r4, dualb, basis, VEC4_T, VEC4_X, VEC4_Y, VEC4_Z, scale4. cbn [t4 x4 y4 z4 x3 y3 z3]. f_equal; ring. Qed.
Lemma contract_values L w : bilinear L -> contract L w = csum (fun i => csum (fun j => cmul (tensor_at w (dualb i) (dualb j)) (L (basis i) (basis j)))).
Proof.
  intros HL. induction w as [|[[c u] v] w IH]; [unfold csum, contract, tensor_at; cbn [fold_right]; ring|].
  unfold contract in *. cbn [fold_right fst snd]. rewrite IH. rewrite (basis_sum u) at 1. rewrite (basis_sum v) at 1.
  rewrite ?(bil_add_l _ HL), ?(bil_scale_l _ HL), ?(bil_add_r _ HL), ?(bil_scale_r _ HL).
  assert (E : forall a b, tensor_at ((c, u, v) :: w) a b = cadd (cmul c (cmul (creal (dot4 u a)) (creal (dot4 v b)))) (tensor_at w a b)).
  { intros a b. unfold tensor_at. cbn [fold_right fst snd]. f_equal. f_equal. apply cx_eq; cbn [re im cmul creal]; ring. }
  unfold csum. rewrite !E. ring.
Qed.
Lemma contract_ext L w w' : bilinear L -> (forall u v, tensor_at w u v = tensor_at w' u v) -> contract L w = contract L w'.
Proof. intros HL E. rewrite !contract_values by exact HL. unfold csum. rewrite !E. reflexivity. Qed.

(** ** Cross-sections *)
Section Xs.
Variables (ps : parts) (S : R) (sp : phase_space) (e : event) (t : tr4) (s : vec4) (lam : R) (sf : sf_set sf_point) (ph : phenom) (eta : vec3).
Hypothesis He : same_event e ps S sp.
Hypothesis Ht : lorentz t.
Hypothesis Hm : 0 < a_m ps.
Hypothesis Hp : 0 < s_ph_t_sq sp.
Let p := tapp4 t (v_p e). Let k1 := tapp4 t (v_k1 e). Let q := tapp4 t (v_q e). Let h := tapp4 t (v_ph e).
Hypothesis Hs : helicity_vector p k1 s.
Let k := make_kin ps S sp.
Lemma born_tensor : creal (born sf k ph lam eta) = cmul (creal (flux (p_alpha_qed ph) k))
    (contract (lepton_born (a_m ps) k1 (sub4 k1 q) (scale4 lam s)) (hadron_tensor (a_hadron ps) sf q p h (spin_vector q p h eta))).
Proof.
  pose proof (born_qed ps S sp e t sf ph lam eta s He Ht Hm Hs) as B. cbv zeta in B. fold k p k1 q h in B. rewrite B. f_equal.
  apply contract_ext; [apply born_bilinear|]. intros u v. exact (whole_born ps S sp e t He Ht Hp sf eta u v).
Qed.
Lemma amm_tensor : creal (amm sf k ph lam eta) = cmul (creal (flux (p_alpha_qed ph) k * (form_factor_2 (p_alpha_qed ph) (a_m ps) (kQ_sq k) / (2 * a_m ps))))
    (contract (lepton_pauli (a_m ps) k1 (sub4 k1 q) (scale4 lam s)) (hadron_tensor (a_hadron ps) sf q p h (spin_vector q p h eta))).
Proof.
  pose proof (amm_qed ps S sp e t sf ph lam eta s He Ht Hm Hs) as B. cbv zeta in B. fold k p k1 q h in B. rewrite B. f_equal.
  apply contract_ext; [apply pauli_bilinear|]. intros u v. exact (whole_born ps S sp e t He Ht Hp sf eta u v).
Qed.
Variables (tau phi_k R : R) (f : photon).
Hypothesis Hf : same_photon f e tau phi_k R.
Hypothesis HR : 0 < R < S * s_y sp.
Let r := make_rad k tau phi_k R.
Hypothesis Hr : 0 < rshift_ph_t r.
Let kk := tapp4 t (v_k e f).
Lemma rad_tensor : exists de dc, is_derive (fun x => rk_0 (make_rad k tau phi_k x)) R de /\
  is_derive (fun x => rk_l (make_rad k x phi_k R) / rk_0 (make_rad k x phi_k R)) tau dc /\
  creal (rad sf r ph lam eta) = cmul (creal (flux (p_alpha_qed ph) k * (4 * PI * p_alpha_qed ph) * photon_measure (rk_0 r) de dc))
    (contract (lepton_rad (a_m ps) k1 (sub4 k1 q) kk (scale4 lam s)) (hadron_tensor (a_hadron ps) sf (sub4 q kk) p h (spin_vector q p h eta))).
Proof.
  destruct (rad_qed ps S sp e t sf ph lam eta s He Ht Hm Hs tau phi_k R f Hf (proj1 HR)) as (de & dc & D1 & D2 & B). exists de, dc. split; [exact D1|]. split; [exact D2|].
  fold k p k1 q h kk r in B. fold k r. rewrite B. f_equal.
  apply contract_ext; [apply rad_bilinear|]. intros u v. exact (whole_rad ps S sp e t He Ht Hp tau phi_k R f Hf (proj2 HR) Hr sf eta u v).
Qed.
End Xs.
