(** The tensors of QedSpec.v as traces of words in named vectors. *)
From Coq Require Import Reals List Lia Lra Arith Ring Field.
From Verif Require Import VecModel KinSpec QedSpec QedAlg QedWord QedTensor.
Import ListNotations.
Local Open Scope R_scope.

Inductive lt := lP | lH | lN | lK1 | lK2 | lK | lA | lU.
Definition lt_eqb (a b : lt) : bool :=
  match a, b with lP, lP | lH, lH | lN, lN | lK1, lK1 | lK2, lK2 | lK, lK | lA, lA | lU, lU => true | _, _ => false end.
Lemma lt_eqb_ok a b : lt_eqb a b = true <-> a = b.
Proof. destruct a, b; cbn [lt_eqb]; split; congruence. Qed.
Definition named (p h n k1 k2 k : vec4) : lt -> vec4 := fun x =>
  match x with lP => p | lH => h | lN => n | lK1 => k1 | lK2 => k2 | lK => k | lA => VEC4_ZERO | lU => VEC4_ZERO end.

Definition wN2 (m : R) : poly lt := [(1, [lK2]); (m, [])].
Definition wN1 (m : R) : poly lt := [(1, [lK1]); (m, [])].
Definition wS (xa xb : R) : poly lt := [(xa, [lK1]); (xb, [lP])].
Definition w0 (m : R) (V W : poly lt) := pmul lt (wN2 m) (pmul lt V (pmul lt (wN1 m) W)).
Definition w5 (m xa xb : R) (V W : poly lt) := pmul lt (wS xa xb) (pmul lt W (pmul lt (wN2 m) (pmul lt V (wN1 m)))).
Notation upd' := (upd lt lt_eqb).
Definition keeps (env env' : lt -> vec4) := env' lK1 = env lK1 /\ env' lK2 = env lK2 /\ env' lP = env lP.

Lemma evp1 env c w : evp lt env [(c, w)] = mscal (creal c) (ev lt env w).
Proof. rewrite evp_cons. cbn [fst snd evp fold_right]. apply madd_0_r. Qed.
Lemma ev1 env a : ev lt env [a] = slash (env a).
Proof. cbn [ev]. apply mmul_1_r. Qed.
Lemma evp_N2 env m : evp lt env (wN2 m) = num m (env lK2).
Proof. unfold wN2, num. rewrite evp_cons, evp1. cbn [fst snd]. rewrite ev1. fold c1. now rewrite mscal_1. Qed.
Lemma evp_N1 env m : evp lt env (wN1 m) = num m (env lK1).
Proof. unfold wN1, num. rewrite evp_cons, evp1. cbn [fst snd]. rewrite ev1. fold c1. now rewrite mscal_1. Qed.
Lemma evp_S env xa xb : evp lt env (wS xa xb) = slash (add4 (scale4 xa (env lK1)) (scale4 xb (env lP))).
Proof. unfold wS. rewrite evp_cons, evp1. cbn [fst snd]. now rewrite !ev1, slash_add, !slash_scale. Qed.
Lemma half0_words env m V W : half0 m (env lK1) (env lK2) (evp lt env V) (evp lt env W) = tr (evp lt env (w0 m V W)).
Proof. unfold half0, w0. now rewrite !evp_pmul, evp_N2, evp_N1. Qed.
Lemma half5_words env m xa xb V W :
  half5 m (env lK1) (env lK2) (add4 (scale4 xa (env lK1)) (scale4 xb (env lP))) (evp lt env V) (evp lt env W)
  = tr (mmul gam5 (evp lt env (w5 m xa xb V W))).
Proof.
  unfold half5, w5. rewrite !evp_pmul, evp_N2, evp_N1, evp_S. rewrite <- !mmul_assoc.
  set (S := slash _). set (A := evp lt env V). set (B := evp lt env W). set (N1 := num m (env lK1)). set (N2 := num m (env lK2)).
  replace (mmul N2 (mmul A (mmul N1 (mmul gam5 (mmul S B))))) with (mmul (mmul N2 (mmul A N1)) (mmul gam5 (mmul S B))) by (now rewrite <- !mmul_assoc).
  rewrite tr_comm, <- !mmul_assoc. reflexivity.
Qed.

(** Scalar products and determinants given by tables. *)
Definition T (g : lt -> lt -> R) (p : poly lt) : R := trp lt (fun w => if Nat.even (length w) then trw lt g 8 w else 0) p.
Definition T5 d gd (p : poly lt) : R := trp lt (tr5w lt d gd) p.
Lemma trw_ext g g' n w : (forall a b, g a b = g' a b) -> trw lt g n w = trw lt g' n w.
Proof.
  intros H. revert w. induction n as [|n IH]; intros [|a w]; cbn [trw]; auto.
  induction (picks lt w) as [|x l IHl]; cbn [alt]; [reflexivity|]. now rewrite H, IH, IHl.
Qed.
Lemma T_ext g g' p : (forall a b, g a b = g' a b) -> T g p = T g' p.
Proof.
  intros H. unfold T, trp. induction p as [|t p IH]; cbn [fold_right]; [reflexivity|].
  destruct (Nat.even (length (snd t))); rewrite ?(trw_ext g g' 8 (snd t) H); now rewrite IH.
Qed.
Lemma T5_ext d d' gd gd' p : (forall a b c e, d a b c e = d' a b c e) -> (forall a b c e f g, gd a b c e f g = gd' a b c e f g) -> T5 d gd p = T5 d' gd' p.
Proof.
  intros H1 H2. unfold T5, trp. induction p as [|t p IH]; cbn [fold_right]; [reflexivity|]. rewrite IH. f_equal. f_equal.
  destruct (snd t) as [|a [|b [|c [|e [|p' [|q [|r w]]]]]]]; cbn [tr5w]; rewrite ?H1, ?H2; reflexivity.
Qed.
Definition edot (env : lt -> vec4) a b := dot4 (env a) (env b).
Definition edet (env : lt -> vec4) a b c e := det_rows (env a) (env b) (env c) (env e).
Definition edd (env : lt -> vec4) a b c e f g := edot env a b * edet env c e f g.
Lemma tr_T env p : forallb (fun t => length (snd t) <=? 8)%nat p = true -> tr (evp lt env p) = creal (T (edot env) p).
Proof. intros H. rewrite (tr_evp lt env 8) by exact H. reflexivity. Qed.
Lemma tr_T5 env p : forallb (fun t => if Nat.even (length (snd t)) then length (snd t) <=? 6 else true)%nat p = true ->
  tr (mmul gam5 (evp lt env p)) = Cx 0 (T5 (edet env) (edd env) p).
Proof. intros H. rewrite tr5_evp by exact H. reflexivity. Qed.

(** ** Born *)
Definition wV (u : lt) : poly lt := [(1, [u])].
Lemma evp_V env u : evp lt env (wV u) = slash (env u).
Proof. unfold wV. rewrite evp1, ev1. apply mscal_1. Qed.
Definition plain (u : lt) : bool := negb (lt_eqb u lA).
Ltac letters u v := destruct u, v; try discriminate; reflexivity.
Lemma born_words env m xa xb u v : plain u = true -> plain v = true ->
  lepton_born m (env lK1) (env lK2) (add4 (scale4 xa (env lK1)) (scale4 xb (env lP))) (env u) (env v)
  = Cx (1 / 2 * T (edot env) (w0 m (wV u) (wV v))) (1 / 2 * T5 (edet env) (edd env) (w5 m xa xb (wV u) (wV v))).
Proof.
  intros Hu Hv. unfold lepton_born. rewrite current2_split, bar_slash, <- !(evp_V env), half0_words, half5_words.
  rewrite tr_T by (letters u v). rewrite tr_T5 by (letters u v).
  set (A := T _ _). set (B := T5 _ _ _). cxr.
Qed.
(** ** Anomalous moment *)
Definition wSig (c : R) (u : lt) : poly lt := [(- (1 / 2) * c, [u; lK2]); (1 / 2 * c, [u; lK1]); (1 / 2 * c, [lK2; u]); (- (1 / 2) * c, [lK1; u])].
Lemma evp_Sig env c u : evp lt env (wSig c u) = mscal (creal c) (isigma (env u) (sub4 (env lK2) (env lK1))).
Proof.
  unfold wSig, isigma. rewrite !evp_cons. cbn [evp fold_right fst snd ev]. rewrite madd_0_r, !mmul_1_r, slash_sub.
  rewrite !mmul_add_l, !mmul_add_r, !mmul_scal_l, !mmul_scal_r, !mscal_add, !mscal_mscal, <- !madd_assoc.
  f_equal; [f_equal; cxr|]. f_equal; [f_equal; cxr|]. f_equal; [f_equal; cxr|]. f_equal; cxr.
Qed.
Lemma pauli_words env m xa xb u v : plain u = true -> plain v = true ->
  lepton_pauli m (env lK1) (env lK2) (add4 (scale4 xa (env lK1)) (scale4 xb (env lP))) (env u) (env v)
  = Cx (1 / 2 * (T (edot env) (w0 m (wSig 1 u) (wV v)) + T (edot env) (w0 m (wV u) (wSig (-1) v))))
       (1 / 2 * (T5 (edet env) (edd env) (w5 m xa xb (wSig 1 u) (wV v)) + T5 (edet env) (edd env) (w5 m xa xb (wV u) (wSig (-1) v)))).
Proof.
  intros Hu Hv. unfold lepton_pauli. cbv zeta. rewrite !current2_split, bar_slash, bar_isigma.
  assert (E1 : isigma (env u) (sub4 (env lK2) (env lK1)) = evp lt env (wSig 1 u)) by (rewrite evp_Sig; symmetry; apply mscal_1).
  assert (E2 : mscal cm1 (isigma (env v) (sub4 (env lK2) (env lK1))) = evp lt env (wSig (-1) v)) by (rewrite evp_Sig; reflexivity).
  rewrite E1, E2, <- !(evp_V env), !half0_words, !half5_words.
  rewrite !tr_T by (letters u v). rewrite !tr_T5 by (letters u v).
  set (A := T _ _). set (B := T5 _ _ _). set (A' := T _ _). set (B' := T5 _ _ _). cxr.
Qed.
(** ** Radiation *)
Definition wE (m ca cb : R) (u : lt) : poly lt :=
  [(ca, [u; lK1; lA]); (- ca, [u; lK; lA]); (ca * m, [u; lA]); (cb, [lA; lK2; u]); (cb, [lA; lK; u]); (cb * m, [lA; u])].
Definition wEb (m ca cb : R) (u : lt) : poly lt :=
  [(ca, [lA; lK1; u]); (- ca, [lA; lK; u]); (ca * m, [lA; u]); (cb, [u; lK2; lA]); (cb, [u; lK; lA]); (cb * m, [u; lA])].
Lemma evp_E env m u : evp lt env (wE m (/ (dot4 (sub4 (env lK1) (env lK)) (sub4 (env lK1) (env lK)) - m * m)) (/ (dot4 (add4 (env lK2) (env lK)) (add4 (env lK2) (env lK)) - m * m)) u)
  = emit m (env lK1) (env lK2) (env lK) (env lA) (env u).
Proof.
  unfold wE, emit, prop, num. set (ca := / _). set (cb := / _). rewrite !evp_cons. cbn [evp fold_right fst snd ev].
  rewrite !mmul_1_r, madd_0_r, slash_sub, slash_add.
  rewrite !mscal_add, !mmul_add_l, !mmul_add_r, !mmul_scal_l, !mmul_scal_r, !mmul_1_l, !mscal_mscal, <- !madd_assoc.
  f_equal. f_equal; [f_equal; cxr|]. f_equal; [f_equal; cxr|]. f_equal. f_equal. f_equal; cxr.
Qed.
Lemma evp_Eb env m u : evp lt env (wEb m (/ (dot4 (sub4 (env lK1) (env lK)) (sub4 (env lK1) (env lK)) - m * m)) (/ (dot4 (add4 (env lK2) (env lK)) (add4 (env lK2) (env lK)) - m * m)) u)
  = bar (emit m (env lK1) (env lK2) (env lK) (env lA) (env u)).
Proof.
  rewrite bar_emit. unfold wEb, prop, num. set (ca := / _). set (cb := / _). rewrite !evp_cons. cbn [evp fold_right fst snd ev].
  rewrite !mmul_1_r, madd_0_r, slash_sub, slash_add.
  rewrite !mscal_add, !mmul_add_l, !mmul_add_r, !mmul_scal_l, !mmul_scal_r, !mmul_1_l, !mscal_mscal, <- !madd_assoc.
  f_equal. f_equal; [f_equal; cxr|]. f_equal; [f_equal; cxr|]. f_equal. f_equal. f_equal; cxr.
Qed.
Notation pctr' := (pctr lt lt_eqb).
Lemma tr_ksum A f : tr (mmul A (ksum f)) = fold_right (fun t s => cadd (cmul (creal (fst t)) (tr (mmul A (f (snd t))))) s) c0 metric.
Proof.
  unfold ksum. induction metric as [|t l IH]; cbn [fold_right]; [rewrite mmul_0_r; apply tr_zero|].
  now rewrite mmul_add_r, mmul_scal_r, tr_add, tr_scal, IH.
Qed.
Lemma rad_words env m xa xb u v : plain u = true -> plain v = true ->
  let ca := / (dot4 (sub4 (env lK1) (env lK)) (sub4 (env lK1) (env lK)) - m * m) in
  let cb := / (dot4 (add4 (env lK2) (env lK)) (add4 (env lK2) (env lK)) - m * m) in
  lepton_rad m (env lK1) (env lK2) (env lK) (add4 (scale4 xa (env lK1)) (scale4 xb (env lP))) (env u) (env v)
  = Cx (- (1 / 2) * T (edot env) (pctr' lA (w0 m (wE m ca cb u) (wEb m ca cb v))))
       (- (1 / 2) * T5 (edet env) (edd env) (pctr' lA (w5 m xa xb (wE m ca cb u) (wEb m ca cb v)))).
Proof.
  intros Hu Hv ca cb.
  assert (K : forall e, current2 m (env lK1) (env lK2) (add4 (scale4 xa (env lK1)) (scale4 xb (env lP))) (emit m (env lK1) (env lK2) (env lK) e) (emit m (env lK1) (env lK2) (env lK) e) (env u) (env v)
    = cmul (creal (1 / 2)) (cadd (tr (mmul mone (evp lt (upd' env lA e) (w0 m (wE m ca cb u) (wEb m ca cb v)))))
        (tr (mmul gam5 (evp lt (upd' env lA e) (w5 m xa xb (wE m ca cb u) (wEb m ca cb v))))))).
  { intros e. rewrite current2_split, mmul_1_l. f_equal. 
    assert (U : forall x, plain x = true -> upd' env lA e x = env x) by (intros x Hx; destruct x; try discriminate; reflexivity).
    pose proof (evp_E (upd' env lA e) m u) as E1. pose proof (evp_Eb (upd' env lA e) m v) as E2.
    rewrite !(U lK1), !(U lK2), !(U lK), (U u) in E1 by (reflexivity || assumption). rewrite !(U lK1), !(U lK2), !(U lK), (U v) in E2 by (reflexivity || assumption).
    replace (upd' env lA e lA) with e in E1, E2 by reflexivity. fold ca cb in E1, E2. rewrite <- E1, <- E2.
    rewrite <- half0_words, <- half5_words. rewrite (U lK1), (U lK2), (U lP) by reflexivity. reflexivity. }
  assert (Z : lepton_rad m (env lK1) (env lK2) (env lK) (add4 (scale4 xa (env lK1)) (scale4 xb (env lP))) (env u) (env v)
    = cmul (creal (- (1 / 2))) (cadd (tr (mmul mone (ksum (fun e => evp lt (upd' env lA e) (w0 m (wE m ca cb u) (wEb m ca cb v))))))
        (tr (mmul gam5 (ksum (fun e => evp lt (upd' env lA e) (w5 m xa xb (wE m ca cb u) (wEb m ca cb v)))))))).
  { unfold lepton_rad. rewrite !tr_ksum. induction metric as [|t l IH]; cbn [fold_right]; [cxr|]. rewrite IH, K.
    match goal with |- context [tr (mmul mone ?a)] => set (A := tr (mmul mone a)) end.
    match goal with |- context [tr (mmul gam5 ?a)] => set (B := tr (mmul gam5 a)) end.
    match goal with |- context [fold_right ?f c0 l] => set (C := fold_right f c0 l) end.
    match goal with |- context [fold_right ?f c0 l] => set (D := fold_right f c0 l) end.
    apply cx_eq; cbn [re im cadd cmul creal]; field. }
  rewrite Z. rewrite !(ksum_pctr lt lt_eqb lt_eqb_ok) by (letters u v). rewrite mmul_1_l.
  rewrite tr_T by (letters u v). rewrite tr_T5 by (letters u v).
  set (A := T _ _). set (B := T5 _ _ _). cxr.
Qed.
(** Contraction of the two indices with the metric (no polarization). *)
Lemma ksum_tr_T env p : forallb (fun t => twice lt lt_eqb lU (snd t)) p = true -> forallb (fun t => length (snd t) <=? 8)%nat (pctr' lU p) = true ->
  fold_right (fun t s => cadd (cmul (creal (fst t)) (tr (evp lt (upd' env lU (snd t)) p))) s) c0 metric = creal (T (edot env) (pctr' lU p)).
Proof.
  intros H1 H2. rewrite <- tr_T by exact H2. rewrite <- (ksum_pctr lt lt_eqb lt_eqb_ok) by exact H1. rewrite <- (mmul_1_l (ksum _)), tr_ksum.
  induction metric as [|t l IH]; cbn [fold_right]; [reflexivity|]. now rewrite IH, mmul_1_l.
Qed.
