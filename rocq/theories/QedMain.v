(** Contractions of the lepton tensors with the hadronic structures, in terms of the coefficients of the code. *)
From Coq Require Import Reals List Lia Lra Arith Ring Field.
From Verif Require Import MathModel VecModel KinSpec QedSpec QedAlg QedWord QedTensor QedEval QedTab QedSym QedAnti QedBorn QedEvent KinModel LepModel.
Import ListNotations.
Local Open Scope R_scope.

(** ** Common factors *)
Definition scaled (l : R) (p p' : poly lt) := Forall2 (fun t t' => fst t = l * fst t' /\ snd t = snd t') p p'.
Lemma scaled_pmul a b p p' q q' : scaled a p p' -> scaled b q q' -> scaled (a * b) (pmul lt p q) (pmul lt p' q').
Proof.
  intros Hp Hq. induction Hp as [|t t' p p' [H1 H2] Hp IH]; cbn [pmul flat_map]; [constructor|]. apply Forall2_app; [|exact IH]. clear IH Hp.
  induction Hq as [|u u' q q' [H3 H4] Hq IH]; cbn [map]; [constructor|]. constructor; [|exact IH]. cbn [fst snd]. rewrite H1, H2, H3, H4. split; [ring|reflexivity].
Qed.
Lemma scaled_pctr A a p p' : scaled a p p' -> scaled a (pctr' A p) (pctr' A p').
Proof.
  intros Hp. induction Hp as [|t t' p p' [H1 H2] Hp IH]; cbn [pctr flat_map]; [constructor|]. apply Forall2_app; [|exact IH]. rewrite H1, H2. clear.
  induction (ctr lt lt_eqb A (snd t')) as [|x l IH]; cbn [psc map]; constructor; [|exact IH]. cbn [fst snd]. split; [ring|reflexivity].
Qed.
Lemma scaled_refl p : scaled 1 p p.
Proof. induction p; constructor; [|assumption]. split; [ring|reflexivity]. Qed.
Lemma scaled_trp f a p p' : scaled a p p' -> trp lt f p = a * trp lt f p'.
Proof. intros H. unfold trp. induction H as [|t t' p p' [H1 H2] Hp IH]; cbn [fold_right]; [ring|]. rewrite H1, H2, IH. ring. Qed.
Lemma scaled_S l a b : scaled l (wS (l * a) (l * b)) (wS a b).
Proof. unfold wS. repeat constructor. Qed.
Lemma scaled_E l m a b u : scaled l (wE m (l * a) (l * b) u) (wE m a b u).
Proof. unfold wE. repeat (constructor; [cbn [fst snd]; split; [ring|reflexivity]|]). constructor. Qed.
Lemma scaled_Eb l m a b u : scaled l (wEb m (l * a) (l * b) u) (wEb m a b u).
Proof. unfold wEb. repeat (constructor; [cbn [fst snd]; split; [ring|reflexivity]|]). constructor. Qed.

(** ** The vectors of an event *)
Section Vectors.
Variables p h k1 k2 kk : vec4.
Let q := sub4 (sub4 k1 k2) kk.
Let n := normal q p h.
Let env := named p h n k1 k2 kk.
Variables (d : dots).
Hypothesis Hd : tabled d env.
Ltac vec := unfold normal, sub4, dot4, det_rows, dot3, cross3, r4; cbn [t4 x4 y4 z4 x3 y3 z3]; ring.
Definition jets : dets := Dets (det_rows k1 k2 h kk) (det_rows p k2 h kk) (det_rows p k1 h kk) (det_rows p k1 k2 kk) (det_rows p k1 k2 h).
Lemma jets_ok : dettabled jets env.
Proof. split; reflexivity. Qed.
Lemma dq_dot a : dq d (edot env) a = dot4 (env a) q.
Proof. unfold dq. rewrite <- !(gt_ok d env _ _ Hd). unfold edot, q. cbn [env named]. vec. Qed.
Lemma HG a b c : edet env a b c lN = - g3 d (edot env) a b c.
Proof. unfold g3, edet. cbn [env named]. unfold n. rewrite det_normal, !dq_dot, <- !(gt_ok d env _ _ Hd). reflexivity. Qed.
Lemma HH x a b c e : ehn env x a b c e = g4 d (edot env) x a b c e.
Proof.
  unfold g4, ehn. rewrite <- !(gt_ok d env _ _ Hd).
  assert (G : forall a b c, g3 d (edot env) a b c = det_rows n (env a) (env b) (env c)).
  { intros a' b' c'. pose proof (HG a' b' c') as E. unfold edet in E. cbn [env named] in E. fold env in E.
    assert (P : det_rows (env a') (env b') (env c') n = - det_rows n (env a') (env b') (env c')) by (generalize (env a'), (env b'), (env c'); intros; unfold n; vec).
    change (det_rows (env a') (env b') (env c') n = - g3 d (edot env) a' b' c') in E. lra. }
  rewrite !G. unfold edot, edet. change (env lN) with n.
  pose proof (cramer5 n (env a) (env b) (env c) (env e) (env x)) as C.
  assert (S : forall y, dot4 (env x) y = dot4 y (env x)) by (intros y; generalize (env x); intros; vec). rewrite !S.
  change (dot4 (env lN) (env x)) with (dot4 n (env x)). lra.
Qed.
Let vh := det_rows p h k1 (sub4 k1 k2).
Lemma j_k : jk jets = mk_ vh.
Proof. unfold jets, mk_, vh. cbn [jk]. vec. Qed.
Lemma row x : jp jets * dot4 p x - jk1 jets * dot4 k1 x + jk2 jets * dot4 k2 x - jh jets * dot4 h x + jk jets * dot4 kk x = 0.
Proof. exact (cramer5 p k1 k2 h kk x). Qed.
Lemma row_k : rowk d jets = 0.
Proof.
  unfold rowk. pose proof (row kk) as E. destruct Hd as [? ? ? PK ? ? ? ? HK ? ? ? K1 K2 KK ? ? ? ? ?].
  unfold edot in *. cbn [env named] in *. rewrite PK, HK, K1, K2, KK in E. lra.
Qed.
Variable vk : R.
Hypothesis Hvk : vk * (2 * dr d) = det_rows p kk k1 (sub4 k1 k2).
Lemma j_h : jh jets = mh_ d vk.
Proof. unfold mh_. replace (-2 * dr d * vk) with (- (vk * (2 * dr d))) by ring. rewrite Hvk. unfold jets. cbn [jh]. vec. Qed.
Lemma edot_sym a b : dot4 a b = dot4 b a.
Proof. vec. Qed.
Lemma cramer : dL1 d * jp jets = ldp d vh vk /\ dL1 d * jk1 jets = ldk1 d vh vk /\ dL1 d * jk2 jets = ldk2 d vh vk.
Proof.
  pose proof (row p) as EP. pose proof (row k1) as E1. pose proof (row k2) as E2.
  destruct Hd as [PP P1 P2 PK PH HH' H1 H2 HK K11 K22 K12 K1 K2 KK ? ? ? ? ?].
  unfold edot in *. cbn [env named] in *.
  rewrite (edot_sym k1 p), (edot_sym k2 p), (edot_sym h p), (edot_sym kk p), PP, P1, P2, PH, PK in EP.
  rewrite (edot_sym k2 k1), (edot_sym kk k1), P1, K11, K12, H1, K1 in E1.
  rewrite (edot_sym kk k2), P2, K12, K22, H2, K2 in E2.
  unfold ldp, ldk1, ldk2. 
  assert (WP : wP d vh vk = dM d * dM d * jp jets - ds d * jk1 jets + dx d * jk2 jets) by (unfold wP; rewrite <- j_k, <- j_h; lra).
  assert (W1 : w1 d vh vk = ds d * jp jets - dm d * dm d * jk1 jets + dc d * jk2 jets) by (unfold w1; rewrite <- j_k, <- j_h; lra).
  assert (W2 : w2 d vh vk = dx d * jp jets - dc d * jk1 jets + dm d * dm d * jk2 jets) by (unfold w2; rewrite <- j_k, <- j_h; lra).
  rewrite WP, W1, W2. unfold dL1, dLY, det3. split; [ring|]. split; ring.
Qed.
Lemma dn1_eq : dn1 d = jk jets - jk2 jets.
Proof. destruct Hd as [? ? ? ? ? ? ? ? ? ? ? ? ? ? ? ? ? N1 N2 ?]. rewrite <- N1. unfold edot. cbn [env named]. unfold n. rewrite normal_dot. unfold q, jets. cbn [jk jk2]. vec. Qed.
Lemma dn2_eq : dn2 d = jk jets - jk1 jets.
Proof. destruct Hd as [? ? ? ? ? ? ? ? ? ? ? ? ? ? ? ? ? N1 N2 ?]. rewrite <- N2. unfold edot. cbn [env named]. unfold n. rewrite normal_dot. unfold q, jets. cbn [jk jk1]. vec. Qed.
End Vectors.
