(** Radiation by a polarized lepton: the traces are the coefficients of the code. *)
From Coq Require Import Reals List Lia Lra Arith Ring Field.
From Verif Require Import MathModel VecModel KinSpec QedSpec QedAlg QedWord QedTensor QedEval QedTab KinModel LepModel.
Import ListNotations.
Local Open Scope R_scope.

Section Anti.
Variables (d : dots) (fg : lt -> lt -> R) (j : dets) (fd : lt -> lt -> lt -> lt -> R) (hn : lt -> lt -> lt -> lt -> lt -> R).
Variables (vh vk i1 i2 im iL iS : R) (k : kinrad).
Hypothesis Hm : dm d * im = 1.
Hypothesis H1 : dz1 d * i1 = 1.
Hypothesis H2 : dz2 d * i2 = 1.
Hypothesis HF : fitsrad d vh vk i1 i2 k.
Hypothesis HL : / rlambda_1 k = iL.
Hypothesis HS : / rlambda_S_sqrt k = iS.
Definition TL u v := T5 (dt j fd) (gdt d fg j fd hn) (pctr' lA (w5 (dm d) (2 * ds d * im) (- 2 * dm d) (wE (dm d) (- i1) i2 u) (wEb (dm d) (- i1) i2 v))).
Ltac code := 
  cbv [tot4 LepRadBaseLU LepBornBaseLU LepRadBaseLP LepBornBaseLP project kQ_sq km kS kX kM kmh kz kS_x kS_p kV_1 kV_2 kV_m kV_p kvol_phi_h klambda_S_sqrt klambda_Y lb5 lb7 lb9 sq
   lr051 lr052 lr053 lr151 lr152 lr153 lr071 lr072 lr073 lr074 lr171 lr172 lr173 lr174 lr091 lr092 lr093 lr094 lr191 lr192 lr193 lr194];
  unfold Rdiv; rewrite ?Rinv_mult, ?HL, ?HS; destruct HF as [? ? ? ? ? ? ? ? ? ? ? ? ? ? ? ? ? ? ? ? ? ? ? ? ? ?];
  repeat match goal with H : ?f k = _ |- _ => rewrite ?H; clear H end; clear HF.
Ltac compact u v := let E := fresh "E" in let t := fresh "t" in
  assert (E : exists t, TL u v = t) by eauto; destruct E as [t E]; rewrite E; revert E;
  cbv [TL T5 tr5w dt gdt look alt4 ltb ix Nat.ltb Nat.leb xorb wS w5 trp fold_right wN2 wN1 wV wE wEb pmul psc flat_map map app fst snd Nat.even length gt pctr ctr cut lt_eqb twice andb orb negb kw];
  intros E; ring_simplify [Hm H1 H2] in E; rewrite <- E; clear E t.
Lemma rad5 : jk j = iL * dL1 d * mk_ vh -> jh j = iL * dL1 d * mh_ d vk -> jp j = iL * ldp d vh vk -> jk1 j = iL * ldk1 d vh vk -> jk2 j = iL * ldk2 d vh vk ->
  iS * TL lP lH + 16 * (iS * ds d * (i2 * i2 + i1 * i2 - 2 * (i1 * i1)) * rowk d j)
  = - (1 / 2) * tot4 (dr d) (iL * dL1 d * (lr051 (LepRadBaseLU k) + lr151 (LepRadBaseLU k))) (lr052 (LepRadBaseLU k) + lr152 (LepRadBaseLU k)) (lr053 (LepRadBaseLU k) + lr153 (LepRadBaseLU k)) 0.
Proof.
  intros E1 E2 E3 E4 E5. compact lP lH. code. unfold rowk. rewrite E1, E2, E3, E4, E5. unfold ldp, ldk1, ldk2, det3, w1, w2, wP, mh_, mk_, dL1, dLY.
  field [H1 H2 Hm].
Qed.
Hypothesis HG : forall a b c, fd a b c lN = - g3 d fg a b c.
Hypothesis HH : forall n a b c e, hn n a b c e = g4 d fg n a b c e.
Lemma rad7 : iS * TL lP lN
  = - (1 / 2) * tot4 (dr d) (lr071 (LepRadBaseLP k) + lr171 (LepRadBaseLP k)) (lr072 (LepRadBaseLP k) + lr172 (LepRadBaseLP k)) (lr073 (LepRadBaseLP k) + lr173 (LepRadBaseLP k)) (lr074 (LepRadBaseLP k) + lr174 (LepRadBaseLP k)).
Proof. compact lP lN. code. rewrite ?HG, ?HH. cbv [g4 g3 dq gt det3 dLY]. field [H1 H2 Hm]. Qed.
Lemma rad9 : iS * TL lH lN
  = - (1 / 2) * tot4 (dr d) (lr091 (LepRadBaseLP k) + lr191 (LepRadBaseLP k)) (lr092 (LepRadBaseLP k) + lr192 (LepRadBaseLP k)) (lr093 (LepRadBaseLP k) + lr193 (LepRadBaseLP k)) (lr094 (LepRadBaseLP k) + lr194 (LepRadBaseLP k)).
Proof. compact lH lN. code. rewrite ?HG, ?HH. cbv [g4 g3 dq gt det3 dLY]. field [H1 H2 Hm]. Qed.
End Anti.
