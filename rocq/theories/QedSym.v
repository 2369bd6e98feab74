(** Radiation by an unpolarized lepton: the traces are the coefficients of the code. *)
From Coq Require Import Reals List Lia Lra Arith Ring Field.
From Verif Require Import MathModel VecModel KinSpec QedSpec QedAlg QedWord QedTensor QedEval QedTab KinModel LepModel.
Import ListNotations.
Local Open Scope R_scope.

Section Sym.
Variables (d : dots) (fg : lt -> lt -> R) (vh vk i1 i2 iL : R) (k : kinrad).
Hypothesis H1 : dz1 d * i1 = 1.
Hypothesis H2 : dz2 d * i2 = 1.
Hypothesis HF : fitsrad d vh vk i1 i2 k.
Hypothesis HL : / rlambda_1 k = iL.
Definition TU u v := T (gt d fg) (pctr' lA (w0 (dm d) (wE (dm d) (- i1) i2 u) (wEb (dm d) (- i1) i2 v))).
Definition TUU := T (gt d fg) (pctr' lU (pctr' lA (w0 (dm d) (wE (dm d) (- i1) i2 lU) (wEb (dm d) (- i1) i2 lU)))).
Ltac code := 
  cbv [tot4 LepRadBaseUU LepBornBaseUU LepRadBaseUP LepBornBaseUP project kQ_sq km kS kX kM kmh kz kS_x kS_p kV_1 kV_2 kV_m kV_p kvol_phi_h lb1 lb2 lb3 lb4 lb6 lb8 sq
   lr011 lr012 lr013 lr021 lr022 lr023 lr031 lr032 lr033 lr041 lr042 lr043 lr061 lr062 lr063 lr064 lr081 lr082 lr083 lr084];
  unfold Rdiv; rewrite ?Rinv_mult, ?HL; destruct HF as [? ? ? ? ? ? ? ? ? ? ? ? ? ? ? ? ? ? ? ? ? ? ? ? ? ?];
  repeat match goal with H : ?f k = _ |- _ => rewrite ?H; clear H end; clear HF.
Ltac compact u v := let E := fresh "E" in let t := fresh "t" in
  assert (E : exists t, TU u v = t) by eauto; destruct E as [t E]; rewrite E; revert E;
  cbv [TU T trp fold_right w0 wN2 wN1 wV wE wEb pmul psc flat_map map app fst snd trw alt picks Nat.even length gt pctr ctr cut lt_eqb twice andb orb negb kw];
  intros E; ring_simplify in E; rewrite <- E; clear E t.
Lemma rad1 : - TUU = tot4 (dr d) (lr011 (LepRadBaseUU k)) (lr012 (LepRadBaseUU k)) (lr013 (LepRadBaseUU k)) 0.
Proof.
  cbv [TUU T trp fold_right w0 wN2 wN1 wV wE wEb pmul psc flat_map map app fst snd trw alt picks Nat.even length gt pctr ctr cut lt_eqb twice andb orb negb kw].
  code. field [H1 H2].
Qed.
Lemma rad2 : TU lP lP = tot4 (dr d) (lr021 (LepRadBaseUU k)) (lr022 (LepRadBaseUU k)) (lr023 (LepRadBaseUU k)) 0.
Proof. compact lP lP. code. field [H1 H2]. Qed.
Lemma rad3 : TU lH lH = tot4 (dr d) (lr031 (LepRadBaseUU k)) (lr032 (LepRadBaseUU k)) (lr033 (LepRadBaseUU k)) 0.
Proof. compact lH lH. code. field [H1 H2]. Qed.
Lemma rad4 : 2 * TU lP lH = tot4 (dr d) (lr041 (LepRadBaseUU k)) (lr042 (LepRadBaseUU k)) (lr043 (LepRadBaseUU k)) 0.
Proof. compact lP lH. code. field [H1 H2]. Qed.
Hypothesis HN1 : dn1 d = iL * (dL1 d * mk_ vh - ldk2 d vh vk).
Hypothesis HN2 : dn2 d = iL * (dL1 d * mk_ vh - ldk1 d vh vk).
Lemma rad6 : 2 * TU lP lN = tot4 (dr d) (iL * dL1 d * lr061 (LepRadBaseUP k)) (lr062 (LepRadBaseUP k)) (lr063 (LepRadBaseUP k)) (lr064 (LepRadBaseUP k)).
Proof. compact lP lN. code. rewrite HN1, HN2. unfold ldk1, ldk2, det3, w1, w2, wP, mh_, mk_, dL1, dLY. field [H1 H2]. Qed.
Lemma rad8 : 2 * TU lH lN = tot4 (dr d) (iL * dL1 d * lr081 (LepRadBaseUP k)) (lr082 (LepRadBaseUP k)) (lr083 (LepRadBaseUP k)) (lr084 (LepRadBaseUP k)).
Proof. compact lH lN. code. rewrite HN1, HN2. unfold ldk1, ldk2, det3, w1, w2, wP, mh_, mk_, dL1, dLY. field [H1 H2]. Qed.
End Sym.
