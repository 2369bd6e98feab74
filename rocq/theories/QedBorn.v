(** Scattering without radiation: the traces are the coefficients of the code. *)
From Coq Require Import Reals List Lia Lra Arith Ring Field.
From Verif Require Import MathModel VecModel KinSpec QedSpec QedAlg QedWord QedTensor QedEval QedTab KinModel LepModel.
Import ListNotations.
Local Open Scope R_scope.

Section Born.
Variables (d : dots) (fg : lt -> lt -> R) (j : dets) (fd : lt -> lt -> lt -> lt -> R) (hn : lt -> lt -> lt -> lt -> lt -> R).
Variables (vh im iS : R) (k : kin).
Hypothesis Hm : dm d * im = 1.
Hypothesis HF : fits d vh k.
Hypothesis HS : / klambda_S_sqrt k = iS.
Definition UB u v := T (gt d fg) (w0 (dm d) (wV u) (wV v)).
Definition UA u v := T (gt d fg) (w0 (dm d) (wSig 1 u) (wV v)) + T (gt d fg) (w0 (dm d) (wV u) (wSig (-1) v)).
Definition UBB := T (gt d fg) (pctr' lU (w0 (dm d) (wV lU) (wV lU))).
Definition UAA := T (gt d fg) (pctr' lU (w0 (dm d) (wSig 1 lU) (wV lU))) + T (gt d fg) (pctr' lU (w0 (dm d) (wV lU) (wSig (-1) lU))).
Definition LB u v := T5 (dt j fd) (gdt d fg j fd hn) (w5 (dm d) (2 * ds d * im) (- 2 * dm d) (wV u) (wV v)).
Definition LA u v := T5 (dt j fd) (gdt d fg j fd hn) (w5 (dm d) (2 * ds d * im) (- 2 * dm d) (wSig 1 u) (wV v))
  + T5 (dt j fd) (gdt d fg j fd hn) (w5 (dm d) (2 * ds d * im) (- 2 * dm d) (wV u) (wSig (-1) v)).
Ltac code := 
  cbv [LepBornBaseUU LepBornBaseUP LepBornBaseLU LepBornBaseLP LepAmmBaseUU LepAmmBaseUP LepAmmBaseLU LepAmmBaseLP
    lb1 lb2 lb3 lb4 lb5 lb6 lb7 lb8 lb9 la1 la2 la3 la4 la5 la6 la7 la8 la9 sq];
  unfold Rdiv; rewrite ?Rinv_mult, ?HS; destruct HF as [? ? ? ? ? ? ? ? ? ? ? ? ? ? ? ?];
  repeat match goal with H : ?f k = _ |- _ => rewrite ?H; clear H end; clear HF; unfold dLY.
Ltac expand :=
  cbv [UB UA UBB UAA LB LA T T5 tr5w dt gdt look alt4 ltb ix Nat.ltb Nat.leb xorb wS w5 w0 wV wSig trp fold_right wN2 wN1 pmul psc flat_map map app fst snd trw alt picks Nat.even length gt pctr ctr cut lt_eqb twice andb orb negb kw].
Notation BU := (LepBornBaseUU k).
Notation AU := (LepAmmBaseUU k).
Lemma born1 : - UBB = 4 * lb1 BU. Proof. expand. code. field. Qed.
Lemma born2 : UB lP lP = 4 * lb2 BU. Proof. expand. code. field. Qed.
Lemma born3 : UB lH lH = 4 * lb3 BU. Proof. expand. code. field. Qed.
Lemma born4 : 2 * UB lP lH = 4 * lb4 BU. Proof. expand. code. field. Qed.
Hypothesis HQ : 2 * dc d - 2 * (dm d * dm d) <> 0.
Let Q2 := 2 * dc d - 2 * (dm d * dm d).
Let HQ' : dc d - dm d * dm d <> 0. Proof. intros E. apply HQ. lra. Qed.
Ltac fld := unfold Q2; field [Hm]; repeat split; intros E; apply HQ'; revert E; clear; intros E; lra.
Lemma amm1 : - UAA = 4 * dm d * Q2 * la1 AU. Proof. expand. code. unfold Q2. field. Qed.
Lemma amm2 : UA lP lP = 4 * dm d * Q2 * la2 AU. Proof. expand. code. fld. Qed.
Lemma amm3 : UA lH lH = 4 * dm d * Q2 * la3 AU. Proof. expand. code. fld. Qed.
Lemma amm4 : 2 * UA lP lH = 4 * dm d * Q2 * la4 AU. Proof. expand. code. fld. Qed.
Hypothesis Hk : jk j = mk_ vh.
Hypothesis HN1 : dn1 d = mk_ vh.
Hypothesis HN2 : dn2 d = mk_ vh.
Hypothesis Hr : dr d = 0.
Lemma born6 : 2 * UB lP lN = 4 * lb6 (LepBornBaseUP k). Proof. expand. rewrite HN1, HN2. code. unfold mk_. field. Qed.
Lemma born8 : 2 * UB lH lN = 4 * lb8 (LepBornBaseUP k). Proof. expand. rewrite HN1, HN2. code. unfold mk_. field. Qed.
Lemma amm6 : 2 * UA lP lN = 4 * dm d * Q2 * la6 (LepAmmBaseUP k). Proof. expand. rewrite HN1, HN2. code. unfold mk_, Q2. field. Qed.
Lemma amm8 : 2 * UA lH lN = 4 * dm d * Q2 * la8 (LepAmmBaseUP k). Proof. expand. rewrite HN1, HN2. code. unfold mk_, Q2. field. Qed.
Lemma born5 : iS * LB lP lH = - 2 * lb5 (LepBornBaseLU k). Proof. expand. rewrite Hk. code. unfold mk_. field [Hm]. Qed.
Lemma amm5 : iS * LA lP lH = - 2 * dm d * Q2 * la5 (LepAmmBaseLU k). Proof. expand. rewrite Hk. code. unfold mk_. fld. Qed.
Hypothesis HG : forall a b c, fd a b c lN = - g3 d fg a b c.
Hypothesis HH : forall n a b c e, hn n a b c e = g4 d fg n a b c e.
Ltac grams := rewrite ?HG, ?HH; cbv [g4 g3 dq gt det3]; rewrite ?Hr.
Lemma born7 : iS * LB lP lN = - 2 * lb7 (LepBornBaseLP k). Proof. expand. grams. code. field [Hm]. Qed.
Lemma born9 : iS * LB lH lN = - 2 * lb9 (LepBornBaseLP k). Proof. expand. grams. code. field [Hm]. Qed.
Lemma amm7 : iS * LA lP lN = - 2 * dm d * Q2 * la7 (LepAmmBaseLP k). Proof. expand. grams. code. fld. Qed.
Lemma amm9 : iS * LA lH lN = - 2 * dm d * Q2 * la9 (LepAmmBaseLP k). Proof. expand. grams. code. fld. Qed.
End Born.
