(** Tables of the scalar products and determinants of the named vectors, and what the stored kinematics are in terms of
    them. *)
From Coq Require Import Reals List Lia Lra Arith Ring Field.
From Verif Require Import MathModel VecModel KinSpec QedSpec QedAlg QedWord QedTensor QedEval KinModel LepModel.
Import ListNotations.
Local Open Scope R_scope.

(** p.p = dM^2, p.k1 = ds, p.k2 = dx, k1.k2 = dc, p.k = dr, p.h = dz (ds - dx), h.k1, h.k2, h.h = dmh^2, h.k = dr dmu,
    k.k1 = dr dz1, k.k2 = dr dz2, n.k1, n.k2. *)
Record dots := Dots { dM : R; dm : R; ds : R; dx : R; dc : R; dr : R; dz : R; dv1 : R; dv2 : R; dmh : R; dmu : R; dz1 : R; dz2 : R; dn1 : R; dn2 : R }.
Definition gt (d : dots) (fg : lt -> lt -> R) (a b : lt) : R :=
  match a, b with
  | lP, lP => dM d * dM d | lP, lK1 | lK1, lP => ds d | lP, lK2 | lK2, lP => dx d | lP, lK | lK, lP => dr d | lP, lH | lH, lP => dz d * (ds d - dx d)
  | lH, lH => dmh d * dmh d | lH, lK1 | lK1, lH => dv1 d | lH, lK2 | lK2, lH => dv2 d | lH, lK | lK, lH => dr d * dmu d
  | lK1, lK1 | lK2, lK2 => dm d * dm d | lK1, lK2 | lK2, lK1 => dc d | lK1, lK | lK, lK1 => dr d * dz1 d | lK2, lK | lK, lK2 => dr d * dz2 d | lK, lK => 0
  | lN, lK1 | lK1, lN => dn1 d | lN, lK2 | lK2, lN => dn2 d | lN, lK | lK, lN => dn1 d - dn2 d | lN, lP | lP, lN | lN, lH | lH, lN => 0
  | a, b => fg a b
  end.
(** det_rows of p, k1, k2, h, k in this order with one of them left out *)
Record dets := Dets { jp : R; jk1 : R; jk2 : R; jh : R; jk : R }.
Definition ix (a : lt) : nat := match a with lP => 0 | lK1 => 1 | lK2 => 2 | lH => 3 | lK => 4 | lN => 5 | lA => 6 | lU => 7 end%nat.
Definition ltb (a b : lt) : bool := Nat.ltb (ix a) (ix b).
(** Alternating function of four letters from its values on increasing letters. *)
Definition alt4 (f : lt -> lt -> lt -> lt -> R) (a b c e : lt) : R :=
  let s1 := ltb b a in let '(a, b) := if s1 then (b, a) else (a, b) in
  let s2 := ltb e c in let '(c, e) := if s2 then (e, c) else (c, e) in
  let s3 := ltb c a in let '(a, c) := if s3 then (c, a) else (a, c) in
  let s4 := ltb e b in let '(b, e) := if s4 then (e, b) else (b, e) in
  let s5 := ltb c b in let '(b, c) := if s5 then (c, b) else (b, c) in
  if orb (lt_eqb a b) (orb (lt_eqb b c) (lt_eqb c e)) then 0
  else if xorb s1 (xorb s2 (xorb s3 (xorb s4 s5))) then - f a b c e else f a b c e.
Definition look (j : dets) (fd : lt -> lt -> lt -> lt -> R) (a b c e : lt) : R :=
  match a, b, c, e with
  | lP, lK1, lK2, lH => jk j | lP, lK1, lK2, lK => jh j | lP, lK1, lH, lK => jk2 j | lP, lK2, lH, lK => jk1 j | lK1, lK2, lH, lK => jp j
  | a, b, c, e => fd a b c e
  end.
Definition dt j fd := alt4 (look j fd).
(** [hn x c e f g]: product of n.x and the determinant of c, e, f, g *)
Definition gdt d fg j fd (hn : lt -> lt -> lt -> lt -> lt -> R) (a b c e f g : lt) : R :=
  let n x := match x with lP | lH => 0 | lK => alt4 (hn lK1) c e f g - alt4 (hn lK2) c e f g | x => alt4 (hn x) c e f g end in
  match a, b with lN, x => n x | x, lN => n x | _, _ => gt d fg a b * dt j fd c e f g end.

(** ** Alternation *)
Record alternating (D : lt -> lt -> lt -> lt -> R) : Prop := Alternating {
  al_12 : forall a b c e, D b a c e = - D a b c e;
  al_23 : forall a b c e, D a c b e = - D a b c e;
  al_34 : forall a b c e, D a b e c = - D a b c e }.
Lemma alternating_perm D a b c e : alternating D -> let v := D a b c e in
  D a b e c = - v /\ D a c b e = - v /\ D a c e b = v /\ D a e b c = v /\ D a e c b = - v /\ D b a c e = - v /\ D b a e c = v /\ D b c a e = v /\ D b c e a = - v /\ D b e a c = - v /\ D b e c a = v /\ D c a b e = v /\ D c a e b = - v /\ D c b a e = - v /\ D c b e a = v /\ D c e a b = v /\ D c e b a = - v /\ D e a b c = - v /\ D e a c b = v /\ D e b a c = v /\ D e b c a = - v /\ D e c a b = - v /\ D e c b a = v.
Proof.
  intros [A B C] v. unfold v. clear v.
  split; [rewrite (C a b c e); ring|].
  split; [rewrite (B a b c e); ring|].
  split; [rewrite (C a c b e), (B a b c e); ring|].
  split; [rewrite (B a b e c), (C a b c e); ring|].
  split; [rewrite (B a c e b), (C a c b e), (B a b c e); ring|].
  split; [rewrite (A a b c e); ring|].
  split; [rewrite (A a b e c), (C a b c e); ring|].
  split; [rewrite (B b a c e), (A a b c e); ring|].
  split; [rewrite (C b c a e), (B b a c e), (A a b c e); ring|].
  split; [rewrite (B b a e c), (C b a c e), (A a b c e); ring|].
  split; [rewrite (B b c e a), (C b c a e), (B b a c e), (A a b c e); ring|].
  split; [rewrite (A a c b e), (B a b c e); ring|].
  split; [rewrite (A a c e b), (C a c b e), (B a b c e); ring|].
  split; [rewrite (A b c a e), (B b a c e), (A a b c e); ring|].
  split; [rewrite (A b c e a), (C b c a e), (B b a c e), (A a b c e); ring|].
  split; [rewrite (B c a e b), (C c a b e), (A a c b e), (B a b c e); ring|].
  split; [rewrite (B c b e a), (C c b a e), (A b c a e), (B b a c e), (A a b c e); ring|].
  split; [rewrite (A a e b c), (B a b e c), (C a b c e); ring|].
  split; [rewrite (A a e c b), (B a c e b), (C a c b e), (B a b c e); ring|].
  split; [rewrite (A b e a c), (B b a e c), (C b a c e), (A a b c e); ring|].
  split; [rewrite (A b e c a), (B b c e a), (C b c a e), (B b a c e), (A a b c e); ring|].
  split; [rewrite (A c e a b), (B c a e b), (C c a b e), (A a c b e), (B a b c e); ring|].
  rewrite (A c e b a), (B c b e a), (C c b a e), (A b c a e), (B b a c e), (A a b c e); ring.
Qed.
Lemma alt4_ok D a b c e : alternating D -> alt4 D a b c e = D a b c e.
Proof.
  intros H. destruct (alternating_perm D a b c e H) as (h0 & h1 & h2 & h3 & h4 & h5 & h6 & h7 & h8 & h9 & h10 & h11 & h12 & h13 & h14 & h15 & h16 & h17 & h18 & h19 & h20 & h21 & h22).
  destruct H as [A B C].
  assert (Z1 : forall a c e, D a a c e = 0) by (intros a' c' e'; pose proof (A a' a' c' e'); lra).
  assert (Z2 : forall a c e, D a c c e = 0) by (intros a' c' e'; pose proof (B a' c' c' e'); lra).
  assert (Z3 : forall a c e, D a c e e = 0) by (intros a' c' e'; pose proof (C a' c' e' e'); lra).
  unfold alt4. cbv zeta.
  assert (Fin : forall (x : bool) a b c e v, (if x then - D a b c e else D a b c e) = v ->
    (if orb (lt_eqb a b) (orb (lt_eqb b c) (lt_eqb c e)) then 0 else if x then - D a b c e else D a b c e) = v).
  { intros x a' b' c' e' v Hv. destruct (lt_eqb a' b') eqn:E1; [apply lt_eqb_ok in E1; subst a'; rewrite Z1 in Hv; cbn [orb]; destruct x; lra|].
    destruct (lt_eqb b' c') eqn:E2; [apply lt_eqb_ok in E2; subst b'; rewrite Z2 in Hv; cbn [orb]; destruct x; lra|].
    destruct (lt_eqb c' e') eqn:E3; [apply lt_eqb_ok in E3; subst c'; rewrite Z3 in Hv; cbn [orb]; destruct x; lra|]. exact Hv. }
  destruct (ltb b a); destruct (ltb e c);
  match goal with |- context [ltb ?c ?a] => destruct (ltb c a) end;
  match goal with |- context [ltb ?e ?b] => destruct (ltb e b) end;
  match goal with |- context [ltb ?c ?b] => destruct (ltb c b) end;
  apply Fin; cbn [xorb]; lra.
Qed.
Lemma det_alternating env : alternating (edet env).
Proof. split; intros a b c e; unfold edet, det_rows, dot3, cross3, r4; cbn [x3 y3 z3]; ring. Qed.
Lemma alternating_scale x D : alternating D -> alternating (fun a b c e => x * D a b c e).
Proof. intros [A B C]. split; intros a b c e; [rewrite (A a b c e)|rewrite (B a b c e)|rewrite (C a b c e)]; ring. Qed.
Lemma alt4_ext f g a b c e : (forall a b c e, f a b c e = g a b c e) -> alt4 f a b c e = alt4 g a b c e.
Proof.
  intros H. unfold alt4. cbv zeta.
  destruct (ltb b a); destruct (ltb e c);
  match goal with |- context [ltb ?c ?a] => destruct (ltb c a) end;
  match goal with |- context [ltb ?e ?b] => destruct (ltb e b) end;
  match goal with |- context [ltb ?c ?b] => destruct (ltb c b) end; now rewrite H.
Qed.

(** ** The tables hold *)
Record tabled (d : dots) (env : lt -> vec4) : Prop := Tabled {
  t_PP : edot env lP lP = dM d * dM d; t_P1 : edot env lP lK1 = ds d; t_P2 : edot env lP lK2 = dx d; t_PK : edot env lP lK = dr d;
  t_PH : edot env lP lH = dz d * (ds d - dx d); t_HH : edot env lH lH = dmh d * dmh d; t_H1 : edot env lH lK1 = dv1 d; t_H2 : edot env lH lK2 = dv2 d;
  t_HK : edot env lH lK = dr d * dmu d; t_11 : edot env lK1 lK1 = dm d * dm d; t_22 : edot env lK2 lK2 = dm d * dm d; t_12 : edot env lK1 lK2 = dc d;
  t_1K : edot env lK1 lK = dr d * dz1 d; t_2K : edot env lK2 lK = dr d * dz2 d; t_KK : edot env lK lK = 0;
  t_NP : edot env lN lP = 0; t_NH : edot env lN lH = 0; t_N1 : edot env lN lK1 = dn1 d; t_N2 : edot env lN lK2 = dn2 d; t_NK : edot env lN lK = dn1 d - dn2 d }.
Record dettabled (j : dets) (env : lt -> vec4) : Prop := Dettabled {
  t_k : edet env lP lK1 lK2 lH = jk j; t_h : edet env lP lK1 lK2 lK = jh j; t_k2 : edet env lP lK1 lH lK = jk2 j;
  t_k1 : edet env lP lK2 lH lK = jk1 j; t_p : edet env lK1 lK2 lH lK = jp j }.
Lemma edot_comm env a b : edot env a b = edot env b a.
Proof. unfold edot, dot4, dot3, r4. cbn [x3 y3 z3]. ring. Qed.
Lemma gt_ok d env a b : tabled d env -> edot env a b = gt d (edot env) a b.
Proof.
  intros [? ? ? ? ? ? ? ? ? ? ? ? ? ? ? ? ? ? ? ?].
  destruct a, b; cbn [gt]; first [reflexivity | assumption | rewrite edot_comm; assumption].
Qed.
Lemma look_ok j env a b c e : dettabled j env -> look j (edet env) a b c e = edet env a b c e.
Proof.
  intros [? ? ? ? ?]. destruct a; try reflexivity; destruct b; try reflexivity; destruct c; try reflexivity; destruct e; try reflexivity; symmetry; assumption.
Qed.
Lemma dt_ok j env a b c e : dettabled j env -> edet env a b c e = dt j (edet env) a b c e.
Proof. intros H. unfold dt. rewrite (alt4_ext _ (edet env)) by (intros; now apply look_ok). symmetry. apply alt4_ok, det_alternating. Qed.
Definition ehn (env : lt -> vec4) (x c e f g : lt) : R := edot env lN x * edet env c e f g.
Lemma ehn_alt env x c e f g : alt4 (ehn env x) c e f g = edot env lN x * edet env c e f g.
Proof. apply (alt4_ok (fun c e f g => edot env lN x * edet env c e f g)), alternating_scale, det_alternating. Qed.
Lemma gdt_ok d j env a b c e f g : tabled d env -> dettabled j env -> edd env a b c e f g = gdt d (edot env) j (edet env) (ehn env) a b c e f g.
Proof.
  intros Hd Hj. unfold edd, gdt.
  assert (N : forall x, edot env lN x * edet env c e f g = match x with lP | lH => 0 | lK => alt4 (ehn env lK1) c e f g - alt4 (ehn env lK2) c e f g | x => alt4 (ehn env x) c e f g end).
  { intros x. destruct Hd as [? ? ? ? ? ? ? ? ? ? ? ? ? ? ? NP NH N1 N2 NK]. destruct x; rewrite ?ehn_alt; try reflexivity; [rewrite NP; ring|rewrite NH; ring|rewrite NK, N1, N2; ring]. }
  assert (G : edot env a b * edet env c e f g = gt d (edot env) a b * dt j (edet env) c e f g) by (rewrite <- (gt_ok d env a b Hd), <- (dt_ok j env c e f g Hj); reflexivity).
  destruct a; (try exact (N b)); destruct b; first [exact G | rewrite (edot_comm env _ lN); match goal with |- edot env lN ?y * _ = _ => exact (N y) end].
Qed.
Lemma T_tab d env p : tabled d env -> T (edot env) p = T (gt d (edot env)) p.
Proof. intros H. apply T_ext. intros. now apply gt_ok. Qed.
Lemma T5_tab d j env p : tabled d env -> dettabled j env -> T5 (edet env) (edd env) p = T5 (dt j (edet env)) (gdt d (edot env) j (edet env) (ehn env)) p.
Proof. intros H1 H2. apply T5_ext; intros; [now apply dt_ok|now apply gdt_ok]. Qed.

(** ** What the stored kinematics are *)
Definition dLY d := (2 * ds d - 2 * dx d) * (2 * ds d - 2 * dx d) + 4 * (dM d * dM d) * (2 * dc d - 2 * (dm d * dm d)).
Definition dL1 d := (2 * dc d - 2 * (dm d * dm d)) * (4 * ds d * dx d - dM d * dM d * (2 * dc d - 2 * (dm d * dm d))) - dm d * dm d * dLY d.
Record fits (d : dots) (vh : R) (k : kin) : Prop := Fits {
  f_S : kS k = 2 * ds d; f_X : kX k = 2 * dx d; f_M : kM k = dM d; f_m : km k = dm d; f_mh : kmh k = dmh d; f_z : kz k = dz d;
  f_Q : kQ_sq k = 2 * dc d - 2 * (dm d * dm d); f_Sx : kS_x k = 2 * ds d - 2 * dx d; f_Sp : kS_p k = 2 * ds d + 2 * dx d;
  f_V1 : kV_1 k = 2 * dv1 d; f_V2 : kV_2 k = 2 * dv2 d; f_Vm : kV_m k = dv1 d - dv2 d; f_Vp : kV_p k = dv1 d + dv2 d;
  f_lY : klambda_Y k = dLY d; f_l1 : klambda_1 k = dL1 d; f_vh : kvol_phi_h k = vh }.
Record fitsrad (d : dots) (vh vk i1 i2 : R) (k : kinrad) : Prop := Fitsrad {
  r_S : rS k = 2 * ds d; r_X : rX k = 2 * dx d; r_M : rM k = dM d; r_m : rm k = dm d; r_mh : rmh k = dmh d; r_z : rz k = dz d;
  r_Q : rQ_sq k = 2 * dc d - 2 * (dm d * dm d); r_Sx : rS_x k = 2 * ds d - 2 * dx d; r_Sp : rS_p k = 2 * ds d + 2 * dx d;
  r_V1 : rV_1 k = 2 * dv1 d; r_V2 : rV_2 k = 2 * dv2 d; r_Vm : rV_m k = dv1 d - dv2 d; r_Vp : rV_p k = dv1 d + dv2 d;
  r_lY : rlambda_Y k = dLY d; r_l1 : rlambda_1 k = dL1 d; r_vh : rvol_phi_h k = vh; r_vk : rvol_phi_k_R k = vk;
  r_tau : rtau k = dz1 d - dz2 d; r_mu : rmu k = dmu d; r_21 : rF_21 k = i1 * i1; r_22 : rF_22 k = i2 * i2; r_2p : rF_2p k = i1 * i1 + i2 * i2; r_2m : rF_2m k = i2 * i2 - i1 * i1;
  r_d : rF_d k = i1 * i2; r_1p : rF_1p k = i1 + i2; r_IR : rF_IR k = dm d * dm d * (i1 * i1 + i2 * i2) - 2 * dc d * (i1 * i2) }.
(** Coefficients of a power series in the photon energy. *)
Definition tot4 (r a b c e : R) := 4 * a + 8 * b * r + 16 * c * (r * r) + 32 * e * (r * r * r).

(** ** Determinants with the normal *)
Definition det3 a b c d e f g h i : R := a * (e * i - f * h) - b * (d * i - f * g) + c * (d * h - e * g).
Definition dq d fg (a : lt) := gt d fg a lK1 - gt d fg a lK2 - gt d fg a lK.
Definition g3 d fg (a b c : lt) := det3 (dq d fg a) (gt d fg a lP) (gt d fg a lH) (dq d fg b) (gt d fg b lP) (gt d fg b lH) (dq d fg c) (gt d fg c lP) (gt d fg c lH).
Definition g4 d fg (n a b c e : lt) := gt d fg n a * g3 d fg b c e - gt d fg n b * g3 d fg a c e + gt d fg n c * g3 d fg a b e - gt d fg n e * g3 d fg a b c.

(** ** The other determinants from those of (p, k1, k2, h) and (p, k1, k2, k) *)
Section Cramer.
Variables (d : dots) (vh vk : R).
Definition mh_ := - 2 * dr d * vk.
Definition mk_ := - vh.
Definition wP := mh_ * (dz d * (ds d - dx d)) - mk_ * dr d.
Definition w1 := mh_ * dv1 d - mk_ * (dr d * dz1 d).
Definition w2 := mh_ * dv2 d - mk_ * (dr d * dz2 d).
Definition ldp := 4 * det3 wP (ds d) (dx d) w1 (dm d * dm d) (dc d) w2 (dc d) (dm d * dm d).
Definition ldk1 := - 4 * det3 (dM d * dM d) wP (dx d) (ds d) w1 (dc d) (dx d) w2 (dm d * dm d).
Definition ldk2 := 4 * det3 (dM d * dM d) (ds d) wP (ds d) (dm d * dm d) w1 (dx d) (dc d) w2.
End Cramer.
Definition rowk d j := jp j * dr d - jk1 j * (dr d * dz1 d) + jk2 j * (dr d * dz2 d) - jh j * (dr d * dmu d).
