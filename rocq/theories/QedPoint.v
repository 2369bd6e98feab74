(** The contractions at a point of phase space, given the table of scalar products. *)
From Coq Require Import Reals List Lia Lra Arith Ring Field.
From Verif Require Import MathModel VecModel KinSpec QedSpec QedAlg QedWord QedTensor QedEval QedTab QedSym QedAnti QedBorn QedEvent QedMain KinModel LepModel.
Import ListNotations.
Local Open Scope R_scope.

Lemma trace_words q p h L env P c : good q L ->
  forallb (fun t => twice lt lt_eqb lU (snd t)) P = true -> forallb (fun t => length (snd t) <=? 8)%nat P = true -> forallb (fun t => length (snd t) <=? 8)%nat (pctr' lU P) = true ->
  (forall e, re (L e e) = c * T (edot (upd' env lU e)) P) ->
  contract L (had_struct q p h 1) = creal (- c * T (edot env) (pctr' lU P)).
Proof.
  intros G H1 H2 H3 E. rewrite (contract_trace q p h L G).
  assert (F : forall e, L e e = cmul (creal c) (tr (evp lt (upd' env lU e) P))).
  { intros e. rewrite tr_T by exact H2. destruct G as [_ _ H]. pose proof (f_equal im (H e e)) as I. unfold conj in I. cbn [im] in I.
    apply cx_eq; cbn [re im cmul creal]; [rewrite E; ring|lra]. }
  transitivity (cmul (creal (- c)) (fold_right (fun t s => cadd (cmul (creal (fst t)) (tr (evp lt (upd' env lU (snd t)) P))) s) c0 metric)).
  - induction metric as [|t l IH]; cbn [fold_right]; [cxr|]. rewrite F.
    revert IH. match goal with |- context [fold_right ?f c0 l] => set (A := fold_right f c0 l) end. match goal with |- context [fold_right ?f c0 l] => set (B := fold_right f c0 l) end.
    intros IH. set (t0 := tr _). transitivity (cadd (cmul (creal (- c)) (cmul (creal (fst t)) t0)) (cmul cm1 A)); [apply cx_eq; cbn [re im cadd cmul cm1 creal]; ring|]. rewrite IH.
    apply cx_eq; cbn [re im cadd cmul cm1 creal]; ring.
  - rewrite ksum_tr_T by assumption. apply cx_eq; cbn [re im cmul creal]; ring.
Qed.

Lemma w5_scaled l m a b V V' W W' x y : scaled x V V' -> scaled y W W' -> scaled (l * (y * x)) (w5 m (l * a) (l * b) V W) (w5 m a b V' W').
Proof.
  intros HV HW. unfold w5. apply scaled_pmul; [apply scaled_S|]. apply scaled_pmul; [exact HW|].
  replace x with (1 * (x * 1)) by ring. apply scaled_pmul; [apply scaled_refl|]. apply scaled_pmul; [exact HV|apply scaled_refl].
Qed.
Lemma w0_scaled m V V' W W' x y : scaled x V V' -> scaled y W W' -> scaled (x * y) (w0 m V W) (w0 m V' W').
Proof.
  intros HV HW. unfold w0. replace (x * y) with (1 * (x * (1 * y))) by ring. apply scaled_pmul; [apply scaled_refl|].
  apply scaled_pmul; [exact HV|]. apply scaled_pmul; [apply scaled_refl|exact HW].
Qed.
Lemma T_scaled g a p p' : scaled a p p' -> T g p = a * T g p'.
Proof. apply scaled_trp. Qed.
Lemma T5_scaled d gd a p p' : scaled a p p' -> T5 d gd p = a * T5 d gd p'.
Proof. apply scaled_trp. Qed.

Section Point.
Variables p h k1 k2 kk : vec4.
Let q := sub4 (sub4 k1 k2) kk.
Let n := normal q p h.
Let env := named p h n k1 k2 kk.
Variables (d : dots).
Hypothesis Hd : tabled d env.
Variables (lam im_ iS : R).
Hypothesis Hm : dm d * im_ = 1.
Let sv := add4 (scale4 (lam * iS * (2 * ds d * im_)) k1) (scale4 (lam * iS * (- 2 * dm d)) p).
Lemma sv_k1 : dot4 sv k1 = 0.
Proof.
  assert (E : forall a b, dot4 (add4 (scale4 a k1) (scale4 b p)) k1 = a * dot4 k1 k1 + b * dot4 p k1) by (intros; unfold dot4, dot3, add4, scale4, r4; cbn [t4 x4 y4 z4 x3 y3 z3]; ring).
  unfold sv. rewrite E. destruct Hd as [_ P1 _ _ _ _ _ _ _ K11 _ _ _ _ _ _ _ _ _ _]. unfold edot in *. cbn [env named] in *. rewrite P1, K11.
  replace (lam * iS * (2 * ds d * im_) * (dm d * dm d)) with (lam * iS * 2 * ds d * dm d * (dm d * im_)) by ring. rewrite Hm. ring.
Qed.
Let m := dm d.
Let J := jets p h k1 k2 kk.

(** *** Radiation *)
Section Rad.
Variables (vh vk i1 i2 : R) (k : kinrad).
Hypothesis H1 : dz1 d * i1 = 1.
Hypothesis H2 : dz2 d * i2 = 1.
Hypothesis Hr : dr d <> 0.
Hypothesis HF : fitsrad d vh vk i1 i2 k.
Hypothesis Hvh : vh = det_rows p h k1 (sub4 k1 k2).
Hypothesis Hvk : vk * (2 * dr d) = det_rows p kk k1 (sub4 k1 k2).
Hypothesis HL : rlambda_1 k <> 0.
Hypothesis HS : / rlambda_S_sqrt k = iS.
Let L := lepton_rad m k1 k2 kk sv.
Let ca := / (dot4 (sub4 k1 kk) (sub4 k1 kk) - m * m).
Let cb := / (dot4 (add4 k2 kk) (add4 k2 kk) - m * m).
Let ir := / (2 * dr d).
Lemma den1 : dot4 (sub4 k1 kk) (sub4 k1 kk) - m * m = - (2 * dr d * dz1 d).
Proof.
  destruct Hd as [_ _ _ _ _ _ _ _ _ K11 _ _ K1 _ KK _ _ _ _ _]. unfold edot in *. cbn [env named] in *.
  replace (dot4 (sub4 k1 kk) (sub4 k1 kk)) with (dot4 k1 k1 - 2 * dot4 k1 kk + dot4 kk kk) by (unfold dot4, dot3, sub4, r4; cbn [t4 x4 y4 z4 x3 y3 z3]; ring).
  rewrite K11, K1, KK. unfold m. ring.
Qed.
Lemma den2 : dot4 (add4 k2 kk) (add4 k2 kk) - m * m = 2 * dr d * dz2 d.
Proof.
  destruct Hd as [_ _ _ _ _ _ _ _ _ _ K22 _ _ K2 KK _ _ _ _ _]. unfold edot in *. cbn [env named] in *.
  replace (dot4 (add4 k2 kk) (add4 k2 kk)) with (dot4 k2 k2 + 2 * dot4 k2 kk + dot4 kk kk) by (unfold dot4, dot3, add4, r4; cbn [t4 x4 y4 z4 x3 y3 z3]; ring).
  rewrite K22, K2, KK. unfold m. ring.
Qed.
Lemma z1_nz : dz1 d <> 0. Proof. intros E. rewrite E in H1. lra. Qed.
Lemma z2_nz : dz2 d <> 0. Proof. intros E. rewrite E in H2. lra. Qed.
Lemma ca_eq : ca = ir * (- i1).
Proof. unfold ca, ir. rewrite den1. replace i1 with (/ dz1 d) by (pose proof z1_nz; apply (Rmult_eq_reg_l (dz1 d)); [rewrite H1; now field|assumption]). field. split; [exact z1_nz|exact Hr]. Qed.
Lemma cb_eq : cb = ir * i2.
Proof. unfold cb, ir. rewrite den2. replace i2 with (/ dz2 d) by (pose proof z2_nz; apply (Rmult_eq_reg_l (dz2 d)); [rewrite H2; now field|assumption]). field. split; [exact z2_nz|exact Hr]. Qed.
Lemma rad_good : good q L.
Proof.
  destruct Hd as [_ _ _ _ _ _ _ _ _ K11 K22 _ _ _ _ _ _ _ _ _]. unfold edot in *. cbn [env named] in *.
  split; [exact (bilin_rad m k1 k2 kk sv)| |exact (herm_rad m k1 k2 kk sv sv_k1)].
  apply transverse_rad; try assumption; [exact sv_k1| |]; [rewrite den1|rewrite den2]; intros E.
  - assert (dr d * dz1 d = 0) by lra. destruct (Rmult_integral _ _ H); [contradiction|now apply z1_nz].
  - assert (dr d * dz2 d = 0) by lra. destruct (Rmult_integral _ _ H); [contradiction|now apply z2_nz].
Qed.
Let tl u v := TL d (edot env) J (edet env) (ehn env) i1 i2 im_ u v.
Lemma rad_value u v : plain u = true -> plain v = true -> L (env u) (env v) = Cx (- (1 / 2) * (ir * ir) * TU d (edot env) i1 i2 u v) (- (1 / 2) * (ir * ir) * lam * (iS * tl u v)).
Proof.
  intros Hu Hv. pose proof (rad_words env m (lam * iS * (2 * ds d * im_)) (lam * iS * (- 2 * dm d)) u v Hu Hv) as E. cbv zeta in E.
  change (env lK1) with k1 in E. change (env lK2) with k2 in E. change (env lK) with kk in E. change (env lP) with p in E. fold sv ca cb in E. fold L in E.
  rewrite E, ca_eq, cb_eq. f_equal.
  - rewrite (T_scaled _ (ir * ir) _ _ (scaled_pctr lA _ _ _ (w0_scaled m _ _ _ _ _ _ (scaled_E ir m (- i1) i2 u) (scaled_Eb ir m (- i1) i2 v)))).
    rewrite (T_tab d) by exact Hd. unfold TU. fold m. ring.
  - rewrite (T5_scaled _ _ (lam * iS * (ir * ir)) _ _ (scaled_pctr lA _ _ _ (w5_scaled (lam * iS) m _ _ _ _ _ _ _ _ (scaled_E ir m (- i1) i2 u) (scaled_Eb ir m (- i1) i2 v)))).
    rewrite (T5_tab d J) by (exact Hd || apply jets_ok). unfold tl, TL. fold m. ring.
Qed.
Lemma rad_value_U : contract L (had_struct q p h 1) = creal (1 / 2 * (ir * ir) * TUU d (edot env) i1 i2).
Proof.
  rewrite (trace_words q p h L env (pctr' lA (w0 m (wE m ca cb lU) (wEb m ca cb lU))) (- (1 / 2)) rad_good); [|reflexivity|reflexivity|reflexivity|].
  - rewrite ca_eq, cb_eq.
    rewrite (T_scaled _ (ir * ir) _ _ (scaled_pctr lU _ _ _ (scaled_pctr lA _ _ _ (w0_scaled m _ _ _ _ _ _ (scaled_E ir m (- i1) i2 lU) (scaled_Eb ir m (- i1) i2 lU))))).
    rewrite (T_tab d) by exact Hd. unfold TUU. fold m. apply f_equal. field.
  - intros e. pose proof (rad_words (upd' env lU e) m (lam * iS * (2 * ds d * im_)) (lam * iS * (- 2 * dm d)) lU lU eq_refl eq_refl) as E. cbv zeta in E.
    change (upd' env lU e lK1) with k1 in E. change (upd' env lU e lK2) with k2 in E. change (upd' env lU e lK) with kk in E. change (upd' env lU e lP) with p in E.
    change (upd' env lU e lU) with e in E. fold sv ca cb in E. fold L in E. rewrite E. reflexivity.
Qed.
Definition rad_sum (a b c e : R) : R := let R := 2 * dr d in - 2 * (a / (R * R) + b / R + c + e * R).
Lemma tot4_sum a b c e : - (1 / 2) * (ir * ir) * tot4 (dr d) a b c e = rad_sum a b c e.
Proof. unfold tot4, rad_sum, ir. cbv zeta. now field. Qed.
Let iL := / rlambda_1 k.
Lemma iL_eq : iL * dL1 d = 1.
Proof. unfold iL. rewrite <- (r_l1 _ _ _ _ _ _ HF). now field. Qed.
Theorem rad_contract :
  let B := LepRadBaseUU k in let P := LepRadBaseUP k in let A := LepRadBaseLU k in let C := LepRadBaseLP k in
  contract L (had_struct q p h 1) = creal (rad_sum (lr011 B) (lr012 B) (lr013 B) 0) /\
  contract L (had_struct q p h 2) = creal (rad_sum (lr021 B) (lr022 B) (lr023 B) 0) /\
  contract L (had_struct q p h 3) = creal (rad_sum (lr031 B) (lr032 B) (lr033 B) 0) /\
  contract L (had_struct q p h 4) = creal (rad_sum (lr041 B) (lr042 B) (lr043 B) 0) /\
  contract L (had_struct q p h 5) = creal (lam * rad_sum (lr051 A + lr151 A) (lr052 A + lr152 A) (lr053 A + lr153 A) 0) /\
  contract L (had_struct q p h 6) = creal (rad_sum (lr061 P) (lr062 P) (lr063 P) (lr064 P)) /\
  contract L (had_struct q p h 7) = creal (lam * rad_sum (lr071 C + lr171 C) (lr072 C + lr172 C) (lr073 C + lr173 C) (lr074 C + lr174 C)) /\
  contract L (had_struct q p h 8) = creal (rad_sum (lr081 P) (lr082 P) (lr083 P) (lr084 P)) /\
  contract L (had_struct q p h 9) = creal (lam * rad_sum (lr091 C + lr191 C) (lr092 C + lr192 C) (lr093 C + lr193 C) (lr094 C + lr194 C)).
Proof.
  cbv zeta. destruct (contract_struct q p h L rad_good) as (W2 & W3 & W4 & W5 & W6 & W7 & W8 & W9).
  rewrite W2, W3, W4, W5, W6, W7, W8, W9, rad_value_U. clear W2 W3 W4 W5 W6 W7 W8 W9.
  change (L p p) with (L (env lP) (env lP)). change (L h h) with (L (env lH) (env lH)). change (L p h) with (L (env lP) (env lH)).
  change (normal q p h) with n. change (L p n) with (L (env lP) (env lN)). change (L h n) with (L (env lH) (env lN)).
  rewrite !rad_value by reflexivity. cbn [re im].
  pose proof (cramer p h k1 k2 kk d Hd vk Hvk) as (CP & C1 & C2). rewrite <- Hvh in CP, C1, C2. fold J in CP, C1, C2.
  pose proof (j_k p h k1 k2 kk) as JK. rewrite <- Hvh in JK. fold J in JK. pose proof (j_h p h k1 k2 kk d vk Hvk) as JH. fold J in JH.
  assert (X : forall y, y = iL * (dL1 d * y)) by (intros y; rewrite <- Rmult_assoc, iL_eq; ring).
  assert (EP : jp J = iL * ldp d vh vk) by (rewrite <- CP; apply X).
  assert (E1 : jk1 J = iL * ldk1 d vh vk) by (rewrite <- C1; apply X).
  assert (E2 : jk2 J = iL * ldk2 d vh vk) by (rewrite <- C2; apply X).
  assert (EK : jk J = iL * dL1 d * mk_ vh) by (rewrite iL_eq, JK; ring).
  assert (EH : jh J = iL * dL1 d * mh_ d vk) by (rewrite iL_eq, JH; ring).
  assert (N1 : dn1 d = iL * (dL1 d * mk_ vh - ldk2 d vh vk)) by (rewrite (dn1_eq p h k1 k2 kk d Hd); fold J; rewrite EK, E2; ring).
  assert (N2 : dn2 d = iL * (dL1 d * mk_ vh - ldk1 d vh vk)) by (rewrite (dn2_eq p h k1 k2 kk d Hd); fold J; rewrite EK, E1; ring).
  pose proof (HG p h k1 k2 kk d Hd) as G3. pose proof (HH p h k1 k2 kk d Hd) as G4. change (named p h _ k1 k2 kk) with env in G3, G4.
  pose proof (rad5 d (edot env) J (edet env) (ehn env) vh vk i1 i2 im_ iL iS k Hm H1 H2 HF eq_refl HS EK EH EP E1 E2) as R5.
  pose proof (row_k p h k1 k2 kk d Hd) as RK. fold J in RK. rewrite RK, Rmult_0_r, Rmult_0_r, Rplus_0_r, iL_eq, Rmult_1_l in R5. fold (tl lP lH) in R5.
  pose proof (rad7 d (edot env) J (edet env) (ehn env) vh vk i1 i2 im_ iS k Hm H1 H2 HF HS G3 G4) as R7.
  pose proof (rad9 d (edot env) J (edet env) (ehn env) vh vk i1 i2 im_ iS k Hm H1 H2 HF HS G3 G4) as R9.
  fold (tl lP lN) in R7. fold (tl lH lN) in R9.
  pose proof (rad6 d (edot env) vh vk i1 i2 iL k H1 H2 HF eq_refl N1 N2) as R6. pose proof (rad8 d (edot env) vh vk i1 i2 iL k H1 H2 HF eq_refl N1 N2) as R8.
  rewrite iL_eq, Rmult_1_l in R6, R8.
  rewrite R5, R7, R9, <- !tot4_sum.
  rewrite <- (rad1 d (edot env) vh vk i1 i2 k H1 H2 HF), <- (rad2 d (edot env) vh vk i1 i2 k H1 H2 HF), <- (rad3 d (edot env) vh vk i1 i2 k H1 H2 HF), <- (rad4 d (edot env) vh vk i1 i2 k H1 H2 HF), <- R6, <- R8.
  repeat (split; [apply f_equal; ring || field|]). apply f_equal; field.
Qed.
End Rad.

(** *** No radiation: the photon momentum of the table is zero *)
Section Born.
Variables (k : kin).
Hypothesis H0 : kk = VEC4_ZERO.
Hypothesis Hr : dr d = 0.
Let vh := det_rows p h k1 (sub4 k1 k2).
Hypothesis HF : fits d vh k.
Hypothesis HS : / klambda_S_sqrt k = iS.
Lemma q_eq : q = sub4 k1 k2.
Proof. unfold q. rewrite H0. unfold sub4, VEC4_ZERO. cbn [t4 x4 y4 z4]. now rewrite !Rminus_0_r. Qed.
Let L := lepton_born m k1 k2 sv.
Let A := lepton_pauli m k1 k2 sv.
Lemma born_good : good q L.
Proof.
  destruct Hd as [_ _ _ _ _ _ _ _ _ K11 K22 _ _ _ _ _ _ _ _ _]. unfold edot in *. cbn [env named] in *.
  split; [exact (bilin_born m k1 k2 sv)| |exact (herm_born m k1 k2 sv sv_k1)]. rewrite q_eq. apply transverse_born; try assumption. exact sv_k1.
Qed.
Lemma pauli_good : good q A.
Proof.
  destruct Hd as [_ _ _ _ _ _ _ _ _ K11 K22 _ _ _ _ _ _ _ _ _]. unfold edot in *. cbn [env named] in *.
  split; [exact (bilin_pauli m k1 k2 sv)| |exact (herm_pauli m k1 k2 sv sv_k1)]. rewrite q_eq. apply transverse_pauli; try assumption. exact sv_k1.
Qed.
Let lb u v := LB d (edot env) J (edet env) (ehn env) im_ u v.
Let la u v := LA d (edot env) J (edet env) (ehn env) im_ u v.
Lemma born_value u v : plain u = true -> plain v = true -> L (env u) (env v) = Cx (1 / 2 * UB d (edot env) u v) (1 / 2 * lam * (iS * lb u v)).
Proof.
  intros Hu Hv. pose proof (born_words env m (lam * iS * (2 * ds d * im_)) (lam * iS * (- 2 * dm d)) u v Hu Hv) as E.
  change (env lK1) with k1 in E. change (env lK2) with k2 in E. change (env lP) with p in E. fold sv in E. fold L in E. rewrite E. f_equal.
  - rewrite (T_tab d) by exact Hd. reflexivity.
  - rewrite (T5_scaled _ _ (lam * iS * (1 * 1)) _ _ (w5_scaled (lam * iS) m _ _ _ _ _ _ _ _ (scaled_refl (wV u)) (scaled_refl (wV v)))).
    rewrite (T5_tab d J) by (exact Hd || apply jets_ok). unfold lb, LB. fold m. ring.
Qed.
Lemma pauli_value u v : plain u = true -> plain v = true -> A (env u) (env v) = Cx (1 / 2 * UA d (edot env) u v) (1 / 2 * lam * (iS * la u v)).
Proof.
  intros Hu Hv. pose proof (pauli_words env m (lam * iS * (2 * ds d * im_)) (lam * iS * (- 2 * dm d)) u v Hu Hv) as E.
  change (env lK1) with k1 in E. change (env lK2) with k2 in E. change (env lP) with p in E. fold sv in E. fold A in E. rewrite E. f_equal.
  - rewrite !(T_tab d env _ Hd). reflexivity.
  - rewrite (T5_scaled _ _ (lam * iS * (1 * 1)) _ _ (w5_scaled (lam * iS) m _ _ _ _ _ _ _ _ (scaled_refl (wSig 1 u)) (scaled_refl (wV v)))).
    rewrite (T5_scaled _ _ (lam * iS * (1 * 1)) _ _ (w5_scaled (lam * iS) m _ _ _ _ _ _ _ _ (scaled_refl (wV u)) (scaled_refl (wSig (-1) v)))).
    rewrite !(T5_tab d J env _ Hd (jets_ok p h k1 k2 kk)). unfold la, LA. fold m. ring.
Qed.
Lemma T_app g x y : T g (x ++ y) = T g x + T g y.
Proof. unfold T, trp. induction x as [|t x IH]; cbn [app fold_right]; [ring|]. rewrite IH. ring. Qed.
Lemma born_value_U : contract L (had_struct q p h 1) = creal (- (1 / 2) * UBB d (edot env)).
Proof.
  rewrite (trace_words q p h L env (w0 m (wV lU) (wV lU)) (1 / 2) born_good); [|reflexivity|reflexivity|reflexivity|].
  - rewrite (T_tab d) by exact Hd. reflexivity.
  - intros e. pose proof (born_words (upd' env lU e) m (lam * iS * (2 * ds d * im_)) (lam * iS * (- 2 * dm d)) lU lU eq_refl eq_refl) as E.
    change (upd' env lU e lK1) with k1 in E. change (upd' env lU e lK2) with k2 in E. change (upd' env lU e lP) with p in E.
    change (upd' env lU e lU) with e in E. fold sv in E. fold L in E. rewrite E. reflexivity.
Qed.
Lemma pauli_value_U : contract A (had_struct q p h 1) = creal (- (1 / 2) * UAA d (edot env)).
Proof.
  rewrite (trace_words q p h A env (w0 m (wSig 1 lU) (wV lU) ++ w0 m (wV lU) (wSig (-1) lU)) (1 / 2) pauli_good); [|reflexivity|reflexivity|reflexivity|].
  - rewrite (T_tab d) by exact Hd. unfold UAA. fold m. rewrite <- T_app. unfold pctr. rewrite flat_map_app. reflexivity.
  - intros e. pose proof (pauli_words (upd' env lU e) m (lam * iS * (2 * ds d * im_)) (lam * iS * (- 2 * dm d)) lU lU eq_refl eq_refl) as E.
    change (upd' env lU e lK1) with k1 in E. change (upd' env lU e lK2) with k2 in E. change (upd' env lU e lP) with p in E.
    change (upd' env lU e lU) with e in E. fold sv in E. fold A in E. rewrite E, T_app. reflexivity.
Qed.
Lemma normals : jk J = mk_ vh /\ dn1 d = mk_ vh /\ dn2 d = mk_ vh.
Proof.
  pose proof (j_k p h k1 k2 kk) as JK. fold J vh in JK. rewrite (dn1_eq p h k1 k2 kk d Hd), (dn2_eq p h k1 k2 kk d Hd). fold J. rewrite JK.
  assert (Z : forall x y w, det_rows x y w kk = 0) by (intros; rewrite H0; unfold det_rows, dot3, cross3, VEC4_ZERO, r4; cbn [t4 x4 y4 z4 x3 y3 z3]; ring).
  unfold J, jets. cbn [jk2 jk1]. rewrite !Z. split; [auto|]. split; ring.
Qed.
Let U := LepBornBaseUU k.
Let P := LepBornBaseUP k.
Let Y := LepBornBaseLU k.
Let C := LepBornBaseLP k.
Theorem born_contract :
  contract L (had_struct q p h 1) = creal (2 * lb1 U) /\ contract L (had_struct q p h 2) = creal (2 * lb2 U) /\
  contract L (had_struct q p h 3) = creal (2 * lb3 U) /\ contract L (had_struct q p h 4) = creal (2 * lb4 U) /\
  contract L (had_struct q p h 5) = creal (lam * (2 * lb5 Y)) /\ contract L (had_struct q p h 6) = creal (2 * lb6 P) /\
  contract L (had_struct q p h 7) = creal (lam * (2 * lb7 C)) /\ contract L (had_struct q p h 8) = creal (2 * lb8 P) /\
  contract L (had_struct q p h 9) = creal (lam * (2 * lb9 C)).
Proof.
  destruct (contract_struct q p h L born_good) as (W2 & W3 & W4 & W5 & W6 & W7 & W8 & W9).
  rewrite W2, W3, W4, W5, W6, W7, W8, W9, born_value_U. clear W2 W3 W4 W5 W6 W7 W8 W9.
  change (L p p) with (L (env lP) (env lP)). change (L h h) with (L (env lH) (env lH)). change (L p h) with (L (env lP) (env lH)).
  change (normal q p h) with n. change (L p n) with (L (env lP) (env lN)). change (L h n) with (L (env lH) (env lN)).
  rewrite !born_value by reflexivity. cbn [re im].
  destruct normals as (JK & N1 & N2). pose proof (HG p h k1 k2 kk d Hd) as G3. pose proof (HH p h k1 k2 kk d Hd) as G4. change (named p h _ k1 k2 kk) with env in G3, G4.
  pose proof (born5 d (edot env) J (edet env) (ehn env) vh im_ iS k Hm HF HS JK) as B5.
  pose proof (born7 d (edot env) J (edet env) (ehn env) vh im_ iS k Hm HF HS Hr G3) as B7.
  pose proof (born9 d (edot env) J (edet env) (ehn env) vh im_ iS k Hm HF HS Hr G3) as B9.
  pose proof (born6 d (edot env) vh k HF N1 N2) as B6. pose proof (born8 d (edot env) vh k HF N1 N2) as B8.
  pose proof (born1 d (edot env) vh k HF) as B1. pose proof (born2 d (edot env) vh k HF) as B2. pose proof (born3 d (edot env) vh k HF) as B3. pose proof (born4 d (edot env) vh k HF) as B4.
  fold U in B1, B2, B3, B4. fold P in B6, B8. fold Y in B5. fold C in B7, B9. fold (lb lP lH) in B5. fold (lb lP lN) in B7. fold (lb lH lN) in B9.
  rewrite B5, B7, B9. repeat (split; [apply f_equal; lra|]). apply f_equal; lra.
Qed.
Hypothesis HQ : kQ_sq k <> 0.
Let a := 2 * m * kQ_sq k.
Let AU := LepAmmBaseUU k.
Let AP := LepAmmBaseUP k.
Let AY := LepAmmBaseLU k.
Let AC := LepAmmBaseLP k.
Theorem pauli_contract :
  contract A (had_struct q p h 1) = creal (a * la1 AU) /\ contract A (had_struct q p h 2) = creal (a * la2 AU) /\
  contract A (had_struct q p h 3) = creal (a * la3 AU) /\ contract A (had_struct q p h 4) = creal (a * la4 AU) /\
  contract A (had_struct q p h 5) = creal (lam * (a * la5 AY)) /\ contract A (had_struct q p h 6) = creal (a * la6 AP) /\
  contract A (had_struct q p h 7) = creal (lam * (a * la7 AC)) /\ contract A (had_struct q p h 8) = creal (a * la8 AP) /\
  contract A (had_struct q p h 9) = creal (lam * (a * la9 AC)).
Proof.
  destruct (contract_struct q p h A pauli_good) as (W2 & W3 & W4 & W5 & W6 & W7 & W8 & W9).
  rewrite W2, W3, W4, W5, W6, W7, W8, W9, pauli_value_U. clear W2 W3 W4 W5 W6 W7 W8 W9.
  change (A p p) with (A (env lP) (env lP)). change (A h h) with (A (env lH) (env lH)). change (A p h) with (A (env lP) (env lH)).
  change (normal q p h) with n. change (A p n) with (A (env lP) (env lN)). change (A h n) with (A (env lH) (env lN)).
  rewrite !pauli_value by reflexivity. cbn [re im].
  destruct normals as (JK & N1 & N2). pose proof (HG p h k1 k2 kk d Hd) as G3. pose proof (HH p h k1 k2 kk d Hd) as G4. change (named p h _ k1 k2 kk) with env in G3, G4.
  pose proof HQ as HQ'. rewrite (f_Q _ _ _ HF) in HQ'.
  pose proof (amm5 d (edot env) J (edet env) (ehn env) vh im_ iS k Hm HF HS HQ' JK) as B5.
  pose proof (amm7 d (edot env) J (edet env) (ehn env) vh im_ iS k Hm HF HS HQ' Hr G3) as B7.
  pose proof (amm9 d (edot env) J (edet env) (ehn env) vh im_ iS k Hm HF HS HQ' Hr G3 G4) as B9.
  pose proof (amm6 d (edot env) vh k HF N1 N2) as B6. pose proof (amm8 d (edot env) vh k HF N1 N2) as B8.
  pose proof (amm1 d (edot env) vh k HF) as B1. pose proof (amm2 d (edot env) vh im_ k Hm HF HQ') as B2. pose proof (amm3 d (edot env) vh im_ k Hm HF HQ') as B3. pose proof (amm4 d (edot env) vh im_ k Hm HF HQ') as B4.
  fold AU in B1, B2, B3, B4. fold AP in B6, B8. fold AY in B5. fold AC in B7, B9. fold (la lP lH) in B5. fold (la lP lN) in B7. fold (la lH lN) in B9.
  rewrite B5, B7, B9. unfold a. rewrite (f_Q _ _ _ HF). fold m in B1, B2, B3, B4, B6, B8 |- *.
  repeat (split; [apply f_equal; lra|]). apply f_equal; lra.
Qed.
End Born.
End Point.
