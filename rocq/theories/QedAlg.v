(** Algebra of the Dirac matrices of QedSpec.v: ring laws, traces of words of slashed vectors, contraction. *)
From Coq Require Import Reals List Lia Lra Arith Ring.
From Verif Require Import VecModel KinSpec QedSpec.
Import ListNotations.
Local Open Scope R_scope.

(** ** Complex numbers *)
Definition copp a := Cx (- re a) (- im a).
Definition csub a b := cadd a (copp b).
Lemma cx_eq a b : re a = re b -> im a = im b -> a = b.
Proof. destruct a, b. cbn. intros -> ->. reflexivity. Qed.
Ltac cxr := apply cx_eq; cbn [re im cadd cmul creal ci c0 c1 cm1 cmi copp csub]; ring.
Lemma cx_rt : ring_theory c0 c1 cadd cmul csub copp eq.
Proof. constructor; intros; cxr. Qed.
Add Ring cx_ring : cx_rt.

(** ** Matrices *)
Definition mzero := mscal c0 mone.
Definition msub a b := madd a (mscal cm1 b).
Ltac dm a := destruct a as [[? ? ? ?] [? ? ? ?] [? ? ? ?] [? ? ? ?]].
Ltac mxu := unfold mmul, rmul, madd, radd, mscal, rscal, mone, tr, msub, mzero; cbn [m0 m1 m2 m3 e0 e1 e2 e3].
Lemma cm1_opp : cm1 = copp c1.
Proof. cxr. Qed.
Lemma mat_eq a0 a1 a2 a3 b0 b1 b2 b3 : a0 = b0 -> a1 = b1 -> a2 = b2 -> a3 = b3 -> Mat a0 a1 a2 a3 = Mat b0 b1 b2 b3.
Proof. intros -> -> -> ->. reflexivity. Qed.
Lemma row_eq a0 a1 a2 a3 b0 b1 b2 b3 : a0 = b0 -> a1 = b1 -> a2 = b2 -> a3 = b3 -> Row a0 a1 a2 a3 = Row b0 b1 b2 b3.
Proof. intros -> -> -> ->. reflexivity. Qed.
Ltac dr a := destruct a as [? ? ? ?].
Ltac rwr := unfold rmul, radd, rscal; cbn [m0 m1 m2 m3 e0 e1 e2 e3]; rewrite ?cm1_opp; apply row_eq; ring.
Lemma radd_comm a b : radd a b = radd b a. Proof. dr a; dr b; rwr. Qed.
Lemma radd_assoc a b c : radd a (radd b c) = radd (radd a b) c. Proof. dr a; dr b; dr c; rwr. Qed.
Lemma rscal_rscal x y a : rscal x (rscal y a) = rscal (cmul x y) a. Proof. dr a; rwr. Qed.
Lemma rscal_add x a b : rscal x (radd a b) = radd (rscal x a) (rscal x b). Proof. dr a; dr b; rwr. Qed.
Lemma rscal_add_l x y a : rscal (cadd x y) a = radd (rscal x a) (rscal y a). Proof. dr a; rwr. Qed.
Lemma rscal_1 a : rscal c1 a = a. Proof. dr a; rwr. Qed.
Definition rzero := Row c0 c0 c0 c0.
Lemma rscal_0 a : rscal c0 a = rzero. Proof. unfold rzero; dr a; rwr. Qed.
Lemma radd_0_l a : radd rzero a = a. Proof. unfold rzero; dr a; rwr. Qed.
Lemma rmul_add_l a b c : rmul (radd a b) c = radd (rmul a c) (rmul b c). Proof. dr a; dr b; dm c; rwr. Qed.
Lemma rmul_add_r a b c : rmul a (madd b c) = radd (rmul a b) (rmul a c). Proof. dr a; dm b; dm c; unfold madd; rwr. Qed.
Lemma rmul_scal_l x a b : rmul (rscal x a) b = rscal x (rmul a b). Proof. dr a; dm b; rwr. Qed.
Lemma rmul_scal_r x a b : rmul a (mscal x b) = rscal x (rmul a b). Proof. dr a; dm b; unfold mscal; rwr. Qed.
Lemma rmul_mul r b c : rmul r (mmul b c) = rmul (rmul r b) c.
Proof.
  unfold mmul, rmul at 1. cbn [m0 m1 m2 m3]. rewrite <- !rmul_scal_l, <- !rmul_add_l. reflexivity.
Qed.
Ltac mrow L := unfold mmul, madd, mscal, msub; cbn [m0 m1 m2 m3]; apply mat_eq; apply L.
Lemma madd_comm a b : madd a b = madd b a. Proof. mrow radd_comm. Qed.
Lemma madd_assoc a b c : madd a (madd b c) = madd (madd a b) c. Proof. mrow radd_assoc. Qed.
Lemma mmul_add_l a b c : mmul (madd a b) c = madd (mmul a c) (mmul b c). Proof. mrow rmul_add_l. Qed.
Lemma mmul_add_r a b c : mmul a (madd b c) = madd (mmul a b) (mmul a c). Proof. mrow rmul_add_r. Qed.
Lemma mmul_scal_l x a b : mmul (mscal x a) b = mscal x (mmul a b). Proof. mrow rmul_scal_l. Qed.
Lemma mmul_scal_r x a b : mmul a (mscal x b) = mscal x (mmul a b). Proof. mrow rmul_scal_r. Qed.
Lemma mmul_assoc a b c : mmul a (mmul b c) = mmul (mmul a b) c.
Proof. unfold mmul at 1. rewrite !rmul_mul. reflexivity. Qed.
Lemma mscal_mscal x y a : mscal x (mscal y a) = mscal (cmul x y) a. Proof. mrow rscal_rscal. Qed.
Lemma mscal_add x a b : mscal x (madd a b) = madd (mscal x a) (mscal x b). Proof. mrow rscal_add. Qed.
Lemma mscal_add_l x y a : mscal (cadd x y) a = madd (mscal x a) (mscal y a). Proof. mrow rscal_add_l. Qed.
Lemma mscal_1 a : mscal c1 a = a. Proof. destruct a. mrow rscal_1. Qed.
Lemma mmul_1_l a : mmul mone a = a. Proof. dm a; unfold mmul, mone; cbn [m0 m1 m2 m3]; apply mat_eq; rwr. Qed.
Lemma mmul_1_r a : mmul a mone = a. Proof. dm a; unfold mmul, mone; cbn [m0 m1 m2 m3]; apply mat_eq; rwr. Qed.
Lemma mzero_rows : mzero = Mat rzero rzero rzero rzero.
Proof. unfold mzero, mscal, mone. cbn [m0 m1 m2 m3]. apply mat_eq; apply rscal_0. Qed.
Lemma mscal_0 a : mscal c0 a = mzero. Proof. rewrite mzero_rows. mrow rscal_0. Qed.
Lemma mscal_zero x : mscal x mzero = mzero. Proof. unfold mzero. rewrite mscal_mscal. replace (cmul x c0) with c0 by ring. reflexivity. Qed.
Lemma madd_0_l a : madd mzero a = a. Proof. rewrite mzero_rows. destruct a. mrow radd_0_l. Qed.
Lemma madd_0_r a : madd a mzero = a. Proof. rewrite madd_comm. apply madd_0_l. Qed.
Lemma mmul_0_l a : mmul mzero a = mzero. Proof. unfold mzero. rewrite mmul_scal_l, mscal_0. reflexivity. Qed.
Lemma mmul_0_r a : mmul a mzero = mzero. Proof. unfold mzero. rewrite mmul_scal_r, mscal_0. reflexivity. Qed.
Lemma tr_add a b : tr (madd a b) = cadd (tr a) (tr b).
Proof. unfold tr, madd, radd. cbn [m0 m1 m2 m3 e0 e1 e2 e3]. ring. Qed.
Lemma tr_scal x a : tr (mscal x a) = cmul x (tr a).
Proof. unfold tr, mscal, rscal. cbn [m0 m1 m2 m3 e0 e1 e2 e3]. ring. Qed.
Lemma tr_comm a b : tr (mmul a b) = tr (mmul b a).
Proof. unfold tr, mmul, rmul, radd, rscal. cbn [m0 m1 m2 m3 e0 e1 e2 e3]. ring. Qed.
Lemma tr_zero : tr mzero = c0. Proof. unfold mzero. rewrite tr_scal. ring. Qed.

(** ** Slashes *)
Lemma mmul_ex a00 a01 a02 a03 a10 a11 a12 a13 a20 a21 a22 a23 a30 a31 a32 a33 b00 b01 b02 b03 b10 b11 b12 b13 b20 b21 b22 b23 b30 b31 b32 b33 : mmul (Mat (Row a00 a01 a02 a03) (Row a10 a11 a12 a13) (Row a20 a21 a22 a23) (Row a30 a31 a32 a33)) (Mat (Row b00 b01 b02 b03) (Row b10 b11 b12 b13) (Row b20 b21 b22 b23) (Row b30 b31 b32 b33)) =
  Mat (Row (cadd (cadd (cmul a00 b00) (cmul a01 b10)) (cadd (cmul a02 b20) (cmul a03 b30))) (cadd (cadd (cmul a00 b01) (cmul a01 b11)) (cadd (cmul a02 b21) (cmul a03 b31))) (cadd (cadd (cmul a00 b02) (cmul a01 b12)) (cadd (cmul a02 b22) (cmul a03 b32))) (cadd (cadd (cmul a00 b03) (cmul a01 b13)) (cadd (cmul a02 b23) (cmul a03 b33)))) (Row (cadd (cadd (cmul a10 b00) (cmul a11 b10)) (cadd (cmul a12 b20) (cmul a13 b30))) (cadd (cadd (cmul a10 b01) (cmul a11 b11)) (cadd (cmul a12 b21) (cmul a13 b31))) (cadd (cadd (cmul a10 b02) (cmul a11 b12)) (cadd (cmul a12 b22) (cmul a13 b32))) (cadd (cadd (cmul a10 b03) (cmul a11 b13)) (cadd (cmul a12 b23) (cmul a13 b33)))) (Row (cadd (cadd (cmul a20 b00) (cmul a21 b10)) (cadd (cmul a22 b20) (cmul a23 b30))) (cadd (cadd (cmul a20 b01) (cmul a21 b11)) (cadd (cmul a22 b21) (cmul a23 b31))) (cadd (cadd (cmul a20 b02) (cmul a21 b12)) (cadd (cmul a22 b22) (cmul a23 b32))) (cadd (cadd (cmul a20 b03) (cmul a21 b13)) (cadd (cmul a22 b23) (cmul a23 b33)))) (Row (cadd (cadd (cmul a30 b00) (cmul a31 b10)) (cadd (cmul a32 b20) (cmul a33 b30))) (cadd (cadd (cmul a30 b01) (cmul a31 b11)) (cadd (cmul a32 b21) (cmul a33 b31))) (cadd (cadd (cmul a30 b02) (cmul a31 b12)) (cadd (cmul a32 b22) (cmul a33 b32))) (cadd (cadd (cmul a30 b03) (cmul a31 b13)) (cadd (cmul a32 b23) (cmul a33 b33)))).
Proof. reflexivity. Qed.
Lemma madd_ex a00 a01 a02 a03 a10 a11 a12 a13 a20 a21 a22 a23 a30 a31 a32 a33 b00 b01 b02 b03 b10 b11 b12 b13 b20 b21 b22 b23 b30 b31 b32 b33 : madd (Mat (Row a00 a01 a02 a03) (Row a10 a11 a12 a13) (Row a20 a21 a22 a23) (Row a30 a31 a32 a33)) (Mat (Row b00 b01 b02 b03) (Row b10 b11 b12 b13) (Row b20 b21 b22 b23) (Row b30 b31 b32 b33)) =
  Mat (Row (cadd a00 b00) (cadd a01 b01) (cadd a02 b02) (cadd a03 b03)) (Row (cadd a10 b10) (cadd a11 b11) (cadd a12 b12) (cadd a13 b13)) (Row (cadd a20 b20) (cadd a21 b21) (cadd a22 b22) (cadd a23 b23)) (Row (cadd a30 b30) (cadd a31 b31) (cadd a32 b32) (cadd a33 b33)).
Proof. reflexivity. Qed.
Lemma mscal_ex x a00 a01 a02 a03 a10 a11 a12 a13 a20 a21 a22 a23 a30 a31 a32 a33 : mscal x (Mat (Row a00 a01 a02 a03) (Row a10 a11 a12 a13) (Row a20 a21 a22 a23) (Row a30 a31 a32 a33)) = Mat (Row (cmul x a00) (cmul x a01) (cmul x a02) (cmul x a03)) (Row (cmul x a10) (cmul x a11) (cmul x a12) (cmul x a13)) (Row (cmul x a20) (cmul x a21) (cmul x a22) (cmul x a23)) (Row (cmul x a30) (cmul x a31) (cmul x a32) (cmul x a33)).
Proof. reflexivity. Qed.
Lemma tr_ex a00 a01 a02 a03 a10 a11 a12 a13 a20 a21 a22 a23 a30 a31 a32 a33 : tr (Mat (Row a00 a01 a02 a03) (Row a10 a11 a12 a13) (Row a20 a21 a22 a23) (Row a30 a31 a32 a33)) = cadd (cadd a00 a11) (cadd a22 a33).
Proof. reflexivity. Qed.
Ltac onel := rewrite ?mmul_ex, ?mscal_ex, ?madd_ex, ?mmul_ex, ?mscal_ex, ?madd_ex, ?mmul_ex, ?mscal_ex, ?madd_ex, ?tr_ex;
  try apply mat_eq; try apply row_eq; apply cx_eq; unfold cmul, cadd, c0, c1, cm1, cmi, ci, creal; cbn [re im x3 y3 z3 t4 x4 y4 z4];
  unfold dot4, det_rows, dot3, cross3, r4; cbn [x3 y3 z3 t4 x4 y4 z4]; ring.
Lemma slash_explicit a : slash a = let t := creal (t4 a) in let u := creal (- t4 a) in let z := creal (z4 a) in let y := creal (- z4 a) in
  Mat (Row t c0 y (Cx (- x4 a) (y4 a))) (Row c0 t (Cx (- x4 a) (- y4 a)) z) (Row z (Cx (x4 a) (- y4 a)) u c0) (Row (Cx (x4 a) (y4 a)) y c0 u).
Proof. unfold slash, gam0, gam1, gam2, gam3. cbv zeta. onel. Qed.
Lemma g01 : mmul gam0 gam1 = Mat (Row c0 c0 c0 c1) (Row c0 c0 c1 c0) (Row c0 c1 c0 c0) (Row c1 c0 c0 c0).
Proof. unfold gam0, gam1. onel. Qed.
Lemma g23 : mmul gam2 gam3 = Mat (Row c0 cmi c0 c0) (Row cmi c0 c0 c0) (Row c0 c0 c0 cmi) (Row c0 c0 cmi c0).
Proof. unfold gam2, gam3. onel. Qed.
Lemma g5_explicit : gam5 = Mat (Row c0 c0 c1 c0) (Row c0 c0 c0 c1) (Row c1 c0 c0 c0) (Row c0 c1 c0 c0).
Proof.
  unfold gam5. rewrite g01, g23.
  assert (H : mmul (Mat (Row c0 c0 c0 c1) (Row c0 c0 c1 c0) (Row c0 c1 c0 c0) (Row c1 c0 c0 c0)) (Mat (Row c0 cmi c0 c0) (Row cmi c0 c0 c0) (Row c0 c0 c0 cmi) (Row c0 c0 cmi c0))
    = Mat (Row c0 c0 cmi c0) (Row c0 c0 c0 cmi) (Row cmi c0 c0 c0) (Row c0 cmi c0 c0)) by onel.
  rewrite H. onel.
Qed.
Ltac concs := rewrite ?slash_explicit, ?g5_explicit; cbv zeta; unfold mone; onel.
Lemma slash_anti a b : mmul (slash a) (slash b) = madd (mscal (creal (2 * dot4 a b)) mone) (mscal cm1 (mmul (slash b) (slash a))).
Proof. destruct a as [a0 a1 a2 a3], b as [b0 b1 b2 b3]. concs. Qed.
Lemma slash_g5 a : mmul (slash a) gam5 = mscal cm1 (mmul gam5 (slash a)).
Proof. destruct a as [a0 a1 a2 a3]. concs. Qed.
Lemma g5_sq : mmul gam5 gam5 = mone.
Proof. concs. Qed.
Lemma slash_add a b : slash (add4 a b) = madd (slash a) (slash b).
Proof. destruct a as [a0 a1 a2 a3], b as [b0 b1 b2 b3]. unfold add4. concs. Qed.
Lemma slash_scale x a : slash (scale4 x a) = mscal (creal x) (slash a).
Proof. destruct a as [a0 a1 a2 a3]. unfold scale4. concs. Qed.
Lemma slash_sub a b : slash (sub4 a b) = madd (slash a) (mscal cm1 (slash b)).
Proof. destruct a as [a0 a1 a2 a3], b as [b0 b1 b2 b3]. unfold sub4. concs. Qed.
Lemma slash_sq a : mmul (slash a) (slash a) = mscal (creal (dot4 a a)) mone.
Proof. destruct a as [a0 a1 a2 a3]. concs. Qed.
Lemma tr_one : tr mone = creal 4.
Proof. concs. Qed.

(** Three slashes: a vector and an axial vector. *)
Definition axial (a b c : vec4) : vec4 :=
  V4 (det_rows VEC4_T a b c) (- det_rows VEC4_X a b c) (- det_rows VEC4_Y a b c) (- det_rows VEC4_Z a b c).
Lemma axial_dot a b c x : dot4 x (axial a b c) = det_rows x a b c.
Proof.
  destruct a as [a0 a1 a2 a3], b as [b0 b1 b2 b3], c as [d0 d1 d2 d3], x as [w0 w1 w2 w3].
  unfold axial, dot4, det_rows, dot3, cross3, r4, VEC4_T, VEC4_X, VEC4_Y, VEC4_Z. cbn [t4 x4 y4 z4 x3 y3 z3]. ring.
Qed.
Definition tri (a b c : vec4) : vec4 := add4 (sub4 (scale4 (dot4 a b) c) (scale4 (dot4 a c) b)) (scale4 (dot4 b c) a).
Lemma slash3 a b c : mmul (slash a) (mmul (slash b) (slash c)) = madd (slash (tri a b c)) (mscal cmi (mmul gam5 (slash (axial a b c)))).
Proof.
  rewrite !slash_explicit, g5_explicit. cbv zeta. rewrite !mmul_ex, mscal_ex, madd_ex.
  apply mat_eq; apply row_eq; apply cx_eq; unfold cmul, cadd, c0, c1, cm1, cmi, ci, creal; cbn [re im];
    unfold axial, tri, dot4, det_rows, dot3, cross3, r4, VEC4_T, VEC4_X, VEC4_Y, VEC4_Z, add4, sub4, scale4; cbn [x3 y3 z3 t4 x4 y4 z4]; ring.
Qed.
