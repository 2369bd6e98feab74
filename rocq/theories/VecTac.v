(** Proof tactics: expand vectors and transforms into components. *)
From Coq Require Import Reals.
From Verif Require Import ExtModel MathModel VecModel TransModel.

Ltac dv3 v := let a := fresh "a" in let b := fresh "b" in let c := fresh "c" in destruct v as [a b c].
Ltac dv4 v := let a := fresh "a" in let b := fresh "b" in let c := fresh "c" in let d := fresh "d" in
  destruct v as [a b c d].
Ltac dt3 v := let a := fresh "u" in let b := fresh "v" in let c := fresh "w" in destruct v as [a b c];
  dv3 a; dv3 b; dv3 c.
Ltac dt4 v := let a := fresh "u" in let b := fresh "v" in let c := fresh "w" in let d := fresh "k" in
  destruct v as [a b c d]; dv4 a; dv4 b; dv4 c; dv4 d.
Ltac dvars := repeat match goal with
  | v : vec3 |- _ => dv3 v
  | v : vec4 |- _ => dv4 v
  | v : tr3 |- _ => dt3 v
  | v : tr4 |- _ => dt4 v
  end.
(** Call by value: unfolding the outer operation first would duplicate the inner ones. *)
Ltac uvec := cbv beta iota zeta delta [conj3 conj4 tmul4 tmul3 sym_prod3 asym_prod3 sym_prod4 asym_prod4 tadd3 tsub3 tscale3 tdiv3
  tadd4 tsub4 tscale4 tdiv4 outer3 outer4 tapp3 tapp4 tcross3 tcross4 trace3 trace4
  TRANSFORM3_ID TRANSFORM4_ID lift4 mk_tr3 mk_tr4 det3 det4 transpose3 transpose4
  cross4 norm_sq3 norm_sq4 add3 sub3 scale3 div3 neg3 add4 sub4 scale4 div4 neg4 r4 mk4
  cross3 dot3 dot4 VEC3_ZERO VEC3_X VEC3_Y VEC3_Z VEC4_ZERO VEC4_T VEC4_X VEC4_Y VEC4_Z
  ft fx fy fz t4 x4 y4 z4 rx ry rz x3 y3 z3] in *.
Lemma V3_eq a b c a' b' c' : a = a' -> b = b' -> c = c' -> V3 a b c = V3 a' b' c'.
Proof. intros -> -> ->. reflexivity. Qed.
Lemma V4_eq a b c d a' b' c' d' : a = a' -> b = b' -> c = c' -> d = d' -> V4 a b c d = V4 a' b' c' d'.
Proof. intros -> -> -> ->. reflexivity. Qed.
Lemma T3_eq a b c a' b' c' : a = a' -> b = b' -> c = c' -> T3 a b c = T3 a' b' c'.
Proof. intros -> -> ->. reflexivity. Qed.
Lemma T4_eq a b c d a' b' c' d' : a = a' -> b = b' -> c = c' -> d = d' -> T4 a b c d = T4 a' b' c' d'.
Proof. intros -> -> -> ->. reflexivity. Qed.
(** Split an equation between vectors or transforms into components. *)
Ltac comps := repeat match goal with
  | |- T4 _ _ _ _ = T4 _ _ _ _ => apply T4_eq
  | |- T3 _ _ _ = T3 _ _ _ => apply T3_eq
  | |- V4 _ _ _ _ = V4 _ _ _ _ => apply V4_eq
  | |- V3 _ _ _ = V3 _ _ _ => apply V3_eq
  end.
Ltac vring := dvars; uvec; comps; ring.
