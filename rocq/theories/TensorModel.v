(** Model of the transforms of tensors: Transform3::transform, Transform4::transform and Transform4::bivec, and of
    transforms by products (transform.hpp, transform.cpp). Over the real numbers. *)
From Coq Require Import Reals.
From Verif Require Import VecModel TransModel.
Local Open Scope R_scope.

(** transform.cpp 50-52 *)
Definition bivec3 (dir : vec3) : tr3 := tcross3 dir.
(** transform.cpp 151-158 *)
Definition bivec4 (v bv : vec3) : tr4 :=
  mk_tr4
    0 (- x3 v) (- y3 v) (- z3 v)
    (- x3 v) 0 (- z3 bv) (y3 bv)
    (- y3 v) (z3 bv) 0 (- x3 bv)
    (- z3 v) (- y3 bv) (x3 bv) 0.
(** transform.cpp 77-91: the overloads of Transform3::transform *)
Definition transform3_vec3 (a : tr3) (v : vec3) : vec3 := tapp3 a v.
Definition transform3_vec4 (a : tr3) (v : vec4) : vec4 := tapp4 (lift4 a) v.
Definition transform3_tr3 (a b : tr3) : tr3 := conj3 a b.
Definition transform3_tr4 (a : tr3) (b : tr4) : tr4 := conj4 (lift4 a) b.
(** transform.cpp 203-213: the overloads of Transform4::transform *)
Definition transform4_vec4 (a : tr4) (v : vec4) : vec4 := tapp4 a v.
Definition transform4_tr3 (a : tr4) (b : tr3) : tr4 := conj4 a (lift4 b).
Definition transform4_tr4 (a b : tr4) : tr4 := conj4 a b.
(** transform.hpp 144-151, 327-335: a vector times a transform *)
Definition dot_vec3_tr3 (v : vec3) (a : tr3) : vec3 := tapp3 (transpose3 a) v.
Definition dot_vec4_tr4 (v : vec4) (a : tr4) : vec4 := tapp4 (transpose4 a) v.
