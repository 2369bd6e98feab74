(** Model of include/sidis/vector.hpp and src/vector.cpp over the real numbers (no rounding, no overflow). *)
From Coq Require Import Reals ZArith.
From Verif Require Import ExtModel MathModel.
Local Open Scope R_scope.

(** vector.hpp 19-69 *)
Record vec3 := V3 { x3 : R; y3 : R; z3 : R }.
(** vector.hpp 115-183 *)
Record vec4 := V4 { t4 : R; x4 : R; y4 : R; z4 : R }.

(** vector.hpp 71-74 *)
Definition VEC3_ZERO := V3 0 0 0.
Definition VEC3_X := V3 1 0 0.
Definition VEC3_Y := V3 0 1 0.
Definition VEC3_Z := V3 0 0 1.
(** vector.hpp 185-189 *)
Definition VEC4_ZERO := V4 0 0 0 0.
Definition VEC4_T := V4 1 0 0 0.
Definition VEC4_X := V4 0 1 0 0.
Definition VEC4_Y := V4 0 0 1 0.
Definition VEC4_Z := V4 0 0 0 1.

(** vector.hpp 36-60, 76-95 *)
Definition add3 (a b : vec3) := V3 (x3 a + x3 b) (y3 a + y3 b) (z3 a + z3 b).
Definition sub3 (a b : vec3) := V3 (x3 a - x3 b) (y3 a - y3 b) (z3 a - z3 b).
Definition scale3 (s : R) (a : vec3) := V3 (x3 a * s) (y3 a * s) (z3 a * s).
Definition div3 (a : vec3) (s : R) := V3 (x3 a / s) (y3 a / s) (z3 a / s).
Definition neg3 (a : vec3) := V3 (- x3 a) (- y3 a) (- z3 a).
(** vector.hpp 97-105 *)
Definition dot3 (a b : vec3) : R := x3 a * x3 b + y3 a * y3 b + z3 a * z3 b.
Definition cross3 (a b : vec3) : vec3 :=
  V3 (y3 a * z3 b - z3 a * y3 b) (z3 a * x3 b - x3 a * z3 b) (x3 a * y3 b - y3 a * x3 b).

(** vector.hpp 144-172, 191-210 *)
Definition add4 (a b : vec4) := V4 (t4 a + t4 b) (x4 a + x4 b) (y4 a + y4 b) (z4 a + z4 b).
Definition sub4 (a b : vec4) := V4 (t4 a - t4 b) (x4 a - x4 b) (y4 a - y4 b) (z4 a - z4 b).
Definition scale4 (s : R) (a : vec4) := V4 (t4 a * s) (x4 a * s) (y4 a * s) (z4 a * s).
Definition div4 (a : vec4) (s : R) := V4 (t4 a / s) (x4 a / s) (y4 a / s) (z4 a / s).
Definition neg4 (a : vec4) := V4 (- t4 a) (- x4 a) (- y4 a) (- z4 a).
(** vector.hpp 212-214: Minkowski product, signature (+,-,-,-) *)
Definition dot4 (a b : vec4) : R := t4 a * t4 b - x4 a * x4 b - y4 a * y4 b - z4 a * z4 b.
(** vector.hpp 126-134 *)
Definition mk4 (t : R) (r : vec3) : vec4 := V4 t (x3 r) (y3 r) (z3 r).
Definition r4 (a : vec4) : vec3 := V3 (x4 a) (y4 a) (z4 a).

(** vector.cpp 9-11 *)
Definition norm_sq3 (a : vec3) : R := dot3 a a.
(** [std::max({|x|,|y|,|z|})] *)
Definition max3 (a b c : R) : R := Rmax (Rmax a b) c.
Definition max4 (a b c d : R) : R := Rmax (max3 a b c) d.
(** vector.cpp 13-27 *)
Definition norm3 (a : vec3) : R :=
  let mx := max3 (Rabs (x3 a)) (Rabs (y3 a)) (Rabs (z3 a)) in
  if reqb mx 0 then 0
  else
    let x_r := x3 a / mx in let y_r := y3 a / mx in let z_r := z3 a / mx in
    mx * sqrt (x_r * x_r + y_r * y_r + z_r * z_r).
(** vector.cpp 29-36 *)
Definition unit3 (a : vec3) : vec3 :=
  let n := norm3 a in if reqb n 0 then VEC3_ZERO else div3 a n.
(** vector.cpp 38-45 *)
Definition par3 (a v : vec3) : vec3 :=
  let n_sq := norm_sq3 v in
  if reqb n_sq 0 then a else div3 (scale3 (dot3 a v) v) n_sq.
(** vector.cpp 47-54 *)
Definition perp3 (a v : vec3) : vec3 :=
  let n_sq := norm_sq3 v in
  if reqb n_sq 0 then VEC3_ZERO else div3 (cross3 (cross3 v a) v) n_sq.
(** vector.cpp 56-58 *)
Definition angle_between (a b : vec3) : R := acos (dot3 (unit3 a) (unit3 b)).

(** vector.cpp 60-72. [None] when the scale is 0: the quotients are 0/0 = NaN. *)
Definition from_length_and_r (m : R) (p : vec3) : option vec4 :=
  let mx := max4 (Rabs m) (Rabs (x3 p)) (Rabs (y3 p)) (Rabs (z3 p)) in
  if reqb mx 0 then None
  else
    let m_r := m / mx in
    let x_r := x3 p / mx in let y_r := y3 p / mx in let z_r := z3 p / mx in
    Some (mk4 (mx * sqrt (m_r * m_r + x_r * x_r + y_r * y_r + z_r * z_r)) p).
(** vector.cpp 74-80. [None]: NaN, from 0/0 or from the square root of a negative number. *)
Definition from_length_and_t (m t : R) (dir : vec3) : option vec4 :=
  let mx := Rmax (Rabs m) (Rabs t) in
  if reqb mx 0 then None
  else
    let m_r := m / mx in let t_r := t / mx in
    let rad := t_r * t_r - m_r * m_r in
    if rltb rad 0 then None else Some (mk4 t (scale3 (mx * sqrt rad) (unit3 dir))).

(** vector.cpp 82-92 *)
Definition cross4 (a b c : vec4) : vec4 :=
  V4
    (x4 a * y4 b * z4 c + y4 a * z4 b * x4 c + z4 a * x4 b * y4 c
     - x4 a * z4 b * y4 c - y4 a * x4 b * z4 c - z4 a * y4 b * x4 c)
    (t4 a * z4 b * y4 c + y4 a * t4 b * z4 c + z4 a * y4 b * t4 c
     - t4 a * y4 b * z4 c - y4 a * z4 b * t4 c - z4 a * t4 b * y4 c)
    (t4 a * x4 b * z4 c + x4 a * z4 b * t4 c + z4 a * t4 b * x4 c
     - t4 a * z4 b * x4 c - x4 a * t4 b * z4 c - z4 a * x4 b * t4 c)
    (t4 a * y4 b * x4 c + x4 a * t4 b * y4 c + y4 a * x4 b * t4 c
     - t4 a * x4 b * y4 c - x4 a * y4 b * t4 c - y4 a * t4 b * x4 c).

(** vector.cpp 94-96 *)
Definition norm_sq4 (a : vec4) : R := dot4 a a.
(** vector.cpp 98-110 *)
Definition norm4 (a : vec4) : R :=
  let mx := max4 (Rabs (t4 a)) (Rabs (x4 a)) (Rabs (y4 a)) (Rabs (z4 a)) in
  if reqb mx 0 then 0
  else
    let t_r := t4 a / mx in
    let x_r := x4 a / mx in let y_r := y4 a / mx in let z_r := z4 a / mx in
    mx * sqrt (Rabs (t_r * t_r - (x_r * x_r + y_r * y_r + z_r * z_r))).
(** vector.cpp 112-119 *)
Definition unit4 (a : vec4) : vec4 :=
  let n := norm4 a in if reqb n 0 then VEC4_ZERO else div4 a n.
(** vector.cpp 121-124 *)
Definition sign4 (a : vec4) : Z :=
  let n_sq := norm_sq4 a in
  ((if rltb 0 n_sq then 1 else 0) - (if rltb n_sq 0 then 1 else 0))%Z.
(** vector.cpp 126-133 *)
Definition par4 (a v : vec4) : vec4 :=
  let n_sq := norm_sq4 v in
  if reqb n_sq 0 then a else div4 (scale4 (dot4 a v) v) n_sq.
(** vector.cpp 135-137 *)
Definition perp4 (a v : vec4) : vec4 := sub4 a (par4 a v).
