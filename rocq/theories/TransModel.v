(** Model of include/sidis/transform.hpp and src/transform.cpp over the real numbers. *)
From Coq Require Import Reals ZArith.
From Verif Require Import ExtModel MathModel VecModel.
Local Open Scope R_scope.

(** transform.hpp 20-100: rows *)
Record tr3 := T3 { rx : vec3; ry : vec3; rz : vec3 }.
(** transform.hpp 172-281: rows *)
Record tr4 := T4 { ft : vec4; fx : vec4; fy : vec4; fz : vec4 }.

(** transform.hpp 36-42 *)
Definition mk_tr3 (xx xy xz yx yy yz zx zy zz : R) : tr3 := T3 (V3 xx xy xz) (V3 yx yy yz) (V3 zx zy zz).
(** transform.hpp 107-110 *)
Definition TRANSFORM3_ID := mk_tr3 1 0 0 0 1 0 0 0 1.
(** transform.cpp 52-57 *)
Definition transpose3 (a : tr3) : tr3 :=
  T3 (V3 (x3 (rx a)) (x3 (ry a)) (x3 (rz a)))
     (V3 (y3 (rx a)) (y3 (ry a)) (y3 (rz a)))
     (V3 (z3 (rx a)) (z3 (ry a)) (z3 (rz a))).
(** transform.hpp 62-84, 112-131 *)
Definition tadd3 (a b : tr3) := T3 (add3 (rx a) (rx b)) (add3 (ry a) (ry b)) (add3 (rz a) (rz b)).
Definition tsub3 (a b : tr3) := T3 (sub3 (rx a) (rx b)) (sub3 (ry a) (ry b)) (sub3 (rz a) (rz b)).
Definition tscale3 (s : R) (a : tr3) := T3 (scale3 s (rx a)) (scale3 s (ry a)) (scale3 s (rz a)).
Definition tdiv3 (a : tr3) (s : R) := T3 (div3 (rx a) s) (div3 (ry a) s) (div3 (rz a) s).
(** transform.hpp 85-91 *)
Definition tmul3 (a b : tr3) : tr3 :=
  let bt := transpose3 b in
  T3 (V3 (dot3 (rx a) (rx bt)) (dot3 (rx a) (ry bt)) (dot3 (rx a) (rz bt)))
     (V3 (dot3 (ry a) (rx bt)) (dot3 (ry a) (ry bt)) (dot3 (ry a) (rz bt)))
     (V3 (dot3 (rz a) (rx bt)) (dot3 (rz a) (ry bt)) (dot3 (rz a) (rz bt))).
(** transform.hpp 136-141 *)
Definition tapp3 (a : tr3) (v : vec3) : vec3 := V3 (dot3 (rx a) v) (dot3 (ry a) v) (dot3 (rz a) v).
(** transform.hpp 152-160 *)
Definition outer3 (a b : vec3) : tr3 := T3 (scale3 (x3 a) b) (scale3 (y3 a) b) (scale3 (z3 a) b).
Definition tcross3 (v : vec3) : tr3 := mk_tr3 0 (- z3 v) (y3 v) (z3 v) 0 (- x3 v) (- y3 v) (x3 v) 0.
(** transform.hpp 161-166 *)
Definition asym_prod3 (a b : vec3) : tr3 := tsub3 (outer3 a b) (outer3 b a).
Definition sym_prod3 (a b : vec3) : tr3 := tadd3 (outer3 a b) (outer3 a b).

(** transform.cpp 9-16 *)
Definition rotate3 (dir : vec3) (angle : R) : tr3 :=
  let u := unit3 dir in
  let c := cos angle in let s := sin angle in
  tadd3 (tadd3 (tscale3 c TRANSFORM3_ID) (tscale3 s (tcross3 u))) (tscale3 (1 - c) (outer3 u u)).
(** transform.cpp 18-27 *)
Definition rotate_to3 (dir_old dir_new : vec3) : tr3 :=
  let a := unit3 dir_old in let b := unit3 dir_new in
  let dir := unit3 (cross3 a b) in
  let c := dot3 a b in let s := norm3 (cross3 a b) in
  tadd3 (tadd3 (tscale3 c TRANSFORM3_ID) (tscale3 s (tcross3 dir))) (tscale3 (1 - c) (outer3 dir dir)).
(** transform.cpp 33-38 *)
Definition rotate_basis3 (z_axis y_up : vec3) : tr3 :=
  let z := unit3 z_axis in
  let x := unit3 (cross3 y_up z_axis) in
  let y := unit3 (cross3 z x) in
  T3 x y z.
(** transform.cpp 40-43 *)
Definition tr_scale3 (dir : vec3) (scale : R) : tr3 :=
  let u := unit3 dir in tadd3 TRANSFORM3_ID (tscale3 (scale - 1) (outer3 u u)).
(** transform.cpp 45-48. [None]: 0/0 = NaN. *)
Definition project3 (dir : vec3) : option tr3 :=
  if reqb (norm_sq3 dir) 0 then None else Some (tdiv3 (outer3 dir dir) (norm_sq3 dir)).
(** transform.cpp 59-61 *)
Definition trace3 (a : tr3) : R := x3 (rx a) + y3 (ry a) + z3 (rz a).
(** transform.cpp 63-66 *)
Definition det3 (a : tr3) : R :=
  let '(T3 (V3 xx xy xz) (V3 yx yy yz) (V3 zx zy zz)) := a in
  xx * yy * zz + xy * yz * zx + xz * yx * zy - xx * yz * zy - xz * yy * zx - xy * yx * zz.
(** transform.cpp 68-73. Only meaningful for non-zero determinant. *)
Definition inv3 (a : tr3) : tr3 :=
  let '(T3 (V3 xx xy xz) (V3 yx yy yz) (V3 zx zy zz)) := a in
  tscale3 (1 / det3 a) (mk_tr3
    (yy * zz - yz * zy) (xz * zy - xy * zz) (xy * yz - xz * yy)
    (yz * zx - yx * zz) (xx * zz - xz * zx) (xz * yx - xx * yz)
    (yx * zy - yy * zx) (xy * zx - xx * zy) (xx * yy - xy * yx)).
(** transform.cpp 83-85 *)
Definition conj3 (a b : tr3) : tr3 := tmul3 (tmul3 a b) (transpose3 a).

(** transform.hpp 195-203: spatial columns are negated *)
Definition mk_tr4 (t0 tx ty tz xt xx xy xz yt yx yy yz zt zx zy zz : R) : tr4 :=
  T4 (V4 t0 (- tx) (- ty) (- tz)) (V4 xt (- xx) (- xy) (- xz))
     (V4 yt (- yx) (- yy) (- yz)) (V4 zt (- zx) (- zy) (- zz)).
(** transform.hpp 209-214 *)
Definition lift4 (a : tr3) : tr4 :=
  T4 VEC4_T (mk4 0 (neg3 (rx a))) (mk4 0 (neg3 (ry a))) (mk4 0 (neg3 (rz a))).
(** transform.hpp 289-293 *)
Definition TRANSFORM4_ID := mk_tr4 1 0 0 0 0 1 0 0 0 0 1 0 0 0 0 1.
(** transform.cpp 159-165 *)
Definition transpose4 (a : tr4) : tr4 :=
  T4 (V4 (t4 (ft a)) (t4 (fx a)) (t4 (fy a)) (t4 (fz a)))
     (V4 (x4 (ft a)) (x4 (fx a)) (x4 (fy a)) (x4 (fz a)))
     (V4 (y4 (ft a)) (y4 (fx a)) (y4 (fy a)) (y4 (fz a)))
     (V4 (z4 (ft a)) (z4 (fx a)) (z4 (fy a)) (z4 (fz a))).
(** transform.hpp 230-255, 295-314 *)
Definition tadd4 (a b : tr4) :=
  T4 (add4 (ft a) (ft b)) (add4 (fx a) (fx b)) (add4 (fy a) (fy b)) (add4 (fz a) (fz b)).
Definition tsub4 (a b : tr4) :=
  T4 (sub4 (ft a) (ft b)) (sub4 (fx a) (fx b)) (sub4 (fy a) (fy b)) (sub4 (fz a) (fz b)).
Definition tscale4 (s : R) (a : tr4) :=
  T4 (scale4 s (ft a)) (scale4 s (fx a)) (scale4 s (fy a)) (scale4 s (fz a)).
Definition tdiv4 (a : tr4) (s : R) :=
  T4 (div4 (ft a) s) (div4 (fx a) s) (div4 (fy a) s) (div4 (fz a) s).
(** transform.hpp 256-263 *)
Definition tmul4 (a b : tr4) : tr4 :=
  let bt := transpose4 b in
  let row v := V4 (dot4 v (ft bt)) (dot4 v (fx bt)) (dot4 v (fy bt)) (dot4 v (fz bt)) in
  T4 (row (ft a)) (row (fx a)) (row (fy a)) (row (fz a)).
(** transform.hpp 319-325 *)
Definition tapp4 (a : tr4) (v : vec4) : vec4 :=
  V4 (dot4 (ft a) v) (dot4 (fx a) v) (dot4 (fy a) v) (dot4 (fz a) v).
(** transform.hpp 336-345 *)
Definition outer4 (a b : vec4) : tr4 :=
  T4 (scale4 (t4 a) b) (scale4 (x4 a) b) (scale4 (y4 a) b) (scale4 (z4 a) b).
Definition tcross4 (a b : vec4) : tr4 :=
  mk_tr4
    0 (y4 a * z4 b - z4 a * y4 b) (z4 a * x4 b - x4 a * z4 b) (x4 a * y4 b - y4 a * x4 b)
    (z4 a * y4 b - y4 a * z4 b) 0 (t4 a * z4 b - z4 a * t4 b) (y4 a * t4 b - t4 a * y4 b)
    (x4 a * z4 b - z4 a * x4 b) (z4 a * t4 b - t4 a * z4 b) 0 (t4 a * x4 b - x4 a * t4 b)
    (y4 a * x4 b - x4 a * y4 b) (t4 a * y4 b - y4 a * t4 b) (x4 a * t4 b - t4 a * x4 b) 0.
(** transform.hpp 346-351 *)
Definition asym_prod4 (a b : vec4) : tr4 := tsub4 (outer4 a b) (outer4 b a).
Definition sym_prod4 (a b : vec4) : tr4 := tadd4 (outer4 a b) (outer4 a b).

(** transform.cpp 112-119 *)
Definition boost4 (dir : vec3) (rapidity : R) : tr4 :=
  let d := mk4 0 (unit3 dir) in
  let ch := cosh rapidity in let sh := sinh rapidity in
  tadd4 (tadd4 TRANSFORM4_ID (tscale4 sh (tsub4 (outer4 d VEC4_T) (outer4 VEC4_T d))))
        (tscale4 (1 - ch) (tsub4 (outer4 d d) (outer4 VEC4_T VEC4_T))).
(** transform.cpp 125-141. [None]: the transform is filled with NaN (different or null signs, or a division by 0). *)
Definition transform_to4 (dir_old dir_new : vec4) : option tr4 :=
  let a := unit4 dir_old in let b := unit4 dir_new in
  let c := dot4 a b in
  let s_old := sign4 a in let s := sign4 b in
  if (negb (Z.eqb s_old s) || Z.eqb s 0)%bool then None
  else
    let sym := tadd4 (outer4 a a) (outer4 b b) in
    let asym := tsub4 (outer4 a b) (outer4 b a) in
    let transport := tscale4 (2 * IZR s * c) (outer4 b a) in
    if reqb (IZR s + c) 0 then None
    else Some (tsub4 TRANSFORM4_ID (tdiv4 (tsub4 (tadd4 sym asym) transport) (IZR s + c))).
(** transform.cpp 147-150. [None]: NaN. *)
Definition project4 (dir : vec4) : option tr4 :=
  if reqb (norm_sq4 dir) 0 then None else Some (tdiv4 (outer4 dir dir) (norm_sq4 dir)).
(** transform.cpp 167-169 *)
Definition trace4 (a : tr4) : R := t4 (ft a) - x4 (fx a) - y4 (fy a) - z4 (fz a).
(** transform.cpp 171-180 *)
Definition det4 (a : tr4) : R :=
  let '(T4 (V4 t0 tx ty tz) (V4 xt xx xy xz) (V4 yt yx yy yz) (V4 zt zx zy zz)) := a in
  - t0 * xx * yy * zz - t0 * xy * yz * zx - t0 * xz * yx * zy
  + t0 * xx * yz * zy + t0 * xz * yy * zx + t0 * xy * yx * zz
  + tx * xt * yy * zz + tx * xy * yz * zt + tx * xz * yt * zy
  - tx * xt * yz * zy - tx * xz * yy * zt - tx * xy * yt * zz
  + ty * xx * yt * zz + ty * xt * yz * zx + ty * xz * yx * zt
  - ty * xx * yz * zt - ty * xz * yt * zx - ty * xt * yx * zz
  + tz * xx * yy * zt + tz * xy * yt * zx + tz * xt * yx * zy
  - tz * xx * yt * zy - tz * xt * yy * zx - tz * xy * yx * zt.
(** transform.cpp 182-200. Only meaningful for non-zero determinant. *)
Definition inv4 (a : tr4) : tr4 :=
  let '(T4 (V4 t0 tx ty tz) (V4 xt xx xy xz) (V4 yt yx yy yz) (V4 zt zx zy zz)) := a in
  tscale4 (1 / det4 a) (mk_tr4
    (- (xx * yy * zz + xy * yz * zx + xz * yx * zy - xx * yz * zy - xz * yy * zx - xy * yx * zz))
    (- (tx * yz * zy + tz * yy * zx + ty * yx * zz - tx * yy * zz - ty * yz * zx - tz * yx * zy))
    (- (xx * tz * zy + xz * ty * zx + xy * tx * zz - xx * ty * zz - xy * tz * zx - xz * tx * zy))
    (- (xx * yz * ty + xz * yy * tx + xy * yx * tz - xx * yy * tz - xy * yz * tx - xz * yx * ty))
    (xt * yz * zy + xz * yy * zt + xy * yt * zz - xt * yy * zz - xy * yz * zt - xz * yt * zy)
    (t0 * yy * zz + ty * yz * zt + tz * yt * zy - t0 * yz * zy - tz * yy * zt - ty * yt * zz)
    (t0 * xz * zy + tz * xy * zt + ty * xt * zz - t0 * xy * zz - ty * xz * zt - tz * xt * zy)
    (t0 * yz * xy + tz * yy * xt + ty * yt * xz - t0 * yy * xz - ty * yz * xt - tz * yt * xy)
    (xx * yz * zt + xz * yt * zx + xt * yx * zz - xx * yt * zz - xt * yz * zx - xz * yx * zt)
    (yx * tz * zt + yz * t0 * zx + yt * tx * zz - yx * t0 * zz - yt * tz * zx - yz * tx * zt)
    (xx * t0 * zz + xt * tz * zx + xz * tx * zt - xx * tz * zt - xz * t0 * zx - xt * tx * zz)
    (xx * tz * yt + xz * t0 * yx + xt * tx * yz - xx * t0 * yz - xt * tz * yx - xz * tx * yt)
    (xx * yt * zy + xt * yy * zx + xy * yx * zt - xx * yy * zt - xy * yt * zx - xt * yx * zy)
    (zx * yt * ty + zt * yy * tx + zy * yx * t0 - zx * yy * t0 - zy * yt * tx - zt * yx * ty)
    (xx * zt * ty + xt * zy * tx + xy * zx * t0 - xx * zy * t0 - xy * zt * tx - xt * zx * ty)
    (xx * yy * t0 + xy * yt * tx + xt * yx * ty - xx * yt * ty - xt * yy * tx - xy * yx * t0)).
(** transform.cpp 202-212 *)
Definition conj4 (a b : tr4) : tr4 := tmul4 (tmul4 a b) (transpose4 a).
