(** Specification of the hadronic tensor: Cartesian components along axes defined by the momenta, in terms of the
    structure functions. One function of the momentum transfer, the target, the hadron and the target spin, whatever
    happened to the lepton. *)
From Coq Require Import Reals List.
Import ListNotations.
From Verif Require Import MathModel ParticleModel VecModel KinSpec SfModel HadModel QedSpec.
Local Open Scope R_scope.

(** Value of a tensor with two upper indices on two vectors. *)
Definition tensor_at (w : upper2) (u v : vec4) : cx :=
  fold_right (fun t s => cadd (cmul (fst (fst t)) (creal (dot4 (snd (fst t)) u * dot4 (snd t) v))) s) c0 w.

(** Axes: 0 along the target momentum seen by the photon (orthogonal to q), 1 along the transverse momentum of the
    hadron, 2 normal to the plane of photon and hadron, 3 along the photon seen by the target (orthogonal to p). *)
Definition transverse (q p h : vec4) : vec4 :=
  let P := project_off q p in let H := project_off q h in sub4 H (scale4 (dot4 H P / dot4 P P) P).
Definition axis (q p h : vec4) (i : nat) : vec4 :=
  match i with
  | 0%nat => let P := project_off q p in scale4 (/ sqrt (norm_sq4 P)) P
  | 1%nat => let H := transverse q p h in scale4 (/ sqrt (- norm_sq4 H)) H
  | 2%nat => let n := normal q p h in scale4 (/ sqrt (- norm_sq4 n)) n
  | _ => let z := project_off p q in scale4 (/ sqrt (- norm_sq4 z)) z
  end.
(** Contravariant components are values on these vectors. *)
Definition dual (q p h : vec4) (i : nat) : vec4 := match i with 0%nat => axis q p h 0 | _ => scale4 (-1) (axis q p h i) end.
(** Spin vector with given components along the axes 1, 2, 3, and components of a spin vector. *)
Definition spin_vector (q p h : vec4) (eta : vec3) : vec4 :=
  add4 (scale4 (x3 eta) (axis q p h 1)) (add4 (scale4 (y3 eta) (axis q p h 2)) (scale4 (z3 eta) (axis q p h 3))).
Definition spin_along (q p h s : vec4) : vec3 := V3 (dot4 (dual q p h 1) s) (dot4 (dual q p h 2) s) (dot4 (dual q p h 3) s).

(** Components for structure functions F and spin components s; hermitian. *)
Definition had_components (F : sf_name -> R) (s : vec3) (i j : nat) : cx :=
  let W00 := Cx (F F_UUL - y3 s * F F_UTL_sin_phih_m_phis) 0 in
  let W11 := Cx (F F_UUT + F F_UU_cos_2phih - y3 s * (F F_UTT_sin_phih_m_phis + F F_UT_sin_3phih_m_phis - F F_UT_sin_phih_p_phis)) 0 in
  let W22 := Cx (F F_UUT - F F_UU_cos_2phih - y3 s * (F F_UTT_sin_phih_m_phis - F F_UT_sin_3phih_m_phis + F F_UT_sin_phih_p_phis)) 0 in
  let W01 := Cx (- (F F_UU_cos_phih + y3 s * (F F_UT_sin_phis - F F_UT_sin_2phih_m_phis)))
                (- (F F_LU_sin_phih - y3 s * (F F_LT_cos_phis - F F_LT_cos_2phih_m_phis))) in
  let W02 := Cx (x3 s * (F F_UT_sin_phis + F F_UT_sin_2phih_m_phis) + z3 s * F F_UL_sin_phih)
                (- (x3 s * (F F_LT_cos_phis + F F_LT_cos_2phih_m_phis) + z3 s * F F_LL_cos_phih)) in
  let W12 := Cx (- (x3 s * (F F_UT_sin_3phih_m_phis + F F_UT_sin_phih_p_phis) + z3 s * F F_UL_sin_2phih))
                (x3 s * F F_LT_cos_phih_m_phis + z3 s * F F_LL) in
  match i, j with
  | 0%nat, 0%nat => W00 | 1%nat, 1%nat => W11 | 2%nat, 2%nat => W22
  | 0%nat, 1%nat => W01 | 1%nat, 0%nat => conj W01 | 0%nat, 2%nat => W02 | 2%nat, 0%nat => conj W02
  | 1%nat, 2%nat => W12 | 2%nat, 1%nat => conj W12 | _, _ => c0
  end.
(** Arguments of the structure functions and normalization, from the momenta. *)
Definition point_at (had : hadron) (q p h : vec4) : sf_point :=
  (had, - norm_sq4 q / (2 * dot4 p q), dot4 p h / dot4 p q, - norm_sq4 q, - norm_sq4 (transverse q p h)).
Definition had_norm (q p h : vec4) : R :=
  let Q2 := - norm_sq4 q in let x := Q2 / (2 * dot4 p q) in 4 * sqrt (norm_sq4 p) * dot4 (dual q p h 3) h * (Q2 + 2 * x * norm_sq4 p) / sq (sq Q2).
Definition hadron_tensor_at (had : hadron) (sf : sf_set sf_point) (q p h s : vec4) (i j : nat) : cx :=
  cmul (creal (had_norm q p h)) (had_components (fun n => sf n (point_at had q p h)) (spin_along q p h s) i j).
(** The tensor itself: sum of the components times products of the axes. *)
Definition hadron_tensor (had : hadron) (sf : sf_set sf_point) (q p h s : vec4) : upper2 :=
  flat_map (fun i => map (fun j => (hadron_tensor_at had sf q p h s i j, axis q p h i, axis q p h j)) [0; 1; 2]%nat) [0; 1; 2]%nat.
