(** Specification of the leptonic coefficients: lowest-order quantum electrodynamics with explicit Dirac matrices.
    A tensor with two lower indices is given by its values on pairs of vectors, one with two upper indices by a sum of
    products of vectors. Nothing here refers to the code. *)
From Coq Require Import Reals List.
From Verif Require Import VecModel KinSpec.
Import ListNotations.
Local Open Scope R_scope.

(** * Complex numbers and four by four matrices *)
Record cx := Cx { re : R; im : R }.
Definition cadd (a b : cx) := Cx (re a + re b) (im a + im b).
Definition cmul (a b : cx) := Cx (re a * re b - im a * im b) (re a * im b + im a * re b).
Definition creal (r : R) := Cx r 0.
Definition ci := Cx 0 1.
Definition c0 := creal 0.
Definition c1 := creal 1.
Definition cm1 := creal (-1).
Definition cmi := Cx 0 (-1).

Record row := Row { e0 : cx; e1 : cx; e2 : cx; e3 : cx }.
Record mat := Mat { m0 : row; m1 : row; m2 : row; m3 : row }.
Definition radd (a b : row) := Row (cadd (e0 a) (e0 b)) (cadd (e1 a) (e1 b)) (cadd (e2 a) (e2 b)) (cadd (e3 a) (e3 b)).
Definition rscal (c : cx) (a : row) := Row (cmul c (e0 a)) (cmul c (e1 a)) (cmul c (e2 a)) (cmul c (e3 a)).
Definition madd (a b : mat) := Mat (radd (m0 a) (m0 b)) (radd (m1 a) (m1 b)) (radd (m2 a) (m2 b)) (radd (m3 a) (m3 b)).
Definition mscal (c : cx) (a : mat) := Mat (rscal c (m0 a)) (rscal c (m1 a)) (rscal c (m2 a)) (rscal c (m3 a)).
Definition rmul (a : row) (b : mat) :=
  radd (radd (rscal (e0 a) (m0 b)) (rscal (e1 a) (m1 b))) (radd (rscal (e2 a) (m2 b)) (rscal (e3 a) (m3 b))).
Definition mmul (a b : mat) := Mat (rmul (m0 a) b) (rmul (m1 a) b) (rmul (m2 a) b) (rmul (m3 a) b).
Definition mone := Mat (Row c1 c0 c0 c0) (Row c0 c1 c0 c0) (Row c0 c0 c1 c0) (Row c0 c0 c0 c1).
Definition tr (a : mat) : cx := cadd (cadd (e0 (m0 a)) (e1 (m1 a))) (cadd (e2 (m2 a)) (e3 (m3 a))).

(** * Dirac matrices (Dirac representation), the slash, and i g0 g1 g2 g3 *)
Definition gam0 := Mat (Row c1 c0 c0 c0) (Row c0 c1 c0 c0) (Row c0 c0 cm1 c0) (Row c0 c0 c0 cm1).
Definition gam1 := Mat (Row c0 c0 c0 c1) (Row c0 c0 c1 c0) (Row c0 cm1 c0 c0) (Row cm1 c0 c0 c0).
Definition gam2 := Mat (Row c0 c0 c0 cmi) (Row c0 c0 ci c0) (Row c0 ci c0 c0) (Row cmi c0 c0 c0).
Definition gam3 := Mat (Row c0 c0 c1 c0) (Row c0 c0 c0 cm1) (Row cm1 c0 c0 c0) (Row c0 c1 c0 c0).
Definition gam5 := mscal ci (mmul (mmul gam0 gam1) (mmul gam2 gam3)).
Definition slash (v : vec4) : mat :=
  madd (madd (mscal (creal (t4 v)) gam0) (mscal (creal (- x4 v)) gam1)) (madd (mscal (creal (- y4 v)) gam2) (mscal (creal (- z4 v)) gam3)).
(** Numerator of the propagator, or sum over the spins, for momentum [l] and mass [m]. *)
Definition num (m : R) (l : vec4) : mat := madd (slash l) (mscal (creal m) mone).
(** Spin density matrix of a fermion with momentum [k] and polarization vector [s] (times 2). *)
Definition spin (m : R) (k s : vec4) : mat := mmul (num m k) (madd mone (mmul gam5 (slash s))).
Definition prop (m : R) (l : vec4) : mat := mscal (creal (/ (dot4 l l - m * m))) (num m l).

(** * Tensors *)
Definition lower2 := vec4 -> vec4 -> cx.
Definition upper2 := list (cx * vec4 * vec4).
Definition contract (L : lower2) (w : upper2) : cx := fold_right (fun t s => cadd (cmul (fst (fst t)) (L (snd (fst t)) (snd t))) s) c0 w.

(** Dirac adjoint g0 A^dagger g0. *)
Definition conj (a : cx) := Cx (re a) (- im a).
Definition dagger (a : mat) : mat :=
  Mat (Row (conj (e0 (m0 a))) (conj (e0 (m1 a))) (conj (e0 (m2 a))) (conj (e0 (m3 a))))
      (Row (conj (e1 (m0 a))) (conj (e1 (m1 a))) (conj (e1 (m2 a))) (conj (e1 (m3 a))))
      (Row (conj (e2 (m0 a))) (conj (e2 (m1 a))) (conj (e2 (m2 a))) (conj (e2 (m3 a))))
      (Row (conj (e3 (m0 a))) (conj (e3 (m1 a))) (conj (e3 (m2 a))) (conj (e3 (m3 a)))).
Definition bar (a : mat) : mat := mmul gam0 (mmul (dagger a) gam0).
(** One half of the product of a lepton current with the conjugate of another, summed over the final spin: the currents
    are u(k2)bar V u(k1) and u(k2)bar W u(k1). *)
Definition current2 (m : R) (k1 k2 s : vec4) (V W : vec4 -> mat) : lower2 := fun u v =>
  cmul (creal (1 / 2)) (tr (mmul (num m k2) (mmul (V u) (mmul (spin m k1 s) (bar (W v)))))).
(** Scattering without photon emission. *)
Definition lepton_born (m : R) (k1 k2 s : vec4) : lower2 := current2 m k1 k2 s slash slash.
(** The same to first order in an anomalous moment: vertex u + (F/2m) i sigma(u, k2 - k1), with sigma(a,b) = i/2 (ab - ba);
    coefficient of F/2m. *)
Definition isigma (u l : vec4) : mat := mscal (creal (- (1 / 2))) (madd (mmul (slash u) (slash l)) (mscal cm1 (mmul (slash l) (slash u)))).
Definition lepton_pauli (m : R) (k1 k2 s : vec4) : lower2 := fun u v =>
  let V u := isigma u (sub4 k2 k1) in cadd (current2 m k1 k2 s V slash u v) (current2 m k1 k2 s slash V u v).
(** Emission of a photon [k] with polarization [e] from the incoming or the outgoing line; sum over the polarizations
    with minus the metric. *)
Definition emit (m : R) (k1 k2 k e u : vec4) : mat :=
  madd (mmul (slash u) (mmul (prop m (sub4 k1 k)) (slash e))) (mmul (slash e) (mmul (prop m (add4 k2 k)) (slash u))).
Definition metric : list (R * vec4) := [(1, VEC4_T); (-1, VEC4_X); (-1, VEC4_Y); (-1, VEC4_Z)].
Definition lepton_rad (m : R) (k1 k2 k s : vec4) : lower2 := fun u v =>
  fold_right (fun t c => cadd (cmul (creal (- fst t)) (current2 m k1 k2 s (emit m k1 k2 k (snd t)) (emit m k1 k2 k (snd t)) u v)) c) c0 metric.

(** * The nine structures of the hadronic tensor
    [q] is the momentum transfer; the vectors are projected on the space orthogonal to it; [normal] is
    eps(mu,q,p,ph) with eps(0,1,2,3) = 1 for upper indices. *)
Definition normal (q p h : vec4) : vec4 := V4 (- det_rows VEC4_T q p h) (det_rows VEC4_X q p h) (det_rows VEC4_Y q p h) (det_rows VEC4_Z q p h).
Definition project_off (q a : vec4) : vec4 := sub4 a (scale4 (dot4 a q / dot4 q q) q).
Definition both (c d : cx) (a b : vec4) : upper2 := [(c, a, b); (d, b, a)].
Definition had_struct (q p h : vec4) (i : nat) : upper2 :=
  let P := project_off q p in let H := project_off q h in let n := normal q p h in
  match i with
  | 1%nat => map (fun t => (creal (- fst t), snd t, snd t)) metric ++ [(creal (/ dot4 q q), q, q)]
  | 2%nat => [(c1, P, P)]
  | 3%nat => [(c1, H, H)]
  | 4%nat => both c1 c1 P H
  | 5%nat => both ci cmi P H
  | 6%nat => both c1 c1 P n
  | 7%nat => both ci cmi P n
  | 8%nat => both c1 c1 H n
  | 9%nat => both ci cmi H n
  | _ => []
  end.

(** Polarization vector of a lepton of positive helicity, as seen in the rest frame of [p]: a unit vector orthogonal to
    [k1], in the plane of [p] and [k1], pointing along the momentum. *)
Definition helicity_vector (p k1 s : vec4) : Prop :=
  dot4 s k1 = 0 /\ dot4 s s = -1 /\ 0 < dot4 s p /\ exists a b, s = add4 (scale4 a k1) (scale4 b p).
