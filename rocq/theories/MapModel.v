(** Model of include/sidis/extra/map.hpp: one-dimensional changes of variable. *)
From Coq Require Import Reals.
From Verif Require Import ExtModel BoundModel MathModel.
Local Open Scope R_scope.

(** A transform: [u], and the pair of outputs of [x(u, &jac)]. Arithmetic is exact. *)
Record transform := Transform { t_u : R -> R; t_x : R -> R; t_jac : R -> R }.

(** map.hpp 12-20 *)
Definition Linear : transform := Transform (fun x => x) (fun u => u) (fun _ => 1).
(** map.hpp 23-33 *)
Definition Inverse (offset : R) : transform :=
  Transform (fun x => - 1 / (x + offset)) (fun u => - 1 / u - offset) (fun u => sq (1 / u)).
(** map.hpp 36-47 *)
Definition Log (offset : R) : transform :=
  Transform (fun x => ln (x + offset)) (fun u => exp u - offset) (fun u => exp u).
(** map.hpp 50-60 *)
Definition Decay (length : R) : transform :=
  Transform (fun x => - expm1 (- x / length)) (fun u => - length * log1p (- u)) (fun u => length / (1 - u)).
(** map.hpp 63-77 *)
Definition Sigmoid (center width : R) : transform :=
  Transform (fun x => arcsinh ((x - center) / width))
            (fun u => width * sinh u + center) (fun u => width * cosh u).
(** map.hpp 83-116 *)
Definition s2_b (width_r u : R) : R := 1 + sq width_r + 2 * width_r * cosh u.
Definition s2_det (center width center_r width_r u : R) : R :=
  sqrt (s2_b width_r u + sq ((center_r - 1) * (center / width))).
Definition s2_num (center width center_r width_r u : R) : R :=
  let a := center_r + sq width_r + width_r * (1 + center_r) * cosh u in
  center * a + width * width_r * s2_det center width center_r width_r u * sinh u.
Definition Sigmoid2 (center width center_r width_r : R) : transform :=
  Transform
    (fun x =>
       let t1 := (x - center) / width in
       let t2 := (x - center * center_r) / (width * width_r) in
       arcsinh t1 + arcsinh t2)
    (fun u => s2_num center width center_r width_r u / s2_b width_r u)
    (fun u =>
       let b := s2_b width_r u in
       let det := s2_det center width center_r width_r u in
       let a_p := width_r * (1 + center_r) * sinh u in
       let b_p := 2 * width_r * sinh u in
       let num := s2_num center width center_r width_r u in
       (center * a_p + width * width_r * (det * cosh u + 0.5 * sinh u * b_p / det) - num * b_p / b) / b).

(** map.hpp 122-129. [None]: the interval [u_bound] is invalid and the outputs are NaN. *)
Definition apply_map (t : transform) (p : R) (b_min b_max : R) : option (R * R) :=
  let u_bound := mk_bound (Fin (t_u t b_min)) (Fin (t_u t b_max)) in
  match lerp u_bound (Fin p), bsize u_bound with
  | Fin u, Fin size => Some (t_x t u, t_jac t u * size)
  | _, _ => None
  end.
