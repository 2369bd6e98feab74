(** C06, C07: one-dimensional changes of variable. *)
From Coq Require Import Reals Lra.
From Coquelicot Require Import Coquelicot.
From Verif Require Import ExtModel BoundModel MathModel MapModel MapSpec MapProofs.
Local Open Scope R_scope.

(** C06: each transform is a change of variable on every interval of its domain. *)
Theorem C06_linear a b : change_of_variable_on Linear a b.
Proof. exact (linear_cov a b). Qed.
Theorem C06_inverse offset a b :
  a <= b -> 0 < a + offset \/ b + offset < 0 -> change_of_variable_on (Inverse offset) a b.
Proof. exact (inverse_cov offset a b). Qed.
Theorem C06_log offset a b : 0 < a + offset -> change_of_variable_on (Log offset) a b.
Proof. exact (log_cov offset a b). Qed.
Theorem C06_decay len a b : 0 < len -> change_of_variable_on (Decay len) a b.
Proof. exact (decay_cov len a b). Qed.
Theorem C06_sigmoid center width a b : 0 < width -> change_of_variable_on (Sigmoid center width) a b.
Proof. exact (sigmoid_cov center width a b). Qed.
Theorem C06_sigmoid2 center width center_r width_r a b :
  0 < width -> 0 < width_r -> a <= b -> change_of_variable_on (Sigmoid2 center width center_r width_r) a b.
Proof. exact (fun Hw Hr => sigmoid2_cov center width center_r width_r Hw Hr a b). Qed.

(** C07: [apply_map] parametrises exactly the interval [a,b] by p in [0,1], from a to b, and the Jacobian it
    reports is the derivative of the point with respect to p. *)
Theorem C07_apply_map t a b : a <= b -> change_of_variable_on t a b ->
  exists X J : R -> R,
    (forall p, apply_map t p a b = Some (X p, J p)) /\
    (forall p, 0 <= p <= 1 -> a <= X p <= b) /\
    X 0 = a /\ X 1 = b /\
    (forall x, a <= x <= b -> exists p, 0 <= p <= 1 /\ X p = x) /\
    (forall p, 0 <= p <= 1 -> is_derive X p (J p)) /\
    (forall p, 0 <= p <= 1 -> 0 <= J p /\ (a < b -> 0 < J p)).
Proof. exact (apply_map_correct t a b). Qed.

Example C06_example_sigmoid2 : t_x (Sigmoid2 1 2 (-1) 3) (t_u (Sigmoid2 1 2 (-1) 3) (7/2)) = 7/2.
Proof. apply (C06_sigmoid2 1 2 (-1) 3 0 5); lra. Qed.
Example C07_example_inverse : apply_map (Inverse 0) (1/2) 1 2 = Some (4/3, 8/9).
Proof.
  destruct (C07_apply_map (Inverse 0) 1 2) as (X & J & E & _); [lra|apply C06_inverse; lra|].
  rewrite apply_map_unfold by (cbn; lra). cbv zeta. cbn. unfold sq. f_equal. f_equal; field.
Qed.

Print Assumptions C06_linear.
Print Assumptions C06_inverse.
Print Assumptions C06_log.
Print Assumptions C06_decay.
Print Assumptions C06_sigmoid.
Print Assumptions C06_sigmoid2.
Print Assumptions C07_apply_map.
