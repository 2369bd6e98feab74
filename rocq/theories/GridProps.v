(** C30-C33: grids and their interpolation. *)
From Coq Require Import Reals ZArith Bool List Lia Lra.
From Coquelicot Require Import Coquelicot.
From Flocq Require Import IEEE754.Binary IEEE754.Bits.
From Verif Require Import ExtModel BoundProofs GridModel GridSpec GridProofs GridFloat GridSmooth.
From Coq Require Import List.
Import ListNotations.
Local Open Scope R_scope.

(** C30: interpolation in binary64 reads only the data of its grid, whatever the query point (NaN, infinities and
    rounding of the cell position included). [finite_dim]: bounds finite, count at most 2^53 + 1. *)
Theorem C30_linear_in_range data dims x :
  Forall (fun d => finite_dim d /\ (2 <= d_count d)%nat) dims -> length x = length dims -> length data = size_of (counts_of dims) ->
  exists v, f_linear_view data dims 0 x = Val v.
Proof. intros A B C. apply (linear_safe f_locate f_linear f_cubic (f_of_Z 0) finite_dim f_cell_ok); auto. rewrite C. auto. Qed.
Theorem C30_cubic_in_range data dims x :
  Forall (fun d => finite_dim d /\ (2 <= d_count d)%nat) dims -> length x = length dims -> length data = size_of (counts_of dims) ->
  exists v, f_cubic_view data dims 0 x = Val v.
Proof. intros A B C. apply (cubic_safe f_locate f_linear f_cubic (f_of_Z 0) finite_dim f_cell_ok); auto. rewrite C. auto. Qed.
(** The cell of a query point has both its end planes in the grid. *)
Theorem C30_cell x d i r : finite_dim d -> (2 <= d_count d)%nat -> f_locate x d = Cell i r -> (i + 1 <= d_count d - 1)%nat.
Proof. intros A B E. pose proof (f_cell_ok x d A B) as H. rewrite E in H. lia. Qed.

(** C31 *)
Theorem C31_linear_bounded data axes x f :
  Forall proper axes -> holds data (map ax_count axes) f -> Forall2 inside axes x ->
  exists v, e_linear_view data (map dim_of axes) 0 (map Fin x) = Val (Fin v) /\
  forall lo hi,
    (forall is, in_grid (map ax_count axes) is ->
      (forall j a xj ij, nth_error axes j = Some a -> nth_error x j = Some xj -> nth_error is j = Some ij -> near a xj ij) ->
      lo <= f is <= hi) -> lo <= v <= hi.
Proof. intros A [_ H] I. exact (linear_fin data axes 0 x f A H I). Qed.
Theorem C31_linear_at_nodes data axes is f :
  Forall proper axes -> holds data (map ax_count axes) f -> Forall2 (fun a i => (i + 2 <= ax_count a)%nat) axes is ->
  e_linear_view data (map dim_of axes) 0 (map Fin (nodes axes is)) = Val (Fin (f is)).
Proof. intros A [_ H] I. exact (linear_node data axes 0 is f A H I). Qed.
Theorem C31_linear_affine data axes x F :
  Forall proper axes -> multiaffine (length axes) F ->
  holds data (map ax_count axes) (fun is => F (nodes axes is)) -> Forall2 inside axes x ->
  e_linear_view data (map dim_of axes) 0 (map Fin x) = Val (Fin (F x)).
Proof. intros A M [_ H] I. exact (linear_affine data axes 0 x F A M H I). Qed.
Theorem C31_linear_outside data axes x f :
  Forall proper axes -> holds data (map ax_count axes) f -> length x = length axes ->
  ~ (exists y, x = map Fin y /\ Forall2 inside axes y) -> e_linear_view data (map dim_of axes) 0 x = Val NaN.
Proof. intros A [_ H]. exact (linear_nan data axes 0 x f A H). Qed.

(** C32: exact at nodes, exact on data quadratic in each variable away from the edges, a derivative everywhere inside
    (central difference at the nodes), NaN outside. In the edge cells the missing neighbour is taken to be zero, so
    not even constants are reproduced there. *)
Theorem C32_cubic_at_nodes data axes is f :
  Forall proper axes -> holds data (map ax_count axes) f -> Forall2 (fun a i => (i + 2 <= ax_count a)%nat) axes is ->
  e_cubic_view data (map dim_of axes) 0 (map Fin (nodes axes is)) = Val (Fin (f is)).
Proof. intros A [_ H] I. exact (cubic_node data axes 0 is f A H I). Qed.
Theorem C32_cubic_quadratic_partial data axes x F :
  Forall proper axes -> multiquadratic (length axes) F ->
  holds data (map ax_count axes) (fun is => F (nodes axes is)) -> Forall2 interior axes x ->
  e_cubic_view data (map dim_of axes) 0 (map Fin x) = Val (Fin (F x)).
Proof. intros A M [_ H] I. exact (cubic_quadratic data axes 0 x F A M H I). Qed.
Theorem C32_cubic_edge_refuted data a c x :
  proper a -> holds data [ax_count a] (fun _ => c) -> c <> 0 -> node a 0 < x < node a 1 ->
  e_cubic_view data [dim_of a] 0 [Fin x] <> Val (Fin c).
Proof. exact (edge_lost data a c x). Qed.
Theorem C32_cubic_derivable data a f :
  proper a -> holds data [ax_count a] (fun is => f (hd 0%nat is)) ->
  exists v : R -> R,
    (forall x, inside a x -> e_cubic_view data [dim_of a] 0 [Fin x] = Val (Fin (v x))) /\
    (forall x, ax_lower a < x < ax_upper a -> ex_derive v x) /\
    (forall k, (1 <= k)%nat -> (k + 2 <= ax_count a)%nat ->
      is_derive v (node a k) ((f (k + 1)%nat - f (k - 1)%nat) / (2 * spacing a))).
Proof.
  intros A H. exists (value data a). split; [|split].
  - intros x I. destruct (cubic_fin data [a] 0 [x] (fun is => f (hd 0%nat is))) as [v E]; [constructor; [exact A|constructor]|exact (proj2 H)|constructor; [exact I|constructor]|].
    cbn [map] in E. unfold value. rewrite E. reflexivity.
  - intros x. exact (derivable data a f A H x).
  - intros k. exact (node_slope data a f A H k).
Qed.
Theorem C32_cubic_outside data axes x f :
  Forall proper axes -> holds data (map ax_count axes) f -> length x = length axes ->
  ~ (exists y, x = map Fin y /\ Forall2 inside axes y) -> e_cubic_view data (map dim_of axes) 0 x = Val NaN.
Proof. intros A [_ H]. exact (cubic_nan data axes 0 x f A H). Qed.

(** C33 *)
Theorem C33_indexing {T} (data : list T) dims is :
  length data = size_of (counts_of dims) -> in_grid (counts_of dims) is ->
  exists v, get data dims 0 is = Val v /\ nth_error data (flat (counts_of dims) is) = Some v.
Proof. exact (get_in data dims is). Qed.
Theorem C33_bijection cs :
  (forall is, in_grid cs is -> (flat cs is < size_of cs)%nat) /\
  (forall is js, in_grid cs is -> in_grid cs js -> flat cs is = flat cs js -> is = js) /\
  (forall n, (n < size_of cs)%nat -> exists is, in_grid cs is /\ flat cs is = n).
Proof. split; [exact (flat_lt cs)|split; [exact (flat_inj cs)|exact (flat_onto cs)]]. Qed.
Theorem C33_checks dims :
  e_check_dims dims = None <->
  Forall (fun d => exists lo hi, d_lower d = Fin lo /\ d_upper d = Fin hi /\ lo <= hi /\ (2 <= d_count d)%nat) dims.
Proof. exact (check_iff dims 0). Qed.
(** The error is about the first dimension that is not in order, and names it if it is singular. *)
Theorem C33_first_failure dims e : e_check_dims dims = Some e ->
  exists k d, nth_error dims k = Some d /\
  (forall j c, (j < k)%nat -> nth_error dims j = Some c -> exists lo hi, d_lower c = Fin lo /\ d_upper c = Fin hi /\ lo <= hi /\ (2 <= d_count c)%nat) /\
  let bounds := exists lo hi, d_lower d = Fin lo /\ d_upper d = Fin hi /\ lo <= hi in
  match e with InvalidBounds => ~ bounds | SingularDimension i => i = k /\ bounds /\ (d_count d <= 1)%nat end.
Proof. exact (check_first dims 0 e). Qed.

(** * Examples *)
Definition ex_axes := [Axis 3 0 2; Axis 2 (-1) 1].
Definition ex_fun (xs : list R) : R := match xs with [x; y] => (1 + x) * (2 + y) | _ => 0 end.
Definition ex_data := map Fin [1; 3; 2; 6; 3; 9].
Lemma ex_proper : Forall proper ex_axes. Proof. repeat constructor; cbn; lra || lia. Qed.
Lemma ex_holds : holds ex_data (map ax_count ex_axes) (fun is => ex_fun (nodes ex_axes is)).
Proof.
  split; [reflexivity|]. intros is H. cbn in H. inversion H as [|? i ? js H0 H1]; subst. inversion H1 as [|? j ? ks H2 H3]; subst. inversion H3; subst.
  destruct i as [|[|[|i]]]; [| | |lia]; (destruct j as [|[|j]]; [| |lia]); unfold ex_data; cbn; do 2 f_equal; unfold nodes, node, spacing; cbn; field.
Qed.
Lemma ex_affine : multiaffine 2 ex_fun.
Proof.
  exists (fun ys => ex_fun (0 :: ys)), (fun ys => ex_fun (0 :: ys)).
  assert (M : multiaffine 1 (fun ys => ex_fun (0 :: ys))).
  { exists (fun ys => match ys with [] => 2 | _ => 0 end), (fun ys => match ys with [] => 1 | _ => 0 end). cbn. repeat split; auto. intros x [|? ?]; cbn; ring. }
  split; [exact M|split; [exact M|]]. intros x [|y [|? ?]]; cbn; ring.
Qed.
(** Point (1/2, 1/2) of (1+x)(2+y): value 15/4. *)
Example C31_example : e_linear_view ex_data (map dim_of ex_axes) 0 [Fin (1 / 2); Fin (1 / 2)] = Val (Fin (15 / 4)).
Proof.
  replace (15 / 4) with (ex_fun [1 / 2; 1 / 2]) by (cbn; field).
  apply (C31_linear_affine ex_data ex_axes [1 / 2; 1 / 2] ex_fun ex_proper ex_affine ex_holds). repeat constructor; cbn; lra.
Qed.
Example C31_example_node : e_linear_view ex_data (map dim_of ex_axes) 0 (map Fin (nodes ex_axes [1; 0]%nat)) = Val (Fin 2).
Proof. rewrite (C31_linear_at_nodes _ _ _ _ ex_proper ex_holds) by (repeat constructor; cbn; lia). do 2 f_equal. cbn. unfold node, spacing. cbn. field. Qed.
Example C31_example_outside : e_linear_view ex_data (map dim_of ex_axes) 0 [Fin 2; Fin 0] = Val NaN.
Proof.
  apply (C31_linear_outside _ _ _ _ ex_proper ex_holds); [reflexivity|]. intros (y & E & H). inversion H as [|? ? ? ? I]; subst. injection E as E1 E2. subst. cbn in I. unfold inside in I. cbn in I. lra.
Qed.
Definition ex_line := Axis 5 0 4.
Lemma line_holds f : holds (map Fin [f 0; f 1; f 2; f 3; f 4]) [5%nat] (fun is => f (node ex_line (hd 0%nat is))).
Proof.
  split; [reflexivity|]. intros is H. inversion H as [|? i ? js H0 H1]; subst. inversion H1; subst.
  destruct i as [|[|[|[|[|i]]]]]; [| | | | |lia]; cbn; do 3 f_equal; unfold node, spacing; cbn; field.
Qed.
(** The square of 3/2 from the squares of 0, ..., 4. *)
Example C32_example : e_cubic_view (map Fin [0; 1; 4; 9; 16]) [dim_of ex_line] 0 [Fin (3 / 2)] = Val (Fin (9 / 4)).
Proof.
  set (F := fun xs : list R => match xs with [x] => x * x | _ => 0 end). replace (9 / 4) with (F [3 / 2]) by (cbn; field).
  apply (C32_cubic_quadratic_partial _ [ex_line] [3 / 2] F).
  - repeat constructor; cbn; lra || lia.
  - exists (fun _ => 0), (fun _ => 0), (fun ys => match ys with [] => 1 | _ => 0 end). cbn. repeat split; auto. intros x [|? ?]; cbn; ring.
  - destruct (line_holds (fun x => x * x)) as [_ H]. split; [reflexivity|]. intros is I. specialize (H is I). inversion I as [|? i ? js H0 H1]; subst. inversion H1; subst.
    replace [0; 1; 4; 9; 16] with [0 * 0; 1 * 1; 2 * 2; 3 * 3; 4 * 4] by (repeat f_equal; ring). exact H.
  - repeat constructor; unfold node, spacing; cbn; lra.
Qed.
(** Constant 1: not 1 at 1/2. *)
Example C32_example_edge : e_cubic_view (map Fin [1; 1; 1; 1; 1]) [dim_of ex_line] 0 [Fin (1 / 2)] <> Val (Fin 1).
Proof.
  apply (C32_cubic_edge_refuted _ ex_line 1); [split; cbn; lra || lia|exact (line_holds (fun _ => 1))|lra|]. unfold node, spacing. cbn. lra.
Qed.
(** Central difference (27 - 1) / 2 of the cubes at 2. *)
Example C32_example_slope : exists v, is_derive v 2 13 /\ e_cubic_view (map Fin [0; 1; 8; 27; 64]) [dim_of ex_line] 0 [Fin 2] = Val (Fin (v 2)).
Proof.
  destruct (C32_cubic_derivable (map Fin [0; 1; 8; 27; 64]) ex_line (fun k => INR k * INR k * INR k)) as (v & V & _ & D).
  - split; cbn; lra || lia.
  - split; [reflexivity|]. intros is H. inversion H as [|? i ? js H0 H1]; subst. inversion H1; subst.
    destruct i as [|[|[|[|[|i]]]]]; [| | | | |cbn in *; lia]; cbn; do 2 f_equal; ring.
  - exists v. split; [|apply V; unfold inside; cbn; lra]. specialize (D 2%nat ltac:(lia) ltac:(cbn; lia)).
    replace (node ex_line 2) with 2 in D by (unfold node, spacing; cbn; field). replace 13 with ((INR (2 + 1) * INR (2 + 1) * INR (2 + 1) - INR (2 - 1) * INR (2 - 1) * INR (2 - 1)) / (2 * spacing ex_line)); [exact D|].
    unfold spacing. cbn. field.
Qed.
Example C33_example : get [10; 11; 12; 13; 14; 15]%nat [Dim 3 0%nat 2%nat; Dim 2 0%nat 1%nat] 0 [2; 1]%nat = Val 15%nat /\ flat [3; 2]%nat [2; 1]%nat = 5%nat.
Proof. split; reflexivity. Qed.
Example C33_example_first : e_check_dims [Dim 2 (Fin 0) (Fin 1); Dim 1 (Fin 0) (Fin 1); Dim 0 (Fin 2) (Fin 1)] = Some (SingularDimension 1).
Proof. unfold e_check_dims. cbn. replace (rltb 1 0) with false by (symmetry; apply rltb_false; lra). reflexivity. Qed.
Example C33_example_check : e_check_dims (map dim_of ex_axes) = None.
Proof. apply C33_checks. cbn. repeat constructor; cbn; do 2 eexists; (split; [reflexivity|split; [reflexivity|split; [lra|lia]]]). Qed.
(** Lower end of a two-plane grid from 0 to 1 and a NaN query. *)
Example C30_example : exists v w, f_linear_view [f_of_Z 5; f_of_Z 7] [Dim 2 (f_of_Z 0) (f_of_Z 1)] 0 [f_half 1] = Val v /\
  f_cubic_view [f_of_Z 5; f_of_Z 7] [Dim 2 (f_of_Z 0) (f_of_Z 1)] 0 [f_nan] = Val w.
Proof.
  assert (O : Forall (fun d => finite_dim d /\ (2 <= d_count d)%nat) [Dim 2 (f_of_Z 0) (f_of_Z 1)]).
  { constructor; [|constructor]. split; [|cbn; lia]. split; [reflexivity|split; [reflexivity|]]. cbn [d_count]. lia. }
  destruct (C30_linear_in_range [f_of_Z 5; f_of_Z 7] _ [f_half 1] O eq_refl eq_refl) as [v V].
  destruct (C30_cubic_in_range [f_of_Z 5; f_of_Z 7] _ [f_nan] O eq_refl eq_refl) as [w W]. exists v, w. auto.
Qed.

Print Assumptions C33_first_failure.
Print Assumptions C30_linear_in_range.
Print Assumptions C31_linear_bounded.
Print Assumptions C32_cubic_derivable.
Print Assumptions C33_checks.
