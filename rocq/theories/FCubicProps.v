(** C107: cubic interpolation in double arithmetic. *)
From Coq Require Import Reals ZArith Bool List Lia Lra.
From Flocq Require Import Core.Core IEEE754.Binary IEEE754.Bits.
From Verif Require Import ExtModel GridModel GridSpec GridProofs GridFloat FBoundModel FBoundProofs FGridSpec FGridProofs FCubicSpec FCubicProofs.
Import ListNotations.
Local Open Scope R_scope.
Local Notation B := (Binary.B2R 53 1024).
Local Notation u := (bpow radix2 (-53)).

(** The interpolating expression: at most 62 roundings of the largest of the four values. *)
Theorem C107_expression S a b c d x : bpow radix2 (-900) <= S <= bpow radix2 1001 ->
  f_isfinite a = true -> f_isfinite b = true -> f_isfinite c = true -> f_isfinite d = true -> f_isfinite x = true ->
  Rabs (B a) <= S -> Rabs (B b) <= S -> Rabs (B c) <= S -> Rabs (B d) <= S -> 0 <= B x <= 1 ->
  f_isfinite (f_cubic a b c d x) = true /\ Rabs (B (f_cubic a b c d x) - hermite (B a) (B b) (B c) (B d) (B x)) <= 62 * u * S.
Proof. exact (f_cubic_err S a b c d x). Qed.
(** The value of a view on a grid with any number of axes. *)
Theorem C107_value data dims xs v M : bpow radix2 (-900) <= M -> Forall good_dim dims -> Forall2 clearly_inside dims xs ->
  (forall is, in_grid (counts_of dims) is -> nth_error data (flat (counts_of dims) is) = Some (v is) /\ f_isfinite (v is) = true /\ Rabs (B (v is)) <= M) ->
  (5 / 4) ^ length dims * M <= bpow radix2 1000 -> budget (map cells dims) <= bpow radix2 40 ->
  exists z, f_cubic_view data dims 0 xs = Val z /\ f_isfinite z = true /\
    Rabs (B z - spline_nd (map cells dims) (map (fun p => place (fst p) (snd p)) (combine dims xs)) (fun is => B (v is)))
      <= (5 / 4) ^ length dims * budget (map cells dims) * u * M.
Proof.
  intros HM HG HX H HP HB. apply f_cubic_view_err; auto.
  - intros is I. destruct (H is I) as (E & _). exact E.
  - intros is I. destruct (H is I) as (_ & E). exact E.
Qed.
(** With exact numbers the same code computes that spline, and the spline goes through the values at the nodes. *)
Theorem C107_exact data axes x f : Forall proper axes -> holds data (map ax_count axes) f -> Forall2 inside axes x ->
  e_cubic_view data (map dim_of axes) 0 (map Fin x) =
    Val (Fin (spline_nd (map (fun a => (ax_count a - 1)%nat) axes)
      (map (fun p => position (ax_count (fst p) - 1) (ax_lower (fst p)) (ax_upper (fst p)) (snd p)) (combine axes x)) f)).
Proof. intros HP (_ & HD) HX. exact (cubic_spline data axes 0%nat x f HP HD HX). Qed.
Theorem C107_bound ns ts f M : 0 <= M -> (forall js, Forall2 (fun n j => (j <= n)%nat) ns js -> Rabs (f js) <= M) -> length ts = length ns ->
  Rabs (spline_nd ns ts f) <= (5 / 4) ^ length ns * M.
Proof. exact (spline_nd_bound ns ts f M). Qed.
(** The values at the nodes are not kept in general: on the grid 0, 1, …, 49, with 2^60 at node 0 and 1 elsewhere, the answer at node 1 exceeds 65. *)
Theorem C107_node_refuted : exists data x d z, length data = d_count d /\ good_dim d /\ clearly_inside d x /\
  Forall (fun y => f_isfinite y = true) data /\
  B x = B (d_lower d) + 1 * ((B (d_upper d) - B (d_lower d)) / INR (d_count d - 1)) /\
  B (nth 1 data f_nan) = 1 /\ f_cubic_view data [d] 0 [x] = Val z /\ f_isfinite z = true /\ 65 < B z.
Proof.
  set (data := f_of_Z (2 ^ 60) :: repeat (f_of_Z 1) 49). set (d := Dim 50 (f_of_Z 0) (f_of_Z 49)).
  exists data, (f_of_Z 1), d, (b64_of_bits 4634274385308418050).
  assert (T : 49 <= bpow radix2 1022). { apply Rle_trans with (bpow radix2 6); [cbn; lra|apply bpow_le; lia]. }
  assert (U : u <= / 1000000) by (cbn; lra).
  unfold good_dim, clearly_inside, moderate. cbn [d d_lower d_upper d_count]. cbv zeta.
  rewrite (proj1 (of_Z_spec 0 ltac:(lia))), (proj1 (of_Z_spec 1 ltac:(lia))), (proj1 (of_Z_spec 49 ltac:(lia))).
  split; [reflexivity|]. split; [repeat split; try reflexivity; try lia; rewrite Rabs_pos_eq; lra|].
  split; [repeat split; try reflexivity; try (rewrite Rabs_pos_eq); lra|].
  split; [repeat constructor|]. split; [change (50 - 1)%nat with 49%nat; rewrite INR_IZR_INZ; cbn [Z.of_nat Pos.of_succ_nat Pos.succ]; lra|].
  split; [cbn [nth data repeat]; apply (of_Z_spec 1); lia|]. split; [apply view_bits_of; vm_compute; reflexivity|]. split; [reflexivity|]. vm_compute. lra.
Qed.
(** A table of 4 × 4 values, 1 to 16, on [0, 3] × [0, 3]: in the middle the answer is 8.5, and the hypotheses hold. *)
Example C107_example : let data := map f_of_Z [1; 2; 3; 4; 5; 6; 7; 8; 9; 10; 11; 12; 13; 14; 15; 16]%Z in let d := Dim 4 (f_of_Z 0) (f_of_Z 3) in
  f_cubic_view data [d; d] 0 [f_half 3; f_half 3] = Val (f_half 17) /\ B (f_half 17) = 17 / 2 /\
  Forall good_dim [d; d] /\ Forall2 clearly_inside [d; d] [f_half 3; f_half 3] /\
  (forall is, in_grid (counts_of [d; d]) is -> nth_error data (flat (counts_of [d; d]) is) = Some (nth (flat (counts_of [d; d]) is) data f_nan) /\
    f_isfinite (nth (flat (counts_of [d; d]) is) data f_nan) = true /\ Rabs (B (nth (flat (counts_of [d; d]) is) data f_nan)) <= 16) /\
  (5 / 4) ^ 2 * 16 <= bpow radix2 1000 /\ budget (map cells [d; d]) = 196.
Proof.
  intros data d.
  assert (T : 64 <= bpow radix2 1000). { apply Rle_trans with (bpow radix2 6); [cbn; lra|apply bpow_le; lia]. }
  assert (T' : bpow radix2 1000 <= bpow radix2 1022) by (apply bpow_le; lia). assert (U : u <= / 1000000) by (cbn; lra).
  assert (H3 : B (f_half 3) = 3 / 2) by (vm_compute; lra).
  split; [apply view_bits_of; vm_compute; reflexivity|]. split; [vm_compute; lra|].
  assert (G : good_dim d). { unfold good_dim, moderate. cbn [d d_lower d_upper d_count]. rewrite (proj1 (of_Z_spec 0 ltac:(lia))), (proj1 (of_Z_spec 3 ltac:(lia))). repeat split; try reflexivity; try lia; rewrite Rabs_pos_eq; lra. }
  assert (I : clearly_inside d (f_half 3)). { unfold clearly_inside, moderate. cbv zeta. cbn [d d_lower d_upper d_count]. rewrite H3, (proj1 (of_Z_spec 0 ltac:(lia))), (proj1 (of_Z_spec 3 ltac:(lia))). repeat split; try reflexivity; try (rewrite Rabs_pos_eq); lra. }
  split; [auto|]. split; [auto|]. split.
  - intros is J. pose proof (flat_lt _ _ J) as L. change (size_of (counts_of [d; d])) with (length data) in L. split; [apply nth_error_nth'; exact L|].
    assert (FA : Forall (fun y => f_isfinite y = true /\ Rabs (B y) <= 16) data).
    { unfold data. apply Forall_map, Forall_forall. intros k Hk. assert (K : (1 <= k <= 16)%Z) by (cbn in Hk; lia). destruct (of_Z_spec k ltac:(lia)) as [E1 E2]. rewrite E1. split; [exact E2|].
      apply Rabs_le. split; [apply Rle_trans with (IZR 1); [lra|]|]; apply IZR_le; lia. }
    exact (proj1 (Forall_forall _ _) FA _ (nth_In _ _ L)).
  - split; [lra|]. unfold d, cells. cbn. lra.
Qed.
Print Assumptions C107_expression.
Print Assumptions C107_value.
Print Assumptions C107_exact.
Print Assumptions C107_bound.
Print Assumptions C107_node_refuted.
Print Assumptions C107_example.
