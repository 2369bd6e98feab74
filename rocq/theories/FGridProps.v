(** C106: linear interpolation in double arithmetic: accuracy of the position in the grid and of the value. *)
From Coq Require Import Reals ZArith Bool List Lia Lra.
From Flocq Require Import Core.Core IEEE754.Binary IEEE754.Bits.
From Verif Require Import GridModel GridFloat FBoundModel FBoundProps FGridSpec FGridProofs.
Import ListNotations.
Local Open Scope R_scope.
Local Notation B := (Binary.B2R 53 1024).
Local Notation u := (bpow radix2 (-53)).

(** A point that is given a cell lies between the bounds, the place in the cell is in [0, 1), and cell and place together are within five roundings
    of the exact position. *)
Theorem C106_position x d i r : moderate x -> good_dim d -> f_locate x d = Cell i r ->
  B (d_lower d) <= B x < B (d_upper d) /\ (i < d_count d - 1)%nat /\ f_isfinite r = true /\ 0 <= B r < 1 /\
  Rabs (INR i + B r - position (d_count d - 1) (B (d_lower d)) (B (d_upper d)) (B x)) <= 5 * INR (d_count d - 1) * u.
Proof. intros (FX & BX) G. pose proof (good_finite d G) as FD. destruct G as ((FL & BL) & (FU & BU) & C2 & C3). exact (locate_position x d FX FD C2 BX BL BU i r). Qed.
(** Points outside get NaN; points inside get a cell, unless they are within three roundings of the upper bound. *)
Theorem C106_outside x d : moderate x -> good_dim d -> B x < B (d_lower d) \/ B (d_upper d) <= B x -> f_locate x d = Outside f_nan.
Proof. intros (FX & BX) G. pose proof (good_finite d G) as FD. destruct G as ((FL & BL) & (FU & BU) & C2 & C3). exact (locate_outside x d FX FD C2 BX BL BU). Qed.
Theorem C106_inside x d : moderate x -> good_dim d -> B (d_lower d) < B (d_upper d) ->
  B (d_lower d) <= B x <= B (d_upper d) - 3 * u * (B (d_upper d) - B (d_lower d)) -> exists i r, f_locate x d = Cell i r.
Proof. intros (FX & BX) G H (H1 & H2). pose proof (good_finite d G) as FD. destruct G as ((FL & BL) & (FU & BU) & C2 & C3). exact (locate_inside x d FX FD C2 BX BL BU H1 H2 H). Qed.
(** The exception exists: 0 is inside [-1, 2^-60), and gets NaN. *)
Theorem C106_inside_refuted : exists x d, moderate x /\ good_dim d /\ B (d_lower d) <= B x < B (d_upper d) /\ f_locate x d = Outside f_nan.
Proof.
  exists (double 0), (Dim 2 (double 0xBFF0000000000000) (double 0x3C30000000000000)).
  assert (E1 : B (double 0xBFF0000000000000) = - 1) by (vm_compute; lra). assert (E2 : B (double 0x3C30000000000000) = bpow radix2 (-60)) by (vm_compute; lra).
  assert (E0 : B (double 0) = 0) by (vm_compute; reflexivity).
  assert (T : 1 <= bpow radix2 1022) by (change 1 with (bpow radix2 0); apply bpow_le; lia).
  unfold good_dim, moderate. cbn [d_lower d_upper d_count]. rewrite E0, E1, E2.
  assert (P : 0 < bpow radix2 (-60) <= 1) by (split; [apply bpow_gt_0|change 1 with (bpow radix2 0); apply bpow_le; lia]).
  repeat match goal with |- _ /\ _ => split end; try (vm_compute; reflexivity); try lra; try lia; try (rewrite Rabs_pos_eq; lra). rewrite Rabs_left; lra.
Qed.

(** The value of a one-dimensional linear view is within a few roundings of the broken line through the data, if the data are finite: four roundings
    of the largest value, and five roundings of the position times the largest step. *)
Theorem C106_value data x d M D v : moderate x -> good_dim d -> length data = d_count d ->
  (forall k, (k <= d_count d - 1)%nat -> f_isfinite (nth k data f_nan) = true /\ Rabs (B (nth k data f_nan)) <= M) -> M <= bpow radix2 1022 ->
  (forall k, (k < d_count d - 1)%nat -> Rabs (B (nth (S k) data f_nan) - B (nth k data f_nan)) <= D) ->
  B (d_lower d) <= B x <= B (d_upper d) - 3 * u * (B (d_upper d) - B (d_lower d)) -> B (d_lower d) < B (d_upper d) ->
  f_linear_view data [d] 0 [x] = Val v ->
  f_isfinite v = true /\
  Rabs (B v - polyline (fun k => B (nth k data f_nan)) (position (d_count d - 1) (B (d_lower d)) (B (d_upper d)) (B x)))
    <= 4 * u * M + 5 * INR (d_count d - 1) * u * D + 4 * bpow radix2 (-1075).
Proof.
  intros X G L FV MB HD HX HL E. destruct (C106_inside x d X G HL HX) as (i & r & C). destruct X as (FX & BX). pose proof (good_finite d G) as FD. destruct G as ((FL & BL) & (FU & BU) & C2 & C3).
  exact (view_error data x d FX FD C2 BX BL BU L M D FV MB HD v E (ex_intro _ i (ex_intro _ r C))).
Qed.

(** Nodes. With a power of two of cells, and bounds and node whose differences are doubles, the stored value is returned. *)
Theorem C106_node data x d k i : moderate x -> good_dim d -> length data = d_count d ->
  INR (d_count d - 1) = bpow radix2 k -> (i < d_count d - 1)%nat -> B (d_lower d) < B (d_upper d) ->
  generic_format radix2 (FLT_exp (-1074) 53) (B (d_upper d) - B (d_lower d)) -> generic_format radix2 (FLT_exp (-1074) 53) (B x - B (d_lower d)) ->
  B x - B (d_lower d) = INR i / INR (d_count d - 1) * (B (d_upper d) - B (d_lower d)) ->
  f_isfinite (nth i data f_nan) = true -> f_isfinite (nth (S i) data f_nan) = true ->
  exists v, f_linear_view data [d] 0 [x] = Val v /\ f_isfinite v = true /\ B v = B (nth i data f_nan).
Proof.
  intros (FX & BX) G L HK Hi HL F1 F2 HX V1 V2. pose proof (good_finite d G) as FD. destruct G as ((FL & BL) & (FU & BU) & C2 & C3).
  destruct (locate_node x d FX FD C2 BX BL BU k i HK Hi HL F1 F2 HX) as (r & C & Fr & Hr).
  exists (f_linear (nth i data f_nan) (nth (S i) data f_nan) r). split; [exact (view_cell data x d C2 L i r C Hi)|]. exact (linear_left _ _ _ V1 V2 Fr Hr).
Qed.
(** In general not: on the grid 0, 1, …, 49 the node 1 is put at the end of cell 0, and the value stored at node 0 leaks into the answer. With 2^60 at
    node 0 and 1 at node 1, the answer at node 1 is 129. *)
Theorem C106_node_refuted : exists data x d v, length data = d_count d /\ moderate x /\ good_dim d /\
  Forall (fun y => f_isfinite y = true) data /\
  B x = B (d_lower d) + 1 * ((B (d_upper d) - B (d_lower d)) / INR (d_count d - 1)) /\
  B (nth 1 data f_nan) = 1 /\ f_linear_view data [d] 0 [x] = Val v /\ B v = 129.
Proof.
  set (data := f_of_Z (2 ^ 60) :: repeat (f_of_Z 1) 49). set (d := Dim 50 (f_of_Z 0) (f_of_Z 49)).
  exists data, (f_of_Z 1), d, (f_of_Z 129).
  assert (T : 49 <= bpow radix2 1022). { apply Rle_trans with (bpow radix2 6); [cbn; lra|apply bpow_le; lia]. }
  unfold good_dim, moderate. cbn [d d_lower d_upper d_count].
  rewrite (proj1 (of_Z_spec 0 ltac:(lia))), (proj1 (of_Z_spec 1 ltac:(lia))), (proj1 (of_Z_spec 49 ltac:(lia))).
  split; [reflexivity|]. split; [split; [reflexivity|rewrite Rabs_pos_eq; lra]|].
  split; [repeat split; try reflexivity; try lia; rewrite Rabs_pos_eq; lra|].
  split; [repeat constructor|]. split; [change (50 - 1)%nat with 49%nat; rewrite INR_IZR_INZ; cbn [Z.of_nat Pos.of_succ_nat Pos.succ]; lra|].
  split; [cbn [nth data repeat]; apply (of_Z_spec 1); lia|]. split.
  - rewrite (view_cell data (f_of_Z 1) d ltac:(cbn; lia) eq_refl 0%nat _ (locate_run (f_of_Z 1) d 0%nat ltac:(repeat split; try (vm_compute; reflexivity); lia)) ltac:(cbn; lia)).
    f_equal. apply bits_inj. vm_compute. reflexivity.
  - apply (of_Z_spec 129); lia.
Qed.

(** Finite bounds are accepted even if their difference is not a double: then every point gets the first cell. On [-2^1023, 2^1023], 0 is in the middle. *)
Theorem C106_overflow_refuted : exists x d, f_check_dims [d] = None /\ f_isfinite x = true /\ finite_dim d /\ d_count d = 3%nat /\
  B (d_lower d) <= B x < B (d_upper d) /\ position (d_count d - 1) (B (d_lower d)) (B (d_upper d)) (B x) = 1 /\ exists r, f_locate x d = Cell 0 r /\ B r = 0.
Proof.
  exists (f_of_Z 0), (Dim 3 (double 0xFFE0000000000000) (double 0x7FE0000000000000)).
  assert (E2 : B (double 0x7FE0000000000000) = bpow radix2 1023). { change (B (double 0x7FE0000000000000)) with (F2R (Float radix2 (2 ^ 52) 971)). change 1023%Z with (52 + 971)%Z. rewrite bpow_plus. reflexivity. }
  assert (E1 : B (double 0xFFE0000000000000) = - bpow radix2 1023). { change (B (double 0xFFE0000000000000)) with (F2R (Float radix2 (- 2 ^ 52) 971)). change 1023%Z with (52 + 971)%Z. rewrite bpow_plus. unfold F2R. cbn [Fnum Fexp]. rewrite opp_IZR. change (IZR (2 ^ 52)) with (bpow radix2 52). ring. }
  pose proof (of_Z_spec 0 ltac:(lia)) as (Z0 & F0). pose proof (bpow_gt_0 radix2 1023) as P. cbn [d_lower d_upper d_count]. rewrite E1, E2, Z0.
  split; [vm_compute; reflexivity|]. split; [exact F0|]. split; [unfold finite_dim; cbn [d_lower d_upper d_count]; repeat split; lia|]. split; [reflexivity|]. split; [lra|].
  split; [unfold position; cbn [INR Nat.sub]; field; lra|].
  eexists. split; [apply locate_run; repeat split; try (vm_compute; reflexivity); lia|]. vm_compute. reflexivity.
Qed.
(** The grid 0, 1, 2 with values 5, 7, 6, asked at 1 (a node) and at 3/2: the answers are 7 and 13/2. *)
Example C106_example : let d := Dim 3 (f_of_Z 0) (f_of_Z 2) in let data := [f_of_Z 5; f_of_Z 7; f_of_Z 6] in
  good_dim d /\ moderate (f_of_Z 1) /\ moderate (f_half 3) /\
  (exists r, f_locate (f_half 3) d = Cell 1 r) /\
  (exists v, f_linear_view data [d] 0 [f_of_Z 1] = Val v /\ B v = 7) /\
  (forall v, f_linear_view data [d] 0 [f_half 3] = Val v -> Rabs (B v - 13 / 2) <= 60 * u).
Proof.
  set (d := Dim 3 (f_of_Z 0) (f_of_Z 2)). set (data := [f_of_Z 5; f_of_Z 7; f_of_Z 6]). cbv zeta.
  pose proof (of_Z_spec 0 ltac:(lia)) as (Z0 & F0). pose proof (of_Z_spec 1 ltac:(lia)) as (Z1 & F1). pose proof (of_Z_spec 2 ltac:(lia)) as (Z2 & F2).
  pose proof (of_Z_spec 5 ltac:(lia)) as (Z5 & F5). pose proof (of_Z_spec 6 ltac:(lia)) as (Z6 & F6). pose proof (of_Z_spec 7 ltac:(lia)) as (Z7 & F7).
  assert (H3 : B (f_half 3) = 3 / 2) by (vm_compute; lra).
  assert (T : 16 <= bpow radix2 1022). { apply Rle_trans with (bpow radix2 4); [cbn; lra|apply bpow_le; lia]. }
  assert (G : good_dim d). { unfold good_dim, moderate. cbn [d d_lower d_upper d_count]. rewrite Z0, Z2. repeat split; auto; try lia; rewrite Rabs_pos_eq; lra. }
  assert (M1 : moderate (f_of_Z 1)). { unfold moderate. rewrite Z1, Rabs_pos_eq by lra. split; [auto|lra]. }
  assert (M3 : moderate (f_half 3)). { unfold moderate. rewrite H3, Rabs_pos_eq by lra. split; [reflexivity|lra]. }
  assert (FI : forall k, (0 <= k <= 2 ^ 53)%Z -> generic_format radix2 (FLT_exp (-1074) 53) (IZR k)) by apply int_format.
  split; [exact G|]. split; [exact M1|]. split; [exact M3|]. split; [|split].
  - eexists. apply (locate_run (f_half 3) d 1%nat). repeat split; try (vm_compute; reflexivity); lia.
  - destruct (C106_node data (f_of_Z 1) d 1 1 M1 G eq_refl) as (v & E & _ & V); try reflexivity; cbn [d d_lower d_upper d_count]; try rewrite Z0; try rewrite Z1; try rewrite Z2; try lra; try lia.
    + rewrite Rminus_0_r. apply FI. lia.
    + rewrite Rminus_0_r. apply FI. lia.
    + cbn. lra.
    + exists v. split; [exact E|]. rewrite V. exact Z7.
  - intros v E. assert (U : 0 < u <= / 1000) by (cbn; lra).
    destruct (C106_value data (f_half 3) d 7 2 v M3 G eq_refl) as (_ & V); auto; cbn [d d_lower d_upper d_count] in *; rewrite ?Z0, ?Z2, ?H3 in *; try lra.
    + intros [|[|[|k]]] Hk; cbn [nth data]; rewrite ?Z5, ?Z6, ?Z7; try (exfalso; lia); (split; [auto|rewrite Rabs_pos_eq; lra]).
    + intros [|[|k]] Hk; cbn [nth data]; rewrite ?Z5, ?Z6, ?Z7; try (exfalso; lia); apply Rabs_le; lra.
    + change (3 - 1)%nat with 2%nat in V. assert (P : position 2 0 2 (3 / 2) = 3 / 2) by (unfold position; cbn; lra). rewrite P in V.
      assert (Fl : Zfloor (3 / 2) = 1%Z) by (apply Zfloor_imp; cbn; lra). unfold polyline in V. rewrite Fl in V. change (Z.to_nat 1) with 1%nat in V. cbn [nth data] in V. rewrite Z6, Z7 in V. cbn [INR] in V.
      replace (7 + (3 / 2 - 1) * (6 - 7)) with (13 / 2) in V by lra.
      assert (bpow radix2 (-1075) <= u) by (apply bpow_le; lia). lra.
Qed.
Print Assumptions C106_position. Print Assumptions C106_outside. Print Assumptions C106_inside. Print Assumptions C106_inside_refuted. Print Assumptions C106_value.
Print Assumptions C106_node. Print Assumptions C106_node_refuted. Print Assumptions C106_overflow_refuted. Print Assumptions C106_example.
