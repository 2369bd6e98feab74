(** C34, C35, C70: reading grids from tables. *)
From Coq Require Import Reals ZArith Bool List Lia Lra Permutation.
From Verif Require Import ExtModel GridModel GridSpec ReadGridModel ReadGridSpec ReadGridProofs ReadGridFull ReadGridOut.
Import ListNotations.
Local Open Scope nat_scope.

(** C34: a table that runs (m times) through a grid, the columns in any order, is accepted; the grid has the right
    dimensions, and at each multi-index the value of the (last) row with that node, for any tolerance. *)
Theorem C34_recover axes ord m K rows tol :
  Forall proper axes -> Permutation ord (seq 0 (length axes)) -> table (length axes) K rows -> enumerates rows axes ord m -> 1 <= m ->
  exists gs, read_grids (length axes) K (Fin tol) rows = Ok gs /\ length gs = K /\
    forall k g, nth_error gs k = Some g -> fst g = map dim_of axes /\ length (snd g) = size_of (map ax_count axes) /\
      forall is, in_grid (map ax_count axes) is ->
        exists p v, nth_error rows ((m - 1) * size_of (map ax_count axes) + flat (permute ord (map ax_count axes)) (permute ord is)) = Some p /\
          nth_error p (length axes + k) = Some v /\ nth_error (snd g) (flat (map ax_count axes) is) = Some v.
Proof. exact (recover axes ord m K rows tol). Qed.
(** Conversely every table that is accepted lists, up to the tolerance, the nodes of the grid returned, and each number of
    each grid is the value of a row at that node. *)
Theorem C34_sound N K tol rows gs : table N K rows -> read_grids N K (Fin tol) rows = Ok gs ->
  exists dims, length dims = N /\ length gs = K /\ size_of (counts_of dims) <= length rows /\
    Forall (fun d => exists lo hi, d_lower d = Fin lo /\ d_upper d = Fin hi /\ (lo < hi)%R /\ 2 <= d_count d) dims /\
    (forall g, In g gs -> fst g = dims /\ length (snd g) = size_of (counts_of dims)) /\
  exists pos : nat -> list nat,
    (forall r, r < length rows -> in_grid (counts_of dims) (pos r) /\
      forall c d i, nth_error dims c = Some d -> nth_error (pos r) c = Some i -> exists x, entry rows r c = Ok x /\ at_node tol d i x) /\
    (forall is, in_grid (counts_of dims) is -> exists r, r < length rows /\ length rows <= r + size_of (counts_of dims) /\ pos r = is) /\
    (forall r k g, r < length rows -> length rows <= r + size_of (counts_of dims) -> nth_error gs k = Some g ->
      of_opt (nth_error (snd g) (flat (counts_of dims) (pos r))) = entry rows r (N + k)).
Proof. exact (sound N K tol rows gs). Qed.

(** C35 fails: four or more points on a line, read as a two-dimensional grid, read past the end of the table. *)
Theorem C35_refuted K tol rows : table 2 K rows -> 4 <= length rows -> (forall r, r < length rows -> entry rows r 0 = Ok (Fin (INR r))) ->
  read_grids 2 K (Fin tol) rows = BadRow.
Proof. exact (line_bad K tol rows). Qed.
(** It happens only when fewer than [N] of the columns account for all the rows; never with one column. *)
Theorem C35_partial N K tol rows : table N K rows -> read_grids N K tol rows = BadRow ->
  exists fs, length fs < N /\ NoDup (map fd_col fs) /\ Forall (fun f => fd_col f < N /\ 2 <= fd_count f) fs /\ size_of (map fd_count fs) = length rows.
Proof.
  intros WF H. destruct (bad_when rows N K WF tol H) as (fs & A & B & C & D). exists fs. split; [exact A|split; [exact C|split; [exact (layout_all _ _ _ _ _ B)|exact D]]].
Qed.
Theorem C35_one_column_partial K tol rows : table 1 K rows -> read_grids 1 K tol rows <> BadRow.
Proof. intros WF. exact (bad_one rows 1 K WF tol eq_refl). Qed.

(** C70 fails: a one-dimensional table that starts again and stops anywhere is accepted. *)
Theorem C70_ragged_refuted K tol rows n : table 1 K rows -> 2 <= n <= length rows ->
  (forall r, r < length rows -> entry rows r 0 = Ok (Fin (INR (r mod n)))) -> exists gs, read_grids 1 K (Fin tol) rows = Ok gs.
Proof. exact (line_ragged K tol rows n). Qed.

(** * Examples *)
(** Two columns (3 and 2 planes), the first the fastest. *)
Definition ex_axes := [Axis 3 0 2; Axis 2 0 1].
Definition ex_rows : list row := map (map Fin) [[0; 0; 10]; [1; 0; 11]; [2; 0; 12]; [0; 1; 20]; [1; 1; 21]; [2; 1; 22]]%R.
Lemma ex_table : table 2 1 ex_rows. Proof. repeat constructor. Qed.
Lemma ex_enum : enumerates ex_rows ex_axes [1; 0] 1.
Proof.
  split; [reflexivity|]. intros k is Hk G. cbn in G. assert (k = 0) as -> by lia. inversion G as [|? i ? js H0 H1]; subst. inversion H1 as [|? j ? ks H2 H3]; subst. inversion H3; subst.
  destruct i as [|[|[|i]]]; [| | |lia]; (destruct j as [|[|j]]; [| |lia]); cbn; eexists; (split; [reflexivity|]); cbn; unfold nodes, node, spacing; cbn; repeat f_equal; field.
Qed.
Example C34_example : exists g, read_grids 2 1 (Fin 0) ex_rows = Ok [g] /\ fst g = map dim_of ex_axes /\ nth_error (snd g) (flat [3; 2] [2; 0]) = Some (Fin 12) /\ nth_error (snd g) 1 = Some (Fin 20).
Proof.
  destruct (C34_recover ex_axes [1; 0] 1 1 ex_rows 0%R) as (gs & E & L & H).
  - unfold ex_axes. constructor; [|constructor; [|constructor]]; split; cbn; lra || lia.
  - apply perm_swap.
  - exact ex_table.
  - exact ex_enum.
  - lia.
  - destruct gs as [|g [|]]; try discriminate. exists g. destruct (H 0 g eq_refl) as (A & B & C). split; [exact E|split; [exact A|]]. split.
    + destruct (C [2; 0]) as (p & v & E1 & E2 & E3); [repeat constructor; cbn; lia|]. cbn in E1. injection E1 as <-. cbn in E2. injection E2 as <-. exact E3.
    + destruct (C [0; 1]) as (p & v & E1 & E2 & E3); [repeat constructor; cbn; lia|]. cbn in E1. injection E1 as <-. cbn in E2. injection E2 as <-. exact E3.
Qed.
Definition ex_line : list row := map (map Fin) [[0; 0; 1]; [1; 0; 2]; [2; 0; 3]; [3; 0; 4]]%R.
Example C35_example : read_grids 2 1 (Fin 0) ex_line = BadRow.
Proof.
  apply C35_refuted; [repeat constructor|cbn; lia|]. intros r R. destruct r as [|[|[|[|r]]]]; [| | | |cbn in R; lia]; cbn; do 2 f_equal; ring.
Qed.
(** Five rows; coordinate 0 twice, with values 7 and 9. *)
Definition ex_ragged : list row := map (map Fin) [[0; 7]; [1; 5]; [2; 6]; [0; 9]; [1; 4]]%R.
Example C70_example : exists gs, read_grids 1 1 (Fin 0) ex_ragged = Ok gs.
Proof.
  apply (C70_ragged_refuted 1 0%R ex_ragged 3); [repeat constructor|cbn; lia|]. intros r R. destruct r as [|[|[|[|[|r]]]]]; [| | | | |cbn in R; lia]; cbn; do 2 f_equal; ring.
Qed.

Print Assumptions C34_recover.
Print Assumptions C34_sound.
Print Assumptions C35_refuted.
Print Assumptions C70_ragged_refuted.
