(** Proofs about grids and interpolation. *)
From Coq Require Import Reals ZArith Bool List Lia Lra Psatz.
From Verif Require Import ExtModel BoundModel BoundSpec BoundProofs CutProofs GridModel GridSpec.
Import ListNotations.

(** * Layout *)
Lemma total_acc {T} (dims : list (dim T)) n : fold_left (fun n d => n * d_count d)%nat dims n = (n * size_of (counts_of dims))%nat.
Proof. revert n. induction dims as [|d ds IH]; intros n; cbn; [lia|]. rewrite IH. unfold size_of, counts_of. lia. Qed.
Lemma total_size {T} (dims : list (dim T)) : total dims = size_of (counts_of dims).
Proof. unfold total. rewrite total_acc. lia. Qed.
Lemma slice_step {T} d (ds : list (dim T)) off i : (0 < d_count d)%nat -> slice_off (d :: ds) off i = (off + i * size_of (counts_of ds))%nat.
Proof.
  intros H. unfold slice_off. rewrite total_size. change (size_of (counts_of (d :: ds))) with (d_count d * size_of (counts_of ds))%nat.
  rewrite (Nat.mul_comm (d_count d)), Nat.div_mul by lia. reflexivity.
Qed.
Lemma flat_lt cs is : in_grid cs is -> (flat cs is < size_of cs)%nat.
Proof.
  unfold in_grid. induction 1 as [|c i cs is H _ IH]; cbn; [lia|]. fold (size_of cs) in *. nia.
Qed.
Lemma flat_inj cs is js : in_grid cs is -> in_grid cs js -> flat cs is = flat cs js -> is = js.
Proof.
  unfold in_grid. intros H. revert js. induction H as [|c i cs is H HH IH]; intros js J E; inversion J as [|c' j cs' js' H' HH' E1 E2]; subst; auto.
  cbn in E. fold (size_of cs) in E. pose proof (flat_lt cs is HH). pose proof (flat_lt cs js' HH').
  assert (i = j) by nia. subst. f_equal. apply IH; auto. lia.
Qed.
Lemma flat_onto cs n : (n < size_of cs)%nat -> exists is, in_grid cs is /\ flat cs is = n.
Proof.
  revert n. induction cs as [|c cs IH]; cbn; intros n H.
  - exists []. split; [constructor|lia].
  - fold (size_of cs) in *. assert (S0 : (size_of cs <> 0)%nat) by nia. destruct (IH (n mod size_of cs)%nat) as (is & I & E); [apply Nat.mod_upper_bound; auto|].
    exists (n / size_of cs :: is)%nat. split; [constructor; auto; apply Nat.div_lt_upper_bound; auto; lia|]. rewrite E. pose proof (Nat.div_mod n (size_of cs) S0). lia.
Qed.
Lemma in_grid_pos cs is : in_grid cs is -> Forall (fun c => 0 < c)%nat cs.
Proof. unfold in_grid. induction 1; constructor; auto. lia. Qed.
Lemma get_flat {T} (data : list T) dims off is : in_grid (counts_of dims) is -> get data dims off is = read data (off + flat (counts_of dims) is)%nat.
Proof.
  revert off is. induction dims as [|d ds IH]; intros off is H; inversion H as [|c i cs js Hi HH E1 E2]; subst.
  - cbn. f_equal. lia.
  - cbn [get]. rewrite slice_step by lia. rewrite IH by exact HH. f_equal. cbn. fold (counts_of ds) (size_of (counts_of ds)). lia.
Qed.
Lemma get_in {T} (data : list T) dims is : length data = size_of (counts_of dims) -> in_grid (counts_of dims) is ->
  exists v, get data dims 0 is = Val v /\ nth_error data (flat (counts_of dims) is) = Some v.
Proof.
  intros L H. rewrite get_flat by auto. cbn [Nat.add]. unfold read. pose proof (flat_lt _ _ H).
  destruct (nth_error data (flat (counts_of dims) is)) as [v|] eqn:E; [eauto|]. apply nth_error_None in E. lia.
Qed.
Lemma check_iff dims idx : check_dims eisfinite egtb idx dims = None <->
  Forall (fun d => exists lo hi, d_lower d = Fin lo /\ d_upper d = Fin hi /\ (lo <= hi)%R /\ (2 <= d_count d)%nat) dims.
Proof.
  revert idx. induction dims as [|d ds IH]; intros idx; cbn [check_dims]; [split; auto|].
  destruct d as [c lo hi]. cbn [d_lower d_upper d_count]. split.
  - intros H. destruct lo as [lo| | |], hi as [hi| | |]; cbn in H; try discriminate.
    destruct (rltb hi lo) eqn:E1; [discriminate|]. destruct (c <=? 1)%nat eqn:E2; [discriminate|]. constructor; [|eapply IH; eauto].
    exists lo, hi. cbn. apply rltb_false in E1. apply Nat.leb_gt in E2. repeat split; auto; lra || lia.
  - intros H. inversion H as [|? ? (l & h & E1 & E2 & E & C) F]; subst. cbn [d_lower d_upper] in E1, E2. subst lo hi. cbn [eisfinite negb orb egtb eltb]. cbn [d_count] in C.
    replace (rltb h l) with false by (symmetry; apply rltb_false; lra). replace (c <=? 1)%nat with false by (symmetry; apply Nat.leb_gt; lia). apply IH; auto.
Qed.

(** * No reads outside, for any arithmetic whose cell lookup stays in range *)
Section Safe.
Context {T : Type} (locate : T -> dim T -> located T) (linear : T -> T -> T -> T) (cubic : T -> T -> T -> T -> T -> T) (zero : T) (ok : dim T -> Prop).
Hypothesis cell_ok : forall x d, ok d -> (2 <= d_count d)%nat -> match locate x d with BadCast => False | Outside _ => True | Cell i _ => (i + 2 <= d_count d)%nat end.
Lemma linear_safe data dims off x : Forall (fun d => ok d /\ (2 <= d_count d)%nat) dims -> length x = length dims -> (off + size_of (counts_of dims) <= length data)%nat ->
  exists v, linear_view locate linear data dims off x = Val v.
Proof.
  intros H. revert off x. induction H as [|d ds [Hd Hc] HH IH]; intros off x L S.
  - cbn in *. unfold read. destruct (nth_error data off) eqn:E; [eauto|]. apply nth_error_None in E. lia.
  - destruct x as [|x0 x]; [discriminate|]. cbn [linear_view]. pose proof (cell_ok x0 d Hd Hc) as C. destruct (locate x0 d) as [v|i r|]; [eauto| |tauto].
    rewrite !slice_step by lia. cbn in S. fold (counts_of ds) (size_of (counts_of ds)) in S. injection L as L.
    destruct (IH (off + i * size_of (counts_of ds))%nat x L) as [v1 E1]; [nia|]. destruct (IH (off + (i + 1) * size_of (counts_of ds))%nat x L) as [v2 E2]; [nia|].
    rewrite E1, E2. cbn. eauto.
Qed.
Lemma cubic_safe data dims off x : Forall (fun d => ok d /\ (2 <= d_count d)%nat) dims -> length x = length dims -> (off + size_of (counts_of dims) <= length data)%nat ->
  exists v, cubic_view locate cubic zero data dims off x = Val v.
Proof.
  intros H. revert off x. induction H as [|d ds [Hd Hc] HH IH]; intros off x L S.
  - cbn in *. unfold read. destruct (nth_error data off) eqn:E; [eauto|]. apply nth_error_None in E. lia.
  - destruct x as [|x0 x]; [discriminate|]. cbn [cubic_view]. pose proof (cell_ok x0 d Hd Hc) as C. destruct (locate x0 d) as [v|i r|]; [eauto| |tauto].
    rewrite !slice_step by lia. cbn in S. fold (counts_of ds) (size_of (counts_of ds)) in S. injection L as L.
    assert (E0 : exists v, (if (i =? 0)%nat then Val zero else cubic_view locate cubic zero data ds (off + (i - 1) * size_of (counts_of ds)) x) = Val v).
    { destruct (Nat.eqb_spec i 0); [eauto|]. apply IH; auto. nia. }
    assert (E3 : exists v, (if (d_count d - 2 <=? i)%nat then Val zero else cubic_view locate cubic zero data ds (off + (i + 2) * size_of (counts_of ds)) x) = Val v).
    { destruct (Nat.leb_spec (d_count d - 2) i); [eauto|]. apply IH; auto. nia. }
    destruct E0 as [v0 ->]. destruct E3 as [v3 ->].
    destruct (IH (off + i * size_of (counts_of ds))%nat x L) as [v1 E1]; [nia|]. destruct (IH (off + (i + 1) * size_of (counts_of ds))%nat x L) as [v2 E2]; [nia|].
    rewrite E1, E2. cbn. eauto.
Qed.
End Safe.

(** * Exact arithmetic *)
Local Open Scope R_scope.
Lemma int_frac n r : 0 <= r < 1 -> Int_part (IZR n + r) = n /\ frac_part (IZR n + r) = r.
Proof.
  intros H. assert (E : Int_part (IZR n + r) = n).
  { unfold Int_part. rewrite <- (tech_up (IZR n + r) (n + 1)); [lia|rewrite plus_IZR; lra|rewrite plus_IZR; lra]. }
  split; [auto|]. unfold frac_part. rewrite E. ring.
Qed.
Section Axis.
Variable a : axis.
Hypothesis HA : proper a.
Local Notation n1 := (INR (ax_count a - 1)).
Local Notation h := (spacing a).
Lemma n1_pos : 1 <= n1.
Proof. destruct HA. change 1 with (INR 1). apply le_INR. lia. Qed.
Lemma spacing_pos : 0 < h.
Proof. pose proof n1_pos. destruct HA. unfold spacing. apply Rmult_lt_0_compat; [lra|apply Rinv_0_lt_compat; lra]. Qed.
Lemma span : n1 * h = ax_upper a - ax_lower a.
Proof. pose proof n1_pos. unfold spacing. field. lra. Qed.
Lemma node_last : node a (ax_count a - 1) = ax_upper a.
Proof. unfold node. rewrite span. ring. Qed.
(** A coordinate inside the axis is located in a cell that has both end nodes in the grid. *)
Lemma locate_in x : inside a x -> exists i r, e_locate (Fin x) (dim_of a) = Cell i (Fin r) /\ (i + 2 <= ax_count a)%nat /\ 0 <= r < 1 /\ x = node a i + r * h.
Proof.
  intros [H1 H2]. pose proof n1_pos as N. pose proof spacing_pos as HP. pose proof span as SP. destruct HA as [C L].
  set (v := n1 * ((x - ax_lower a) / (ax_upper a - ax_lower a))).
  assert (V : v * h = x - ax_lower a). { unfold v. replace h with ((ax_upper a - ax_lower a) / n1) by reflexivity. field. lra. }
  assert (V0 : 0 <= v). { apply Rmult_le_reg_r with h; auto. lra. }
  assert (V1 : v < n1). { apply Rmult_lt_reg_r with h; auto. lra. }
  destruct (base_Int_part v) as [B1 B2]. assert (I0 : (0 <= Int_part v)%Z). { apply le_IZR. assert (-1 < IZR (Int_part v)) by lra. apply lt_IZR in H. apply IZR_le. lia. }
  exists (Z.to_nat (Int_part v)), (frac_part v).
  assert (IE : INR (Z.to_nat (Int_part v)) = IZR (Int_part v)) by (rewrite INR_IZR_INZ, Z2Nat.id; auto).
  split; [|split; [|split]].
  - unfold e_locate, dim_of. cbn [d_lower d_upper d_count esub eadd eneg eisnan eltb egeb eleb].
    replace (rltb (x + - ax_lower a) 0) with false by (symmetry; apply rltb_false; lra).
    replace (rleb (ax_upper a + - ax_lower a) (x + - ax_lower a)) with false by (symmetry; apply rleb_false; lra).
    cbn [orb]. rewrite ediv_fin by lra. cbn [emul]. change (n1 * ((x + - ax_lower a) / (ax_upper a + - ax_lower a))) with v.
    replace (rltb v 0) with false by (symmetry; apply rltb_false; lra). reflexivity.
  - assert (Z.to_nat (Int_part v) < ax_count a - 1)%nat; [|lia]. apply INR_lt. rewrite IE. lra.
  - unfold frac_part. lra.
  - unfold node. rewrite IE. unfold frac_part. replace (ax_lower a + IZR (Int_part v) * h + (v - IZR (Int_part v)) * h) with (ax_lower a + v * h) by ring. lra.
Qed.
Lemma locate_out x : ~ inside a x -> e_locate (Fin x) (dim_of a) = Outside NaN.
Proof.
  intros H. unfold inside in H. unfold e_locate, dim_of. cbn [d_lower d_upper d_count esub eadd eneg eisnan eltb egeb eleb].
  destruct (Rlt_le_dec x (ax_lower a)).
  - replace (rltb (x + - ax_lower a) 0) with true by (symmetry; apply rltb_spec; lra). reflexivity.
  - replace (rleb (ax_upper a + - ax_lower a) (x + - ax_lower a)) with true by (symmetry; apply rleb_spec; lra). rewrite orb_true_r. reflexivity.
Qed.
Lemma locate_special x : (forall r, x <> Fin r) -> e_locate x (dim_of a) = Outside NaN.
Proof.
  intros H. destruct x as [r| | |]; [destruct (H r); auto| | |]; reflexivity.
Qed.
Lemma node_at i r k : 0 <= r < 1 -> node a i + r * h = node a k -> i = k /\ r = 0.
Proof.
  intros Hr E. pose proof spacing_pos. unfold node in E. assert (E' : INR i + r = INR k) by (apply Rmult_eq_reg_r with h; [|lra]; lra).
  rewrite !INR_IZR_INZ in E'. assert (k = i) as ->.
  { apply Nat2Z.inj. apply Z.le_antisymm; apply Z.lt_succ_r; apply lt_IZR; rewrite succ_IZR; lra. }
  split; [auto|lra].
Qed.
Lemma near_cell i r : 0 <= r < 1 -> near a (node a i + r * h) i /\ (0 < r -> near a (node a i + r * h) (i + 1)).
Proof.
  intros Hr. pose proof spacing_pos as P. unfold near, node. split.
  - replace (ax_lower a + INR i * h + r * h - (ax_lower a + INR i * h)) with (r * h) by ring. rewrite Rabs_pos_eq; nra.
  - intros R0. rewrite plus_INR. change (INR 1) with 1. replace (ax_lower a + INR i * h + r * h - (ax_lower a + (INR i + 1) * h)) with (- ((1 - r) * h)) by ring.
    rewrite Rabs_Ropp, Rabs_pos_eq; nra.
Qed.
End Axis.
Lemma dims_ok axes : Forall proper axes -> Forall (fun d => (exists a, proper a /\ d = dim_of a) /\ (2 <= d_count d)%nat) (map dim_of axes).
Proof. induction 1 as [|a l H]; cbn; constructor; auto. split; [eauto|]. apply H. Qed.
Lemma cell_safe x d : (exists a, proper a /\ d = dim_of a) -> (2 <= d_count d)%nat ->
  match e_locate x d with BadCast => False | Outside _ => True | Cell i _ => (i + 2 <= d_count d)%nat end.
Proof.
  intros (a & HA & ->) _. destruct x as [x| | |]; [|rewrite locate_special; auto; discriminate..].
  destruct (Rlt_le_dec x (ax_lower a)); [rewrite locate_out; auto; unfold inside; lra|].
  destruct (Rlt_le_dec x (ax_upper a)); [|rewrite locate_out; auto; unfold inside; lra].
  destruct (locate_in a HA x) as (i & v & E & I & _); [unfold inside; lra|]. rewrite E. exact I.
Qed.
Lemma counts_map axes : counts_of (map dim_of axes) = map ax_count axes.
Proof. unfold counts_of. rewrite map_map. reflexivity. Qed.

(** Data below an offset holds a function. *)
Definition holds_at (data : list ext) (off : nat) (counts : list nat) (f : list nat -> R) : Prop :=
  forall is, in_grid counts is -> nth_error data (off + flat counts is) = Some (Fin (f is)).
Lemma holds_slice data off c cs f i : holds_at data off (c :: cs) f -> (i < c)%nat -> holds_at data (off + i * size_of cs) cs (fun js => f (i :: js)).
Proof.
  intros H Hi js J. rewrite <- (H (i :: js)) by (constructor; auto). f_equal. cbn. fold (size_of cs). lia.
Qed.
Lemma e_linear_fin a b r : e_linear (Fin a) (Fin b) (Fin r) = Fin ((1 - r) * a + r * b).
Proof. reflexivity. Qed.
Lemma e_cubic_fin a b c d x : e_cubic (Fin a) (Fin b) (Fin c) (Fin d) (Fin x) =
  Fin (2 * (1 - x) * (1 - x) * (1 / 2 + x) * b + 1 / 2 * (1 - x) * (1 - x) * x * (c - a) + 2 * x * x * (3 / 2 - x) * c - 1 / 2 * x * x * (1 - x) * (d - b)).
Proof. reflexivity. Qed.

(** ** Linear *)
Lemma linear_fin data axes off x f : Forall proper axes -> holds_at data off (map ax_count axes) f -> Forall2 inside axes x ->
  exists v, e_linear_view data (map dim_of axes) off (map Fin x) = Val (Fin v) /\
  forall lo hi, (forall is, in_grid (map ax_count axes) is -> (forall j a xj ij, nth_error axes j = Some a -> nth_error x j = Some xj -> nth_error is j = Some ij -> near a xj ij) -> lo <= f is <= hi) -> lo <= v <= hi.
Proof.
  intros HP. revert off x f. induction HP as [|a axes HA HP IH]; intros off x f HD HX; inversion HX as [|? x0 ? xs X0 XS]; subst.
  - cbn. exists (f []). pose proof (HD [] (Forall2_nil _)) as E. cbn in E. replace (off + 0)%nat with off in E by lia. unfold read. rewrite E. split; [auto|].
    intros lo hi B. apply B; [constructor|]. intros j. destruct j; discriminate.
  - destruct (locate_in a HA x0 X0) as (i & r & E & I & R0 & EX). unfold e_linear_view in *. cbn [map linear_view]. rewrite E.
    rewrite !slice_step by (cbn; destruct HA; lia). rewrite counts_map.
    destruct (IH (off + i * size_of (map ax_count axes))%nat xs _ (holds_slice data off (ax_count a) (map ax_count axes) f i HD ltac:(lia)) XS) as (v1 & E1 & B1).
    destruct (IH (off + (i + 1) * size_of (map ax_count axes))%nat xs _ (holds_slice data off (ax_count a) (map ax_count axes) f (i + 1)%nat HD ltac:(lia)) XS) as (v2 & E2 & B2).
    rewrite E1, E2. cbn [bind]. rewrite e_linear_fin. eexists. split; [reflexivity|]. intros lo hi B.
    destruct (near_cell a HA i r R0) as [N1 N2]. rewrite <- EX in N1, N2.
    assert (L1 : lo <= v1 <= hi).
    { apply B1. intros is G N. apply B; [constructor; auto; lia|]. intros [|j] a' xj ij Ha Hx Hi; cbn in *; [congruence|eapply N; eauto]. }
    destruct (Rle_lt_or_eq_dec 0 r (proj1 R0)) as [P|P].
    + assert (L2 : lo <= v2 <= hi).
      { apply B2. intros is G N. apply B; [constructor; auto; lia|]. intros [|j] a' xj ij Ha Hx Hi; cbn in *; [|eapply N; eauto]. replace ij with (i + 1)%nat by congruence. replace a' with a by congruence. replace xj with x0 by congruence. auto. }
      nra.
    + subst r. lra.
Qed.
Lemma linear_nan data axes off x f : Forall proper axes -> holds_at data off (map ax_count axes) f -> length x = length axes ->
  ~ (exists y, x = map Fin y /\ Forall2 inside axes y) -> e_linear_view data (map dim_of axes) off x = Val NaN.
Proof.
  intros HP. revert off x f. induction HP as [|a axes HA HP IH]; intros off x f HD HL HN; destruct x as [|x0 x]; try discriminate.
  - destruct HN. exists []. split; [auto|constructor].
  - unfold e_linear_view in *. cbn [map linear_view]. injection HL as HL.
    assert (HC : (exists y0, x0 = Fin y0 /\ inside a y0) \/ e_locate x0 (dim_of a) = Outside NaN).
    { destruct x0 as [y0| | |]; [|right; apply locate_special; discriminate..].
      destruct (Rlt_le_dec y0 (ax_lower a)); [right; apply locate_out; unfold inside; lra|]. destruct (Rlt_le_dec y0 (ax_upper a)); [|right; apply locate_out; unfold inside; lra].
      left. exists y0. split; [auto|split; auto]. }
    destruct HC as [(y0 & -> & Y0)|E]; [|rewrite E; auto].
    destruct (locate_in a HA y0 Y0) as (i & r & E & I & R0 & EX). rewrite E. rewrite !slice_step by (cbn; destruct HA; lia). rewrite counts_map.
    assert (HN' : ~ exists y, x = map Fin y /\ Forall2 inside axes y). { intros (y & -> & F). apply HN. exists (y0 :: y). split; [auto|constructor; auto]. }
    rewrite (IH _ _ _ (holds_slice data off (ax_count a) (map ax_count axes) f i HD ltac:(lia)) HL HN'), (IH _ _ _ (holds_slice data off (ax_count a) (map ax_count axes) f (i + 1)%nat HD ltac:(lia)) HL HN').
    reflexivity.
Qed.
Lemma node_step a i : proper a -> node a (i + 1) = node a i + spacing a.
Proof. intros H. unfold node. rewrite plus_INR. change (INR 1) with 1. ring. Qed.
Lemma linear_affine data axes off x F : Forall proper axes -> multiaffine (length axes) F -> holds_at data off (map ax_count axes) (fun is => F (nodes axes is)) -> Forall2 inside axes x ->
  e_linear_view data (map dim_of axes) off (map Fin x) = Val (Fin (F x)).
Proof.
  intros HP. revert off x F. induction HP as [|a axes HA HP IH]; intros off x F HF HD HX; inversion HX as [|? x0 ? xs X0 XS]; subst.
  - cbn. pose proof (HD [] (Forall2_nil _)) as E. cbn in E. replace (off + 0)%nat with off in E by lia. unfold read. rewrite E. reflexivity.
  - destruct (locate_in a HA x0 X0) as (i & r & E & I & R0 & EX). unfold e_linear_view in *. cbn [map linear_view]. rewrite E.
    rewrite !slice_step by (cbn; destruct HA; lia). rewrite counts_map. cbn in HF. destruct HF as (g & k & Hg & Hk & EF).
    assert (AF : forall c, multiaffine (length axes) (fun xs => F (c :: xs))).
    { intros c. clear - Hg Hk EF. assert (G : forall n g k, multiaffine n g -> multiaffine n k -> forall F', (forall xs, F' xs = g xs + c * k xs) -> multiaffine n F').
      { clear. induction n as [|n IH]; cbn; auto. intros g k (g1 & g2 & A1 & A2 & E1) (k1 & k2 & B1 & B2 & E2) F' EF.
        exists (fun xs => g1 xs + c * k1 xs), (fun xs => g2 xs + c * k2 xs). split; [eapply IH with (g := g1) (k := k1); eauto|]. split; [eapply IH with (g := g2) (k := k2); eauto|].
        intros x xs. rewrite EF, E1, E2. ring. }
      apply (G _ g k); auto. }
    rewrite (IH _ xs (fun ys => F (node a i :: ys)) (AF _)); auto; [|intros is G; apply (holds_slice data off (ax_count a) (map ax_count axes) _ i HD ltac:(lia) is G)].
    rewrite (IH _ xs (fun ys => F (node a (i + 1) :: ys)) (AF _)); auto; [|intros is G; apply (holds_slice data off (ax_count a) (map ax_count axes) _ (i + 1)%nat HD ltac:(lia) is G)].
    cbn [bind]. rewrite e_linear_fin. do 2 f_equal. rewrite node_step by auto. rewrite !EF, EX. ring.
Qed.

(** ** Cubic *)
Lemma cubic_fin data axes off x f : Forall proper axes -> holds_at data off (map ax_count axes) f -> Forall2 inside axes x ->
  exists v, e_cubic_view data (map dim_of axes) off (map Fin x) = Val (Fin v).
Proof.
  intros HP. revert off x f. induction HP as [|a axes HA HP IH]; intros off x f HD HX; inversion HX as [|? x0 ? xs X0 XS]; subst.
  - cbn. exists (f []). pose proof (HD [] (Forall2_nil _)) as E. cbn in E. replace (off + 0)%nat with off in E by lia. unfold read. rewrite E. auto.
  - destruct (locate_in a HA x0 X0) as (i & r & E & I & R0 & EX). unfold e_cubic_view in *. cbn [map cubic_view]. rewrite E. cbn [dim_of d_count].
    rewrite !slice_step by (cbn; destruct HA; lia). rewrite counts_map.
    destruct (IH (off + i * size_of (map ax_count axes))%nat xs _ (holds_slice data off (ax_count a) (map ax_count axes) f i HD ltac:(lia)) XS) as (v1 & E1).
    destruct (IH (off + (i + 1) * size_of (map ax_count axes))%nat xs _ (holds_slice data off (ax_count a) (map ax_count axes) f (i + 1)%nat HD ltac:(lia)) XS) as (v2 & E2).
    rewrite E1, E2.
    assert (E0 : exists v, (if (i =? 0)%nat then Val (Fin 0) else cubic_view e_locate e_cubic (Fin 0) data (map dim_of axes) (off + (i - 1) * size_of (map ax_count axes)) (map Fin xs)) = Val (Fin v)).
    { destruct (Nat.eqb_spec i 0); [eauto|]. apply (IH _ _ _ (holds_slice data off (ax_count a) (map ax_count axes) f (i - 1)%nat HD ltac:(lia)) XS). }
    assert (E3 : exists v, (if (ax_count a - 2 <=? i)%nat then Val (Fin 0) else cubic_view e_locate e_cubic (Fin 0) data (map dim_of axes) (off + (i + 2) * size_of (map ax_count axes)) (map Fin xs)) = Val (Fin v)).
    { destruct (Nat.leb_spec (ax_count a - 2) i); [eauto|]. apply (IH _ _ _ (holds_slice data off (ax_count a) (map ax_count axes) f (i + 2)%nat HD ltac:(lia)) XS). }
    destruct E0 as [v0 ->]. destruct E3 as [v3 ->]. cbn [bind]. rewrite e_cubic_fin. eauto.
Qed.
Lemma cubic_nan data axes off x f : Forall proper axes -> holds_at data off (map ax_count axes) f -> length x = length axes ->
  ~ (exists y, x = map Fin y /\ Forall2 inside axes y) -> e_cubic_view data (map dim_of axes) off x = Val NaN.
Proof.
  intros HP. revert off x f. induction HP as [|a axes HA HP IH]; intros off x f HD HL HN; destruct x as [|x0 x]; try discriminate.
  - destruct HN. exists []. split; [auto|constructor].
  - unfold e_cubic_view in *. cbn [map cubic_view]. injection HL as HL.
    assert (HC : (exists y0, x0 = Fin y0 /\ inside a y0) \/ e_locate x0 (dim_of a) = Outside NaN).
    { destruct x0 as [y0| | |]; [|right; apply locate_special; discriminate..].
      destruct (Rlt_le_dec y0 (ax_lower a)); [right; apply locate_out; unfold inside; lra|]. destruct (Rlt_le_dec y0 (ax_upper a)); [|right; apply locate_out; unfold inside; lra].
      left. exists y0. split; [auto|split; auto]. }
    destruct HC as [(y0 & -> & Y0)|E]; [|rewrite E; auto].
    destruct (locate_in a HA y0 Y0) as (i & r & E & I & R0 & EX). rewrite E. cbn [dim_of d_count]. rewrite !slice_step by (cbn; destruct HA; lia). rewrite counts_map.
    assert (HN' : ~ exists y, x = map Fin y /\ Forall2 inside axes y). { intros (y & -> & F). apply HN. exists (y0 :: y). split; [auto|constructor; auto]. }
    rewrite (IH _ _ _ (holds_slice data off (ax_count a) (map ax_count axes) f i HD ltac:(lia)) HL HN'), (IH _ _ _ (holds_slice data off (ax_count a) (map ax_count axes) f (i + 1)%nat HD ltac:(lia)) HL HN').
    assert (E0 : exists v, (if (i =? 0)%nat then Val (Fin 0) else cubic_view e_locate e_cubic (Fin 0) data (map dim_of axes) (off + (i - 1) * size_of (map ax_count axes)) x) = Val v).
    { destruct (Nat.eqb_spec i 0); [eauto|]. eexists. apply (IH _ _ _ (holds_slice data off (ax_count a) (map ax_count axes) f (i - 1)%nat HD ltac:(lia)) HL HN'). }
    assert (E3 : exists v, (if (ax_count a - 2 <=? i)%nat then Val (Fin 0) else cubic_view e_locate e_cubic (Fin 0) data (map dim_of axes) (off + (i + 2) * size_of (map ax_count axes)) x) = Val v).
    { destruct (Nat.leb_spec (ax_count a - 2) i); [eauto|]. eexists. apply (IH _ _ _ (holds_slice data off (ax_count a) (map ax_count axes) f (i + 2)%nat HD ltac:(lia)) HL HN'). }
    destruct E0 as [v0 ->]. destruct E3 as [v3 ->]. cbn [bind]. unfold e_cubic. cbn. destruct v0, v3; reflexivity.
Qed.
Lemma node_inside a k : proper a -> (k + 2 <= ax_count a)%nat -> inside a (node a k).
Proof.
  intros HA H. pose proof (spacing_pos a HA) as P. unfold inside. rewrite <- (node_last a HA). unfold node. pose proof (pos_INR k).
  assert (INR k < INR (ax_count a - 1)) by (apply lt_INR; lia). split; nra.
Qed.
Lemma cubic_node data axes off is f : Forall proper axes -> holds_at data off (map ax_count axes) f -> Forall2 (fun a i => (i + 2 <= ax_count a)%nat) axes is ->
  e_cubic_view data (map dim_of axes) off (map Fin (nodes axes is)) = Val (Fin (f is)).
Proof.
  intros HP. revert off is f. induction HP as [|a axes HA HP IH]; intros off is f HD HX; inversion HX as [|? k ? ks K0 KS]; subst.
  - cbn. pose proof (HD [] (Forall2_nil _)) as E. cbn in E. replace (off + 0)%nat with off in E by lia. unfold read. rewrite E. auto.
  - unfold nodes. cbn [combine map fst snd]. fold (nodes axes ks). pose proof (node_inside a k HA K0) as IN.
    destruct (locate_in a HA (node a k) IN) as (i & r & E & I & R0 & EX). unfold e_cubic_view in *. cbn [map cubic_view]. rewrite E. cbn [dim_of d_count].
    destruct (node_at a HA i r k R0 (eq_sym EX)) as [-> ->].
    rewrite !slice_step by (cbn; destruct HA; lia). rewrite counts_map.
    assert (INS : Forall2 inside axes (nodes axes ks)).
    { clear - HP KS. revert HP. induction KS; intros HP; [constructor|]. inversion HP; subst. unfold nodes. cbn. constructor; [apply node_inside; auto|apply IHKS; auto]. }
    assert (G : forall j, (j < ax_count a)%nat -> exists v, cubic_view e_locate e_cubic (Fin 0) data (map dim_of axes) (off + j * size_of (map ax_count axes)) (map Fin (nodes axes ks)) = Val (Fin v)).
    { intros j Hj. apply (cubic_fin data axes _ _ _ HP (holds_slice data off (ax_count a) (map ax_count axes) f j HD Hj) INS). }
    rewrite (IH _ ks _ (holds_slice data off (ax_count a) (map ax_count axes) f k HD ltac:(lia)) KS). destruct (G (k + 1)%nat) as [v2 ->]; [lia|].
    assert (E0 : exists v, (if (k =? 0)%nat then Val (Fin 0) else cubic_view e_locate e_cubic (Fin 0) data (map dim_of axes) (off + (k - 1) * size_of (map ax_count axes)) (map Fin (nodes axes ks))) = Val (Fin v)).
    { destruct (Nat.eqb_spec k 0); [eauto|]. apply G. lia. }
    assert (E3 : exists v, (if (ax_count a - 2 <=? k)%nat then Val (Fin 0) else cubic_view e_locate e_cubic (Fin 0) data (map dim_of axes) (off + (k + 2) * size_of (map ax_count axes)) (map Fin (nodes axes ks))) = Val (Fin v)).
    { destruct (Nat.leb_spec (ax_count a - 2) k); [eauto|]. apply G. lia. }
    destruct E0 as [v0 ->]. destruct E3 as [v3 ->]. cbn [bind]. rewrite e_cubic_fin. do 2 f_equal. lra.
Qed.
Lemma linear_node data axes off is f : Forall proper axes -> holds_at data off (map ax_count axes) f -> Forall2 (fun a i => (i + 2 <= ax_count a)%nat) axes is ->
  e_linear_view data (map dim_of axes) off (map Fin (nodes axes is)) = Val (Fin (f is)).
Proof.
  intros HP. revert off is f. induction HP as [|a axes HA HP IH]; intros off is f HD HX; inversion HX as [|? k ? ks K0 KS]; subst.
  - cbn. pose proof (HD [] (Forall2_nil _)) as E. cbn in E. replace (off + 0)%nat with off in E by lia. unfold read. rewrite E. auto.
  - unfold nodes. cbn [combine map fst snd]. fold (nodes axes ks). pose proof (node_inside a k HA K0) as IN.
    destruct (locate_in a HA (node a k) IN) as (i & r & E & I & R0 & EX). unfold e_linear_view in *. cbn [map linear_view]. rewrite E.
    destruct (node_at a HA i r k R0 (eq_sym EX)) as [-> ->].
    rewrite !slice_step by (cbn; destruct HA; lia). rewrite counts_map.
    rewrite (IH _ ks _ (holds_slice data off (ax_count a) (map ax_count axes) f k HD ltac:(lia)) KS), (IH _ ks _ (holds_slice data off (ax_count a) (map ax_count axes) f (k + 1)%nat HD ltac:(lia)) KS).
    cbn [bind]. rewrite e_linear_fin. do 2 f_equal. lra.
Qed.
Lemma quad_slice n F c : multiquadratic (S n) F -> multiquadratic n (fun xs => F (c :: xs)).
Proof.
  intros (g & k & q & Hg & Hk & Hq & EF). revert g k q Hg Hk Hq EF.
  assert (G : forall n g k q, multiquadratic n g -> multiquadratic n k -> multiquadratic n q -> forall F', (forall xs, F' xs = g xs + c * k xs + c * c * q xs) -> multiquadratic n F').
  { clear. induction n as [|n IH]; cbn; auto. intros g k q (g1 & g2 & g3 & A1 & A2 & A3 & E1) (k1 & k2 & k3 & B1 & B2 & B3 & E2) (q1 & q2 & q3 & C1 & C2 & C3 & E3) F' EF.
    exists (fun xs => g1 xs + c * k1 xs + c * c * q1 xs), (fun xs => g2 xs + c * k2 xs + c * c * q2 xs), (fun xs => g3 xs + c * k3 xs + c * c * q3 xs).
    split; [eapply IH with (g := g1) (k := k1) (q := q1); eauto|]. split; [eapply IH with (g := g2) (k := k2) (q := q2); eauto|]. split; [eapply IH with (g := g3) (k := k3) (q := q3); eauto|].
    intros x xs. rewrite EF, E1, E2, E3. ring. }
  intros g k q Hg Hk Hq EF. apply (G _ g k q); auto.
Qed.
Lemma cubic_quadratic data axes off x F : Forall proper axes -> multiquadratic (length axes) F -> holds_at data off (map ax_count axes) (fun is => F (nodes axes is)) -> Forall2 interior axes x ->
  e_cubic_view data (map dim_of axes) off (map Fin x) = Val (Fin (F x)).
Proof.
  intros HP. revert off x F. induction HP as [|a axes HA HP IH]; intros off x F HF HD HX; inversion HX as [|? x0 ? xs X0 XS]; subst.
  - cbn. pose proof (HD [] (Forall2_nil _)) as E. cbn in E. replace (off + 0)%nat with off in E by lia. unfold read. rewrite E. reflexivity.
  - pose proof (spacing_pos a HA) as SPP.
    assert (IN : inside a x0).
    { destruct X0 as [A B]. unfold inside. rewrite <- (node_last a HA). unfold node in *. change (INR 1) with 1 in A.
      assert (INR (ax_count a - 2) <= INR (ax_count a - 1)) by (apply le_INR; lia). split; nra. }
    destruct (locate_in a HA x0 IN) as (i & r & E & I & R0 & EX). unfold e_cubic_view in *. cbn [map cubic_view]. rewrite E. cbn [dim_of d_count].
    assert (I1 : (1 <= i)%nat).
    { destruct i; [|lia]. exfalso. destruct X0 as [A _]. rewrite EX in A. unfold node in A. change (INR 1) with 1 in A. change (INR 0) with 0 in A. nra. }
    assert (I2 : (i < ax_count a - 2)%nat).
    { apply INR_lt. destruct X0 as [_ B]. rewrite EX in B. unfold node in B. assert (0 <= r * spacing a) by nra. apply Rmult_lt_reg_r with (spacing a); auto. lra. }
    replace (i =? 0)%nat with false by (symmetry; apply Nat.eqb_neq; lia). replace (ax_count a - 2 <=? i)%nat with false by (symmetry; apply Nat.leb_gt; lia).
    rewrite !slice_step by (cbn; destruct HA; lia). rewrite counts_map.
    assert (G : forall j, (j < ax_count a)%nat -> cubic_view e_locate e_cubic (Fin 0) data (map dim_of axes) (off + j * size_of (map ax_count axes)) (map Fin xs) = Val (Fin (F (node a j :: xs)))).
    { intros j Hj. apply (IH _ xs (fun ys => F (node a j :: ys)) (quad_slice _ F _ HF)); auto. intros is G. apply (holds_slice data off (ax_count a) (map ax_count axes) _ j HD Hj is G). }
    rewrite !G by lia. cbn [bind]. rewrite e_cubic_fin. do 2 f_equal. destruct HF as (g & k & q & _ & _ & _ & EF). rewrite !EF, EX.
    rewrite (node_step a i HA). replace (i + 2)%nat with (i + 1 + 1)%nat by lia. rewrite (node_step a (i + 1) HA), (node_step a i HA).
    replace (node a (i - 1)) with (node a i - spacing a) by (replace i with (i - 1 + 1)%nat at 1 by lia; rewrite (node_step a (i - 1) HA); ring).
    field.
Qed.
(** One dimension: the formula of each cell. *)
Definition cell_value (f : nat -> R) (count i : nat) (r : R) : R :=
  let c0 := if (i =? 0)%nat then 0 else f (i - 1)%nat in let c3 := if (count - 2 <=? i)%nat then 0 else f (i + 2)%nat in
  2 * (1 - r) * (1 - r) * (1 / 2 + r) * f i + 1 / 2 * (1 - r) * (1 - r) * r * (f (i + 1)%nat - c0) + 2 * r * r * (3 / 2 - r) * f (i + 1)%nat - 1 / 2 * r * r * (1 - r) * (c3 - f i).
Lemma cubic_1d data a f x i r : proper a -> holds data [ax_count a] (fun is => f (hd 0%nat is)) -> (i + 2 <= ax_count a)%nat -> 0 <= r < 1 -> x = node a i + r * spacing a ->
  e_cubic_view data [dim_of a] 0 [Fin x] = Val (Fin (cell_value f (ax_count a) i r)).
Proof.
  intros HA [_ HD] I R0 EX. pose proof (spacing_pos a HA) as SPP.
  assert (IN : inside a x).
  { unfold inside. rewrite <- (node_last a HA), EX. unfold node. pose proof (pos_INR i). assert (INR i + 1 <= INR (ax_count a - 1)) by (rewrite <- S_INR; apply le_INR; lia). split; nra. }
  destruct (locate_in a HA x IN) as (i' & r' & E & I' & R0' & EX').
  assert (i' = i /\ r' = r) as [-> ->].
  { assert (EQ : INR i + r = INR i' + r'). { apply Rmult_eq_reg_r with (spacing a); [|lra]. rewrite EX in EX'. unfold node in EX'. lra. }
    assert (i' = i); [|subst; split; [auto|lra]]. rewrite !INR_IZR_INZ in EQ. apply Nat2Z.inj. apply Z.le_antisymm; apply Z.lt_succ_r; apply lt_IZR; rewrite succ_IZR; lra. }
  unfold e_cubic_view. cbn [cubic_view]. rewrite E. cbn [dim_of d_count]. rewrite !slice_step by (cbn; destruct HA; lia). cbn [counts_of map size_of fold_right Nat.add cubic_view].
  assert (G : forall j, (j < ax_count a)%nat -> read data (j * 1) = Val (Fin (f j))).
  { intros j Hj. unfold read. pose proof (HD [j] ltac:(repeat constructor; auto)) as HH. cbn in HH. rewrite Nat.add_0_r in HH. rewrite HH. reflexivity. }
  unfold cell_value. destruct (Nat.eqb_spec i 0) as [E0|E0], (Nat.leb_spec (ax_count a - 2) i) as [E3|E3]; rewrite ?G by lia; cbn [bind]; rewrite e_cubic_fin; reflexivity.
Qed.
