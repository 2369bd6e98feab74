(** C95: the cross-sections called without phenomenological inputs. *)
From Coq Require Import Reals ZArith List Lra.
From Coquelicot Require Import Coquelicot.
From Verif Require Import ExtModel MathModel VecModel KinModel KinSpec SfModel HadModel DilogSpec DilogProofs XsModel PhenomModel PhenomProofs PhenomFinal XsDelta MathProps VirtProps PhenomProps
  DefaultModel DefaultProofs DefaultWitness.
Local Open Scope R_scope.

(** The table of the coupling (C67). *)
Definition coupling_table grid := exists rounds, forall fuel, (rounds <= fuel)%nat -> alpha_qed_grid fuel = Some grid.
Lemma table_ends grid : coupling_table grid -> exists m, ends m /\ (m <= 2101)%nat /\ grid = grid_of m.
Proof.
  intros (r & H). destruct ends_exists as (m & E & _ & M). exists m. split; [exact E|]. split; [exact M|].
  apply (C67_one_table r (m + 7)%nat); [exact H|]. intros fuel F. exact (grid_is m fuel E F).
Qed.
Lemma table_exists : exists grid, coupling_table grid.
Proof. destruct C67_continuous as (r & g & H & _). exists g, r. exact H. Qed.

(** At the scales of the generator the coupling is more than 1.15% above the one at rest, and with it the lowest order
    is more than 2.3% above. *)
Theorem C95_default_born grid sf k lambda_e eta : coupling_table grid -> 1 <= kQ_sq k <= 100 ->
  exists a, 10115 / 10000 < a < 11 / 10 /\ default_born grid sf k lambda_e eta = Some (a ^ 2 * born sf k (rest_phenom k) lambda_e eta) /\
    default_amm grid sf k lambda_e eta = Some (a ^ 3 * amm sf k (rest_phenom k) lambda_e eta).
Proof.
  intros T H. destruct (table_ends grid T) as (m & E & M & ->). destruct (default_is m k E M H) as (a & A1 & A2). exists a. split; [exact A2|].
  unfold default_born, default_amm, with_phenom. rewrite A1. split; f_equal; [apply born_power|apply amm_power].
Qed.
Print Assumptions C95_default_born.
Theorem C95_default_rad grid sf k lambda_e eta : coupling_table grid -> 1 <= rQ_sq k <= 100 ->
  exists a, 10115 / 10000 < a < 11 / 10 /\ default_rad grid sf k lambda_e eta = Some (a ^ 3 * rad sf k (rest_phenom (project k)) lambda_e eta) /\
    default_rad_f grid sf k lambda_e eta = match rad_f sf k (rest_phenom (project k)) lambda_e eta with Some v => Some (a ^ 3 * v) | None => None end.
Proof.
  intros T H. destruct (table_ends grid T) as (m & E & M & ->). destruct (default_is m (project k) E M H) as (a & A1 & A2). exists a. split; [exact A2|].
  unfold default_rad, default_rad_f, with_phenom. rewrite A1. split; [f_equal; apply rad_power|]. apply (rad_f_power sf k a ALPHA_QED_0 _ (delta_vac_had (kQ_sq (project k)))).
Qed.
Print Assumptions C95_default_rad.
(** The part of the non-radiative cross-section that is proportional to the lowest order contains the loops of the
    electron once with the coupling at rest. With the default coupling it is at least 2% larger. *)
Theorem C95_default_nrad grid dilog sf k lambda_e eta k0 dv : coupling_table grid -> 1 <= kQ_sq k <= 100 -> delta_vert_rad_ir dilog k k0 = Fin dv ->
  4 / 5 <= 1 + ALPHA_QED_0 / PI * (dv + delta_vac_lep k + delta_vac_had (kQ_sq k)) ->
  exists n m n0 r, default_nrad_ir grid dilog sf k lambda_e eta k0 = Some n /\ default_amm grid sf k lambda_e eta = Some m /\
    nrad_ir dilog sf k (rest_phenom k) lambda_e eta k0 = Some n0 /\
    n - m = r * (n0 - amm sf k (rest_phenom k) lambda_e eta) /\ 102 / 100 <= r.
Proof.
  intros T H V F. destruct (table_ends grid T) as (m & E & M & ->). destruct (default_is m k E M H) as (a & A1 & A2).
  set (y := ALPHA_QED_0 / PI * (dv + delta_vac_lep k + delta_vac_had (kQ_sq k))) in *.
  do 3 eexists. exists (a ^ 2 * (1 + a * y) / (1 + y)). unfold default_nrad_ir, default_amm, with_phenom. rewrite A1, !(nrad_ir_is dilog sf _ _ _ _ _ _ V).
  split; [reflexivity|]. split; [reflexivity|]. split; [reflexivity|]. split.
  - rewrite (born_power sf k a ALPHA_QED_0 (delta_vac_had (kQ_sq k)) (delta_vac_had (kQ_sq k))). unfold rest_phenom. cbn [p_alpha_qed p_delta_vac_had]. fold y.
    replace (a * ALPHA_QED_0 / PI * (dv + delta_vac_lep k + delta_vac_had (kQ_sq k))) with (a * y) by (unfold y, Rdiv; ring). field. lra.
  - pose proof (factor_change a y A2 ltac:(lra)) as C. apply Rmult_le_reg_r with (1 + y); [lra|]. unfold Rdiv at 2. rewrite Rmult_assoc, Rinv_l by lra. lra.
Qed.
Print Assumptions C95_default_nrad.
(** Violated: the default functions do not return the sum of the lowest order and its loop corrections, each taken
    once, to one percent. [dilog] may be the exact dilogarithm or the function of the code at any precision. *)
Definition is_or_computes (f : R -> R) : Prop := is_dilog f \/ exists d, mantissa d /\ f = dilog d.
Lemma coarse f : is_or_computes f -> (forall x, f x <= 36 / 10) /\ forall x, x <= 1 -> Rmin x 0 - 1 / 10 <= f x.
Proof.
  intros H. assert (C : forall x, Rabs (f x - dilog_full x) <= 1 / 10).
  { intros x. destruct H as [H|(d & M & ->)]; [rewrite (dilog_unique f dilog_full H full_is_dilog x), Rminus_diag_eq, Rabs_R0 by reflexivity; lra|].
    eapply Rle_trans; [exact (C66_dilog d dilog_full x M full_is_dilog)|]. assert (/ IZR (2 ^ d) <= 1 / 100).
    { destruct M as [-> | [-> | ->]]; match goal with |- / IZR ?z <= _ => let v := eval vm_compute in z in change z with v end; lra. }
    assert (/ 2 ^ 138 <= / 2 ^ 8) by (apply Rinv_le_contravar; [apply pow_lt; lra|apply Rle_pow; [lra|]]; repeat constructor). lra. }
  split; intros x; [|intros L; pose proof (full_low_bound x L)]; specialize (C x); apply Rabs_le_between in C; pose proof (full_high_bound x); lra.
Qed.
Lemma w_correction f k0 : is_or_computes f -> 31 / 96 <= k0 -> exists dv, delta_vert_rad_ir f w_kin k0 = Fin dv /\ 4 / 5 <= 1 + ALPHA_QED_0 / PI * (dv + delta_vac_lep w_kin + delta_vac_had (kQ_sq w_kin)).
Proof.
  intros H K. destruct (coarse f H) as [H1 H2]. destruct (w_delta f k0 H1 H2 K) as (dv & V & B). exists dv. split; [exact V|]. destruct w_fields as (Q & _).
  destruct (C93_screening w_kin w_kin ltac:(lra)) as ((L & _) & _). pose proof (C82_positive_increasing (kQ_sq w_kin) (kQ_sq w_kin + 1) ltac:(lra)) as P.
  pose proof PhenomProofs.PI3 as P3. assert (A : 0 < ALPHA_QED_0 / PI <= 1 / 400).
  { unfold ALPHA_QED_0. split; [apply Rdiv_lt_0_compat; lra|]. apply div_le; lra. }
  set (c := ALPHA_QED_0 / PI) in *. clearbody c. assert (c * -79 <= c * (dv + delta_vac_lep w_kin + delta_vac_had (kQ_sq w_kin))) by (apply Rmult_le_compat_l; lra). lra.
Qed.
Theorem C95_counted_once_refuted grid f : coupling_table grid -> is_or_computes f ->
  ~ (forall e ps S sp sf lambda_e eta k0 n m n0, same_event e ps S sp -> let k := make_kin ps S sp in 1 <= kQ_sq k <= 100 -> 0 < k0 ->
       default_nrad_ir grid f sf k lambda_e eta k0 = Some n -> default_amm grid sf k lambda_e eta = Some m -> nrad_ir f sf k (rest_phenom k) lambda_e eta k0 = Some n0 ->
       Rabs ((n - m) - (n0 - amm sf k (rest_phenom k) lambda_e eta)) <= 1 / 100 * Rabs (n0 - amm sf k (rest_phenom k) lambda_e eta)).
Proof.
  intros T F H. destruct (w_correction f 1 F ltac:(lra)) as (dv & V & C). destruct w_fields as (Q & _).
  destruct (C95_default_nrad grid f w_sf w_kin 0 (V3 0 0 0) 1 dv T ltac:(lra) V C) as (n & m & n0 & r & N & M & N0 & E & R).
  specialize (H _ _ _ _ w_sf 0 (V3 0 0 0) 1 n m n0 w_same). cbv zeta in H. fold w_kin in H. specialize (H ltac:(lra) ltac:(lra) N M N0).
  rewrite (nrad_ir_is f w_sf _ _ _ _ _ _ V) in N0. apply (f_equal (fun o => match o with Some v => v | None => 0 end)) in N0. cbv beta iota in N0. change (p_alpha_qed (rest_phenom w_kin)) with ALPHA_QED_0 in N0. change (p_delta_vac_had (rest_phenom w_kin)) with (delta_vac_had (kQ_sq w_kin)) in N0.
  pose proof (w_born ALPHA_QED_0 (delta_vac_had (kQ_sq w_kin)) ltac:(unfold ALPHA_QED_0; lra)) as B. fold (rest_phenom w_kin) in B.
  set (b := born w_sf w_kin (rest_phenom w_kin) 0 (V3 0 0 0)) in *. set (a := amm w_sf w_kin (rest_phenom w_kin) 0 (V3 0 0 0)) in *.
  set (y := ALPHA_QED_0 / PI * (dv + delta_vac_lep w_kin + delta_vac_had (kQ_sq w_kin))) in *. clearbody b a y.
  assert (P : 0 < n0 - a) by (rewrite <- N0; assert (0 < (1 + y) * b) by (apply Rmult_lt_0_compat; lra); lra).
  rewrite E in H. set (x := n0 - a) in *. clearbody x. rewrite (Rabs_right x) in H by lra. replace (r * x - x) with ((r - 1) * x) in H by ring.
  assert (2 / 100 * x <= (r - 1) * x) by (apply Rmult_le_compat_r; lra). rewrite Rabs_right in H by lra. lra.
Qed.
Print Assumptions C95_counted_once_refuted.
(** The table exists, and the event of the refutation meets the conditions of the theorems above. *)
Example C95_example : exists grid dv, coupling_table grid /\ kQ_sq w_kin = 5 /\ delta_vert_rad_ir (dilog 53) w_kin 1 = Fin dv /\
  4 / 5 <= 1 + ALPHA_QED_0 / PI * (dv + delta_vac_lep w_kin + delta_vac_had (kQ_sq w_kin)) /\ exists b, default_born grid w_sf w_kin 0 (V3 0 0 0) = Some b /\ 0 < b.
Proof.
  destruct table_exists as (g & T). exists g. destruct (w_correction (dilog 53) 1) as (dv & V & C); [right; exists 53%Z; split; [right; left|]; reflexivity|lra|]. exists dv.
  destruct w_fields as (Q & _). split; [exact T|]. split; [exact Q|]. split; [exact V|]. split; [exact C|].
  destruct (C95_default_born g w_sf w_kin 0 (V3 0 0 0) T ltac:(lra)) as (a & A & B & _). eexists. split; [exact B|]. apply Rmult_lt_0_compat; [apply pow_lt; lra|]. apply w_born. unfold ALPHA_QED_0; lra.
Qed.
