(** The coupling used when no phenomenological inputs are given, and the change it makes. *)
From Coq Require Import Reals ZArith List Lia Lra Psatz Machin.
From Coquelicot Require Import Coquelicot.
From Verif Require Import ExtModel BoundProofs GridModel MathModel VecModel KinModel SfModel LepModel HadModel XsModel XsProofs XsSoft PhenomModel PhenomSpec PhenomRK PhenomProofs PhenomFinal DefaultModel.
Set Bullet Behavior "Strict Subproofs".
Import ListNotations.
Local Open Scope R_scope.

Lemma PI_32 : PI < 32 / 10.
Proof.
  destruct (PI_2_3_7_ineq 1) as [_ H]. cbn [Nat.mul Nat.add sum_f_R0] in H. unfold tg_alt, PI_2_3_7_tg, Ratan_seq in H. cbn [Nat.add Nat.mul] in H.
  cbn [INR pow] in H. lra.
Qed.
(** A value of the exponential. *)
Lemma exp_double x a b : a <= exp x -> 0 <= a -> b <= a * a -> b <= exp (x + x).
Proof. intros H A B. rewrite exp_plus. apply Rle_trans with (a * a); [exact B|]. apply Rmult_le_compat; assumption. Qed.
Lemma exp_15 : 27 / 10 ^ 8 <= exp (-15).
Proof.
  assert (H0 : 1009 / 1024 <= exp (- (15 / 1024))) by (pose proof (exp_ineq1_le (- (15 / 1024))); lra).
  assert (H1 : 97091770 / 10 ^ 8 <= exp (- (15 / 512))) by (replace (- (15 / 512)) with (- (15 / 1024) + - (15 / 1024)) by lra; apply (exp_double _ _ _ H0); lra).
  assert (H2 : 94268117 / 10 ^ 8 <= exp (- (15 / 256))) by (replace (- (15 / 256)) with (- (15 / 512) + - (15 / 512)) by lra; apply (exp_double _ _ _ H1); lra).
  assert (H3 : 88864778 / 10 ^ 8 <= exp (- (15 / 128))) by (replace (- (15 / 128)) with (- (15 / 256) + - (15 / 256)) by lra; apply (exp_double _ _ _ H2); lra).
  assert (H4 : 78969487 / 10 ^ 8 <= exp (- (15 / 64))) by (replace (- (15 / 64)) with (- (15 / 128) + - (15 / 128)) by lra; apply (exp_double _ _ _ H3); lra).
  assert (H5 : 62361798 / 10 ^ 8 <= exp (- (15 / 32))) by (replace (- (15 / 32)) with (- (15 / 64) + - (15 / 64)) by lra; apply (exp_double _ _ _ H4); lra).
  assert (H6 : 38889937 / 10 ^ 8 <= exp (- (15 / 16))) by (replace (- (15 / 16)) with (- (15 / 32) + - (15 / 32)) by lra; apply (exp_double _ _ _ H5); lra).
  assert (H7 : 15124271 / 10 ^ 8 <= exp (- (15 / 8))) by (replace (- (15 / 8)) with (- (15 / 16) + - (15 / 16)) by lra; apply (exp_double _ _ _ H6); lra).
  assert (H8 : 22874350 / 10 ^ 9 <= exp (- (15 / 4))) by (replace (- (15 / 4)) with (- (15 / 8) + - (15 / 8)) by lra; apply (exp_double _ _ _ H7); lra).
  assert (H9 : 52323500 / 10 ^ 11 <= exp (- (15 / 2))) by (replace (- (15 / 2)) with (- (15 / 4) + - (15 / 4)) by lra; apply (exp_double _ _ _ H8); lra).
  replace (-15) with (- (15 / 2) + - (15 / 2)) by lra. apply (exp_double _ _ _ H9); lra.
Qed.
Lemma ln_mass Q : 1 <= Q -> 15 <= ln (Q / MASS_E ^ 2).
Proof.
  intros H. pose proof mm_pos as MP. assert (MM : MASS_E ^ 2 <= exp (-15)) by (eapply Rle_trans; [|exact exp_15]; unfold MASS_E; lra).
  assert (E : exp 15 <= Q / MASS_E ^ 2).
  { apply Rmult_le_reg_r with (MASS_E ^ 2); [lra|]. unfold Rdiv. rewrite Rmult_assoc, Rinv_l by lra.
    apply Rle_trans with (exp 15 * exp (-15)); [apply Rmult_le_compat_l; [left; apply exp_pos|exact MM]|].
    rewrite <- exp_plus. replace (15 + -15) with 0 by ring. rewrite exp_0. lra. }
  rewrite <- (ln_exp 15). apply ln_le; [apply exp_pos|exact E].
Qed.
Lemma two_loop_less Phi a b : evolution_time beta_two_loop Phi -> 0 < a <= b -> Phi b - Phi a <= 3 * PI * (1 / a - 1 / b).
Proof.
  intros HP H. pose proof PI3 as P.
  pose proof (incr (fun t => - Phi (a + t) + - (3 * PI) * / (a + t)) (fun t => - / beta_two_loop (a + t) + 3 * PI / ((a + t) * (a + t))) (b - a) ltac:(lra)) as I. cbv beta in I.
  rewrite Rplus_0_r in I. replace (a + (b - a)) with b in I by ring. replace (1 / a) with (/ a) by (field; lra). replace (1 / b) with (/ b) by (field; lra). cut (- Phi a + - (3 * PI) * / a <= - Phi b + - (3 * PI) * / b); [lra|]. apply I.
  - intros t Ht. replace (- / beta_two_loop (a + t) + 3 * PI / ((a + t) * (a + t))) with (plus (opp (scal 1 (/ beta_two_loop (a + t)))) (3 * PI / ((a + t) * (a + t)))).
    + apply @is_derive_plus; [apply @is_derive_opp; apply (is_derive_comp Phi (fun t => a + t)); [apply HP; lra|auto_derive; [exact Logic.I|ring]]|]. auto_derive; [lra|]. field. lra.
    + unfold plus, scal, opp. cbn. unfold mult. cbn. ring.
  - intros t Ht. set (u := a + t) in *. assert (U : 0 < u) by (unfold u; lra). clearbody u. unfold beta_two_loop.
    assert (Q : 0 < 3 * u / (4 * PI)) by (apply Rdiv_lt_0_compat; lra). set (q := 3 * u / (4 * PI)) in *. clearbody q.
    replace (/ (u ^ 2 / (3 * PI) * (1 + q))) with (3 * PI / (u * u) * / (1 + q)) by (field; lra).
    replace (- (3 * PI / (u * u) * / (1 + q)) + 3 * PI / (u * u)) with (3 * PI / (u * u) * (1 - / (1 + q))) by ring.
    apply Rmult_le_pos; [left; apply Rdiv_lt_0_compat; [lra|apply Rmult_lt_0_compat; lra]|].
    assert (/ (1 + q) <= 1); [|lra]. rewrite <- Rinv_1. apply Rinv_le_contravar; lra.
Qed.
Lemma two_loop_incr Phi a b : evolution_time beta_two_loop Phi -> 0 < a <= b -> Phi a <= Phi b.
Proof.
  intros HP H. pose proof PI3 as P.
  pose proof (incr (fun t => Phi (a + t)) (fun t => / beta_two_loop (a + t)) (b - a) ltac:(lra)) as I. cbv beta in I.
  rewrite Rplus_0_r in I. replace (a + (b - a)) with b in I by ring. apply I.
  - intros t Ht. replace (/ beta_two_loop (a + t)) with (scal 1 (/ beta_two_loop (a + t))) by (unfold scal; cbn; unfold mult; cbn; ring).
    apply (is_derive_comp Phi (fun t => a + t)); [apply HP; lra|auto_derive; [exact Logic.I|ring]].
  - intros t Ht. left. apply Rinv_0_lt_compat. unfold beta_two_loop. apply Rmult_lt_0_compat; [apply Rdiv_lt_0_compat; [apply pow_lt|]; lra|].
    assert (0 < 3 * (a + t) / (4 * PI)) by (apply Rdiv_lt_0_compat; lra). lra.
Qed.
(** The coupling at the scales of the generator. *)
Lemma coupling m Q : ends m -> (m <= 2101)%nat -> 1 <= Q <= 100 ->
  exists alpha, alpha_qed (grid_of m) (Fin Q) = Some (Fin alpha) /\ 10115 / 10000 * ALPHA_QED_0 < alpha <= 1 / 127.
Proof.
  intros E M H. pose proof edge_below. destruct (running m Q E M ltac:(lra)) as (a & A1 & A2 & A3). exists a. split; [exact A1|]. split; [|lra].
  apply Rnot_le_lt. intros N. pose proof PI_32 as P32. pose proof PI3 as P3. pose proof (ln_mass Q ltac:(lra)) as L.
  set (Phi := fun t => - (3 * PI) / t - 9 / 4 * ln t + 9 / 4 * ln (1 + 3 * t / (4 * PI))).
  assert (HP : evolution_time beta_two_loop Phi).
  { intros t Ht. unfold Phi, beta_two_loop. assert (0 < 3 * t / (4 * PI)) by (apply Rdiv_lt_0_compat; lra). auto_derive; [repeat split; lra|].
    assert (0 < 4 * PI + 3 * t) by lra. field. repeat split; lra. }
  specialize (A3 Phi HP). apply Rabs_le_between in A3. set (b := 10115 / 10000 * ALPHA_QED_0) in *.
  pose proof (two_loop_incr Phi a b HP ltac:(lra)) as I. assert (A0 : 0 < ALPHA_QED_0) by (unfold ALPHA_QED_0; lra).
  pose proof (two_loop_less Phi ALPHA_QED_0 b HP ltac:(unfold b; lra)) as U.
  assert (V : 1 / ALPHA_QED_0 - 1 / b <= 15581 / 10000) by (unfold b, ALPHA_QED_0; lra).
  assert (3 * PI * (1 / ALPHA_QED_0 - 1 / b) <= 3 * PI * (15581 / 10000)) by (apply Rmult_le_compat_l; lra). lra.
Qed.
Lemma default_is m k : ends m -> (m <= 2101)%nat -> 1 <= kQ_sq k <= 100 ->
  exists a, default_phenom (grid_of m) k = Some (Phenom (a * ALPHA_QED_0) (delta_vac_had (kQ_sq k))) /\ 10115 / 10000 < a < 11 / 10.
Proof.
  intros E M H. destruct (coupling m _ E M H) as (al & A1 & A2). assert (A0 : 0 < ALPHA_QED_0) by (unfold ALPHA_QED_0; lra). exists (al / ALPHA_QED_0).
  unfold default_phenom. rewrite A1. split; [f_equal; f_equal; field; lra|]. split.
  - apply Rmult_lt_reg_r with ALPHA_QED_0; [exact A0|]. unfold Rdiv at 2. rewrite Rmult_assoc, Rinv_l by lra. lra.
  - apply Rmult_lt_reg_r with ALPHA_QED_0; [exact A0|]. unfold Rdiv at 1. rewrite Rmult_assoc, Rinv_l by lra. assert (1 / 127 < 11 / 10 * ALPHA_QED_0) by (unfold ALPHA_QED_0; lra). lra.
Qed.
(** The cross-sections as powers of the coupling. *)
Lemma born_power sf k a al h h' lambda_e eta : born sf k (Phenom (a * al) h) lambda_e eta = a ^ 2 * born sf k (Phenom al h') lambda_e eta.
Proof.
  rewrite !born_full. unfold born_base_uu, born_base_ul, born_base_ut1, born_base_ut2, born_base_lu, born_base_ll, born_base_lt1, born_base_lt2.
  assert (E : born_coeff (Born k (Phenom (a * al) h)) = a ^ 2 * born_coeff (Born k (Phenom al h'))).
  { unfold Born. cbn [born_coeff p_alpha_qed]. unfold sq, Rdiv. ring. }
  rewrite E. ring.
Qed.
Lemma amm_power sf k a al h h' lambda_e eta : amm sf k (Phenom (a * al) h) lambda_e eta = a ^ 3 * amm sf k (Phenom al h') lambda_e eta.
Proof.
  rewrite !amm_full. unfold amm_base_uu, amm_base_ul, amm_base_ut1, amm_base_ut2, amm_base_lu, amm_base_ll, amm_base_lt1, amm_base_lt2.
  replace (amm_coeff (Amm k (Phenom (a * al) h))) with (a ^ 3 * amm_coeff (Amm k (Phenom al h'))) by (unfold Amm; cbn [amm_coeff p_alpha_qed]; unfold sq, Rdiv; ring). ring.
Qed.
Lemma rad_coeff_power k a al h h' : Rad k (Phenom (a * al) h) = mk_Rad (a ^ 3 * rad_coeff (Rad k (Phenom al h'))) (rR k).
Proof. unfold Rad. cbn [rad_coeff p_alpha_qed]. f_equal. unfold Rdiv. ring. Qed.
Lemma rad_power sf k a al h h' lambda_e eta : rad sf k (Phenom (a * al) h) lambda_e eta = a ^ 3 * rad sf k (Phenom al h') lambda_e eta.
Proof.
  rewrite !rad_full. rewrite (rad_coeff_power k a al h h'). unfold rad_base_uu, rad_base_up, rad_base_lu, rad_base_lp, dot3, scale3. change (rad_R (Rad k (Phenom al h'))) with (rR k). cbn [rad_coeff rad_R x3 y3 z3]. set (c := rad_coeff (Rad k (Phenom al h'))). ring.
Qed.
Lemma rad_f_power sf k a al h h' lambda_e eta : rad_f sf k (Phenom (a * al) h) lambda_e eta = omap (Rmult (a ^ 3)) (rad_f sf k (Phenom al h') lambda_e eta).
Proof.
  rewrite !rad_f_full. unfold omap. destruct (HadRadFLP sf k (HadLP sf (project k))) as [hf|]; [|reflexivity]. f_equal. unfold full_f. rewrite (rad_coeff_power k a al h h').
  unfold rad_f_base_uu, rad_f_base_up, rad_f_base_lu, rad_f_base_lp, dot3, scale3. change (rad_R (Rad k (Phenom al h'))) with (rR k). cbn [rad_coeff rad_R x3 y3 z3]. set (c := rad_coeff (Rad k (Phenom al h'))). ring.
Qed.
(** The factor by which the running coupling changes a cross-section that already has the loop correction [y]. *)
Lemma factor_change a y : 10115 / 10000 < a < 11 / 10 -> - (1 / 5) <= y -> 102 / 100 * (1 + y) <= a ^ 2 * (1 + a * y).
Proof.
  intros A Y. set (e := a - 10115 / 10000). assert (E : 0 < e < 1 / 10) by (unfold e; lra). replace a with (10115 / 10000 + e) by (unfold e; ring). clearbody e.
  set (w := y + 1 / 5). assert (W : 0 <= w) by (unfold w; lra). replace y with (w - 1 / 5) by (unfold w; ring). clearbody w.
  assert (0 <= e * w) by (apply Rmult_le_pos; lra). assert (0 <= e * e) by (apply Rmult_le_pos; lra). assert (0 <= e * e * w) by (apply Rmult_le_pos; lra). assert (0 <= e * e * e * w) by (repeat apply Rmult_le_pos; lra).
  assert (e * e * e <= 1 / 10 * (e * e)) by (rewrite (Rmult_comm (1 / 10)); apply Rmult_le_compat_l; lra). lra.
Qed.
