(** Hadronic vacuum polarization: positive, increasing, two jumps. *)
From Coq Require Import Reals Lra.
From Coquelicot Require Import Coquelicot.
From Verif Require Import ExtModel BoundProofs PhenomModel PhenomRK.
Set Bullet Behavior "Strict Subproofs".
Local Open Scope R_scope.

(** Bounds on logarithms. *)
Lemma atanh_derive u : 0 <= u < 1 -> is_derive (fun t => ln ((1 + t) / (1 - t))) u (2 / (1 - u * u)).
Proof.
  intros H. assert (0 < (1 + u) / (1 - u)) by (apply Rdiv_lt_0_compat; lra). auto_derive.
  - split; [lra|]. split; [exact H0|exact I].
  - field. assert (0 < (1 - u) * (1 + u)) by (apply Rmult_lt_0_compat; lra). repeat split; lra.
Qed.
Lemma sq_lt u : 0 <= u < 1 -> 0 <= u * u < 1.
Proof. intros H. assert (0 < (1 - u) * (1 + u)) by (apply Rmult_lt_0_compat; lra). pose proof (Rle_0_sqr u). unfold Rsqr in *. lra. Qed.
Lemma ln_low u : 0 <= u < 1 -> 2 * (u + u * u * u / 3) <= ln ((1 + u) / (1 - u)).
Proof.
  intros H. pose proof (incr (fun t => ln ((1 + t) / (1 - t)) - 2 * (t + t * t * t / 3)) (fun t => 2 / (1 - t * t) - 2 * (1 + t * t)) u (proj1 H)) as E. cbv beta in E.
  replace ((1 + 0) / (1 - 0)) with 1 in E by field. rewrite ln_1 in E. cut (0 - 2 * (0 + 0 * 0 * 0 / 3) <= ln ((1 + u) / (1 - u)) - 2 * (u + u * u * u / 3)); [lra|]. apply E.
  - intros t Ht. apply @is_derive_minus; [apply atanh_derive; lra|]. auto_derive; [exact I|]. field.
  - intros t Ht. pose proof (sq_lt t ltac:(lra)) as S. replace (2 / (1 - t * t) - 2 * (1 + t * t)) with (2 * ((t * t) * (t * t)) / (1 - t * t)) by (field; lra).
    apply Rmult_le_pos; [|left; apply Rinv_0_lt_compat; lra]. assert (0 <= t * t * (t * t)) by (apply Rmult_le_pos; lra). lra.
Qed.
Lemma ln_up u : 0 <= u < 1 -> ln ((1 + u) / (1 - u)) <= 2 * (u + u * u * u / (3 * (1 - u * u))).
Proof.
  intros H. pose proof (incr (fun t => 2 * (t + t * t * t / (3 * (1 - t * t))) - ln ((1 + t) / (1 - t))) (fun t => 4 * ((t * t) * (t * t)) / (3 * ((1 - t * t) * (1 - t * t)))) u (proj1 H)) as E. cbv beta in E.
  replace ((1 + 0) / (1 - 0)) with 1 in E by field. rewrite ln_1 in E. assert (2 * (0 + 0 * 0 * 0 / (3 * (1 - 0 * 0))) = 0) by field.
  cut (2 * (0 + 0 * 0 * 0 / (3 * (1 - 0 * 0))) - 0 <= 2 * (u + u * u * u / (3 * (1 - u * u))) - ln ((1 + u) / (1 - u))); [lra|]. apply E.
  - intros t Ht. pose proof (sq_lt t ltac:(lra)) as S. replace (4 * ((t * t) * (t * t)) / (3 * ((1 - t * t) * (1 - t * t)))) with (minus (2 * (1 + (3 * (t * t) - (t * t) * (t * t)) / (3 * ((1 - t * t) * (1 - t * t))))) (2 / (1 - t * t))) by (unfold minus, plus, opp; cbn; field; lra).
    apply @is_derive_minus; [|apply atanh_derive; lra]. auto_derive; [lra|]. field. lra.
  - intros t Ht. pose proof (sq_lt t ltac:(lra)) as S. apply Rmult_le_pos; [|left; apply Rinv_0_lt_compat; assert (0 < (1 - t * t) * (1 - t * t)) by (apply Rmult_lt_0_compat; lra); lra].
    assert (0 <= t * t * (t * t)) by (apply Rmult_le_pos; lra). lra.
Qed.
Lemma ln2_bounds : 69314 / 100000 <= ln 2 <= 69315 / 100000.
Proof.
  assert (E : ln 2 = 7 * ln ((1 + 1 / 31) / (1 - 1 / 31)) + 5 * ln ((1 + 1 / 49) / (1 - 1 / 49)) + 3 * ln ((1 + 1 / 161) / (1 - 1 / 161))).
  { replace ((1 + 1 / 31) / (1 - 1 / 31)) with (16 / 15) by field. replace ((1 + 1 / 49) / (1 - 1 / 49)) with (25 / 24) by field. replace ((1 + 1 / 161) / (1 - 1 / 161)) with (81 / 80) by field.
    replace 7 with (INR 7) by (cbn; lra). replace 5 with (INR 5) by (cbn; lra). replace 3 with (INR 3) by (cbn; lra). rewrite <- !ln_pow by lra.
    
    assert (P1 : 0 < (16 / 15) ^ 7) by (apply pow_lt; lra). assert (P2 : 0 < (25 / 24) ^ 5) by (apply pow_lt; lra). assert (P3 : 0 < (81 / 80) ^ 3) by (apply pow_lt; lra).
    rewrite <- (ln_mult _ _ P1 P2), <- (ln_mult _ _ (Rmult_lt_0_compat _ _ P1 P2) P3). f_equal. field. }
  pose proof (ln_low (1 / 31) ltac:(lra)). pose proof (ln_low (1 / 49) ltac:(lra)). pose proof (ln_low (1 / 161) ltac:(lra)).
  pose proof (ln_up (1 / 31) ltac:(lra)). pose proof (ln_up (1 / 49) ltac:(lra)). pose proof (ln_up (1 / 161) ltac:(lra)). rewrite E. lra.
Qed.
Lemma ln_split n y : 0 < y -> ln (2 ^ n * y) = INR n * ln 2 + ln y.
Proof. intros H. rewrite ln_mult by (try apply pow_lt; lra). rewrite ln_pow by lra. reflexivity. Qed.
(** u with (1+u)/(1-u) = y *)
Lemma as_ratio y : 0 < y -> y = (1 + (y - 1) / (y + 1)) / (1 - (y - 1) / (y + 1)).
Proof. intros H. field. split; lra. Qed.
Ltac ln_bound n y := let E := fresh in let B := fresh in pose proof (ln_split n y ltac:(lra)) as E; pose proof (as_ratio y ltac:(lra)) as B;
  rewrite B in E at 2; pose proof (ln_low ((y - 1) / (y + 1)) ltac:(lra)); pose proof (ln_up ((y - 1) / (y + 1)) ltac:(lra)); pose proof ln2_bounds; cbn [INR] in E.
Lemma b_5091 : 16270 / 10000 <= ln (1 + 4091 / 1000 * 1) <= 16276 / 10000.
Proof. ln_bound 2%nat (5091 / 4000). replace (2 ^ 2 * (5091 / 4000)) with (1 + 4091 / 1000 * 1) in * by lra. lra. Qed.
Lemma b_5050 : 16190 / 10000 <= ln (1 + 4091 / 1000 * (99 / 100)).
Proof. ln_bound 2%nat (505009 / 400000). replace (2 ^ 2 * (505009 / 400000)) with (1 + 4091 / 1000 * (99 / 100)) in * by lra. lra. Qed.
Lemma b_2218 : 7964 / 10000 <= ln (1 + 1218 / 1000 * 1) <= 7968 / 10000.
Proof. ln_bound 1%nat (2218 / 2000). replace (2 ^ 1 * (2218 / 2000)) with (1 + 1218 / 1000 * 1) in * by lra. lra. Qed.
Lemma b_78952 : 43685 / 10000 <= ln (1 + 1218 / 1000 * 64) <= 43691 / 10000.
Proof. ln_bound 6%nat (78952 / 64000). replace (2 ^ 6 * (78952 / 64000)) with (1 + 1218 / 1000 * 64) in * by lra. lra. Qed.
Lemma b_78830 : 43670 / 10000 <= ln (1 + 1218 / 1000 * (639 / 10)).
Proof. ln_bound 6%nat (788302 / 640000). replace (2 ^ 6 * (788302 / 640000)) with (1 + 1218 / 1000 * (639 / 10)) in * by lra. lra. Qed.
Lemma b_64995 : 41740 / 10000 <= ln (1 + 99992 / 10 ^ 5 * 64) <= 41746 / 10000.
Proof. ln_bound 6%nat (6499488 / 6400000). replace (2 ^ 6 * (6499488 / 6400000)) with (1 + 99992 / 10 ^ 5 * 64) in * by lra. lra. Qed.

(** The three pieces, up to the common factor. *)
Definition fac : R := 2 * PI / (72973525664 / 10 ^ 13).
Definition had (Q : R) : R :=
  if rltb Q 1 then 1345 / 10 ^ 12 + 2302 / 10 ^ 6 * ln (1 + 4091 / 1000 * Q)
  else if rltb Q 64 then 1512 / 10 ^ 6 + 2822 / 10 ^ 6 * ln (1 + 1218 / 1000 * Q)
  else 11344 / 10 ^ 7 + 30680 / 10 ^ 7 * ln (1 + 99992 / 10 ^ 5 * Q).
Lemma fac_pos : 0 < fac.
Proof. pose proof PI_RGT_0. unfold fac. apply Rdiv_lt_0_compat; lra. Qed.
Lemma had_is Q : delta_vac_had Q = fac * had Q.
Proof. unfold delta_vac_had, had, fac. cbv zeta. destruct (rltb Q 1), (rltb Q 64); field. Qed.
Lemma had_low Q : Q < 1 -> had Q = 1345 / 10 ^ 12 + 2302 / 10 ^ 6 * ln (1 + 4091 / 1000 * Q).
Proof. intros H. unfold had. replace (rltb Q 1) with true by (symmetry; apply rltb_spec; lra). reflexivity. Qed.
Lemma had_mid Q : 1 <= Q < 64 -> had Q = 1512 / 10 ^ 6 + 2822 / 10 ^ 6 * ln (1 + 1218 / 1000 * Q).
Proof. intros H. unfold had. replace (rltb Q 1) with false by (symmetry; apply rltb_false; lra). replace (rltb Q 64) with true by (symmetry; apply rltb_spec; lra). reflexivity. Qed.
Lemma had_high Q : 64 <= Q -> had Q = 11344 / 10 ^ 7 + 30680 / 10 ^ 7 * ln (1 + 99992 / 10 ^ 5 * Q).
Proof. intros H. unfold had. replace (rltb Q 1) with false by (symmetry; apply rltb_false; lra). replace (rltb Q 64) with false by (symmetry; apply rltb_false; lra). reflexivity. Qed.
Lemma ln_mono c Q Q' : 0 < c -> 0 <= Q < Q' -> ln (1 + c * Q) < ln (1 + c * Q').
Proof.
  intros C H. assert (0 <= c * Q) by (apply Rmult_le_pos; lra). assert (c * Q < c * Q') by (apply Rmult_lt_compat_l; lra). apply ln_increasing; lra.
Qed.
Lemma ln_mono_le c Q Q' : 0 < c -> 0 <= Q <= Q' -> ln (1 + c * Q) <= ln (1 + c * Q').
Proof. intros C [H [L|L]]; [left; apply ln_mono; lra|rewrite L; lra]. Qed.
(** Values at the joints. *)
Lemma below_1 Q : 0 <= Q < 1 -> had Q < 99 / 100 * (38 / 10000) /\ had Q < (1 - 3 / 1000) * had 1.
Proof.
  intros H. rewrite (had_low Q) by lra. rewrite (had_mid 1) by lra. pose proof (ln_mono (4091 / 1000) Q 1 ltac:(lra) ltac:(lra)). pose proof b_5091. pose proof b_2218. lra.
Qed.
Lemma below_64 Q : 0 <= Q < 64 -> had Q < (1 - 6 / 1000) * had 64.
Proof.
  intros H. rewrite (had_high 64) by lra. pose proof b_64995. destruct (Rlt_le_dec Q 1) as [L|L].
  - pose proof (proj1 (below_1 Q ltac:(lra))). lra.
  - rewrite had_mid by lra. pose proof (ln_mono (1218 / 1000) Q 64 ltac:(lra) ltac:(lra)). pose proof b_78952. lra.
Qed.
Lemma near_1 Q : 99 / 100 <= Q < 1 -> 99 / 100 * had 1 < had Q.
Proof. intros H. rewrite (had_low Q) by lra. rewrite (had_mid 1) by lra. pose proof (ln_mono_le (4091 / 1000) (99 / 100) Q ltac:(lra) ltac:(lra)). pose proof b_5050. pose proof b_2218. lra. Qed.
Lemma near_64 Q : 639 / 10 <= Q < 64 -> 99 / 100 * had 64 < had Q.
Proof. intros H. rewrite (had_mid Q) by lra. rewrite (had_high 64) by lra. pose proof (ln_mono_le (1218 / 1000) (639 / 10) Q ltac:(lra) ltac:(lra)). pose proof b_78830. pose proof b_64995. lra. Qed.
Lemma had_pos Q : 0 <= Q -> 0 < had Q.
Proof.
  intros H. destruct (Rlt_le_dec Q 1) as [L|L]; [rewrite had_low by lra|destruct (Rlt_le_dec Q 64) as [L'|L']; [rewrite had_mid by lra|rewrite had_high by lra]].
  - pose proof (ln_mono_le (4091 / 1000) 0 Q ltac:(lra) ltac:(lra)) as E. rewrite Rmult_0_r, Rplus_0_r, ln_1 in E. lra.
  - pose proof (ln_mono_le (1218 / 1000) 0 Q ltac:(lra) ltac:(lra)) as E. rewrite Rmult_0_r, Rplus_0_r, ln_1 in E. lra.
  - pose proof (ln_mono_le (99992 / 10 ^ 5) 0 Q ltac:(lra) ltac:(lra)) as E. rewrite Rmult_0_r, Rplus_0_r, ln_1 in E. lra.
Qed.
Lemma had_mono Q Q' : 0 <= Q < Q' -> had Q < had Q'.
Proof.
  intros H. destruct (Rlt_le_dec Q' 1) as [L|L].
  - rewrite !had_low by lra. pose proof (ln_mono (4091 / 1000) Q Q' ltac:(lra) ltac:(lra)). lra.
  - destruct (Rlt_le_dec Q' 64) as [L2|L2].
    + assert (M : had 1 <= had Q') by (rewrite !had_mid by lra; pose proof (ln_mono_le (1218 / 1000) 1 Q' ltac:(lra) ltac:(lra)); lra).
      destruct (Rlt_le_dec Q 1) as [L3|L3]; [pose proof (proj2 (below_1 Q ltac:(lra))); pose proof (had_pos 1 ltac:(lra)); lra|].
      rewrite !had_mid by lra. pose proof (ln_mono (1218 / 1000) Q Q' ltac:(lra) ltac:(lra)). lra.
    + assert (M : had 64 <= had Q') by (rewrite !had_high by lra; pose proof (ln_mono_le (99992 / 10 ^ 5) 64 Q' ltac:(lra) ltac:(lra)); lra).
      destruct (Rlt_le_dec Q 64) as [L3|L3]; [pose proof (below_64 Q ltac:(lra)); pose proof (had_pos 64 ltac:(lra)); lra|].
      rewrite !had_high by lra. pose proof (ln_mono (99992 / 10 ^ 5) Q Q' ltac:(lra) ltac:(lra)). lra.
Qed.
Lemma had_up Q Q' : had Q < had Q' -> delta_vac_had Q < delta_vac_had Q'.
Proof. intros H. rewrite !had_is. apply Rmult_lt_compat_l; [apply fac_pos|exact H]. Qed.
Lemma had_scale c Q Q' : had Q < c * had Q' -> delta_vac_had Q < c * delta_vac_had Q'.
Proof. intros H. rewrite !had_is. replace (c * (fac * had Q')) with (fac * (c * had Q')) by ring. apply Rmult_lt_compat_l; [apply fac_pos|exact H]. Qed.
Lemma had_scale' c Q Q' : c * had Q' < had Q -> c * delta_vac_had Q' < delta_vac_had Q.
Proof. intros H. rewrite !had_is. replace (c * (fac * had Q')) with (fac * (c * had Q')) by ring. apply Rmult_lt_compat_l; [apply fac_pos|exact H]. Qed.
Lemma vac_pos Q : 0 <= Q -> 0 < delta_vac_had Q.
Proof. intros H. rewrite had_is. apply Rmult_lt_0_compat; [apply fac_pos|apply had_pos; exact H]. Qed.
