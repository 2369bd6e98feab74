(** The dilogarithm in double arithmetic: argument reduction and the sum. *)
From Coq Require Import Reals ZArith Lia Lra Psatz.
From Flocq Require Import Core Relative Sterbenz.
From Coquelicot Require Import Coquelicot.
From Verif Require Import ExtModel TextModel TextNum MathModel MathProofs DilogSpec DilogProofs DilogError BoundProofs FMathModel FMathSpec FMathSeries FMathSum.
Local Open Scope R_scope.
Set Bullet Behavior "Strict Subproofs".
Global Instance prec53 : Prec_gt_0 53. Proof. reflexivity. Qed.
Notation fmt := (generic_format radix2 (FLT_exp (-1074) 53)).
Lemma RN_fmt x : fmt x -> RN x = x. Proof. intros H. unfold RN. apply round_generic; [typeclasses eauto|exact H]. Qed.
Lemma fmt_RN x : fmt (RN x). Proof. unfold RN. apply generic_format_round; typeclasses eauto. Qed.
Lemma RN_mono x y : x <= y -> RN x <= RN y. Proof. intros H. unfold RN. apply round_le; [typeclasses eauto|typeclasses eauto|exact H]. Qed.
Lemma fmt_opp x : fmt x -> fmt (- x). Proof. apply generic_format_opp. Qed.
Lemma fmt_bpow e : (-1074 <= e)%Z -> fmt (bpow radix2 e). Proof. intros H. apply generic_format_bpow. unfold FLT_exp. lia. Qed.
Lemma fmt_1 : fmt 1. Proof. apply (fmt_bpow 0). lia. Qed.
Lemma fmt_2 : fmt 2. Proof. apply (fmt_bpow 1). lia. Qed.
Lemma fmt_half : fmt (1 / 2). Proof. replace (1 / 2) with (bpow radix2 (-1)) by (cbn; lra). apply fmt_bpow. lia. Qed.
Lemma fmt_twice x : fmt x -> fmt (2 * x).
Proof.
  intros H. apply FLT_format_generic in H; [|reflexivity]. destruct H as [f Hx Hm He]. apply generic_format_FLT. exists (Float radix2 (Fnum f) (Fexp f + 1)).
  - rewrite Hx. unfold F2R. cbn [Fnum Fexp]. rewrite bpow_plus. change (bpow radix2 1) with 2. ring.
  - exact Hm.
  - cbn [Fexp]. lia.
Qed.
Lemma stz x y : fmt x -> fmt y -> y / 2 <= x <= 2 * y -> fmt (x - y).
Proof. intros X Y H. apply sterbenz; auto; typeclasses eauto. Qed.
Lemma small_double x : fmt x -> Rabs x <= 1000000 -> double x.
Proof. intros F H. split; [exact F|]. eapply Rle_lt_trans; [exact H|]. apply Rlt_le_trans with (bpow radix2 30); [cbn; lra|apply bpow_le; lia]. Qed.
Lemma double_opp x : double x -> double (- x). Proof. intros [F B]. split; [apply fmt_opp; auto|rewrite Rabs_Ropp; auto]. Qed.

(** Lipschitz bound of the series function *)
Lemma Li_lip s t : 0 <= s <= 1 / 2 -> 0 <= t <= 1 / 2 -> Rabs (Li s - Li t) <= 2 * Rabs (s - t).
Proof.
  assert (W : forall s t, 0 <= s -> s < t -> t <= 1 / 2 -> Rabs (Li t - Li s) <= 2 * Rabs (t - s)).
  { clear. intros s t S0 L T0. destruct (MVT_gen Li s t (fun y => - ln (1 - y) / y)) as (y & Hy & E).
    - rewrite Rmin_left, Rmax_right by lra. intros y Hy. apply Li_derive'; lra.
    - rewrite Rmin_left, Rmax_right by lra. intros y Hy. apply continuity_pt_filterlim. apply Li_cont. lra.
    - rewrite Rmin_left, Rmax_right in Hy by lra. rewrite E, Rabs_mult. apply Rmult_le_compat_r; [apply Rabs_pos|].
      destruct (Req_dec y 0) as [->|NY]; [unfold Rdiv; rewrite Rinv_0, Rmult_0_r, Rabs_R0; lra|].
      assert (Y : 0 < y) by lra. pose proof (ln_le_sub (/ (1 - y)) ltac:(apply Rinv_0_lt_compat; lra)) as U. rewrite ln_Rinv in U by lra.
      pose proof (ln_le_sub (1 - y) ltac:(lra)) as V.
      assert (Q : / (1 - y) - 1 <= 2 * y). { apply Rmult_le_reg_r with (1 - y); [lra|]. replace ((/ (1 - y) - 1) * (1 - y)) with y by (field; lra). nra. }
      rewrite Rabs_pos_eq; [|apply Rmult_le_pos; [lra|left; apply Rinv_0_lt_compat; lra]].
      apply Rmult_le_reg_r with y; [lra|]. unfold Rdiv. rewrite Rmult_assoc, Rinv_l by lra. lra. }
  intros S0 T0. destruct (Rtotal_order s t) as [L|[->|L]].
  - rewrite (Rabs_minus_sym (Li s)), (Rabs_minus_sym s). apply W; lra.
  - rewrite !Rminus_diag_eq by auto. rewrite Rabs_R0. lra.
  - apply W; lra.
Qed.
Lemma Li_small t : 0 <= t <= 1 / 2 -> Rabs (Li t) <= 1.
Proof. intros H. pose proof (Li_lip t 0 H ltac:(lra)) as L. rewrite Li_0, !Rminus_0_r, (Rabs_pos_eq t) in L by lra. lra. Qed.
Lemma eta_u0 : eta <= u0 * / 1000000. Proof. apply Rle_trans with (bpow radix2 (-80)); [apply bpow_le; lia|cbn; lra]. Qed.

Lemma c_bounds : 1.6 <= dilog_c <= 1.7.
Proof. unfold dilog_c. split; apply Rmult_le_reg_r with (IZR (10 ^ 127)); try (apply IZR_lt; reflexivity); unfold Rdiv; rewrite Rmult_assoc, Rinv_l by (apply not_0_IZR; discriminate); rewrite Rmult_1_r;
  [replace 1.6 with (16 * / 10) by lra|replace 1.7 with (17 * / 10) by lra]; apply Rmult_le_reg_l with 10; try lra.
Qed.
Lemma c0_bounds : 1.5 <= c0 <= 1.8 /\ Rabs (f_c - c0) <= 2 * u0.
Proof.
  pose proof c_close as C. pose proof c_bounds as B. assert (P : / 2 ^ 140 <= u0 * / 1000).
  { rewrite <- Rinv_mult. apply Rinv_le_contravar; [lra|]. replace (2 ^ 140) with (2 ^ 53 * 2 ^ 87) by (rewrite <- pow_add; reflexivity). replace (2 ^ 53) with 9007199254740992 by (cbn; lra).
    apply Rmult_le_compat_l; [lra|]. apply Rle_trans with (2 ^ 10); [cbn; lra|]. apply Rle_pow; [lra|lia]. }
  pose proof (RN_err dilog_c) as E. rewrite (Rabs_pos_eq dilog_c) in E by lra. fold f_c in E. pose proof eta_u0.
  apply Rabs_le_inv in C. apply Rabs_le_inv in E. split; [lra|]. apply Rabs_le. lra.
Qed.
(** products of library values *)
Lemma prod_err a b A B : Rabs (a - A) <= 2 * u0 * Rabs A -> Rabs (b - B) <= 2 * u0 * Rabs B -> Rabs (RN (a * b) - A * B) <= 5.1 * u0 * Rabs (A * B) + eta.
Proof.
  intros HA HB. pose proof (RN_err (a * b)) as E. pose proof (Rabs_pos A) as PA. pose proof (Rabs_pos B) as PB.
  assert (D : Rabs (a * b - A * B) <= (4 * u0 + 4 * u0 * u0) * (Rabs A * Rabs B)).
  { replace (a * b - A * B) with ((a - A) * (b - B) + (a - A) * B + A * (b - B)) by ring.
    eapply Rle_trans; [apply Rabs_triang|]. eapply Rle_trans; [apply Rplus_le_compat_r, Rabs_triang|]. rewrite !Rabs_mult.
    assert (Rabs (a - A) * Rabs (b - B) <= (2 * u0 * Rabs A) * (2 * u0 * Rabs B)) by (apply Rmult_le_compat; auto; apply Rabs_pos).
    assert (Rabs (a - A) * Rabs B <= (2 * u0 * Rabs A) * Rabs B) by (apply Rmult_le_compat_r; auto).
    assert (Rabs A * Rabs (b - B) <= Rabs A * (2 * u0 * Rabs B)) by (apply Rmult_le_compat_l; auto). lra. }
  assert (M : Rabs (a * b) <= Rabs (A * B) + Rabs (a * b - A * B)). { replace (a * b) with (A * B + (a * b - A * B)) at 1 by ring. apply Rabs_triang. }
  replace (RN (a * b) - A * B) with ((RN (a * b) - a * b) + (a * b - A * B)) by ring. eapply Rle_trans; [apply Rabs_triang|].
  assert (0 <= Rabs A * Rabs B) by (apply Rmult_le_pos; auto). rewrite (Rabs_mult A B) in *. lra.
Qed.
Lemma half_sq_err a A : Rabs (a - A) <= 2 * u0 * Rabs A -> Rabs (RN (0.5 * f_sq a) - 0.5 * (A * A)) <= 3.2 * u0 * (A * A) + 2 * eta.
Proof.
  intros HA. pose proof (prod_err a a A A HA HA) as P. rewrite (Rabs_pos_eq (A * A)) in P by nra. unfold f_sq. set (s := RN (a * a)) in *. pose proof (RN_err (0.5 * s)) as E.
  assert (Q : 0 <= A * A) by nra. assert (M : Rabs (0.5 * s) <= 0.5 * (A * A) + 0.5 * (5.1 * u0 * (A * A) + eta)).
  { rewrite Rabs_mult, (Rabs_pos_eq 0.5) by lra. assert (Rabs s <= A * A + (5.1 * u0 * (A * A) + eta)). { replace s with ((s - A * A) + A * A) by ring. eapply Rle_trans; [apply Rabs_triang|]. rewrite (Rabs_pos_eq (A * A)) by auto. lra. } lra. }
  replace (RN (0.5 * s) - 0.5 * (A * A)) with ((RN (0.5 * s) - 0.5 * s) + 0.5 * (s - A * A)) by ring. eapply Rle_trans; [apply Rabs_triang|]. rewrite (Rabs_mult 0.5), (Rabs_pos_eq 0.5) by lra. pose proof eta_pos. lra.
Qed.
Lemma sum_err a b A B da db K : Rabs (a - A) <= da -> Rabs (b - B) <= db -> Rabs (A + B) <= K -> Rabs (RN (a + b) - (A + B)) <= (da + db) * (1 + u0) + u0 * K + eta.
Proof.
  intros HA HB HK. pose proof (RN_err (a + b)) as E. assert (D : Rabs (a + b - (A + B)) <= da + db). { replace (a + b - (A + B)) with ((a - A) + (b - B)) by ring. eapply Rle_trans; [apply Rabs_triang|]. lra. }
  assert (M : Rabs (a + b) <= K + (da + db)). { replace (a + b) with ((A + B) + (a + b - (A + B))) by ring. eapply Rle_trans; [apply Rabs_triang|]. lra. }
  replace (RN (a + b) - (A + B)) with ((RN (a + b) - (a + b)) + (a + b - (A + B))) by ring. eapply Rle_trans; [apply Rabs_triang|]. lra.
Qed.

Lemma sqrt_le_one t : t <= 1 -> sqrt t <= 1.
Proof. intros H. apply sqrt_le_1_alt in H. rewrite sqrt_1 in H. exact H. Qed.
Section Dilog.
Context (log log1p expm1 : R -> R) (lib : libm (2 * u0) log log1p expm1).
Lemma log_close x : double x -> 0 < x -> Rabs (log x - ln x) <= 2 * u0 * Rabs (ln x).
Proof. intros D P. apply (log_ok _ _ _ _ lib x D P). Qed.
Lemma log1p_close x : double x -> -1 < x -> Rabs (log1p x - ln (1 + x)) <= 2 * u0 * Rabs (ln (1 + x)).
Proof. intros D P. apply (log1p_ok _ _ _ _ lib x D P). Qed.
Lemma log_53 : Rabs (log 53 - ln 53) <= / 1000000.
Proof.
  eapply Rle_trans; [apply log_close; [|lra]|].
  - apply small_double; [|rewrite Rabs_pos_eq; lra]. apply generic_format_FLT. exists (Float radix2 53 0); [unfold F2R; cbn; ring|cbn; lia|cbn; lia].
  - pose proof ln_53. pose proof ln_53_ge. rewrite Rabs_pos_eq by lra. lra.
Qed.
Lemma finish a x' x0 b' b0 e B : (a = 1 \/ a = -1) -> fmt x' -> 0 <= x' <= 1 / 2 -> 0 <= x0 <= 1 / 2 -> Rabs (x' - x0) <= 3 * u0 -> Rabs (b' - b0) <= e -> Rabs b0 <= B ->
  Rabs (RN (a * f_series x' (f_n_max log x') + b') - (a * Li x0 + b0)) <= (47 * u0 + e) * (1 + u0) + u0 * (1 + B) + eta.
Proof.
  intros Ha F H' H0 HX HB HB0. pose proof (f_series_err log x' ltac:(rewrite Rabs_pos_eq; lra) (RN_fmt _ F) log_53) as S. rewrite (Rabs_pos_eq x') in S by lra.
  pose proof (Li_lip x' x0 H' H0) as L. pose proof (Li_small x0 H0) as LS. set (s := f_series x' (f_n_max log x')) in *.
  assert (D : Rabs (s - Li x0) <= 46 * u0). { replace (s - Li x0) with ((s - Li x') + (Li x' - Li x0)) by ring. eapply Rle_trans; [apply Rabs_triang|]. lra. }
  assert (A1 : Rabs a = 1) by (destruct Ha as [->| ->]; [apply Rabs_R1|rewrite Rabs_left; lra]).
  eapply Rle_trans; [apply (sum_err (a * s) b' (a * Li x0) b0 (46 * u0) e (1 + B))|]; auto.
  - replace (a * s - a * Li x0) with (a * (s - Li x0)) by ring. rewrite Rabs_mult, A1. lra.
  - eapply Rle_trans; [apply Rabs_triang|]. rewrite Rabs_mult, A1. lra.
  - pose proof (Rabs_pos (b' - b0)). lra.
Qed.
Lemma arg_ok x' X : 0 <= X <= 1 / 2 -> x' = RN X -> fmt x' /\ 0 <= x' <= 1 / 2 /\ Rabs (x' - X) <= 3 * u0.
Proof.
  intros H ->. split; [apply fmt_RN|]. split.
  - split; [rewrite <- RN_0; apply RN_mono; lra|]. rewrite <- (RN_fmt _ fmt_half). apply RN_mono. lra.
  - pose proof (RN_err X) as E. rewrite (Rabs_pos_eq X) in E by lra. pose proof eta_u0. lra.
Qed.
(** above 2 *)
Lemma case_high x : double x -> 2 < x -> Rabs (f_dilog log log1p x - dilog_full x) <= 100 * u0 * (1 + ln (1 + Rabs x) * ln (1 + Rabs x)).
Proof.
  intros Dx H. rewrite full_high by lra. unfold f_dilog, f_reduce. rewrite (rl_t 2 x) by lra. unfold f_high.
  replace (2 * c0 - 1 / 2 * (ln x * ln x) - Li (1 / x)) with (-1 * Li (1 / x) + (2 * c0 - 1 / 2 * (ln x * ln x))) by ring.
  assert (X : 0 <= 1 / x <= 1 / 2). { split; [left; apply Rdiv_lt_0_compat; lra|]. apply Rmult_le_reg_r with x; [lra|]. unfold Rdiv at 1. rewrite Rmult_assoc, Rinv_l by lra. lra. }
  destruct (arg_ok _ _ X eq_refl) as (F & X' & EX). destruct c0_bounds as (CB & CE).
  pose proof (half_sq_err (log x) (ln x) (log_close x Dx ltac:(lra))) as HS. set (L := ln x) in *. set (hs := RN (0.5 * f_sq (log x))) in *.
  assert (E2 : RN (2 * f_c) = 2 * f_c) by (apply RN_fmt, fmt_twice, fmt_RN). rewrite E2.
  assert (Q : 0 <= L * L) by nra. pose proof eta_u0 as EU. pose proof eta_pos as EP.
  assert (LL : L * L <= ln (1 + Rabs x) * ln (1 + Rabs x)).
  { rewrite (Rabs_pos_eq x) by lra. assert (0 < L) by (unfold L; rewrite <- ln_1; apply ln_increasing; lra). assert (L <= ln (1 + x)) by (left; apply ln_increasing; lra). nra. }
  set (T := L * L) in *.
  assert (HB : Rabs (RN (2 * f_c - hs) - (2 * c0 - 1 / 2 * T)) <= 9 * u0 + 4 * u0 * T).
  { eapply Rle_trans; [apply (sum_err (2 * f_c) (- hs) (2 * c0) (- (1 / 2 * T)) (4 * u0) (3.2 * u0 * T + 2 * eta) (3.6 + T / 2))|].
    - replace (2 * f_c - 2 * c0) with (2 * (f_c - c0)) by ring. rewrite Rabs_mult, (Rabs_pos_eq 2) by lra. lra.
    - replace (- hs - - (1 / 2 * T)) with (- (hs - 0.5 * T)) by lra. rewrite Rabs_Ropp. exact HS.
    - apply Rabs_le. lra.
    - lra. }
  eapply Rle_trans; [apply (finish (-1) _ _ _ _ (9 * u0 + 4 * u0 * T) (3.6 + T / 2)); eauto; apply Rabs_le; lra|]. lra.
Qed.
(** between 1 and 2 *)
Lemma case_one_two x : double x -> 1 < x <= 2 -> Rabs (f_dilog log log1p x - dilog_full x) <= 100 * u0.
Proof.
  intros Dx H. rewrite full_high by lra. rewrite <- high_mid by lra. unfold f_dilog, f_reduce. rewrite (rl_f 2 x), (rl_t 1 x) by lra. unfold f_log_log1m. rewrite (rl_t 1 x) by lra.
  assert (D1 : RN (x - 1) = x - 1) by (apply RN_fmt, stz; [apply Dx|apply fmt_1|lra]). rewrite D1.
  assert (FD : double (x - 1)) by (apply small_double; [rewrite <- D1; apply fmt_RN|rewrite Rabs_pos_eq; lra]).
  replace (c0 + 1 / 2 * (ln x * ln x) - ln x * ln (x - 1) + Li ((x - 1) / x)) with (1 * Li ((x - 1) / x) + (c0 + 1 / 2 * (ln x * ln x) - ln x * ln (x - 1))) by ring.
  assert (X : 0 <= (x - 1) / x <= 1 / 2). { split; [apply Rmult_le_pos; [lra|left; apply Rinv_0_lt_compat; lra]|]. apply Rmult_le_reg_r with x; [lra|]. unfold Rdiv at 1. rewrite Rmult_assoc, Rinv_l by lra. lra. }
  destruct (arg_ok _ _ X eq_refl) as (F & X' & EX). destruct c0_bounds as (CB & CE).
  assert (LX : 0 < ln x <= x - 1) by (split; [rewrite <- ln_1; apply ln_increasing; lra|apply ln_le_sub; lra]).
  assert (PB : Rabs (ln x * ln (x - 1)) <= 2).
  { destruct (Req_dec x 2) as [->|N2]; [replace (2 - 1) with 1 by ring; rewrite ln_1, Rmult_0_r, Rabs_R0; lra|].
    pose proof (t_ln_t (x - 1) ltac:(lra)) as T. assert (SQ : sqrt (x - 1) <= 1) by (apply sqrt_le_one; lra).
    rewrite Rabs_mult in T |- *. rewrite (Rabs_pos_eq (ln x)) by lra. rewrite (Rabs_pos_eq (x - 1)) in T by lra. pose proof (Rabs_pos (ln (x - 1))) as PP.
    apply Rle_trans with ((x - 1) * Rabs (ln (x - 1))); [apply Rmult_le_compat_r; lra|lra]. }
  pose proof (half_sq_err (log x) (ln x) (log_close x Dx ltac:(lra))) as HS. pose proof (prod_err (log x) (log (x - 1)) _ _ (log_close x Dx ltac:(lra)) (log_close (x - 1) FD ltac:(lra))) as HP.
  set (L := ln x) in *. set (P := L * ln (x - 1)) in *. set (hs := RN (0.5 * f_sq (log x))) in *. set (hp := RN (log x * log (x - 1))) in *.
  assert (Q : 0 <= L * L <= 1) by nra. pose proof eta_u0 as EU. pose proof eta_pos as EP. set (T := L * L) in *.
  assert (H1 : Rabs (RN (f_c + hs) - (c0 + 1 / 2 * T)) <= 8 * u0).
  { eapply Rle_trans; [apply (sum_err f_c hs c0 (1 / 2 * T) (2 * u0) (3.2 * u0 * T + 2 * eta) 2.3)|lra]; [exact CE|replace (hs - 1 / 2 * T) with (hs - 0.5 * T) by lra; exact HS|apply Rabs_le; lra]. }
  assert (PB' := PB). apply Rabs_le_inv in PB'.
  assert (HB : Rabs (RN (RN (f_c + hs) - hp) - (c0 + 1 / 2 * T - P)) <= 23 * u0).
  { eapply Rle_trans; [apply (sum_err (RN (f_c + hs)) (- hp) (c0 + 1 / 2 * T) (- P) (8 * u0) (10.3 * u0) 4.3)|lra].
    - exact H1.
    - replace (- hp - - P) with (- (hp - P)) by ring. rewrite Rabs_Ropp. eapply Rle_trans; [exact HP|]. lra.
    - apply Rabs_le. lra. }
  eapply Rle_trans; [apply (finish 1 _ _ _ _ (23 * u0) 4.3); eauto; apply Rabs_le; lra|]. lra.
Qed.
(** between 1/2 and 1 *)
Lemma case_half_one x : double x -> 1 / 2 < x <= 1 -> Rabs (f_dilog log log1p x - dilog_full x) <= 100 * u0.
Proof.
  intros Dx H. unfold f_dilog, f_reduce, dilog_full, dilog_reduce. rewrite !(rl_f 2 x), !(rl_f 1 x), !(rl_t 0.5 x) by lra.
  assert (D1 : RN (1 - x) = 1 - x). { apply RN_fmt. replace (1 - x) with (- (x - 1)) by ring. apply fmt_opp, stz; [apply Dx|apply fmt_1|lra]. }
  assert (D2 : RN (x - 1) = x - 1) by (apply RN_fmt, stz; [apply Dx|apply fmt_1|lra]).
  assert (FD : double (1 - x)) by (apply small_double; [rewrite <- D1; apply fmt_RN|rewrite Rabs_pos_eq; lra]).
  assert (FD2 : double (x - 1)) by (replace (x - 1) with (- (1 - x)) by ring; apply double_opp; auto).
  destruct (arg_ok (RN (1 - x)) (1 - x) ltac:(lra) eq_refl) as (F & X' & EX). destruct c0_bounds as (CB & CE). pose proof eta_u0 as EU. pose proof eta_pos as EP.
  assert (HB : Rabs (RN (f_c - f_log_log1m log log1p x) - (c0 - log_log1m x)) <= 29 * u0 /\ Rabs (c0 - log_log1m x) <= 5.8).
  { unfold f_log_log1m, log_log1m. rewrite !(rl_f 1 x), !(rl_t 0.5 x) by lra. destruct (reqb x 1) eqn:E1.
    - rewrite !Rminus_0_r. split; [|apply Rabs_le; lra]. pose proof (sum_err f_c 0 c0 0 (2 * u0) 0 1.8 CE ltac:(rewrite Rminus_0_r, Rabs_R0; lra) ltac:(apply Rabs_le; lra)) as E. rewrite !Rplus_0_r in E. eapply Rle_trans; [exact E|]. lra.
    - assert (N1 : x <> 1) by (intros ->; rewrite (proj2 (reqb_spec 1 1) eq_refl) in E1; discriminate). rewrite D1, D2.
      pose proof (log1p_close (x - 1) FD2 ltac:(lra)) as A. replace (1 + (x - 1)) with x in A by ring. pose proof (log_close (1 - x) FD ltac:(lra)) as B.
      pose proof (prod_err _ _ _ _ A B) as HP. unfold MathModel.log1p. replace (1 + (x - 1)) with x by ring.
      pose proof (ln_ln x ltac:(lra) N1) as PB. assert (SQ : sqrt (Rabs (x - 1)) <= 1) by (apply sqrt_le_one; rewrite Rabs_left1; lra).
      replace (Rabs (x - 1)) with (1 - x) in PB, SQ by (rewrite Rabs_left1; lra).
      set (P := ln x * ln (1 - x)) in *. set (hp := RN (log1p (x - 1) * log (1 - x))) in *. assert (PB4 : Rabs P <= 4) by lra. assert (PB' := PB4). apply Rabs_le_inv in PB'. split; [|apply Rabs_le; lra].
      eapply Rle_trans; [apply (sum_err f_c (- hp) c0 (- P) (2 * u0) (20.5 * u0) 5.8)|lra].
      + exact CE.
      + replace (- hp - - P) with (- (hp - P)) by ring. rewrite Rabs_Ropp. eapply Rle_trans; [exact HP|]. lra.
      + apply Rabs_le. lra. }
  destruct HB as (HB & BB). eapply Rle_trans; [apply (finish (-1) _ (1 - x) _ _ (29 * u0) 5.8); eauto; lra|]. lra.
Qed.
(** around zero the error is relative *)
Lemma f_loop_fmt x fuel : forall n r p, fmt r -> fmt (f_loop x fuel n r p).
Proof. induction fuel as [|fuel IH]; intros n r p H; [exact H|]. cbn [f_loop]. apply IH, fmt_RN. Qed.
Lemma case_mid x : double x -> -1 / 2 < x <= 1 / 2 -> Rabs (f_dilog log log1p x - dilog_full x) <= 80 * u0 * Rabs x.
Proof.
  intros Dx H. rewrite full_mid by lra. unfold f_dilog, f_reduce. rewrite (rl_f 2 x), (rl_f 1 x), (rl_f 0.5 x), (rl_t (-0.5) x) by lra. rewrite Rplus_0_r, Rmult_1_l.
  rewrite RN_fmt by (apply f_loop_fmt, generic_format_0). apply f_series_err; [apply Rabs_le; lra|apply RN_fmt, Dx|exact log_53].
Qed.
(** between -1 and -1/2 *)
Lemma case_neg x : double x -> -1 < x <= -1 / 2 -> Rabs (f_dilog log log1p x - dilog_full x) <= 100 * u0.
Proof.
  intros Dx H. unfold f_dilog, f_reduce, dilog_full, dilog_reduce. rewrite !(rl_f 2 x), !(rl_f 1 x), !(rl_f 0.5 x), !(rl_f (-0.5) x), !(rl_t (-1) x) by lra.
  pose proof eta_u0 as EU. pose proof eta_pos as EP.
  assert (Q2 : RN (x - 1) <= 2 * x). { rewrite <- (RN_fmt (2 * x)) by apply fmt_twice, Dx. apply RN_mono. lra. }
  pose proof (RN_err (x - 1)) as EQ. rewrite (Rabs_left1 (x - 1)) in EQ by lra. set (q := RN (x - 1)) in *. apply Rabs_le_inv in EQ.
  assert (X0 : 0 <= x / q <= 1 / 2). { split; [replace (x / q) with ((- x) / (- q)) by (field; lra); left; apply Rdiv_lt_0_compat; lra|]. apply Rmult_le_reg_r with (- q); [lra|]. replace (x / q * - q) with (- x) by (field; lra). lra. }
  destruct (arg_ok _ _ X0 eq_refl) as (F & X' & EX).
  assert (X1 : 0 <= x / (x - 1) <= 1 / 2). { split; [replace (x / (x - 1)) with ((- x) / (1 - x)) by (field; lra); left; apply Rdiv_lt_0_compat; lra|]. apply Rmult_le_reg_r with (1 - x); [lra|]. replace (x / (x - 1) * (1 - x)) with (- x) by (field; lra). lra. }
  assert (DQ : Rabs (x / q - x / (x - 1)) <= 1.5 * u0).
  { replace (x / q - x / (x - 1)) with (x / q * ((x - 1 - q) / (x - 1))) by (field; lra). rewrite Rabs_mult, (Rabs_pos_eq (x / q)) by lra.
    assert (Rabs ((x - 1 - q) / (x - 1)) <= 3 * u0). { unfold Rdiv. rewrite Rabs_mult. assert (Rabs (/ (x - 1)) <= 1). { rewrite Rabs_inv, Rabs_left1 by lra. rewrite <- Rinv_1. apply Rinv_le_contravar; lra. }
      assert (Rabs (x - 1 - q) <= 3 * u0) by (apply Rabs_le; lra). pose proof (Rabs_pos (x - 1 - q)). pose proof (Rabs_pos (/ (x - 1))). nra. }
    pose proof (Rabs_pos ((x - 1 - q) / (x - 1))). nra. }
  assert (EX2 : Rabs (RN (x / q) - x / (x - 1)) <= 3 * u0).
  { pose proof (RN_err (x / q)) as E. rewrite (Rabs_pos_eq (x / q)) in E by lra. replace (RN (x / q) - x / (x - 1)) with ((RN (x / q) - x / q) + (x / q - x / (x - 1))) by ring. eapply Rle_trans; [apply Rabs_triang|]. lra. }
  pose proof (log1p_close (- x) (double_opp _ Dx) ltac:(lra)) as A. pose proof (half_sq_err _ _ A) as HS. unfold sq, MathModel.log1p.
  assert (LB : 0 <= ln (1 + - x) <= 1). { split; [rewrite <- ln_1; left; apply ln_increasing; lra|]. pose proof (ln_le_sub (1 + - x) ltac:(lra)). lra. }
  set (L := ln (1 + - x)) in *. assert (T : 0 <= L * L <= 1) by nra.
  assert (NE : RN (- 0.5 * f_sq (log1p (- x))) = - RN (0.5 * f_sq (log1p (- x)))) by (rewrite <- RN_opp; f_equal; lra). rewrite NE.
  assert (HB : Rabs (- RN (0.5 * f_sq (log1p (- x))) - - 0.5 * (L * L)) <= 4 * u0).
  { replace (- RN (0.5 * f_sq (log1p (- x))) - - 0.5 * (L * L)) with (- (RN (0.5 * f_sq (log1p (- x))) - 0.5 * (L * L))) by lra. rewrite Rabs_Ropp. lra. }
  eapply Rle_trans; [apply (finish (-1) _ (x / (x - 1)) _ _ (4 * u0) 1); eauto; apply Rabs_le; lra|]. lra.
Qed.
(** up to -1 *)
Lemma case_low x : double x -> x <= -1 -> Rabs (f_dilog log log1p x - dilog_full x) <= 100 * u0 * (1 + ln (1 + Rabs x) * ln (1 + Rabs x)).
Proof.
  intros Dx H. unfold f_dilog, f_reduce, dilog_full, dilog_reduce. rewrite !(rl_f 2 x), !(rl_f 1 x), !(rl_f 0.5 x), !(rl_f (-0.5) x), !(rl_f (-1) x) by lra.
  pose proof eta_u0 as EU. pose proof eta_pos as EP. destruct c0_bounds as (CB & CE).
  assert (Q2 : 2 <= RN (1 - x)). { rewrite <- (RN_fmt 2) by apply fmt_2. apply RN_mono. lra. }
  pose proof (RN_err (1 - x)) as EQ. rewrite (Rabs_pos_eq (1 - x)) in EQ by lra. set (q := RN (1 - x)) in *.
  assert (inv2 : forall z, 2 <= z -> 0 <= 1 / z <= 1 / 2). { intros z Z. split; [left; apply Rdiv_lt_0_compat; lra|]. unfold Rdiv. rewrite !Rmult_1_l. apply Rinv_le_contravar; lra. }
  pose proof (inv2 q Q2) as X0. pose proof (inv2 (1 - x) ltac:(lra)) as X1. destruct (arg_ok _ _ X0 eq_refl) as (F & X' & EX).
  assert (DQ : Rabs (1 / q - 1 / (1 - x)) <= u0).
  { replace (1 / q - 1 / (1 - x)) with ((- (q - (1 - x))) * / (1 - x) * / q) by (field; lra). rewrite !Rabs_mult, Rabs_Ropp, (Rabs_pos_eq (/ (1 - x))), (Rabs_pos_eq (/ q)) by (left; apply Rinv_0_lt_compat; lra).
    assert (Rabs (q - (1 - x)) * / (1 - x) <= 1.5 * u0). { apply Rmult_le_reg_r with (1 - x); [lra|]. rewrite Rmult_assoc, Rinv_l by lra. nra. }
    assert (/ q <= / 2) by (apply Rinv_le_contravar; lra). assert (0 < / q) by (apply Rinv_0_lt_compat; lra).
    assert (0 <= Rabs (q - (1 - x)) * / (1 - x)) by (apply Rmult_le_pos; [apply Rabs_pos|left; apply Rinv_0_lt_compat; lra]). nra. }
  assert (EX2 : Rabs (RN (1 / q) - 1 / (1 - x)) <= 3 * u0).
  { pose proof (RN_err (1 / q)) as E. rewrite (Rabs_pos_eq (1 / q)) in E by lra. replace (RN (1 / q) - 1 / (1 - x)) with ((RN (1 / q) - 1 / q) + (1 / q - 1 / (1 - x))) by ring. eapply Rle_trans; [apply Rabs_triang|]. lra. }
  pose proof (log1p_close (- x) (double_opp _ Dx) ltac:(lra)) as A. pose proof (half_sq_err _ _ A) as HS. pose proof (log_close (- x) (double_opp _ Dx) ltac:(lra)) as B. pose proof (prod_err _ _ _ _ B A) as HP.
  unfold f_log_log1m, log_log1m. rewrite !(rl_f 1 x), !(rl_f 0.5 x), !(rl_f 0 x) by lra. assert (R1 : reqb x 1 = false) by (destruct (reqb x 1) eqn:E; [apply reqb_spec in E; lra|reflexivity]). rewrite !R1.
  unfold sq, MathModel.log1p. rewrite (Rabs_left1 x) by lra.
  assert (L1 : 0 <= ln (- x)) by (destruct (Req_dec x (-1)) as [->|]; [replace (- -1) with 1 by ring; rewrite ln_1; lra|rewrite <- ln_1; left; apply ln_increasing; lra]).
  assert (L2 : ln (- x) <= ln (1 + - x)) by (left; apply ln_increasing; lra).
  set (L := ln (1 + - x)) in *. set (M := ln (- x)) in *. assert (T0 : 0 <= M * L <= L * L) by (split; [apply Rmult_le_pos; lra|apply Rmult_le_compat_r; lra]). rewrite (Rabs_pos_eq (M * L)) in HP by lra.
  set (T := L * L) in *. set (P := M * L) in *. set (hs := RN (0.5 * f_sq (log1p (- x)))) in *. set (hp := RN (log (- x) * log1p (- x))) in *.
  assert (H1 : Rabs (RN (- f_c + hs) - (- c0 + 0.5 * T)) <= 4 * u0 + 3.8 * u0 * T).
  { eapply Rle_trans; [apply (sum_err (- f_c) hs (- c0) (0.5 * T) (2 * u0) (3.2 * u0 * T + 2 * eta) (1.8 + T / 2))|lra].
    - replace (- f_c - - c0) with (- (f_c - c0)) by ring. rewrite Rabs_Ropp. exact CE.
    - exact HS.
    - apply Rabs_le. lra. }
  assert (HB : Rabs (RN (RN (- f_c + hs) - hp) - (- c0 + 0.5 * T - P)) <= 7 * u0 + 11 * u0 * T).
  { eapply Rle_trans; [apply (sum_err (RN (- f_c + hs)) (- hp) (- c0 + 0.5 * T) (- P) (4 * u0 + 3.8 * u0 * T) (5.1 * u0 * T + eta) (1.8 + 2 * T))|lra].
    - exact H1.
    - replace (- hp - - P) with (- (hp - P)) by ring. rewrite Rabs_Ropp. eapply Rle_trans; [exact HP|]. lra.
    - apply Rabs_le. lra. }
  eapply Rle_trans; [apply (finish 1 _ (1 / (1 - x)) _ _ (7 * u0 + 11 * u0 * T) (1.8 + 2 * T)); eauto; apply Rabs_le; lra|]. lra.
Qed.
Lemma f_dilog_error D x : is_dilog D -> double x -> Rabs (f_dilog log log1p x - D x) <= 100 * u0 * (1 + ln (1 + Rabs x) * ln (1 + Rabs x)).
Proof.
  intros HD Dx. rewrite (dilog_unique D dilog_full HD full_is_dilog). assert (Q : 0 <= ln (1 + Rabs x) * ln (1 + Rabs x)) by nra.
  assert (W : forall y, y <= 100 * u0 -> y <= 100 * u0 * (1 + ln (1 + Rabs x) * ln (1 + Rabs x))) by (intros; nra).
  destruct (Rlt_le_dec 2 x); [apply case_high; auto|]. destruct (Rlt_le_dec 1 x); [apply W, case_one_two; auto|].
  destruct (Rlt_le_dec (1 / 2) x); [apply W, case_half_one; auto|]. destruct (Rlt_le_dec (-1 / 2) x).
  - apply W. eapply Rle_trans; [apply case_mid; auto|]. assert (Rabs x <= 1 / 2) by (apply Rabs_le; lra). lra.
  - destruct (Rlt_le_dec (-1) x); [apply W, case_neg; auto; lra|apply case_low; auto].
Qed.
Lemma f_dilog_small D x : is_dilog D -> double x -> -1 / 2 < x <= 1 / 2 -> Rabs (f_dilog log log1p x - D x) <= 80 * u0 * Rabs x.
Proof. intros HD Dx H. rewrite (dilog_unique D dilog_full HD full_is_dilog). apply case_mid; auto. Qed.
End Dilog.
