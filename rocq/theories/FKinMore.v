(** Rounding errors of the variables computed from V_m, and of the longitudinal momentum. *)
From Coq Require Import Reals ZArith Lia Lra Psatz.
From Flocq Require Import Core.
From Verif Require Import ExtModel BoundProofs TextModel TextNum FMathModel FMathSpec FMathSeries FMathDilog FMathSqrt FKinModel FKinSpec FKinRel FKinProofs.
Local Open Scope R_scope.
Set Bullet Behavior "Strict Subproofs".

Lemma add_err a b c d ea eb B : Rabs (a - c) <= ea -> Rabs (b - d) <= eb -> Rabs (a + b) <= B -> bp (-1000) <= B -> Rabs (RN (a + b) - (c + d)) <= ea + eb + 1.0001 * u0 * B.
Proof.
  intros A D H L. pose proof (RN_abs _ _ H L) as E. replace (RN (a + b) - (c + d)) with ((RN (a + b) - (a + b)) + ((a - c) + (b - d))) by ring.
  eapply Rle_trans; [apply Rabs_triang|]. pose proof (Rabs_triang (a - c) (b - d)). lra.
Qed.
Lemma sub_err a b c d ea eb B : Rabs (a - c) <= ea -> Rabs (b - d) <= eb -> Rabs (a - b) <= B -> bp (-1000) <= B -> Rabs (RN (a - b) - (c - d)) <= ea + eb + 1.0001 * u0 * B.
Proof.
  intros A D H L. replace (a - b) with (a + - b) in * by ring. replace (c - d) with (c + - d) by ring. apply add_err; try assumption. replace (- b - - d) with (- (b - d)) by ring. rewrite Rabs_Ropp. exact D.
Qed.
Lemma near_abs a c e' : Rabs (a - c) <= e' -> Rabs a <= Rabs c + e'.
Proof. intros H. replace a with ((a - c) + c) by ring. eapply Rle_trans; [apply Rabs_triang|]. lra. Qed.
Section More.
Context (log log1p expm1 : R -> R) (lib : libm (2 * u0) log log1p expm1).
Context (S M mh x y z p : R).
Hypotheses (HS : inr 50 S) (HM : inr 50 M) (Hmh : inr 50 mh) (Hx : inr 50 x) (Hy : inr 50 y) (Hz : inr 50 z) (Hp : p = 0 \/ inr 100 p).
Let e := energy S M y z. Let v := virtuality S M x y. Let s := slowness S M mh y z p. Let q := S * x * y. Let sx := S * y. Let sc := scale S M mh x y z p.
Hypotheses (Hs : s <= 3 / 4) (Hv : v <= 3).
Let V := photon_hadron S M mh x y z p. Let V' := f_V_m log1p expm1 S M mh x y z p.
Lemma V_err' : Rabs (V' - V) <= 45 * u0 * sc /\ Rabs V <= sc /\ 0 <= sc.
Proof.
  pose proof (V_err log log1p expm1 lib S M mh x y z p HS HM Hmh Hx Hy Hz Hp Hs Hv) as (A & B). split; [exact A|]. split; [exact B|]. apply Rle_trans with (Rabs V); [apply Rabs_pos|exact B].
Qed.
Lemma e_mh : Rabs (f_sq mh - mh ^ 2) <= 1.001 * u0 * mh ^ 2.
Proof. destruct (appr_sq 50 0 mh mh ltac:(lia) (appr_exact _ _ Hmh)) as (_ & _ & R). apply (rel_num 1) in R; [|lia|nra]. replace (mh * mh) with (mh ^ 2) in R by ring. replace (INR 1) with 1 in R by (cbn; lra). lra. Qed.
Lemma e_M : Rabs (f_sq M - M ^ 2) <= 1.001 * u0 * M ^ 2.
Proof. destruct (appr_sq 50 0 M M ltac:(lia) (appr_exact _ _ HM)) as (_ & _ & R). apply (rel_num 1) in R; [|lia|nra]. replace (M * M) with (M ^ 2) in R by ring. replace (INR 1) with 1 in R by (cbn; lra). lra. Qed.
Lemma e_q : Rabs (f_Q_sq S x y - q) <= 2.001 * u0 * q /\ 0 < q.
Proof. destruct (a_q S x y HS Hx Hy) as (_ & B & R). pose proof (inr_pos _ _ B). split; [|assumption]. apply (rel_num 2) in R; [|lia|lra]. replace (INR 2) with 2 in R by (cbn; lra). fold q in R. lra. Qed.
Lemma e_sx : Rabs (f_S_x S y - sx) <= 1.001 * u0 * sx /\ 0 < sx.
Proof. destruct (a_sx S y HS Hy) as (_ & B & R). pose proof (inr_pos _ _ B). split; [|assumption]. apply (rel_num 1) in R; [|lia|lra]. replace (INR 1) with 1 in R by (cbn; lra). fold sx in R. lra. Qed.
Lemma sq_low a : inr 50 a -> bp (-1000) <= a ^ 2.
Proof. intros A. destruct (inr_mul 50 50 a a A A) as (L & _). replace (a ^ 2) with (a * a) by ring. eapply Rle_trans; [|exact L]. apply bpow_le. lia. Qed.
Lemma t_err : Rabs (f_t log1p expm1 S M mh x y z p - transfer S M mh x y z p) <= 5 * u0 * (mh ^ 2 + q) + 95 * u0 * sc.
Proof.
  destruct V_err' as (VE & VB & SC). pose proof e_mh as EM. destruct e_q as (EQ & Q0). pose proof (sq_low mh Hmh) as LM. pose proof (bpow_gt_0 radix2 (-1000)) as P. set (m2 := mh ^ 2) in *.
  assert (M0 : 0 < m2) by lra. unfold f_t, transfer. fold q V V' m2. set (a := f_sq mh) in *. set (b := f_Q_sq S x y) in *. set (Bt := m2 + q).
  assert (E1 : Rabs (RN (a - b) - (m2 - q)) <= 1.001 * u0 * m2 + 2.001 * u0 * q + 1.0001 * u0 * (1.0001 * Bt)).
  { apply sub_err; [exact EM|exact EQ| |unfold Bt; lra]. apply near_abs in EM. apply near_abs in EQ. rewrite (Rabs_pos_eq m2) in EM by lra. rewrite (Rabs_pos_eq q) in EQ by lra. unfold Rminus. eapply Rle_trans; [apply Rabs_triang|]. rewrite Rabs_Ropp. unfold Bt. lra. }
  pose proof (near_abs _ _ _ VE) as VB'.
  assert (E2 : Rabs (RN (2 * V') - 2 * V) <= 92.2 * u0 * sc + 0.001 * u0 * Bt).
  { assert (B2 : Rabs (2 * V') <= 2.0001 * sc + 0.0001 * Bt) by (rewrite Rabs_mult, (Rabs_pos_eq 2) by lra; unfold Bt; lra).
    assert (L2 : bp (-1000) <= 2.0001 * sc + bp (-1000)) by lra. assert (BX : Rabs (2 * V') <= 2.0001 * sc + bp (-1000)) by (rewrite Rabs_mult, (Rabs_pos_eq 2) by lra; lra).
    pose proof (RN_err (2 * V')) as R1. assert (ET : eta <= 0.0001 * u0 * bp (-1000)).
    { replace (bp (-1075)) with (bp (-75) * bp (-1000)) by (rewrite <- bpow_plus; reflexivity). apply Rmult_le_compat_r; [apply bpow_ge_0|]. cbn. lra. }
    assert (U : u0 * Rabs (2 * V') <= u0 * (2.0001 * sc)) by (apply Rmult_le_compat_l; [lra|]; rewrite Rabs_mult, (Rabs_pos_eq 2) by lra; lra).
    replace (RN (2 * V') - 2 * V) with ((RN (2 * V') - 2 * V') + 2 * (V' - V)) by ring. eapply Rle_trans; [apply Rabs_triang|]. rewrite (Rabs_mult 2 (V' - V)), (Rabs_pos_eq 2) by lra. unfold Bt. lra. }
  assert (E3 : Rabs (RN (RN (a - b) - RN (2 * V')) - (m2 - q - 2 * V)) <= (1.001 * u0 * m2 + 2.001 * u0 * q + 1.0001 * u0 * (1.0001 * Bt)) + (92.2 * u0 * sc + 0.001 * u0 * Bt) + 1.0001 * u0 * (1.001 * Bt + 2.001 * sc)).
  { apply sub_err; [exact E1|exact E2| |unfold Bt; lra]. apply near_abs in E1. apply near_abs in E2. rewrite (Rabs_mult 2 V), (Rabs_pos_eq 2) in E2 by lra. assert (Rabs (m2 - q) <= Bt) by (unfold Bt; apply Rabs_le; lra). unfold Rminus at 1. eapply Rle_trans; [apply Rabs_triang|]. rewrite Rabs_Ropp. unfold Bt in *. lra. }
  eapply Rle_trans; [exact E3|]. unfold Bt. lra.
Qed.
Lemma t_abs : Rabs (transfer S M mh x y z p) <= mh ^ 2 + q + 2 * sc.
Proof.
  destruct V_err' as (_ & VB & SC). destruct e_q as (_ & Q0). unfold transfer. fold q V. apply Rabs_le_inv in VB. assert (0 <= mh ^ 2) by nra. apply Rabs_le. lra.
Qed.
Lemma W_err : Rabs (f_W_sq S M x y - (M ^ 2 + sx - q)) <= 4 * u0 * (M ^ 2 + sx + q).
Proof.
  pose proof e_M as EM. destruct e_q as (EQ & Q0). destruct e_sx as (EX & X0). pose proof (sq_low M HM) as LM. pose proof (bpow_gt_0 radix2 (-1000)) as P. unfold f_W_sq. set (m2 := M ^ 2) in *. assert (M0 : 0 < m2) by lra.
  assert (E1 : Rabs (RN (f_sq M + f_S_x S y) - (m2 + sx)) <= 1.001 * u0 * m2 + 1.001 * u0 * sx + 1.0001 * u0 * (1.0001 * (m2 + sx))).
  { apply add_err; [exact EM|exact EX| |lra]. apply near_abs in EM. apply near_abs in EX. rewrite (Rabs_pos_eq m2) in EM by lra. rewrite (Rabs_pos_eq sx) in EX by lra. eapply Rle_trans; [apply Rabs_triang|]. lra. }
  assert (E2 : Rabs (RN (RN (f_sq M + f_S_x S y) - f_Q_sq S x y) - (m2 + sx - q)) <= (1.001 * u0 * m2 + 1.001 * u0 * sx + 1.0001 * u0 * (1.0001 * (m2 + sx))) + 2.001 * u0 * q + 1.0001 * u0 * (1.001 * (m2 + sx + q))).
  { apply sub_err; [exact E1|exact EQ| |lra]. apply near_abs in E1. apply near_abs in EQ. rewrite (Rabs_pos_eq (m2 + sx)) in E1 by lra. rewrite (Rabs_pos_eq q) in EQ by lra. unfold Rminus. eapply Rle_trans; [apply Rabs_triang|]. rewrite Rabs_Ropp. lra. }
  lra.
Qed.
Lemma mx_err : Rabs (f_mx_sq log1p expm1 S M mh x y z p - missing S M mh x y z p) <= 8 * u0 * (M ^ 2 + mh ^ 2 + q + (1 + z) * sx) + 100 * u0 * sc.
Proof.
  destruct V_err' as (_ & _ & SC). pose proof e_M as EM. pose proof t_err as ET. pose proof t_abs as TA. destruct e_q as (_ & Q0). destruct e_sx as (EX & X0). pose proof (sq_low M HM) as LM. pose proof (sq_low mh Hmh) as Lm. pose proof (bpow_gt_0 radix2 (-1000)) as P.
  pose proof (inr_pos _ _ Hz) as Z0. unfold f_mx_sq, missing. fold sx. set (m2 := M ^ 2) in *. set (h2 := mh ^ 2) in *. set (t' := f_t log1p expm1 S M mh x y z p) in *. set (t := transfer S M mh x y z p) in *.
  assert (M0 : 0 < m2) by lra. assert (H0 : 0 < h2) by lra. assert (TB := near_abs _ _ _ ET). assert (MB := near_abs _ _ _ EM). rewrite (Rabs_pos_eq m2) in MB by lra. assert (XB := near_abs _ _ _ EX). rewrite (Rabs_pos_eq sx) in XB by lra.
  assert (E1 : Rabs (RN (f_sq M + t') - (m2 + t)) <= 1.001 * u0 * m2 + (5 * u0 * (h2 + q) + 95 * u0 * sc) + 1.0001 * u0 * (1.0001 * (m2 + h2 + q) + 2.0001 * sc)).
  { apply add_err; [exact EM|exact ET| |lra]. eapply Rle_trans; [apply Rabs_triang|]. lra. }
  assert (EZ : Rabs (RN (1 - z) - (1 - z)) <= 1.0001 * u0 * (1 + z)). { apply RN_abs; [apply Rabs_le; lra|]. apply Rle_trans with (bp 0); [apply bpow_le; lia|change (bp 0) with 1; lra]. }
  assert (ZB : Rabs (1 - z) <= 1 + z) by (apply Rabs_le; lra). assert (ZB' := near_abs _ _ _ EZ). set (c := RN (1 - z)) in *. set (zs := (1 + z) * sx).
  assert (ZS : sx <= zs) by (unfold zs; nra).
  assert (E2 : Rabs (c * f_S_x S y - (1 - z) * sx) <= 2.002 * u0 * zs).
  { replace (c * f_S_x S y - (1 - z) * sx) with ((c - (1 - z)) * f_S_x S y + (1 - z) * (f_S_x S y - sx)) by ring. eapply Rle_trans; [apply Rabs_triang|]. rewrite !Rabs_mult.
    assert (Rabs (c - (1 - z)) * Rabs (f_S_x S y) <= 1.0001 * u0 * (1 + z) * (1.0001 * sx)) by (apply Rmult_le_compat; try apply Rabs_pos; lra). assert (Rabs (1 - z) * Rabs (f_S_x S y - sx) <= (1 + z) * (1.001 * u0 * sx)) by (apply Rmult_le_compat; try apply Rabs_pos; lra). unfold zs. nra. }
  assert (E3 : Rabs (RN (c * f_S_x S y) - (1 - z) * sx) <= 3.01 * u0 * zs).
  { assert (ZA : Rabs ((1 - z) * sx) <= zs) by (rewrite Rabs_mult, (Rabs_pos_eq sx) by lra; unfold zs; apply Rmult_le_compat_r; lra). assert (CB := near_abs _ _ _ E2).
    assert (LX : bp (-1000) <= 1.0001 * zs). { destruct (a_sx S y HS Hy) as (_ & (L & _) & _). fold sx in L. apply Rle_trans with (bp (- (100))); [apply bpow_le; lia|]. lra. }
    pose proof (RN_abs (c * f_S_x S y) (1.0001 * zs) ltac:(lra) LX) as E4. replace (RN (c * f_S_x S y) - (1 - z) * sx) with ((RN (c * f_S_x S y) - c * f_S_x S y) + (c * f_S_x S y - (1 - z) * sx)) by ring. eapply Rle_trans; [apply Rabs_triang|]. lra. }
  assert (ZA : Rabs ((1 - z) * sx) <= zs) by (rewrite Rabs_mult, (Rabs_pos_eq sx) by lra; unfold zs; apply Rmult_le_compat_r; lra).
  assert (E5 : Rabs (RN (RN (f_sq M + t') + RN (c * f_S_x S y)) - (m2 + t + (1 - z) * sx)) <= (1.001 * u0 * m2 + (5 * u0 * (h2 + q) + 95 * u0 * sc) + 1.0001 * u0 * (1.0001 * (m2 + h2 + q) + 2.0001 * sc)) + 3.01 * u0 * zs + 1.0001 * u0 * (1.001 * (m2 + h2 + q + zs) + 2.001 * sc)).
  { apply add_err; [exact E1|exact E3| |lra]. apply near_abs in E1. apply near_abs in E3. assert (Rabs (m2 + t) <= m2 + (h2 + q + 2 * sc)) by (eapply Rle_trans; [apply Rabs_triang|]; rewrite (Rabs_pos_eq m2) by lra; lra). eapply Rle_trans; [apply Rabs_triang|]. lra. }
  eapply Rle_trans; [exact E5|]. lra.
Qed.
Lemma phl_err : exists l, f_ph_l S M mh y z p = Some l /\ Rabs (l - longitudinal S M mh y z p) <= 34 * u0 * longitudinal S M mh y z p.
Proof.
  destruct (positive S M mh x y z p HS HM Hmh Hx Hy Hz Hp) as (_ & _ & _ & _ & _ & _ & _ & _ & _ & E0). fold e in E0.
  destruct (a_s S M mh x y z p HS HM Hmh Hx Hy Hz Hp) as (_ & SB & SR). fold s in SB, SR. pose proof (inr_pos _ _ SB) as S0. apply (rel_num 12) in SR; [|lia|lra]. replace (INR 12) with 12 in SR by (cbn; lra).
  set (s' := f_ph_ratio_sq S M mh y z p) in *. destruct (a_e S M y z HS HM Hy Hz) as (_ & _ & ER). fold e in ER. apply (rel_num 4) in ER; [|lia|lra]. replace (INR 4) with 4 in ER by (cbn; lra). set (e' := f_ph_0 S M y z) in *.
  assert (PL : longitudinal S M mh y z p = e * sqrt (1 - s)).
  { unfold longitudinal. fold e. replace (e ^ 2 - mh ^ 2 - p) with ((e * e) * (1 - s)) by (unfold s, slowness; fold e; field; lra). rewrite sqrt_mult by nra. rewrite sqrt_square by lra. reflexivity. }
  assert (SR' := SR). apply Rabs_le_inv in SR'. assert (L1 : bp (-1000) <= 1) by (apply Rle_trans with (bp 0); [apply bpow_le; lia|change (bp 0) with 1; lra]).
  pose proof (RN_abs (1 - s') 1 ltac:(apply Rabs_le; lra) L1) as E1. apply Rabs_le_inv in E1. set (d := RN (1 - s')) in *. assert (D1 : 0.249 <= d <= 1.001) by lra. assert (DD : Rabs (d - (1 - s)) <= 10.1 * u0) by (apply Rabs_le; lra).
  unfold f_ph_l. fold s' d e'. unfold f_sqrt. destruct (rltb d 0) eqn:LT; [apply rltb_spec in LT; lra|]. eexists. split; [reflexivity|]. rewrite PL.
  assert (Q1 : sqrt d * sqrt d = d) by (apply sqrt_sqrt; lra). assert (Q2 : sqrt (1 - s) * sqrt (1 - s) = 1 - s) by (apply sqrt_sqrt; lra). pose proof (sqrt_pos d) as P1. pose proof (sqrt_pos (1 - s)) as P2. set (r := sqrt d) in *. set (g := sqrt (1 - s)) in *.
  assert (R1 : 0.495 <= r <= 1.001) by nra. assert (G1 : 0.5 <= g <= 1) by nra.
  assert (DR : Rabs (r - g) <= 10.3 * u0). { assert (E : (r - g) * (r + g) = d - (1 - s)) by lra. assert (Rabs (r - g) * (r + g) = Rabs (d - (1 - s))) by (rewrite <- E, Rabs_mult, (Rabs_pos_eq (r + g)); lra). pose proof (Rabs_pos (r - g)). assert (Rabs (r - g) * 0.995 <= Rabs (r - g) * (r + g)) by (apply Rmult_le_compat_l; lra). lra. }
  pose proof (RN_abs r 1.001 ltac:(rewrite Rabs_pos_eq; lra) ltac:(lra)) as E2. assert (DR2 : Rabs (RN r - g) <= 11.4 * u0). { replace (RN r - g) with ((RN r - r) + (r - g)) by ring. eapply Rle_trans; [apply Rabs_triang|]. lra. }
  assert (RB : Rabs (RN r) <= 1.0001). { apply near_abs in DR2. rewrite (Rabs_pos_eq g) in DR2 by lra. lra. }
  assert (E3 : Rabs (e' * RN r - e * g) <= 15.5 * u0 * e).
  { replace (e' * RN r - e * g) with ((e' - e) * RN r + e * (RN r - g)) by ring. eapply Rle_trans; [apply Rabs_triang|]. rewrite !Rabs_mult, (Rabs_pos_eq e) by lra.
    assert (Rabs (e' - e) * Rabs (RN r) <= (4 + / 1000) * u0 * e * 1.0001) by (apply Rmult_le_compat; try apply Rabs_pos; lra). assert (e * Rabs (RN r - g) <= e * (11.4 * u0)) by (apply Rmult_le_compat_l; lra). lra. }
  assert (EG : Rabs (e * g) <= e) by (rewrite Rabs_pos_eq by nra; nra). assert (EB := near_abs _ _ _ E3).
  assert (LE : bp (-1000) <= 1.0001 * e). { destruct (a_e S M y z HS HM Hy Hz) as (_ & (L & _) & _). fold e in L. apply Rle_trans with (bp (- (201))); [apply bpow_le; lia|]. lra. }
  pose proof (RN_abs (e' * RN r) (1.0001 * e) ltac:(lra) LE) as E4. replace (RN (e' * RN r) - e * g) with ((RN (e' * RN r) - e' * RN r) + (e' * RN r - e * g)) by ring. eapply Rle_trans; [apply Rabs_triang|]. nra.
Qed.
End More.
