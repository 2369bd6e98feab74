(** Sampling in double arithmetic: proofs. *)
From Coq Require Import Reals ZArith Lia Lra.
From Flocq Require Import Core.
From Coquelicot Require Import Coquelicot.
From Verif Require Import ExtModel BoundModel TextModel MathModel FMathModel FMathSpec FMathSeries FMathDilog FMathSqrt TextNum VacHadProofs FKinRel ConstModel ConstProofs FMapModel FMapSpec.
Local Open Scope R_scope.

Lemma rltb_case a b : (rltb a b = true /\ a < b) \/ (rltb a b = false /\ b <= a).
Proof. unfold rltb. destruct (Rlt_dec a b); [left|right]; split; auto; lra. Qed.
Lemma reqb_case a b : (reqb a b = true /\ a = b) \/ (reqb a b = false /\ a <> b).
Proof. unfold reqb. destruct (Req_EM_T a b); [left|right]; split; auto. Qed.

Lemma exp_nat n : exp (INR n) = exp 1 ^ n.
Proof. induction n as [|n IH]; [apply exp_0|]. rewrite S_INR, exp_plus, IH. cbn [pow]. ring. Qed.
Lemma exp_1_le : exp 1 <= 2.72.
Proof.
  pose proof e_digits as E. unfold half_unit, literal in E. cbn [digits decimals] in E. apply Rabs_le_inv in E.
  let v := eval vm_compute in (10 ^ decimals E_NUM)%Z in change (10 ^ decimals E_NUM)%Z with v in E. lra.
Qed.
Lemma exp_m32 : 100 * u0 <= exp (-32).
Proof.
  replace (-32) with (- (32)) by lra. rewrite exp_Ropp. apply Rmult_le_reg_r with (exp 32); [apply exp_pos|]. rewrite Rinv_l by (apply Rgt_not_eq, exp_pos). assert (Q : exp 32 <= 2.72 ^ 32). { replace 32 with (INR 32) by (cbn; lra). rewrite exp_nat. apply pow_incr. split; [left; apply exp_pos|apply exp_1_le]. }
    apply Rle_trans with (100 * u0 * 2.72 ^ 32); [apply Rmult_le_compat_l; [lra|exact Q]|cbn; lra].
Qed.
Section Lib.
Context (log log1p expm1 : R -> R) (LIB : libm (2 * u0) log log1p expm1).
Lemma below_one u : fmt u -> u < 1 -> u <= 1 - u0.
Proof.
  intros F H. assert (P : pred radix2 (FLT_exp (-1074) 53) 1 = 1 - u0).
  { change 1 with (bpow radix2 0) at 1. rewrite pred_bpow. cbn. lra. }
  rewrite <- P. apply pred_ge_gt; [typeclasses eauto|exact F|apply fmt_1|exact H].
Qed.
(** No finite value above 9.2 is ever drawn. *)
Lemma decay_x_top u x : fmt u -> 0 <= u -> fst (f_decay_x log1p (1 / 4) (Fin u)) = Fin x -> x <= 9.2.
Proof.
  intros F U. unfold f_decay_x. cbn [fst eneg e_log1p]. destruct (rltb_case (-1) (- u)) as [(-> & H)|(-> & H)]; [|destruct (reqb_case (- u) (-1)) as [(-> & E)|(-> & E)]].
  - cbn [emul rnd]. intros [= <-]. assert (B : u <= 1 - u0) by (apply below_one; [exact F|lra]).
    assert (D : double (- u)). { apply small_double; [apply fmt_opp; exact F|]. rewrite Rabs_Ropp. apply Rabs_le. lra. }
    destruct (log1p_ok _ _ _ _ LIB (- u) D ltac:(lra)) as (_ & C). unfold close in C.
    assert (L : - 36.74 <= ln (1 + - u) <= 2).
    { split.
      - apply Rle_trans with (ln u0). { replace u0 with (bpow radix2 (-53)) by (cbn; lra). rewrite ln_bpow. pose proof ln2_bounds. lra. } apply ln_le; lra.
      - apply Rle_trans with (ln 1); [apply ln_le; lra|rewrite ln_1; lra]. }
    apply Rabs_le_inv in C. assert (A : Rabs (ln (1 + - u)) <= 37) by (apply Rabs_le; lra).
    apply Rle_trans with (RN 9.19); [apply RN_mono; lra|]. pose proof (RN_err 9.19) as E. apply Rabs_le_inv in E. rewrite Rabs_pos_eq in E by lra. pose proof eta_u0. lra.
  - cbn [emul rnd]. unfold sinf. destruct (rltb_case 0 (- (- (1 / 4)))) as [(-> & _)|(-> & Q)]; [|lra]. cbn. discriminate.
  - cbn. discriminate.
Qed.
Definition ulim (t : R) : R := - expm1 (RN (- t / (1 / 4))).
Definition ulerp (p ua ub : R) : R := RN (RN (RN (1 - p) * ua) + RN (p * ub)).
Lemma decay_unfold p a b : f_ph_t_sq log1p expm1 p (Bnd (Fin a) (Fin b)) =
  if rleb (ulim a) (ulim b) then
    let v := f_decay_x log1p (1 / 4) (Fin (ulerp p (ulim a) (ulim b))) in (fst v, rnd (emul (snd v) (Fin (RN (ulim b - ulim a)))))
  else (NaN, NaN).
Proof.
  unfold f_ph_t_sq, f_apply_map, f_decay_u. cbn [bmin bmax eneg ediv]. destruct (reqb_case (1 / 4) 0) as [(_ & E)|(-> & _)]; [lra|]. cbn [rnd e_expm1 eneg]. fold (ulim a) (ulim b).
  unfold mk_bound. cbn [eleb]. destruct (rleb (ulim a) (ulim b)); cbn [negb]; reflexivity.
Qed.
Definition range (t : R) : Prop := double t /\ 0 <= t <= bpow radix2 1000.
Lemma arg_double t : range t -> double (RN (- t / (1 / 4))) /\ RN (- t / (1 / 4)) = - (4 * t).
Proof.
  intros ((F & _) & T). assert (E : RN (- t / (1 / 4)) = - (4 * t)).
  { replace (- t / (1 / 4)) with (- (2 * (2 * t))) by field. rewrite RN_fmt by (apply fmt_opp, fmt_twice, fmt_twice; exact F). ring. }
  split; [|exact E]. rewrite E. replace (- (4 * t)) with (- (2 * (2 * t))) by ring. split; [apply fmt_opp, fmt_twice, fmt_twice; exact F|].
  rewrite Rabs_Ropp, Rabs_pos_eq by lra. apply Rle_lt_trans with (bpow radix2 (2 + 1000)); [rewrite bpow_plus; change (bpow radix2 2) with 4; lra|apply bpow_lt; lia].
Qed.
Lemma ulim_ok t : range t -> fmt (ulim t) /\ 0 <= ulim t /\ Rabs (ulim t - (1 - exp (- (4 * t)))) <= 2 * u0 * (1 - exp (- (4 * t))) /\ 0 <= 1 - exp (- (4 * t)).
Proof.
  intros R. destruct (arg_double t R) as (D & E). destruct R as (_ & T). destruct (expm1_ok _ _ _ _ LIB _ D) as ((F & _) & C); [rewrite E; lra|]. unfold close in C. unfold ulim. rewrite E in *.
  assert (X : exp (- (4 * t)) <= 1) by (rewrite <- exp_0; destruct (Req_dec t 0) as [->|N]; [rewrite Rmult_0_r, Ropp_0; lra|apply Rlt_le, exp_increasing; lra]).
  assert (C2 : Rabs (- expm1 (- (4 * t)) - (1 - exp (- (4 * t)))) <= 2 * u0 * (1 - exp (- (4 * t)))).
  { replace (- expm1 (- (4 * t)) - (1 - exp (- (4 * t)))) with (- (expm1 (- (4 * t)) - (exp (- (4 * t)) - 1))) by ring. rewrite Rabs_Ropp. rewrite (Rabs_left1 (exp (- (4 * t)) - 1)) in C by lra. lra. }
  split; [apply fmt_opp; exact F|]. split; [|split; [exact C2|lra]]. apply Rabs_le_inv in C2. lra.
Qed.
Lemma RN_nonneg z : 0 <= z -> 0 <= RN z.
Proof. intros H. rewrite <- RN_0. apply RN_mono. exact H. Qed.
Lemma ulerp_ok p ua ub : 0 <= p <= 1 -> 0 <= ua -> 0 <= ub -> fmt (ulerp p ua ub) /\ 0 <= ulerp p ua ub.
Proof.
  intros P A B. split; [apply fmt_RN|]. apply RN_nonneg. pose proof (RN_nonneg (1 - p) ltac:(lra)). pose proof (RN_nonneg (RN (1 - p) * ua) ltac:(apply Rmult_le_pos; lra)). pose proof (RN_nonneg (p * ub) ltac:(apply Rmult_le_pos; lra)). lra.
Qed.
Lemma top p a b x : range a -> range b -> 0 <= p <= 1 -> fst (f_ph_t_sq log1p expm1 p (Bnd (Fin a) (Fin b))) = Fin x -> x <= 9.2.
Proof.
  intros A B P. rewrite decay_unfold. destruct (rleb (ulim a) (ulim b)); cbn [fst]; [|discriminate]. destruct (ulim_ok a A) as (_ & UA & _). destruct (ulim_ok b B) as (_ & UB & _). destruct (ulerp_ok p _ _ P UA UB) as (F & U). apply decay_x_top; assumption.
Qed.

(** Accuracy below 8. *)
Lemma ulerp_err p a b : range a -> range b -> 0 <= p <= 1 ->
  Rabs (ulerp p (ulim a) (ulim b) - (1 - ((1 - p) * exp (- (4 * a)) + p * exp (- (4 * b))))) <= 6 * u0.
Proof.
  intros A B P. destruct (ulim_ok a A) as (_ & UA & EA & A1). destruct (ulim_ok b B) as (_ & UB & EB & B1). unfold ulerp.
  set (ua := ulim a) in *. set (ub := ulim b) in *. set (xa := exp (- (4 * a))) in *. set (xb := exp (- (4 * b))) in *. assert (0 < xa) by apply exp_pos. assert (0 < xb) by apply exp_pos.
  pose proof eta_u0 as ET. pose proof eta_pos as EP. apply Rabs_le_inv in EA. apply Rabs_le_inv in EB.
  pose proof (RN_err (1 - p)) as E1. rewrite (Rabs_pos_eq (1 - p)) in E1 by lra. apply Rabs_le_inv in E1. set (q := RN (1 - p)) in *. assert (Q0 : 0 <= q) by (apply RN_nonneg; lra). assert (Q1 : q <= 1) by (rewrite <- (RN_fmt 1 fmt_1); apply RN_mono; lra).
  pose proof (RN_err (q * ua)) as E2. rewrite (Rabs_pos_eq (q * ua)) in E2 by (apply Rmult_le_pos; lra). apply Rabs_le_inv in E2.
  pose proof (RN_err (p * ub)) as E3. rewrite (Rabs_pos_eq (p * ub)) in E3 by (apply Rmult_le_pos; lra). apply Rabs_le_inv in E3.
  set (s := RN (q * ua)) in *. set (t := RN (p * ub)) in *.
  assert (M1 : Rabs (q * ua - (1 - p) * (1 - xa)) <= 1.01 * (u0 * (1 - p) + eta) + 2 * u0 * (1 - p)).
  { replace (q * ua - (1 - p) * (1 - xa)) with ((q - (1 - p)) * ua + (1 - p) * (ua - (1 - xa))) by ring.
    eapply Rle_trans; [apply Rabs_triang|]. rewrite !Rabs_mult, (Rabs_pos_eq (1 - p)), (Rabs_pos_eq ua) by lra. apply Rplus_le_compat.
    - rewrite Rmult_comm. apply Rmult_le_compat; [lra|apply Rabs_pos|lra|apply Rabs_le; lra].
    - rewrite Rmult_comm. apply Rmult_le_compat_r; [lra|]. apply Rabs_le. lra. }
  assert (M2 : Rabs (p * ub - p * (1 - xb)) <= 2 * u0 * p).
  { rewrite <- Rmult_minus_distr_l, Rabs_mult, (Rabs_pos_eq p) by lra. rewrite Rmult_comm. apply Rmult_le_compat_r; [lra|]. apply Rabs_le. lra. }
  apply Rabs_le_inv in M1. apply Rabs_le_inv in M2.
  assert (N1 : 0 <= (1 - p) * (1 - xa) <= 1 - p). { split; [apply Rmult_le_pos; lra|]. apply Rle_trans with ((1 - p) * 1); [apply Rmult_le_compat_l; lra|lra]. }
  assert (N2 : 0 <= p * (1 - xb) <= p). { split; [apply Rmult_le_pos; lra|]. apply Rle_trans with (p * 1); [apply Rmult_le_compat_l; lra|lra]. }
  assert (S4 : 0 <= s + t <= 1.001). { split; [|lra]. apply Rplus_le_le_0_compat; apply RN_nonneg; apply Rmult_le_pos; lra. }
  pose proof (RN_err (s + t)) as E4. rewrite (Rabs_pos_eq (s + t)) in E4 by lra. apply Rabs_le_inv in E4. apply Rabs_le. lra.
Qed.
Lemma decay_err p a b : range a -> range b -> a <= b <= 8 -> 0 <= p <= 1 -> ulim a <= ulim b -> exists x, fst (f_ph_t_sq log1p expm1 p (Bnd (Fin a) (Fin b))) = Fin x /\
  Rabs (x - drawn_decay p a b) <= u0 * (2 * exp (4 * drawn_decay p a b) + 4 * drawn_decay p a b).
Proof.
  intros A B AB P V. rewrite decay_unfold. replace (rleb (ulim a) (ulim b)) with true by (unfold rleb; destruct Rle_dec; [reflexivity|contradiction]). cbn [fst].
  pose proof (ulerp_err p a b A B P) as E. destruct (ulim_ok a A) as (_ & UA & _). destruct (ulim_ok b B) as (_ & UB & _). destruct (ulerp_ok p _ _ P UA UB) as (F & U). set (u := ulerp p (ulim a) (ulim b)) in *.
  unfold drawn_decay. set (w := (1 - p) * exp (- (4 * a)) + p * exp (- (4 * b))) in *. destruct A as (_ & A). destruct B as (_ & B).
  assert (XB : exp (-32) <= exp (- (4 * b))) by (apply exp_le; lra). assert (XA : exp (-32) <= exp (- (4 * a))) by (apply exp_le; lra). assert (X1 : exp (- (4 * a)) <= 1) by (rewrite <- exp_0; apply exp_le; lra). assert (X2 : exp (- (4 * b)) <= 1) by (rewrite <- exp_0; apply exp_le; lra).
  assert (E32 := exp_m32).
  assert (W : exp (-32) <= w <= 1).
  { unfold w. split.
    - apply Rle_trans with ((1 - p) * exp (-32) + p * exp (-32)); [lra|]. apply Rplus_le_compat; apply Rmult_le_compat_l; lra.
    - apply Rle_trans with ((1 - p) * 1 + p * 1); [|lra]. apply Rplus_le_compat; apply Rmult_le_compat_l; lra. }
  apply Rabs_le_inv in E. unfold f_decay_x. cbn [fst eneg e_log1p]. destruct (rltb_case (-1) (- u)) as [(-> & H)|(-> & H)]; [|lra]. cbn [emul rnd]. eexists. split; [reflexivity|].
  assert (D : double (- u)). { apply small_double; [apply fmt_opp; exact F|]. rewrite Rabs_Ropp. apply Rabs_le. lra. }
  destruct (log1p_ok _ _ _ _ LIB (- u) D ltac:(lra)) as (_ & C). unfold close in C.
  replace (exp (4 * - (ln w / 4))) with (/ w) by (replace (4 * - (ln w / 4)) with (- ln w) by field; rewrite exp_Ropp, exp_ln by lra; reflexivity).
  assert (LW : ln w <= 0) by (rewrite <- ln_1; apply ln_le; lra).
  assert (R1 : Rabs (ln (1 + - u) - ln w) <= 6.4 * u0 * / w).
  { assert (W0 : 0 < w) by lra. assert (I0 : 0 < / w) by (apply Rinv_0_lt_compat; exact W0). assert (IW : u0 * / w <= / 100). { apply Rmult_le_reg_r with w; [exact W0|]. rewrite Rmult_assoc, Rinv_l by lra. lra. }
    assert (Z : forall z, - (6 * u0 * / w) <= z <= 6 * u0 * / w -> Rabs (ln (1 + z)) <= 6.4 * u0 * / w).
    { intros z Z. pose proof (FMathSqrt.ln_low (1 + z) ltac:(lra)) as L1. assert (L2 : ln (1 + z) <= z). { pose proof (exp_ineq1_le (ln (1 + z))) as Q. rewrite exp_ln in Q by lra. lra. }
      assert (1 - / (1 + z) = z * / (1 + z)) by (field; lra). assert (I : 0 < / (1 + z) <= / 0.94). { split; [apply Rinv_0_lt_compat; lra|apply Rinv_le_contravar; lra]. }
      apply Rabs_le. split; [|lra]. destruct (Rle_dec 0 z) as [N|N].
      - assert (0 <= z * / (1 + z)) by (apply Rmult_le_pos; lra). assert (0 <= u0 * / w) by (apply Rmult_le_pos; lra). lra.
      - assert (- z * / (1 + z) <= - z * / 0.94) by (apply Rmult_le_compat_l; lra). lra. }
    replace (ln (1 + - u) - ln w) with (ln (1 + ((1 - w - u) * / w))); [apply Z|].
    - split; [rewrite Ropp_mult_distr_l|]; apply Rmult_le_compat_r; lra.
    - rewrite <- ln_div by lra. f_equal. field. lra. }
  assert (I1 : 1 <= / w) by (rewrite <- Rinv_1; apply Rinv_le_contravar; lra).
  apply Rabs_le_inv in R1. assert (IW : u0 * / w <= / 100). { apply Rmult_le_reg_r with w; [lra|]. rewrite Rmult_assoc, Rinv_l by lra. lra. }
  assert (AL : Rabs (ln (1 + - u)) <= - ln w + 6.4 * u0 * / w) by (apply Rabs_le; lra).
  assert (CL : Rabs (log1p (- u) - ln w) <= 6.4 * u0 * / w + 2 * u0 * (- ln w + 6.4 * u0 * / w)).
  { replace (log1p (- u) - ln w) with ((log1p (- u) - ln (1 + - u)) + (ln (1 + - u) - ln w)) by ring. eapply Rle_trans; [apply Rabs_triang|]. assert (Rabs (ln (1 + - u) - ln w) <= 6.4 * u0 * / w) by (apply Rabs_le; lra). lra. }
  apply Rabs_le_inv in CL. pose proof (RN_err (- (1 / 4) * log1p (- u))) as E4. pose proof eta_u0.
  assert (AB4 : Rabs (- (1 / 4) * log1p (- u)) <= (- ln w + 7 * u0 * / w + 2 * u0 * - ln w) / 4) by (apply Rabs_le; lra). apply Rabs_le_inv in E4. apply Rabs_le. lra.
Qed.
Lemma decay_jac p a b : range a -> range b -> a <= b <= 8 -> 0 <= p <= 1 -> ulim a <= ulim b -> exists j, snd (f_ph_t_sq log1p expm1 p (Bnd (Fin a) (Fin b))) = Fin j /\
  Rabs (j - slope_decay p a b) <= u0 * exp (4 * drawn_decay p a b) * (2 + 11 * slope_decay p a b).
Proof.
  intros A B AB P V. rewrite decay_unfold. replace (rleb (ulim a) (ulim b)) with true by (unfold rleb; destruct Rle_dec; [reflexivity|contradiction]). cbn [snd].
  pose proof (ulerp_err p a b A B P) as E. destruct (ulim_ok a A) as (_ & UA & EA & A1). destruct (ulim_ok b B) as (_ & UB & EB & B1). destruct (ulerp_ok p _ _ P UA UB) as (F & U). set (u := ulerp p (ulim a) (ulim b)) in *.
  unfold drawn_decay, slope_decay. set (w := (1 - p) * exp (- (4 * a)) + p * exp (- (4 * b))) in *. destruct A as (_ & A). destruct B as (_ & B).
  assert (XB : exp (-32) <= exp (- (4 * b))) by (apply exp_le; lra). assert (XA : exp (-32) <= exp (- (4 * a))) by (apply exp_le; lra). assert (X1 : exp (- (4 * a)) <= 1) by (rewrite <- exp_0; apply exp_le; lra). assert (X2 : exp (- (4 * b)) <= exp (- (4 * a))) by (apply exp_le; lra).
  assert (E32 := exp_m32).
  assert (W : exp (-32) <= w <= 1).
  { unfold w. split.
    - apply Rle_trans with ((1 - p) * exp (-32) + p * exp (-32)); [lra|]. apply Rplus_le_compat; apply Rmult_le_compat_l; lra.
    - apply Rle_trans with ((1 - p) * 1 + p * 1); [|lra]. apply Rplus_le_compat; apply Rmult_le_compat_l; lra. }
  replace (exp (4 * - (ln w / 4))) with (/ w) by (replace (4 * - (ln w / 4)) with (- ln w) by field; rewrite exp_Ropp, exp_ln by lra; reflexivity).
  apply Rabs_le_inv in E. apply Rabs_le_inv in EA. apply Rabs_le_inv in EB. pose proof eta_u0 as ET. pose proof eta_pos as EP.
  set (ua := ulim a) in *. set (ub := ulim b) in *. set (xa := exp (- (4 * a))) in *. set (xb := exp (- (4 * b))) in *.
  unfold f_decay_x. cbn [snd esub eneg eadd rnd ediv]. change (1 + - u) with (1 - u). pose proof (RN_err (1 - u)) as EV. rewrite (Rabs_pos_eq (1 - u)) in EV by lra. apply Rabs_le_inv in EV. set (v := RN (1 - u)) in *.
  assert (VW : - (7.2 * u0) <= v - w <= 7.2 * u0) by lra. assert (V0 : 0.92 * w <= v) by lra. destruct (reqb_case v 0) as [(_ & Z)|(-> & _)]; [lra|]. cbn [rnd emul]. eexists. split; [reflexivity|].
  pose proof (RN_err (ub - ua)) as ED. rewrite (Rabs_pos_eq (ub - ua)) in ED by lra. apply Rabs_le_inv in ED. set (d := RN (ub - ua)) in *. set (D := xa - xb) in *. assert (D1 : 0 <= D <= 1) by (unfold D; lra).
  assert (DD : - (5.2 * u0) <= d - D <= 5.2 * u0) by (unfold D; lra). assert (D0 : 0 <= d) by (apply RN_nonneg; lra).
  assert (IW : 1 <= / w) by (rewrite <- Rinv_1; apply Rinv_le_contravar; lra). assert (IV : / v <= 1.09 * / w). { apply Rle_trans with (/ (0.92 * w)); [apply Rinv_le_contravar; lra|]. rewrite Rinv_mult. apply Rmult_le_compat_r; lra. } assert (IV0 : 0 < / v) by (apply Rinv_0_lt_compat; lra).
  set (J := D / (4 * w)). assert (JD : D * / w = 4 * J) by (unfold J; field; lra). assert (J0 : 0 <= J) by (assert (0 <= D * / w) by (apply Rmult_le_pos; lra); lra).
  (* the quotient *)
  assert (Q1 : Rabs (d * / v - D * / w) <= u0 * / w * (5.7 + 32 * J)).
  { replace (d * / v - D * / w) with ((d - D) * / v + - (D * / w * (v - w) * / v)) by (field; lra). eapply Rle_trans; [apply Rabs_triang|]. rewrite Rabs_Ropp, JD, !Rabs_mult, (Rabs_pos_eq (/ v)), (Rabs_pos_eq J), (Rabs_pos_eq 4) by lra.
    assert (K1 : Rabs (d - D) * / v <= 5.2 * u0 * (1.09 * / w)) by (apply Rmult_le_compat; [apply Rabs_pos|lra|apply Rabs_le; lra|exact IV]).
    assert (K2 : Rabs (v - w) * / v <= 7.2 * u0 * (1.09 * / w)) by (apply Rmult_le_compat; [apply Rabs_pos|lra|apply Rabs_le; lra|exact IV]).
    assert (K3 : J * (Rabs (v - w) * / v) <= J * (7.2 * u0 * (1.09 * / w))) by (apply Rmult_le_compat_l; assumption). assert (0 <= u0 * (J * / w)) by (apply Rmult_le_pos; [lra|apply Rmult_le_pos; lra]). lra. }
  assert (UW : u0 * / w <= / 100). { apply Rmult_le_reg_r with w; [lra|]. rewrite Rmult_assoc, Rinv_l by lra. lra. } assert (UW0 : 0 <= u0 * / w) by (apply Rmult_le_pos; lra).
  rewrite JD in Q1. assert (UWJ : u0 * / w * J <= / 100 * J) by (apply Rmult_le_compat_r; lra). assert (UJ : 0 <= u0 * J) by (apply Rmult_le_pos; lra). assert (UJW : u0 * J <= u0 * / w * J) by (apply Rmult_le_compat_r; [exact J0|]; apply (Rmult_le_compat_l u0) in IW; lra).
  pose proof (RN_err (1 / 4 / v)) as EQ. rewrite (Rabs_pos_eq (1 / 4 / v)) in EQ by (unfold Rdiv; apply Rmult_le_pos; lra). set (q := RN (1 / 4 / v)) in *. replace (1 / 4 / v) with (1 / 4 * / v) in EQ by (field; lra).
  assert (QD : Rabs (q * d - 1 / 4 * (d * / v)) <= u0 * (1 / 4 * (d * / v)) + 2 * eta).
  { replace (q * d - 1 / 4 * (d * / v)) with ((q - 1 / 4 * / v) * d) by ring. rewrite Rabs_mult, (Rabs_pos_eq d) by lra. apply Rle_trans with ((u0 * (1 / 4 * / v) + eta) * d); [apply Rmult_le_compat_r; lra|]. assert (eta * d <= eta * 2) by (apply Rmult_le_compat_l; lra). lra. }
  apply Rabs_le_inv in Q1. apply Rabs_le_inv in QD. pose proof (RN_err (q * d)) as EJ. assert (AJ : Rabs (q * d) <= 1.2 * J + 0.02) by (apply Rabs_le; lra). apply Rabs_le_inv in EJ.
  apply Rabs_le. lra.
Qed.
End Lib.
