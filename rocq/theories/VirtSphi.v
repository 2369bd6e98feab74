(** The integral over the directions of soft photons, by 't Hooft and Veltman's substitution. *)
From Coq Require Import Reals Lra Lia.
From Coquelicot Require Import Coquelicot.
From Verif Require Import ExtModel MathModel MathProofs DilogSpec DilogProofs VirtSpec VirtVac VirtVert.
Local Open Scope R_scope.
Set Bullet Behavior "Strict Subproofs".

Lemma continuous_gt0 (f : R -> R) a : continuous f a -> 0 < f a -> locally a (fun t => 0 < f t).
Proof. intros C P. apply (C (fun y => 0 < y)). apply open_gt. exact P. Qed.
Lemma ln_div a b : 0 < a -> 0 < b -> ln (a / b) = ln a - ln b.
Proof. intros A B. unfold Rdiv. rewrite ln_mult, ln_Rinv; [ring|exact B|exact A|apply Rinv_0_lt_compat; exact B]. Qed.
Section S.
Variable D : R -> R.
Hypothesis HD : is_dilog D.
(** [kp] is the ratio for which kp k1 - k2 is light-like *)
Variables kp mm E1 E2 : R.
Hypothesis Hk : 1 < kp.
Hypothesis Hmm : 0 < mm.
Let Q := mm * (kp - 1) ^ 2 / kp.
Hypothesis H1 : 0 < E1.
Hypothesis H2 : 0 < E2.
Hypothesis P1 : mm < E1 ^ 2.
Hypothesis P2 : mm < E2 ^ 2.
Hypothesis G : (E1 * E2 - (Q + 2 * mm) / 2) ^ 2 < (E1 ^ 2 - mm) * (E2 ^ 2 - mm).
Let En a := a * E1 + (1 - a) * E2.
Let Ms a := mm + a * (1 - a) * Q.
Let mom a := sqrt (En a ^ 2 - Ms a).
Let d a := a + kp * (1 - a).
Let v := mm * (kp ^ 2 - 1) / (2 * kp * (kp * E1 - E2)).

Lemma k_pos : 0 < kp ^ 2 - 1.
Proof. replace (kp ^ 2 - 1) with ((kp - 1) * (kp + 1)) by ring. apply Rmult_lt_0_compat; lra. Qed.
Lemma en_pos a : 0 <= a <= 1 -> 0 < En a.
Proof.
  intros H. unfold En. destruct (Req_dec a 0) as [->|N]; [lra|]. assert (0 < a * E1) by (apply Rmult_lt_0_compat; lra). assert (0 <= (1 - a) * E2) by (apply Rmult_le_pos; lra). lra.
Qed.
Lemma q_pos : 0 < Q.
Proof. unfold Q. apply Rdiv_lt_0_compat; [apply Rmult_lt_0_compat; [lra|apply pow_lt; lra]|lra]. Qed.
Lemma ms_pos a : 0 <= a <= 1 -> 0 < Ms a.
Proof. intros H. unfold Ms. pose proof q_pos. assert (0 <= a * (1 - a) * Q) by (apply Rmult_le_pos; [apply Rmult_le_pos|]; lra). lra. Qed.
Lemma mom_sq_pos a : 0 <= a <= 1 -> 0 < En a ^ 2 - Ms a.
Proof.
  intros H. set (X := E1 ^ 2 - mm) in *. set (Y := E2 ^ 2 - mm) in *. set (Z := E1 * E2 - (Q + 2 * mm) / 2) in *.
  assert (XP : 0 < X) by (unfold X; lra). assert (YP : 0 < Y) by (unfold Y; lra).
  replace (En a ^ 2 - Ms a) with (a ^ 2 * X + 2 * a * (1 - a) * Z + (1 - a) ^ 2 * Y) by (unfold En, Ms, X, Y, Z; field).
  clearbody X Y Z. destruct (Req_dec a 1) as [->|N]; [replace (1 ^ 2 * X + 2 * 1 * (1 - 1) * Z + (1 - 1) ^ 2 * Y) with X by ring; exact XP|].
  apply Rmult_lt_reg_l with X; [exact XP|]. rewrite Rmult_0_r.
  replace (X * (a ^ 2 * X + 2 * a * (1 - a) * Z + (1 - a) ^ 2 * Y)) with ((a * X + (1 - a) * Z) ^ 2 + (1 - a) ^ 2 * (X * Y - Z ^ 2)) by ring.
  pose proof (pow2_ge_0 (a * X + (1 - a) * Z)). assert (0 < (1 - a) ^ 2 * (X * Y - Z ^ 2)) by (apply Rmult_lt_0_compat; [apply pow_lt; lra|lra]). lra.
Qed.
Lemma mom_pos a : 0 <= a <= 1 -> 0 < mom a.
Proof. intros H. apply sqrt_lt_R0, mom_sq_pos. exact H. Qed.
Lemma mom_sq a : 0 <= a <= 1 -> mom a * mom a = En a ^ 2 - Ms a.
Proof. intros H. apply sqrt_sqrt. pose proof (mom_sq_pos a H). lra. Qed.
Lemma gram_pos : 0 < (Q + 2 * mm) * E1 * E2 - mm * (E1 ^ 2 + E2 ^ 2) - Q * (Q + 4 * mm) / 4.
Proof. replace ((Q + 2 * mm) * E1 * E2 - mm * (E1 ^ 2 + E2 ^ 2) - Q * (Q + 4 * mm) / 4) with ((E1 ^ 2 - mm) * (E2 ^ 2 - mm) - (E1 * E2 - (Q + 2 * mm) / 2) ^ 2) by field. lra. Qed.
Lemma ahead : 0 < kp * E1 - E2.
Proof.
  pose proof gram_pos as GP. pose proof q_pos as QP. assert (W : 0 < Q * (Q + 4 * mm)) by (apply Rmult_lt_0_compat; lra).
  assert (B : 0 < (Q + 2 * mm) * E1 * E2 - mm * (E1 ^ 2 + E2 ^ 2)) by lra.
  destruct (Rlt_le_dec 0 (kp * E1 - E2)) as [L|L]; [exact L|exfalso].
  assert (E : (Q + 2 * mm) * E1 * E2 - mm * (E1 ^ 2 + E2 ^ 2) = mm / kp * ((kp * E1 - E2) * (kp * E2 - E1))) by (unfold Q; field; lra). rewrite E in B.
  assert (0 < mm / kp) by (apply Rdiv_lt_0_compat; lra).
  assert (S : E1 < E2) by (assert (E1 < kp * E1) by (rewrite <- (Rmult_1_l E1) at 1; apply Rmult_lt_compat_r; lra); lra).
  assert (0 < kp * E2 - E1) by (assert (E2 < kp * E2) by (rewrite <- (Rmult_1_l E2) at 1; apply Rmult_lt_compat_r; lra); lra).
  assert (T : (kp * E1 - E2) * (kp * E2 - E1) <= 0 * (kp * E2 - E1)) by (apply Rmult_le_compat_r; lra). 
  assert (mm / kp * ((kp * E1 - E2) * (kp * E2 - E1)) <= mm / kp * 0) by (apply Rmult_le_compat_l; lra). lra.
Qed.
Lemma v_pos : 0 < v.
Proof. pose proof ahead. pose proof k_pos. unfold v. apply Rdiv_lt_0_compat; [apply Rmult_lt_0_compat; lra|]. apply Rmult_lt_0_compat; lra. Qed.
Lemma d_pos a : 0 <= a <= 1 -> 0 < d a.
Proof. intros H. unfold d. replace (a + kp * (1 - a)) with (1 + (kp - 1) * (1 - a)) by ring. assert (0 <= (kp - 1) * (1 - a)) by (apply Rmult_le_pos; lra). lra. Qed.
Let C0 := mm - 2 * v * E1 + v ^ 2.
Lemma C0_neg : C0 < 0.
Proof.
  pose proof gram_pos as GP. pose proof ahead as A. pose proof k_pos as K.
  assert (E : C0 = - (((Q + 2 * mm) * E1 * E2 - mm * (E1 ^ 2 + E2 ^ 2) - Q * (Q + 4 * mm) / 4) / (kp * E1 - E2) ^ 2)) by (unfold C0, v, Q; field; lra).
  rewrite E. apply Ropp_lt_gt_0_contravar. apply Rdiv_lt_0_compat; [exact GP|apply pow_lt; lra].
Qed.
Lemma C0_is a : 0 <= a <= 1 -> Ms a * / d a ^ 2 - 2 * v * En a * / d a + v ^ 2 = C0.
Proof. intros H. pose proof (d_pos a H) as DP. pose proof ahead. unfold C0, v, Ms, En, Q, d in *. field. lra. Qed.
Lemma pair_sq a : 0 <= a <= 1 -> ((En a + mom a) * / d a - v) * ((En a - mom a) * / d a - v) = C0.
Proof.
  intros H. rewrite <- (C0_is a H). pose proof (d_pos a H) as DP. pose proof (mom_sq a H) as MS.
  replace (((En a + mom a) * / d a - v) * ((En a - mom a) * / d a - v)) with ((En a ^ 2 - mom a * mom a) * / d a ^ 2 - 2 * v * En a * / d a + v ^ 2) by (field; lra). rewrite MS. field. lra.
Qed.
Lemma mom_lt a : 0 <= a <= 1 -> mom a < En a.
Proof.
  intros H. pose proof (mom_sq a H) as MS. pose proof (mom_pos a H). pose proof (en_pos a H). pose proof (ms_pos a H).
  apply Rsqr_incrst_0; try lra. unfold Rsqr. rewrite MS. cbn [pow]. lra.
Qed.
Lemma mom_der a : 0 <= a <= 1 -> is_derive mom a ((En a * (E1 - E2) - (1 - 2 * a) * Q / 2) / mom a).
Proof.
  intros H. pose proof (mom_sq_pos a H) as MP. pose proof (mom_pos a H) as MS. unfold mom in *. set (r := sqrt (En a ^ 2 - Ms a)) in *. unfold En, Ms in MP |- *. clearbody Q. 
  evar_last; [apply (is_derive_comp sqrt (fun a => (a * E1 + (1 - a) * E2) ^ 2 - (mm + a * (1 - a) * Q)))|].
  - apply is_derive_Reals, derivable_pt_lim_sqrt. exact MP.
  - instantiate (1 := 2 * (a * E1 + (1 - a) * E2) * (E1 - E2) - (1 - 2 * a) * Q). auto_derive; [auto|ring].
  - change (sqrt ((a * E1 + (1 - a) * E2) ^ 2 - (mm + a * (1 - a) * Q))) with r. toR. field. lra.
Qed.
Lemma D_comp (f : R -> R) (a f' : R) : is_derive f a f' -> 0 < f a -> f a - v <> 0 -> is_derive (fun a => D (1 - f a / v)) a (- f' * (ln (f a / v) / (f a - v))).
Proof.
  intros DF FP N. pose proof v_pos as VP. evar_last; [apply (is_derive_comp D (fun a => 1 - f a / v))|].
  - apply (D_der D HD); [apply Rdiv_lt_0_compat; [exact FP|exact VP]|]. intros Z. apply N. replace (f a) with (f a / v * v) by (field; lra). rewrite Z. ring.
  - apply (is_derive_ext (fun a => 1 - / v * f a)); [intros t; toR; unfold Rdiv; ring|]. apply @is_derive_minus; [apply @is_derive_const|apply is_derive_scal; exact DF].
  - change (@zero _) with 0. unfold minus. toR. field. repeat split; lra.
Qed.
Definition Fs a := / 4 * ln ((En a + mom a) / (En a - mom a)) ^ 2 + D (1 - (En a + mom a) * / d a / v) + D (1 - (En a - mom a) * / d a / v).
Lemma Fs_der a : 0 <= a <= 1 -> is_derive Fs a (- (mm * (kp - / kp)) * (En a / (2 * mom a * Ms a) * ln ((En a + mom a) / (En a - mom a)))).
Proof.
  intros H. pose proof (mom_sq a H) as MS. pose proof (mom_pos a H) as MP. pose proof (mom_lt a H) as ML. pose proof (d_pos a H) as DP. pose proof v_pos as VP. pose proof (ms_pos a H) as MM.
  pose proof (pair_sq a H) as PS. pose proof C0_neg as CN. pose proof (C0_is a H) as CI. pose proof ahead as AH. pose proof k_pos as K.
  pose proof (mom_der a H) as MD.
  set (P' := (En a * (E1 - E2) - (1 - 2 * a) * Q / 2) / mom a) in *.
  assert (PP : mom a * P' = En a * (E1 - E2) - (1 - 2 * a) * Q / 2) by (unfold P'; field; lra).
  assert (ED : is_derive En a (E1 - E2)) by (unfold En; auto_derive; [auto|ring]).
  assert (AD : is_derive (fun a => En a + mom a) a (E1 - E2 + P')) by (apply @is_derive_plus; assumption).
  assert (BD : is_derive (fun a => En a - mom a) a (E1 - E2 - P')) by (apply @is_derive_minus; assumption).
  set (c := / d a) in *. set (c' := (kp - 1) * / d a ^ 2).
  assert (CD : is_derive (fun a => / d a) a c') by (unfold c', d in *; auto_derive; [lra|field; lra]).
  assert (CP : 0 < c) by (apply Rinv_0_lt_compat; exact DP).
  set (A := En a + mom a) in *. set (B := En a - mom a) in *.
  set (A' := E1 - E2 + P') in *. set (B' := E1 - E2 - P') in *.
  assert (AP : 0 < A) by (unfold A; lra). assert (BP : 0 < B) by (unfold B; lra).
  assert (ACD : is_derive (fun a => (En a + mom a) * / d a) a (A' * c + A * c')) by (apply @is_derive_mult; [exact AD|exact CD|intros; apply Rmult_comm]).
  assert (BCD : is_derive (fun a => (En a - mom a) * / d a) a (B' * c + B * c')) by (apply @is_derive_mult; [exact BD|exact CD|intros; apply Rmult_comm]).
  assert (NA : A * c - v <> 0) by (intros Z; rewrite Z, Rmult_0_l in PS; lra). assert (NB : B * c - v <> 0) by (intros Z; rewrite Z, Rmult_0_r in PS; lra).
  assert (ACP : 0 < A * c) by (apply Rmult_lt_0_compat; lra). assert (BCP : 0 < B * c) by (apply Rmult_lt_0_compat; lra).
  set (fa := ln (A * c / v)). set (fb := ln (B * c / v)).
  assert (DA : is_derive (fun a => D (1 - (En a + mom a) * / d a / v)) a (- (A' * c + A * c') * (fa / (A * c - v)))).
  { evar_last; [apply (D_comp (fun a => (En a + mom a) * / d a) a _ ACD); [exact ACP|exact NA]|]. fold A c. fold fa. ring. }
  assert (DB : is_derive (fun a => D (1 - (En a - mom a) * / d a / v)) a (- (B' * c + B * c') * (fb / (B * c - v)))).
  { evar_last; [apply (D_comp (fun a => (En a - mom a) * / d a) a _ BCD); [exact BCP|exact NB]|]. fold B c. fold fb. ring. }
  assert (LF : ln (A / B) = fa - fb).
  { unfold fa, fb. rewrite <- ln_div by (apply Rdiv_lt_0_compat; lra). f_equal. field. lra. }
  assert (DL : is_derive (fun a => / 4 * ln ((En a + mom a) / (En a - mom a)) ^ 2) a (/ 2 * (fa - fb) * (A' / A - B' / B))).
  { apply (is_derive_ext_loc (fun a => / 4 * (ln (En a + mom a) - ln (En a - mom a)) ^ 2)).
    - apply (filter_imp (fun t => 0 < En t + mom t /\ 0 < En t - mom t)); [intros t [T1 T2]; rewrite ln_div by assumption; reflexivity|].
      apply filter_and.
      + apply (continuous_gt0 (fun t => En t + mom t)); [|exact AP]. apply (ex_derive_continuous (V := R_NormedModule)). eexists; exact AD.
      + apply (continuous_gt0 (fun t => En t - mom t)); [|exact BP]. apply (ex_derive_continuous (V := R_NormedModule)). eexists; exact BD.
    - assert (LA : is_derive (fun t => ln (En t + mom t)) a (A' / A)).
      { evar_last; [apply (is_derive_comp ln (fun t => En t + mom t)); [apply is_derive_Reals, derivable_pt_lim_ln; exact AP|exact AD]|]. toR. fold A. field. lra. }
      assert (LB : is_derive (fun t => ln (En t - mom t)) a (B' / B)).
      { evar_last; [apply (is_derive_comp ln (fun t => En t - mom t)); [apply is_derive_Reals, derivable_pt_lim_ln; exact BP|exact BD]|]. toR. fold B. field. lra. }
      evar_last; [apply is_derive_scal; apply (is_derive_pow (fun t => ln (En t + mom t) - ln (En t - mom t)) 2 a); apply @is_derive_minus; [exact LA|exact LB]|].
      fold A B. rewrite <- LF, ln_div by assumption. unfold minus. toR. change (INR 2) with 2. cbn [pred pow]. field. lra. }
  unfold Fs. evar_last; [apply @is_derive_plus; [apply @is_derive_plus; [exact DL|exact DA]|exact DB]|].
  toR. fold A B. rewrite LF. clear DL DA DB ACD BCD AD BD CD ED MD.
  (* the two logarithms come with opposite coefficients *)
  assert (AB : A' * B + B' * A = (1 - 2 * a) * Q). { unfold A', B', A, B. replace ((E1 - E2 + P') * (En a - mom a) + (E1 - E2 - P') * (En a + mom a)) with (2 * (En a * (E1 - E2)) - 2 * (mom a * P')) by ring. rewrite PP. field. }
  assert (ABM : A * B = Ms a) by (unfold A, B; replace ((En a + mom a) * (En a - mom a)) with (En a ^ 2 - mom a * mom a) by ring; rewrite MS; ring).
  assert (Z1 : (A' * c + A * c') * (B * c - v) + (B' * c + B * c') * (A * c - v) = 0).
  { replace ((A' * c + A * c') * (B * c - v) + (B' * c + B * c') * (A * c - v)) with ((A' * B + B' * A) * c ^ 2 + 2 * (A * B) * c * c' - v * ((A' + B') * c + (A + B) * c')) by ring. rewrite AB, ABM.
    replace (A' + B') with (2 * (E1 - E2)) by (unfold A', B'; ring). replace (A + B) with (2 * En a) by (unfold A, B; ring).
    unfold c', c, v, Ms, En, Q, d in *. field. lra. }
  assert (Z2 : / 2 * (A' / A - B' / B) - (A' * c + A * c') / (A * c - v) = - (mm * (kp - / kp)) * (En a / (2 * mom a * Ms a))).
  { assert (W1 : / 2 * (A' / A - B' / B) = ((E1 - E2) * Ms a - (1 - 2 * a) * Q * En a / 2) / (mom a * Ms a)).
    { rewrite <- ABM. apply Rmult_eq_reg_r with (2 * mom a * (A * B)); [|apply Rmult_integral_contrapositive_currified; [lra|apply Rmult_integral_contrapositive_currified; lra]].
      transitivity (mom a * (A' * B - B' * A)); [field; lra|]. transitivity (2 * ((E1 - E2) * (A * B) - (1 - 2 * a) * Q * En a / 2)); [|field; repeat split; lra].
      unfold A', B', A, B. replace (mom a * ((E1 - E2 + P') * (En a - mom a) - (E1 - E2 - P') * (En a + mom a))) with (2 * (En a * (mom a * P')) - 2 * (E1 - E2) * (mom a * mom a)) by ring.
      replace ((En a + mom a) * (En a - mom a)) with (En a ^ 2 - mom a * mom a) by ring. rewrite PP. rewrite MS. field. }
    assert (W2 : (A' * c + A * c') / (A * c - v) = - ((c ^ 2 * ((E1 - E2) * (mom a * mom a) - En a * (mom a * P')) + v * (c * (mom a * P') + c' * (mom a * mom a))) / (mom a * C0))).
    { apply Rmult_eq_reg_r with (2 * mom a * C0); [|apply Rmult_integral_contrapositive_currified; lra].
      transitivity (mom a * ((A' * c + A * c') * (B * c - v) * 2)); [rewrite <- PS; field; exact NA|].
      transitivity (mom a * ((A' * c + A * c') * (B * c - v) - (B' * c + B * c') * (A * c - v))); [replace ((B' * c + B * c') * (A * c - v)) with (- ((A' * c + A * c') * (B * c - v))) by lra; ring|].
      transitivity (- (2 * (c ^ 2 * ((E1 - E2) * (mom a * mom a) - En a * (mom a * P')) + v * (c * (mom a * P') + c' * (mom a * mom a))))); [|field; lra].
      unfold A', B', A, B. ring. }
    rewrite W1, W2, PP, MS.
    apply Rmult_eq_reg_r with (mom a * Ms a * C0); [|apply Rmult_integral_contrapositive_currified; [apply Rmult_integral_contrapositive_currified|]; lra].
    transitivity (((E1 - E2) * Ms a - (1 - 2 * a) * Q * En a / 2) * C0 + Ms a * (c ^ 2 * ((E1 - E2) * (En a ^ 2 - Ms a) - En a * (En a * (E1 - E2) - (1 - 2 * a) * Q / 2)) + v * (c * (En a * (E1 - E2) - (1 - 2 * a) * Q / 2) + c' * (En a ^ 2 - Ms a)))); [field; repeat split; lra|].
    transitivity (- (mm * (kp - / kp)) * En a / 2 * C0); [|field; repeat split; lra].
    clear - Hk Hmm AH DP K. unfold C0, c', c, v, Ms, En, Q, d in *. field. lra. }
  assert (Z3 : (B' * c + B * c') / (B * c - v) = - ((A' * c + A * c') / (A * c - v))).
  { apply Rmult_eq_reg_r with ((A * c - v) * (B * c - v)); [|apply Rmult_integral_contrapositive_currified; assumption].
    transitivity ((B' * c + B * c') * (A * c - v)); [field; exact NB|]. transitivity (- ((A' * c + A * c') * (B * c - v))); [lra|field; exact NA]. }
  replace (- (A' * c + A * c') * (fa / (A * c - v))) with (- fa * ((A' * c + A * c') / (A * c - v))) by (field; exact NA).
  replace (- (B' * c + B * c') * (fb / (B * c - v))) with (- fb * ((B' * c + B * c') / (B * c - v))) by (field; exact NB). rewrite Z3.
  transitivity ((fa - fb) * (/ 2 * (A' / A - B' / B) - (A' * c + A * c') / (A * c - v))); [ring|]. rewrite Z2. ring.
Qed.
Lemma Fs_int : is_RInt (fun a => En a / (2 * mom a * Ms a) * ln ((En a + mom a) / (En a - mom a))) 0 1 (- (Fs 1 - Fs 0) / (mm * (kp - / kp))).
Proof.
  assert (KK : 0 < mm * (kp - / kp)). { apply Rmult_lt_0_compat; [lra|]. assert (/ kp < 1) by (rewrite <- Rinv_1; apply Rinv_lt_contravar; lra). lra. }
  assert (I : is_RInt (fun a => - (mm * (kp - / kp)) * (En a / (2 * mom a * Ms a) * ln ((En a + mom a) / (En a - mom a)))) 0 1 (Fs 1 - Fs 0)).
  { apply is_int; [lra|exact Fs_der|]. intros a H. pose proof (mom_sq_pos a H) as MS. pose proof (mom_pos a H) as MP. pose proof (mom_lt a H) as ML. pose proof (ms_pos a H) as MM. pose proof (en_pos a H) as EP.
    assert (CM : continuous mom a) by (apply (ex_derive_continuous (V := R_NormedModule)); eexists; apply (mom_der a H)).
    assert (CE : continuous En a) by (apply (ex_derive_continuous (V := R_NormedModule)); unfold En; auto_derive; auto).
    assert (CS : continuous Ms a) by (apply (ex_derive_continuous (V := R_NormedModule)); unfold Ms; auto_derive; auto).
    apply (continuous_mult (K := R_AbsRing)); [apply continuous_const|]. apply (continuous_mult (K := R_AbsRing)).
    - apply (continuous_mult (K := R_AbsRing)); [exact CE|]. apply (continuous_comp (fun a => 2 * mom a * Ms a) Rinv).
      + apply (continuous_mult (K := R_AbsRing)); [apply (continuous_mult (K := R_AbsRing)); [apply continuous_const|exact CM]|exact CS].
      + apply continuous_Rinv. apply Rmult_integral_contrapositive_currified; lra.
    - apply (continuous_comp (fun a => (En a + mom a) / (En a - mom a)) ln).
      + apply (continuous_mult (K := R_AbsRing)); [apply (continuous_plus (V := R_NormedModule)); assumption|]. apply (continuous_comp (fun a => En a - mom a) Rinv); [apply (continuous_minus (V := R_NormedModule)); assumption|]. apply continuous_Rinv. lra.
      + apply (ex_derive_continuous (V := R_NormedModule)). eexists. apply is_derive_Reals, derivable_pt_lim_ln. apply Rdiv_lt_0_compat; lra. }
  pose proof (is_RInt_scal (V := R_NormedModule) _ _ _ (- / (mm * (kp - / kp))) _ I) as J.
  evar_last; [apply (is_RInt_ext (fun a => scal (- / (mm * (kp - / kp))) (- (mm * (kp - / kp)) * (En a / (2 * mom a * Ms a) * ln ((En a + mom a) / (En a - mom a)))))); [|exact J]|].
  - intros a _. toR. set (z := mm * (kp - / kp)) in *. clearbody z. match goal with |- _ * (_ * ?y) = _ => set (w := y) end. field. lra.
  - toR. set (z := mm * (kp - / kp)) in *. clearbody z. field. lra.
Qed.
End S.
