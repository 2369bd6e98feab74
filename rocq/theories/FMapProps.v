(** C101: sampling in double arithmetic. *)
From Coq Require Import Reals ZArith Lia Lra.
From Flocq Require Import Core.
From Coquelicot Require Rcomplements.
From Verif Require Import ExtModel BoundModel TextModel MathModel ParticleModel FrameBase KinModel KinSpec CutModel CutSpec KinProps CutProps FMathModel FMathSpec FMathSeries FMathDilog FMathSqrt FMathProps FMapModel FMapSpec FMapProofs FMapInv.
Local Open Scope R_scope.

(** The values of the unit cube: doubles from 0 up to, and not including, 1; nothing below 2^-100 except 0 (generators return multiples of 2^-64 or coarser). *)
Definition unit_double (p : R) : Prop := double p /\ (p = 0 \/ bpow radix2 (-100) <= p) /\ p < 1.
Definition end_double (t : R) : Prop := double t /\ 0 <= t <= bpow radix2 1000.
Lemma unit_range p : unit_double p -> 0 <= p <= 1.
Proof. intros (_ & [->|H] & ?); [lra|pose proof (bpow_gt_0 radix2 (-100)); lra]. Qed.
Lemma unit_fmt p : unit_double p -> fmt p.
Proof. intros ((F & _) & _). exact F. Qed.
Lemma cutoff_num : 9 / 10000 <= f_X_CUTOFF <= 11 / 10000.
Proof. unfold f_X_CUTOFF. pose proof (RN_err (1 / 1000)) as E. rewrite (Rabs_pos_eq (1 / 1000)) in E by lra. pose proof eta_u0. apply Rabs_le_inv in E. lra. Qed.
(** The transverse momentum squared, for ranges inside 0..8 GeV^2 at least 1/50 wide: the error grows as exp(4 t). *)
Theorem C101_decay log log1p expm1 p a b : ulp_libm log log1p expm1 -> unit_double p -> end_double a -> end_double b -> a + 1 / 50 <= b -> b <= 8 ->
  let t := drawn_decay p a b in exists x, fst (f_ph_t_sq log1p expm1 p (Bnd (Fin a) (Fin b))) = Fin x /\ Rabs (x - t) <= / 2 ^ 53 * (2 * exp (4 * t) + 4 * t).
Proof.
  intros L P A B AB B8. rewrite e53. refine (decay_err _ _ _ (lib_of _ _ _ L) p a b A B _ (unit_range p P) (ordered _ _ _ a b (lib_of _ _ _ L) A B AB B8)). lra.
Qed.
(** Its Jacobian, over the same ranges. *)
Theorem C101_decay_jacobian log log1p expm1 p a b : ulp_libm log log1p expm1 -> unit_double p -> end_double a -> end_double b -> a + 1 / 50 <= b -> b <= 8 ->
  exists j, snd (f_ph_t_sq log1p expm1 p (Bnd (Fin a) (Fin b))) = Fin j /\
  Rabs (j - slope_decay p a b) <= / 2 ^ 53 * exp (4 * drawn_decay p a b) * (2 + 11 * slope_decay p a b).
Proof.
  intros L P A B AB B8. rewrite e53. refine (decay_jac _ _ _ (lib_of _ _ _ L) p a b A B _ (unit_range p P) (ordered _ _ _ a b (lib_of _ _ _ L) A B AB B8)). lra.
Qed.
(** These are the derivatives of the values drawn. *)
Theorem C101_slopes o p a b : 0 <= p <= 1 -> 0 < a + o <= b + o -> derivable_pt_lim (fun p => drawn_decay p a b) p (slope_decay p a b) /\
  derivable_pt_lim (fun p => drawn_inverse o p a b) p (slope_inverse o p a b).
Proof. exact (slopes o p a b). Qed.
(** x and y, for any range between 0 and 1 (for y, above 2^-100): a relative error. *)
Theorem C101_x p a b : unit_double p -> 0 <= a <= b -> b <= 1 -> let o := f_X_CUTOFF in
  exists x, fst (f_x p (Bnd (Fin a) (Fin b))) = Fin x /\ Rabs (x - drawn_inverse o p a b) <= 8 * / 2 ^ 53 * (drawn_inverse o p a b + o) + bpow radix2 (-1075).
Proof.
  intros U A B o. assert (H : 9 / 10000 <= o <= 11 / 10000) by exact cutoff_num.
  rewrite e53. destruct U as ((F & _) & P & P1). apply inverse_ok; try assumption; try lra.
  - apply Rle_trans with (bpow radix2 (-20)); [apply bpow_le; lia|cbn; lra].
  - apply Rle_trans with (bpow radix2 2); [cbn; lra|apply bpow_le; lia].
Qed.
Theorem C101_y p a b : unit_double p -> bpow radix2 (-100) <= a -> a <= b -> b <= 1 ->
  exists y, fst (f_y p (Bnd (Fin a) (Fin b))) = Fin y /\ Rabs (y - drawn_inverse 0 p a b) <= 8 * / 2 ^ 53 * drawn_inverse 0 p a b + bpow radix2 (-1075).
Proof.
  intros ((F & _) & P & P1) A AB B. pose proof (bpow_gt_0 radix2 (-100)). assert (B1 : bpow radix2 0 <= bpow radix2 100) by (apply bpow_le; lia). change (bpow radix2 0) with 1 in B1. rewrite e53.
  destruct (inverse_ok 0 p a b) as (x & E & H1); try assumption; try lra. exists x. split; [exact E|]. rewrite Rplus_0_r in H1. exact H1.
Qed.
Theorem C101_x_jacobian p a b : unit_double p -> 0 <= a <= b -> b <= 1 -> let o := f_X_CUTOFF in
  exists j, snd (f_x p (Bnd (Fin a) (Fin b))) = Fin j /\
  Rabs (j - slope_inverse o p a b) <= 20 * / 2 ^ 53 * ((drawn_inverse o p a b + o) ^ 2 * / (a + o)) + bpow radix2 (-1075).
Proof.
  intros U A B o. assert (H : 9 / 10000 <= o <= 11 / 10000) by exact cutoff_num.
  rewrite e53. destruct U as ((F & _) & P & P1). apply inverse_jac; try assumption; try lra.
  - apply Rle_trans with (bpow radix2 (-20)); [apply bpow_le; lia|cbn; lra].
  - apply Rle_trans with (bpow radix2 2); [cbn; lra|apply bpow_le; lia].
Qed.
Theorem C101_y_jacobian p a b : unit_double p -> bpow radix2 (-100) <= a -> a <= b -> b <= 1 ->
  exists j, snd (f_y p (Bnd (Fin a) (Fin b))) = Fin j /\
  Rabs (j - slope_inverse 0 p a b) <= 20 * / 2 ^ 53 * (drawn_inverse 0 p a b ^ 2 * / a) + bpow radix2 (-1075).
Proof.
  intros ((F & _) & P & P1) A AB B. pose proof (bpow_gt_0 radix2 (-100)). assert (B1 : bpow radix2 0 <= bpow radix2 100) by (apply bpow_le; lia). change (bpow radix2 0) with 1 in B1. rewrite e53.
  destruct (inverse_jac 0 p a b) as (x & E & H1); try assumption; try lra. exists x. split; [exact E|]. rewrite !Rplus_0_r in H1. exact H1.
Qed.
(** z: the difference is absolute; the Jacobian is the width of the range, rounded once. *)
Theorem C101_z p a b : unit_double p -> 0 <= a <= b -> b <= 1 ->
  exists z, f_z p (Bnd (Fin a) (Fin b)) = (Fin z, Fin (RN (b - a))) /\ Rabs (z - ((1 - p) * a + p * b)) <= 4 * / 2 ^ 53.
Proof. intros U. rewrite e53. exact (linear_ok p a b (unit_range p U)). Qed.
(** Whatever range is asked for, no finite value above 9.2 is ever returned for the transverse momentum squared. *)
Theorem C101_ceiling log log1p expm1 p a b x : ulp_libm log log1p expm1 -> unit_double p -> end_double a -> end_double b ->
  fst (f_ph_t_sq log1p expm1 p (Bnd (Fin a) (Fin b))) = Fin x -> x <= 9.2.
Proof. intros L U A B. exact (top _ _ _ (lib_of _ _ _ L) p a b x A B (unit_range p U)). Qed.
(** With an expm1 that returns -1 below -38, as the correctly rounded one does, a range above 9.5 gives infinity and a NaN weight for every p. *)
Theorem C101_infinite p a b log1p expm1 : (forall v, double v -> v <= -38 -> expm1 v = -1) -> unit_double p -> end_double a -> end_double b -> 9.5 <= a -> 9.5 <= b ->
  f_ph_t_sq log1p expm1 p (Bnd (Fin a) (Fin b)) = (PInf, NaN).
Proof. intros X U A B HA HB. exact (high p a b log1p expm1 X A B HA HB (unit_range p U) (unit_fmt p U)). Qed.
Theorem C101_rounded v : v <= -38 -> RN (exp v - 1) = -1.
Proof. exact (expm1_one v). Qed.

(** A beam of S = 2000 GeV^2: there are physical events with a transverse momentum squared of 15 GeV^2. *)
Definition high_sp := PhaseSpace (1 / 2) (1 / 2) (1 / 2) 15 1 2.
Lemma high_region : region ex_ps 2000 high_sp.
Proof.
  constructor; unfold missing_sq, qn_of, pl_of, Eh_of, q0_of, ex_ps, high_sp, sq; cbn [a_M a_m a_mh a_Mth s_x s_y s_z s_ph_t_sq]; try lra.
  set (A := sqrt _). set (B := sqrt _).
  assert (A1 : A * A = 250500) by (unfold A; rewrite sqrt_sqrt; lra). assert (B1 : B * B = 249939 / 4) by (unfold B; rewrite sqrt_sqrt; lra).
  assert (A0 : 500.4 <= A) by (unfold A; rewrite <- (sqrt_square 500.4) by lra; apply sqrt_le_1; lra).
  assert (B0 : 249.9 <= B) by (unfold B; rewrite <- (sqrt_square 249.9) by lra; apply sqrt_le_1; lra).
  assert (500.4 * 249.9 <= A * B) by (apply Rmult_le_compat; lra).
  replace ((A - B) * (A - B)) with (A * A - 2 * (A * B) + B * B) by ring. rewrite A1, B1. lra.
Qed.
(** Refuted: that every cut satisfied by physical events is satisfied by some sampled ones. The event above is drawn by the exact sampler;
    the double sampler, told to draw from 10 to 20 GeV^2, returns no value of this range for any p. *)
Theorem C101_reach_refuted : masses_ok ex_ps /\ region ex_ps 2000 high_sp /\
  (exists u jac, unit_cube 6 u /\ take_kin ex_ps 2000 u = Some (make_kin ex_ps 2000 high_sp, jac)) /\ 10 <= s_ph_t_sq high_sp <= 20 /\
  forall log log1p expm1 p, ulp_libm log log1p expm1 -> unit_double p -> ~ within (fst (f_ph_t_sq log1p expm1 p (Bnd (Fin 10) (Fin 20)))) 10 20.
Proof.
  split; [exact ex_masses|]. split; [exact high_region|]. split; [|split; [cbn; lra|]].
  - apply C69_take_onto; [exact ex_masses|exact high_region| |]; cbn; pose proof PI2_3_2; pose proof PI_RGT_0; unfold PI2 in *; lra.
  - intros log log1p expm1 p L U (x & E & X). assert (R : forall n, (0 <= n <= 100)%Z -> end_double (IZR n)).
    { intros n N. assert (0 <= IZR n <= 100) by (split; apply IZR_le; lia). split; [apply small_double; [apply generic_format_FLT; exists (Float radix2 n 0); [unfold F2R; cbn; lra|cbn; lia|cbn; lia]|]|].
      - rewrite Rabs_pos_eq; lra.
      - split; [lra|]. apply Rle_trans with (bpow radix2 7); [cbn; lra|apply bpow_le; lia]. }
    pose proof (C101_ceiling log log1p expm1 p 10 20 x L U (R 10%Z ltac:(lia)) (R 20%Z ltac:(lia)) E). lra.
Qed.
Print Assumptions C101_decay. Print Assumptions C101_decay_jacobian. Print Assumptions C101_slopes. Print Assumptions C101_x_jacobian. Print Assumptions C101_y_jacobian. Print Assumptions C101_x. Print Assumptions C101_y. Print Assumptions C101_z. Print Assumptions C101_ceiling. Print Assumptions C101_infinite. Print Assumptions C101_rounded. Print Assumptions C101_reach_refuted.
Example C101_example : exists log log1p expm1, ulp_libm log log1p expm1 /\ unit_double (1 / 2) /\ end_double 0 /\ end_double 1 /\
  (exists x, fst (f_ph_t_sq log1p expm1 (1 / 2) (Bnd (Fin 0) (Fin 1))) = Fin x /\ 0.16 <= x <= 0.18) /\
  (exists y, fst (f_y (1 / 2) (Bnd (Fin (1 / 4)) (Fin (1 / 2)))) = Fin y /\ 0.33 <= y <= 0.34).
Proof.
  destruct C98_library as (lg & lp & em & L). exists lg, lp, em. split; [exact L|].
  assert (F : forall n, (0 <= n <= 4)%Z -> double (IZR n / 2)).
  { intros n H. apply small_double; [|apply Rabs_le; assert (0 <= IZR n <= 4) by (split; apply IZR_le; lia); lra]. apply generic_format_FLT. exists (Float radix2 n (-1)); [unfold F2R; cbn; lra|cbn; lia|cbn; lia]. }
  assert (B1 : 1 <= bpow radix2 1000) by (change 1 with (bpow radix2 0); apply bpow_le; lia).
  assert (B2 : bpow radix2 (-100) <= 1 / 4) by (apply Rle_trans with (bpow radix2 (-2)); [apply bpow_le; lia|cbn; lra]).
  assert (U : unit_double (1 / 2)) by (split; [apply (F 1%Z); lia|split; [right; lra|lra]]).
  assert (E0 : end_double 0) by (split; [replace 0 with (0 / 2) by lra; apply F; lia|lra]). assert (E1 : end_double 1) by (split; [replace 1 with (2 / 2) by lra; apply F; lia|lra]).
  split; [exact U|]. split; [exact E0|]. split; [exact E1|]. split.
  - destruct (C101_decay lg lp em (1 / 2) 0 1 L U E0 E1 ltac:(lra) ltac:(lra)) as (x & E & X). exists x. split; [exact E|]. rewrite e53 in X.
    set (w := (1 - 1 / 2) * exp (- (4 * 0)) + 1 / 2 * exp (- (4 * 1))) in *. assert (W : 1 / 2 <= w <= 1 / 2 * (1 + 1 / 25)).
    { unfold w. replace (4 * 1) with 4 by ring. rewrite Rmult_0_r, Ropp_0, exp_0, Rmult_1_r, exp_Ropp. pose proof (exp_ineq1_le 1) as E2. assert (E4 : exp 4 = exp 1 * exp 1 * (exp 1 * exp 1)) by (rewrite <- !exp_plus; f_equal; lra). assert (2.7 <= exp 1) by (pose proof ConstProofs.e_digits as D; unfold ConstProofs.half_unit, ConstModel.literal in D; apply Rabs_le_inv in D; let v := eval vm_compute in (10 ^ ConstModel.decimals ConstModel.E_NUM)%Z in change (10 ^ ConstModel.decimals ConstModel.E_NUM)%Z with v in D; cbn [ConstModel.digits] in D; lra).
      assert (7.29 <= exp 1 * exp 1) by (apply Rle_trans with (2.7 * 2.7); [lra|apply Rmult_le_compat; lra]). assert (50 <= exp 4) by (rewrite E4; apply Rle_trans with (7.29 * 7.29); [lra|apply Rmult_le_compat; lra]).
      assert (0 < / exp 4) by (apply Rinv_0_lt_compat; lra). assert (/ exp 4 <= / 50) by (apply Rinv_le_contravar; lra). lra. }
    assert (D : drawn_decay (1 / 2) 0 1 = - (ln w / 4)) by reflexivity. pose proof VacHadProofs.ln2_bounds as L2.
    assert (H2 : ln (1 / 2) = - ln 2) by (replace (1 / 2) with (/ 2) by lra; apply ln_Rinv; lra).
    assert (LW : - ln 2 <= ln w <= - ln 2 + 1 / 25).
    { rewrite <- H2. split; [apply Rcomplements.ln_le; lra|]. apply Rle_trans with (ln (1 / 2 * (1 + 1 / 25))); [apply Rcomplements.ln_le; lra|]. rewrite ln_mult by lra. pose proof (exp_ineq1_le (1 / 25)). assert (ln (1 + 1 / 25) <= ln (exp (1 / 25))) by (apply Rcomplements.ln_le; lra). rewrite ln_exp in *. lra. }
    assert (V : exp (4 * drawn_decay (1 / 2) 0 1) <= 2). { rewrite D. replace (4 * - (ln w / 4)) with (- ln w) by field. rewrite exp_Ropp, exp_ln by lra. replace 2 with (/ (1 / 2)) by lra. apply Rinv_le_contravar; lra. }
    rewrite D in X, V. apply Rabs_le_inv in X. lra.
  - destruct (C101_y (1 / 2) (1 / 4) (1 / 2) U B2 ltac:(lra) ltac:(lra)) as (y & E & Y). exists y. split; [exact E|]. rewrite e53 in Y. replace (drawn_inverse 0 (1 / 2) (1 / 4) (1 / 2)) with (1 / 3) in Y by (unfold drawn_inverse; field). pose proof eta_u0. apply Rabs_le_inv in Y. lra.
Qed.
Print Assumptions C101_example.
