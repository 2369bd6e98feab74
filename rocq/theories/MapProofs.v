From Coq Require Import Reals Lra Psatz.
From Coquelicot Require Import Coquelicot.
From Verif Require Import ExtModel BoundModel BoundSpec BoundProofs MathModel MapModel MapSpec.
Local Open Scope R_scope.

(** Read an equation in one of the structures over R as an equation in R. *)
Ltac toR := match goal with |- @eq _ ?x ?y => change (@eq R x y) end.

Lemma linear_cov a b : change_of_variable_on Linear a b.
Proof.
  split; [|split; [|split]]; simpl; intros; auto; try lra. apply @is_derive_id.
Qed.

Lemma inverse_cov off a b : a <= b -> 0 < a + off \/ b + off < 0 -> change_of_variable_on (Inverse off) a b.
Proof.
  intros L H. 
  assert (V : forall v, - 1 / (a + off) <= v <= - 1 / (b + off) -> v <> 0).
  { intros v Hv. destruct H as [H|H].
    + assert (- 1 / (b + off) < 0) by (unfold Rdiv; assert (0 < / (b + off)) by (apply Rinv_0_lt_compat; lra); lra). lra.
    + assert (0 < - 1 / (a + off)) by (unfold Rdiv; assert (/ (a + off) < 0) by (apply Rinv_lt_0_compat; lra); lra). lra. }
  split; [|split; [|split]]; simpl.
  - intros x Hx. field. lra.
  - intros x y Hx Hxy Hy.
    assert (P : 0 < (x + off) * (y + off)) by nra.
    assert (E : - 1 / (y + off) - - 1 / (x + off) = (y - x) / ((x + off) * (y + off))) by (field; lra).
    assert (0 < (y - x) / ((x + off) * (y + off))) by (apply Rdiv_lt_0_compat; lra). lra.
  - intros v Hv. specialize (V v Hv). auto_derive; [auto|]. unfold sq. field. auto.
  - intros v Hv. specialize (V v Hv). unfold sq.
    assert (N : 1 / v <> 0) by (unfold Rdiv; rewrite Rmult_1_l; apply Rinv_neq_0_compat; auto).
    apply (Rlt_0_sqr (1 / v)) in N. exact N.
Qed.

Lemma log_cov off a b : 0 < a + off -> change_of_variable_on (Log off) a b.
Proof.
  intros H. split; [|split; [|split]]; simpl.
  - intros x Hx. rewrite exp_ln by lra. ring.
  - intros x y Hx Hxy Hy. apply ln_increasing; lra.
  - intros v _. auto_derive; auto. ring.
  - intros v _. apply exp_pos.
Qed.

Lemma decay_cov len a b : 0 < len -> change_of_variable_on (Decay len) a b.
Proof.
  intros H. unfold Decay, expm1, log1p. split; [|split; [|split]]; simpl.
  - intros x _. replace (1 + - - (exp (- x / len) - 1)) with (exp (- x / len)) by ring.
    rewrite ln_exp. field. lra.
  - intros x y _ Hxy _.
    assert (exp (- y / len) < exp (- x / len)); [|lra].
    apply exp_increasing. unfold Rdiv. apply Rmult_lt_compat_r; [apply Rinv_0_lt_compat|]; lra.
  - intros v [_ Hv]. pose proof (exp_pos (- b / len)). auto_derive; [lra|]. field. lra.
  - intros v [_ Hv]. pose proof (exp_pos (- b / len)). apply Rdiv_lt_0_compat; lra.
Qed.

Lemma is_derive_arcsinh x : is_derive arcsinh x (/ sqrt (x ^ 2 + 1)).
Proof. apply is_derive_Reals. apply derivable_pt_lim_arcsinh. Qed.
Lemma is_derive_sinh x : is_derive sinh x (cosh x).
Proof. apply is_derive_Reals, derivable_pt_lim_sinh. Qed.
Lemma is_derive_cosh x : is_derive cosh x (sinh x).
Proof. apply is_derive_Reals, derivable_pt_lim_cosh. Qed.
Lemma cosh_pos x : 0 < cosh x.
Proof. unfold cosh. pose proof (exp_pos x); pose proof (exp_pos (- x)). lra. Qed.
Lemma cosh_sq x : cosh x * cosh x = 1 + sinh x * sinh x.
Proof.
  unfold cosh, sinh. assert (E : exp x * exp (- x) = 1) by (rewrite <- exp_plus, Rplus_opp_r; apply exp_0).
  nra.
Qed.
Lemma cosh_arcsinh t : cosh (arcsinh t) = sqrt (1 + t * t).
Proof.
  symmetry. apply sqrt_lem_1; [nra|left; apply cosh_pos|].
  rewrite cosh_sq, sinh_arcsinh. reflexivity.
Qed.
Lemma sinh_plus a b : sinh (a + b) = sinh a * cosh b + cosh a * sinh b.
Proof. unfold sinh, cosh. rewrite Ropp_plus_distr, !exp_plus. field. Qed.
Lemma cosh_plus a b : cosh (a + b) = cosh a * cosh b + sinh a * sinh b.
Proof. unfold sinh, cosh. rewrite Ropp_plus_distr, !exp_plus. field. Qed.
Lemma arcsinh_incr x y : x < y -> arcsinh x < arcsinh y.
Proof. apply arcsinh_lt. Qed.

Lemma sigmoid_cov c w a b : 0 < w -> change_of_variable_on (Sigmoid c w) a b.
Proof.
  intros H. split; [|split; [|split]]; simpl.
  - intros x _. rewrite sinh_arcsinh. field. lra.
  - intros x y _ Hxy _. apply arcsinh_incr. unfold Rdiv. apply Rmult_lt_compat_r; [apply Rinv_0_lt_compat|]; lra.
  - intros v _. evar_last.
    + apply @is_derive_plus; [|apply @is_derive_const]. apply is_derive_scal. apply is_derive_sinh.
    + unfold plus, zero; simpl. ring.
  - intros v _. pose proof (cosh_pos v). nra.
Qed.

Section Sig2.
  Variables (c w r rho : R).
  Hypotheses (Hw : 0 < w) (Hrho : 0 < rho).
  Let U := t_u (Sigmoid2 c w r rho).
  Let X := t_x (Sigmoid2 c w r rho).
  Let J := t_jac (Sigmoid2 c w r rho).

  Lemma s2_b_pos u : 0 < s2_b rho u.
  Proof. unfold s2_b, sq. pose proof (cosh_pos u). assert (0 < rho * cosh u) by (apply Rmult_lt_0_compat; auto). nra. Qed.
  Lemma s2_rad_pos u : 0 < s2_b rho u + sq ((r - 1) * (c / w)).
  Proof. pose proof (s2_b_pos u). pose proof (Rle_0_sqr ((r - 1) * (c / w))) as Q. unfold Rsqr in Q. unfold sq. lra. Qed.
  Lemma s2_det_pos u : 0 < s2_det c w r rho u.
  Proof. unfold s2_det. apply sqrt_lt_R0, s2_rad_pos. Qed.

  Lemma s2_inverse x : X (U x) = x.
  Proof.
    set (t1 := (x - c) / w). set (t2 := (x - c * r) / (w * rho)).
    set (C1 := sqrt (1 + t1 * t1)). set (C2 := sqrt (1 + t2 * t2)).
    assert (HC1 : C1 * C1 = 1 + t1 * t1) by (apply sqrt_sqrt; nra).
    assert (HC2 : C2 * C2 = 1 + t2 * t2) by (apply sqrt_sqrt; nra).
    assert (P1 : 0 < C1) by (apply sqrt_lt_R0; nra).
    assert (P2 : 0 < C2) by (apply sqrt_lt_R0; nra).
    assert (EU : U x = arcsinh t1 + arcsinh t2) by reflexivity.
    assert (Es : sinh (U x) = t1 * C2 + C1 * t2).
    { rewrite EU, sinh_plus, !sinh_arcsinh, !cosh_arcsinh. reflexivity. }
    assert (Ec : cosh (U x) = C1 * C2 + t1 * t2).
    { rewrite EU, cosh_plus, !sinh_arcsinh, !cosh_arcsinh. reflexivity. }
    assert (Ex : x = w * t1 + c) by (unfold t1; field; lra).
    assert (Ed : (r - 1) * (c / w) = t1 - rho * t2) by (unfold t1, t2; field; lra).
    assert (Ecr : c * r = x - w * rho * t2) by (unfold t2; field; lra).
    assert (Edet : s2_det c w r rho (U x) = C1 + rho * C2).
    { unfold s2_det. apply sqrt_lem_1.
      - left. apply s2_rad_pos.
      - nra.
      - unfold s2_b, sq. rewrite Ed, Ec.
        replace ((C1 + rho * C2) * (C1 + rho * C2)) with (C1 * C1 + rho * rho * (C2 * C2) + 2 * rho * C1 * C2) by ring.
        rewrite HC1, HC2. ring. }
    pose proof (s2_b_pos (U x)) as Pb.
    unfold X. cbn [t_x Sigmoid2].
    apply (Rmult_eq_reg_r (s2_b rho (U x))); [|lra].
    unfold Rdiv. rewrite Rmult_assoc, Rinv_l, Rmult_1_r by lra.
    unfold s2_num. cbv zeta. rewrite Edet, Es, Ec. unfold s2_b, sq. rewrite Ec.
    clearbody C1 C2. clear Edet Es Ec EU Pb.
    (* express c and c r through x, t1, t2 *)
    replace (c * (r + rho * rho + rho * (1 + r) * (C1 * C2 + t1 * t2)))
      with (c * r + c * rho * rho + rho * (c + c * r) * (C1 * C2 + t1 * t2)) by ring.
    rewrite Ecr. replace c with (x - w * t1) by lra.
    replace (w * rho * (C1 + rho * C2) * (t1 * C2 + C1 * t2))
      with (w * rho * (t1 * (C1 * C2) + (C1 * C1) * t2 + rho * t1 * (C2 * C2) + rho * t2 * (C1 * C2))) by ring.
    rewrite HC1, HC2. ring.
  Qed.

  Lemma s2_derive (u : R) : is_derive X u (J u).
  Proof.
    pose proof (s2_b_pos u) as Pb. pose proof (s2_rad_pos u) as Pr. pose proof (s2_det_pos u) as Pd.
    assert (Db : is_derive (s2_b rho) u (2 * rho * sinh u)).
    { unfold s2_b. evar_last.
      - apply @is_derive_plus; [apply @is_derive_const|]. apply is_derive_scal, is_derive_cosh.
      - unfold plus, zero; simpl. ring. }
    assert (Dd : is_derive (s2_det c w r rho) u (2 * rho * sinh u / (2 * s2_det c w r rho u))).
    { unfold s2_det at 1. evar_last.
      - apply (is_derive_sqrt (fun u => s2_b rho u + sq ((r - 1) * (c / w)))).
        + apply @is_derive_plus; [exact Db|apply @is_derive_const].
        + apply Pr.
      - unfold plus, zero; simpl. fold (s2_det c w r rho u). field. lra. }
    assert (Dn : is_derive (s2_num c w r rho) u
      (c * (rho * (1 + r) * sinh u) +
       w * rho * (2 * rho * sinh u / (2 * s2_det c w r rho u) * sinh u + s2_det c w r rho u * cosh u))).
    { unfold s2_num. evar_last.
      - apply @is_derive_plus.
        + apply is_derive_scal. apply @is_derive_plus; [apply @is_derive_const|].
          apply is_derive_scal, is_derive_cosh.
        + apply (is_derive_mult (fun u => w * rho * s2_det c w r rho u) sinh).
          * apply is_derive_scal. exact Dd.
          * apply is_derive_sinh.
          * intros; apply Rmult_comm.
      - unfold plus, zero, mult; simpl. toR. field. lra. }
    evar_last.
    - apply (is_derive_div (s2_num c w r rho) (s2_b rho)); [exact Dn|exact Db|lra].
    - unfold J. cbn [t_jac Sigmoid2]. cbv zeta. replace 0.5 with (/ 2) by lra. toR. field. lra.
  Qed.

  Lemma s2_u_derive x : exists d, 0 < d /\ is_derive U x d.
  Proof.
    assert (W : 0 < w * rho) by nra.
    exists (/ w * / sqrt (((x - c) / w) ^ 2 + 1) + / (w * rho) * / sqrt (((x - c * r) / (w * rho)) ^ 2 + 1)).
    assert (S : forall t, 0 < sqrt (t ^ 2 + 1)) by (intros t; apply sqrt_lt_R0; nra).
    split.
    - pose proof (S ((x - c) / w)). pose proof (S ((x - c * r) / (w * rho))).
      assert (0 < / w * / sqrt (((x - c) / w) ^ 2 + 1)) by (apply Rmult_lt_0_compat; apply Rinv_0_lt_compat; auto).
      assert (0 < / (w * rho) * / sqrt (((x - c * r) / (w * rho)) ^ 2 + 1)) by (apply Rmult_lt_0_compat; apply Rinv_0_lt_compat; auto).
      lra.
    - unfold U. cbn [t_u Sigmoid2]. cbv zeta.
      apply @is_derive_plus.
      + apply (is_derive_comp arcsinh (fun x => (x - c) / w)); [apply is_derive_arcsinh|].
        auto_derive; auto. lra.
      + apply (is_derive_comp arcsinh (fun x => (x - c * r) / (w * rho))); [apply is_derive_arcsinh|].
        auto_derive; auto. lra.
  Qed.

  Lemma s2_incr x y : x < y -> U x < U y.
  Proof.
    intros H. unfold U. cbn [t_u Sigmoid2]. cbv zeta.
    assert (W : 0 < w * rho) by nra.
    assert (arcsinh ((x - c) / w) < arcsinh ((y - c) / w)).
    { apply arcsinh_incr. unfold Rdiv. apply Rmult_lt_compat_r; [apply Rinv_0_lt_compat|]; lra. }
    assert (arcsinh ((x - c * r) / (w * rho)) < arcsinh ((y - c * r) / (w * rho))).
    { apply arcsinh_incr. unfold Rdiv. apply Rmult_lt_compat_r; [apply Rinv_0_lt_compat|]; lra. }
    lra.
  Qed.

  Lemma s2_jac_pos_at x : 0 < J (U x).
  Proof.
    destruct (s2_u_derive x) as [d [Pd Hd]].
    assert (H1 : is_derive (fun s => X (U s)) x (d * J (U x))).
    { apply (is_derive_comp X U); auto. apply s2_derive. }
    assert (H2 : is_derive (fun s => X (U s)) x 1).
    { apply (is_derive_ext (fun s => s)); [intros; symmetry; apply s2_inverse|auto_derive; auto]. }
    assert (E : d * J (U x) = 1).
    { apply is_derive_unique in H1. apply is_derive_unique in H2. rewrite <- H1, <- H2. reflexivity. }
    destruct (Rle_lt_dec (J (U x)) 0) as [L|L]; auto. exfalso. nra.
  Qed.

  Lemma s2_onto a b v : a <= b -> U a <= v <= U b -> exists x, a <= x <= b /\ U x = v.
  Proof.
    intros L H.
    destruct (Req_EM_T v (U a)) as [->|Na]; [exists a; split; [lra|reflexivity]|].
    destruct (Req_EM_T v (U b)) as [->|Nb]; [exists b; split; [lra|reflexivity]|].
    assert (CU : continuity U).
    { intros x. apply continuity_pt_filterlim. destruct (s2_u_derive x) as [d [_ Hd]].
      apply (ex_derive_continuous U x). exists d; auto. }
    destruct (IVT_gen U a b v CU) as [x [Hx Ex]].
    - assert (U a <= U b) by lra. rewrite Rmin_left, Rmax_right by lra. lra.
    - exists x. rewrite Rmin_left, Rmax_right in Hx by lra. auto.
  Qed.

  Lemma sigmoid2_cov a b : a <= b -> change_of_variable_on (Sigmoid2 c w r rho) a b.
  Proof.
    intros L. split; [|split; [|split]].
    - intros x _. apply s2_inverse.
    - intros x y _ Hxy _. apply s2_incr; auto.
    - intros v _. apply s2_derive.
    - intros v Hv. destruct (s2_onto a b v L Hv) as [x [_ <-]]. apply s2_jac_pos_at.
  Qed.
End Sig2.

(** ** apply_map *)
Lemma apply_map_unfold t p a b : t_u t a <= t_u t b ->
  let u := (1 - p) * t_u t a + p * t_u t b in
  apply_map t p a b = Some (t_x t u, t_jac t u * (t_u t b - t_u t a)).
Proof.
  intros H. unfold apply_map, mk_bound. apply rleb_spec in H. cbn [eleb]. rewrite H. cbn. reflexivity.
Qed.

Definition am_x t a b p : R := t_x t ((1 - p) * t_u t a + p * t_u t b).
Definition am_j t a b p : R := t_jac t ((1 - p) * t_u t a + p * t_u t b) * (t_u t b - t_u t a).

Section AM.
  Variables (t : transform) (a b : R).
  Hypotheses (L : a <= b) (C : change_of_variable_on t a b).

  Lemma u_le : t_u t a <= t_u t b.
  Proof.
    destruct C as (_ & I & _). destruct (Req_EM_T a b) as [->|N]; [lra|].
    left. apply I; lra.
  Qed.
  Lemma am_eq p : apply_map t p a b = Some (am_x t a b p, am_j t a b p).
  Proof. rewrite apply_map_unfold by apply u_le. reflexivity. Qed.
  Lemma lerp_in p : 0 <= p <= 1 ->
    t_u t a <= (1 - p) * t_u t a + p * t_u t b <= t_u t b.
  Proof. pose proof u_le. intros; nra. Qed.
  Lemma am_derive p : 0 <= p <= 1 -> is_derive (am_x t a b) p (am_j t a b p).
  Proof.
    intros Hp. destruct C as (_ & _ & D & _). unfold am_x, am_j. evar_last.
    - apply (is_derive_comp (t_x t) (fun p => (1 - p) * t_u t a + p * t_u t b)).
      + apply D. apply lerp_in; auto.
      + auto_derive; auto.
    - unfold scal; simpl; unfold mult; simpl. ring.
  Qed.
  Lemma am_j_nonneg p : 0 <= p <= 1 -> 0 <= am_j t a b p /\ (a < b -> 0 < am_j t a b p).
  Proof.
    intros Hp. destruct C as (_ & I & _ & P). unfold am_j.
    pose proof (P _ (lerp_in p Hp)). pose proof u_le. split; [nra|].
    intros Hab. assert (t_u t a < t_u t b) by (apply I; lra). nra.
  Qed.
  Lemma am_ends : am_x t a b 0 = a /\ am_x t a b 1 = b.
  Proof.
    destruct C as (Inv & _). unfold am_x. split.
    - replace ((1 - 0) * t_u t a + 0 * t_u t b) with (t_u t a) by ring. apply Inv; lra.
    - replace ((1 - 1) * t_u t a + 1 * t_u t b) with (t_u t b) by ring. apply Inv; lra.
  Qed.
  Lemma am_mono p q : 0 <= p -> p <= q -> q <= 1 -> am_x t a b p <= am_x t a b q.
  Proof.
    intros Hp Hpq Hq. destruct (Req_EM_T p q) as [->|N]; [lra|].
    destruct (MVT_gen (am_x t a b) p q (am_j t a b)) as [z [Hz E]].
    - intros x Hx. rewrite Rmin_left, Rmax_right in Hx by lra. apply am_derive. lra.
    - intros x Hx. rewrite Rmin_left, Rmax_right in Hx by lra.
      apply continuity_pt_filterlim. apply (ex_derive_continuous (am_x t a b) x).
      eexists. apply am_derive. lra.
    - rewrite Rmin_left, Rmax_right in Hz by lra.
      destruct (am_j_nonneg z) as [G _]; [lra|]. nra.
  Qed.
  Lemma am_in p : 0 <= p <= 1 -> a <= am_x t a b p <= b.
  Proof.
    intros Hp. destruct am_ends as [E0 E1]. split.
    - rewrite <- E0 at 1. apply am_mono; lra.
    - rewrite <- E1 at 2. apply am_mono; lra.
  Qed.
  Lemma am_onto x : a <= x <= b -> exists p, 0 <= p <= 1 /\ am_x t a b p = x.
  Proof.
    intros Hx. destruct C as (Inv & I & _).
    assert (M : forall y z, a <= y -> y <= z -> z <= b -> t_u t y <= t_u t z).
    { intros y z H1 H2 H3. destruct (Req_EM_T y z) as [->|N]; [lra|]. left. apply I; lra. }
    destruct (Req_EM_T a b) as [E|N].
    - exists 0. split; [lra|]. rewrite (proj1 am_ends). lra.
    - assert (Lt : t_u t a < t_u t b) by (apply I; lra).
      pose proof (M a x) ltac:(lra) as M1. pose proof (M x b) as M2.
      specialize (M a x). assert (A1 : t_u t a <= t_u t x) by (apply M; lra).
      assert (A2 : t_u t x <= t_u t b) by (apply M2; lra).
      exists ((t_u t x - t_u t a) / (t_u t b - t_u t a)). split.
      + split; [apply Rle_mult_inv_pos; lra|].
        apply (Rmult_le_reg_r (t_u t b - t_u t a)); [lra|]. unfold Rdiv. rewrite Rmult_assoc, Rinv_l by lra. lra.
      + unfold am_x. replace ((1 - (t_u t x - t_u t a) / (t_u t b - t_u t a)) * t_u t a +
          (t_u t x - t_u t a) / (t_u t b - t_u t a) * t_u t b) with (t_u t x) by (field; lra).
        apply Inv; lra.
  Qed.
End AM.

Lemma apply_map_correct t a b : a <= b -> change_of_variable_on t a b ->
  exists X J : R -> R,
    (forall p, apply_map t p a b = Some (X p, J p)) /\
    (forall p, 0 <= p <= 1 -> a <= X p <= b) /\
    X 0 = a /\ X 1 = b /\
    (forall x, a <= x <= b -> exists p, 0 <= p <= 1 /\ X p = x) /\
    (forall p, 0 <= p <= 1 -> is_derive X p (J p)) /\
    (forall p, 0 <= p <= 1 -> 0 <= J p /\ (a < b -> 0 < J p)).
Proof.
  intros L C. exists (am_x t a b), (am_j t a b).
  pose proof (am_ends t a b L C) as [E0 E1].
  split; [intros p; apply am_eq; auto|].
  split; [intros p; apply am_in; auto|].
  split; [auto|]. split; [auto|].
  split; [intros x Hx; apply am_onto; auto|].
  split; [intros p Hp; apply am_derive; auto|].
  intros p Hp. apply am_j_nonneg; auto.
Qed.
