From Coq Require Import Reals Bool Lra Lia.
From Coquelicot Require Import Coquelicot.
From Verif Require Import ExtModel BoundModel BoundSpec BoundProofs MathModel.
Local Open Scope R_scope.

Ltac rcase := repeat match goal with
  | |- context [if rltb ?a ?b then _ else _] => let E := fresh "E" in destruct (rltb a b) eqn:E;
      [apply rltb_spec in E|apply rltb_false in E]
  | |- context [if rleb ?a ?b then _ else _] => let E := fresh "E" in destruct (rleb a b) eqn:E;
      [apply rleb_spec in E|apply rleb_false in E]
  | |- context [if reqb ?a ?b then _ else _] => let E := fresh "E" in destruct (reqb a b) eqn:E;
      [apply reqb_spec in E|apply reqb_false in E]
  end.

Lemma sqrt1p_1m_eq x : -1 <= x -> sqrt1p_1m x = sqrt (1 + x) - 1.
Proof.
  intros H. unfold sqrt1p_1m. rcase.
  { subst x. replace (1 + -1) with 0 by lra. rewrite sqrt_0. lra. }
  unfold expm1, log1p. f_equal.
  replace (0.5 * ln (1 + x)) with (/ 2 * ln (1 + x)) by lra.
  change (Rpower (1 + x) (/ 2) = sqrt (1 + x)). apply Rpower_sqrt. lra.
Qed.

Lemma log_log1m_eq x : x <> 0 -> x <> 1 -> log_log1m x = ln (Rabs x) * ln (Rabs (1 - x)).
Proof.
  intros H0 H1. unfold log_log1m, log1p. rcase; try (exfalso; lra).
  - rewrite (Rabs_pos_eq x), Rabs_minus_sym, Rabs_pos_eq by lra. reflexivity.
  - rewrite !Rabs_pos_eq by lra. do 2 f_equal; lra.
  - rewrite !Rabs_pos_eq by lra. reflexivity.
  - rewrite (Rabs_left x), (Rabs_pos_eq (1 - x)) by lra. reflexivity.
Qed.

Lemma dilog_reduce_range c x :
  let '(_, _, x') := dilog_reduce c x in -0.5 <= x' <= 0.5.
Proof.
  unfold dilog_reduce. rcase; try lra.
  - split.
    + apply Rle_trans with 0; [lra|]. apply Rlt_le, Rdiv_lt_0_compat; lra.
    + apply (Rmult_le_reg_r x); [lra|]. unfold Rdiv. rewrite Rmult_assoc, Rinv_l by lra. lra.
  - split.
    + apply Rle_trans with 0; [lra|]. apply Rlt_le, Rdiv_lt_0_compat; lra.
    + apply (Rmult_le_reg_r x); [lra|]. unfold Rdiv. rewrite Rmult_assoc, Rinv_l by lra. lra.
  - replace (x / (x - 1)) with ((- x) / (1 - x)) by (field; lra). split.
    + apply Rle_trans with 0; [lra|]. apply Rle_mult_inv_pos; lra.
    + apply (Rmult_le_reg_r (1 - x)); [lra|]. unfold Rdiv. rewrite Rmult_assoc, Rinv_l by lra. lra.
  - split.
    + apply Rle_trans with 0; [lra|]. apply Rlt_le, Rdiv_lt_0_compat; lra.
    + apply (Rmult_le_reg_r (1 - x)); [lra|]. unfold Rdiv. rewrite Rmult_assoc, Rinv_l by lra. lra.
Qed.

Lemma dilog_loop_sum x fuel : forall n r num,
  dilog_loop x fuel n r num = r + sum_f_R0 (fun k => num * x ^ k / (INR (n + k)) ^ 2) fuel
    - num * x ^ fuel / (INR (n + fuel)) ^ 2.
Proof.
  induction fuel as [|f IH]; intros n r num.
  - simpl. lra.
  - cbn [dilog_loop]. rewrite IH.
    rewrite (decomp_sum (fun k => num * x ^ k / INR (n + k) ^ 2) (S f)) by lia.
    cbn [Init.Nat.pred].
    replace (n + 0)%nat with n by lia. replace (n + S f)%nat with (S n + f)%nat by lia.
    replace (num * x ^ S f) with (num * x * x ^ f) by (simpl; ring).
    rewrite (sum_eq (fun i => num * x ^ S i / INR (n + S i) ^ 2)
                    (fun k => num * x * x ^ k / INR (S n + k) ^ 2)).
    + replace (num * x ^ 0 / INR n ^ 2) with (num / (INR n * INR n)).
      * ring.
      * simpl. rewrite !Rmult_1_r. reflexivity.
    + intros i _. replace (n + S i)%nat with (S n + i)%nat by lia.
      replace (num * x ^ S i) with (num * x * x ^ i) by (simpl; ring). reflexivity.
Qed.

(** The loop computes the truncated defining series of the dilogarithm. *)
Lemma dilog_series_sum x n : (2 <= n)%nat ->
  dilog_series x n = sum_f_R0 (fun k => x ^ (S k) / INR (S k) ^ 2) (n - 2).
Proof.
  intros Hn. unfold dilog_series. destruct n as [|[|m]]; try lia.
  replace (S (S m) - 1)%nat with (S m) by lia. replace (S (S m) - 2)%nat with m by lia.
  rewrite dilog_loop_sum. rewrite tech5.
  rewrite (sum_eq _ (fun k => x ^ S k / INR (S k) ^ 2)).
  - replace (1 + S m)%nat with (S (S m)) by lia. cbv beta. ring.
  - intros i _. replace (1 + i)%nat with (S i) by lia. simpl. reflexivity.
Qed.

Lemma clamp_spec mn x mx : ext_le mn mx -> x <> NaN ->
  ext_le mn (clamp mn x mx) /\ ext_le (clamp mn x mx) mx /\
  (ext_le mn x -> ext_le x mx -> clamp mn x mx = x) /\
  (~ ext_le mn x -> clamp mn x mx = mn) /\
  (~ ext_le x mx -> clamp mn x mx = mx).
Proof.
  intros H Hx. pose proof (ext_le_nan_l _ _ H) as Nn. pose proof (ext_le_nan_r _ _ H) as Nx.
  unfold clamp, egtb.
  destruct (eltb mn x) eqn:E1; cbn [negb].
  - apply eltb_spec in E1 as [L1 L1'].
    destruct (eltb x mx) eqn:E2; cbn [negb].
    + apply eltb_spec in E2 as [L2 L2']. repeat split; auto; intros; contradiction.
    + apply eltb_false in E2; auto. repeat split; auto using ext_le_refl.
      * intros _ L. apply ext_le_antisym; auto.
      * intros; contradiction.
  - apply eltb_false in E1; auto. repeat split; auto using ext_le_refl.
    + intros L _. apply ext_le_antisym; auto.
    + intros N. exfalso. apply N. eapply ext_le_trans; eauto.
Qed.
Lemma clamp_nan mn mx : clamp mn NaN mx = mn.
Proof. unfold clamp, egtb. destruct mn; reflexivity. Qed.
