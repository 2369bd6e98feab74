(** Soft photons: the integrals over the momentum of the photon, and their limit for a vanishing photon mass. *)
From Coq Require Import Reals Lra Lia.
From Coquelicot Require Import Coquelicot.
From Verif Require Import ExtModel MathModel MathProofs DilogSpec DilogProofs XsModel VirtSpec VirtVac VirtVert VirtSphi.
Local Open Scope R_scope.
Set Bullet Behavior "Strict Subproofs".

Section K.
Variables E p mu k0 : R.
Hypothesis Hp : 0 < p.
Hypothesis HE : p < E.
Hypothesis Hmu : 0 < mu.
Hypothesis Hk0 : 0 < k0.
Let om k := sqrt (k ^ 2 + mu ^ 2).
Let M := E ^ 2 - p ^ 2.
Lemma M_pos : 0 < M.
Proof. unfold M. replace (E ^ 2 - p ^ 2) with ((E - p) * (E + p)) by ring. apply Rmult_lt_0_compat; lra. Qed.
Lemma arg_om k : 0 < k ^ 2 + mu ^ 2.
Proof. pose proof (pow2_ge_0 k). assert (0 < mu ^ 2) by (apply pow_lt; lra). lra. Qed.
Lemma om_sq k : om k ^ 2 = k ^ 2 + mu ^ 2.
Proof. unfold om. rewrite pow2_sqrt; [reflexivity|]. pose proof (arg_om k). lra. Qed.
Lemma om_pos k : 0 < om k.
Proof. apply sqrt_lt_R0, arg_om. Qed.
Lemma om_gt k : 0 <= k -> k < om k <= k + mu.
Proof.
  intros H. pose proof (om_sq k) as S. pose proof (om_pos k) as P. assert (0 < mu ^ 2) by (apply pow_lt; lra). split.
  - apply Rnot_le_lt. intros N. assert (om k ^ 2 <= k ^ 2) by (apply pow_incr; lra). lra.
  - apply Rnot_lt_le. intros N. assert ((k + mu) ^ 2 < om k ^ 2). { apply Rsqr_incrst_1 in N; try lra. unfold Rsqr in N. lra. }
    assert (0 <= k * mu) by (apply Rmult_le_pos; lra). lra.
Qed.
Lemma om_sum k : 0 <= k -> 0 < E * om k - p * k /\ 0 < E * om k + p * k /\ 0 < k + om k.
Proof.
  intros H. pose proof (om_gt k H) as [A B]. assert (p * k <= p * om k) by (apply Rmult_le_compat_l; lra). assert (p * om k < E * om k) by (apply Rmult_lt_compat_r; lra).
  assert (0 <= p * k) by (apply Rmult_le_pos; lra). lra.
Qed.
Lemma angle_int k : 0 <= k -> is_RInt (fun c => 1 / 2 * / (E * om k - p * k * c) ^ 2) (-1) 1 (/ ((E * om k - p * k) * (E * om k + p * k))).
Proof.
  intros H. pose proof (om_sum k H) as (A & B & C). set (x := E * om k) in *. set (y := p * k) in *.
  assert (Y : 0 <= y) by (unfold y; apply Rmult_le_pos; lra).
  assert (N : forall c, -1 <= c <= 1 -> 0 < x - y * c). { intros c Hc. assert (y * c <= y * 1) by (apply Rmult_le_compat_l; lra). lra. }
  pose proof (is_int (fun c => (c + 1) / (2 * (x + y) * (x - y * c))) (fun c => 1 / 2 * / (x - y * c) ^ 2) (-1) 1 ltac:(lra)) as I.
  replace (/ ((x - y) * (x + y))) with ((1 + 1) / (2 * (x + y) * (x - y * 1)) - (-1 + 1) / (2 * (x + y) * (x - y * -1))) by (field; lra).
  apply I.
  - intros c Hc. pose proof (N c Hc) as P. auto_derive; [apply Rgt_not_eq; apply Rmult_lt_0_compat; lra|]. fold_minus. field. lra.
  - intros c Hc. pose proof (N c Hc) as P. apply continuity_pt_filterlim. reg. apply pow_nonzero. lra.
Qed.
Lemma om_der k : is_derive om k (k / om k).
Proof. unfold om. auto_derive; [replace (k * (k * 1) + mu * (mu * 1)) with (k ^ 2 + mu ^ 2) by ring; apply arg_om|]. replace (k * (k * 1) + mu * (mu * 1)) with (k ^ 2 + mu ^ 2) by ring. field. apply Rgt_not_eq, om_pos. Qed.
Definition rad_prim k := / M * (ln (k + om k) - E / (2 * p) * (ln (E * om k + p * k) - ln (E * om k - p * k))).
Lemma rad_der k : 0 <= k -> is_derive rad_prim k (k ^ 2 / om k * / ((E * om k - p * k) * (E * om k + p * k))).
Proof.
  intros H. pose proof (om_sum k H) as (A & B & C). pose proof (om_pos k) as P. pose proof M_pos as MP. unfold rad_prim. pose proof (om_der k) as OD.
  evar_last.
  - apply (is_derive_scal (fun k => ln (k + om k) - E / (2 * p) * (ln (E * om k + p * k) - ln (E * om k - p * k))) k (/ M)). apply (is_derive_minus (fun k => ln (k + om k)) (fun k => E / (2 * p) * (ln (E * om k + p * k) - ln (E * om k - p * k)))).
    + apply (is_derive_comp ln (fun k => k + om k)); [apply is_derive_Reals, derivable_pt_lim_ln; exact C|]. apply (is_derive_plus (fun k => k) om); [apply (is_derive_id k)|exact OD].
    + apply (is_derive_scal (fun k => ln (E * om k + p * k) - ln (E * om k - p * k)) k (E / (2 * p))). apply (is_derive_minus (fun k => ln (E * om k + p * k)) (fun k => ln (E * om k - p * k))).
      * apply (is_derive_comp ln (fun k => E * om k + p * k)); [apply is_derive_Reals, derivable_pt_lim_ln; exact B|]. apply (is_derive_plus (fun k => E * om k) (fun k => p * k)); [apply is_derive_scal; exact OD|]. apply (is_derive_scal (fun k => k) k p). apply (is_derive_id k).
      * apply (is_derive_comp ln (fun k => E * om k - p * k)); [apply is_derive_Reals, derivable_pt_lim_ln; exact A|]. apply (is_derive_minus (fun k => E * om k) (fun k => p * k)); [apply is_derive_scal; exact OD|]. apply (is_derive_scal (fun k => k) k p). apply (is_derive_id k).
  - toR. unfold minus, plus, opp, scal, one; cbn; unfold mult; cbn. pose proof (om_sq k) as S. set (w := om k) in *.
    assert (MU : mu ^ 2 = w ^ 2 - k ^ 2) by lra. fold_minus.
    unfold M in *. field. repeat split; try lra.
Qed.
Lemma om_cont k : continuous om k.
Proof. apply (ex_derive_continuous (V := R_NormedModule) om k). exists (k / om k). apply om_der. Qed.
Lemma square_is : soft_square E p mu k0 = / M * (ln ((k0 + om k0) / mu) - E / (2 * p) * ln ((E * om k0 + p * k0) / (E * om k0 - p * k0))).
Proof.
  unfold soft_square. pose proof (om_sum k0 ltac:(lra)) as (A & B & C).
  rewrite (RInt_ext _ (fun k => k ^ 2 / om k * / ((E * om k - p * k) * (E * om k + p * k)))).
  2:{ intros k. rewrite Rmin_left, Rmax_right by lra. intros Hk. change (sqrt (k ^ 2 + mu ^ 2)) with (om k). f_equal. apply is_RInt_unique, angle_int. lra. }
  replace (/ M * _) with (rad_prim k0 - rad_prim 0).
  - apply (is_RInt_unique (V := R_CompleteNormedModule)). apply (is_int rad_prim); [lra| |].
    + intros k Hk. apply rad_der. lra.
    + intros k Hk. pose proof (om_sum k ltac:(lra)) as (A' & B' & C'). pose proof (om_pos k) as P'. apply (continuous_mult (fun k => k ^ 2 / om k) (fun k => / ((E * om k - p * k) * (E * om k + p * k)))).
      * apply (continuous_mult (fun k => k ^ 2) (fun k => / om k)); [apply continuity_pt_filterlim; reg|]. apply (continuous_comp om Rinv); [apply om_cont|apply continuous_Rinv; lra].
      * apply (continuous_comp (fun k => (E * om k - p * k) * (E * om k + p * k)) Rinv); [|apply continuous_Rinv; apply Rgt_not_eq, Rmult_lt_0_compat; lra].
        assert (X : continuous (fun k => E * om k) k) by (apply (continuous_scal_r (V := R_NormedModule) E om), om_cont).
        assert (Y : continuous (fun k => p * k) k) by (apply (continuous_scal_r (V := R_NormedModule) p (fun k => k)), continuous_id).
        apply (continuous_mult (fun k => E * om k - p * k) (fun k => E * om k + p * k)); [apply (continuous_minus (V := R_NormedModule) (fun k => E * om k) (fun k => p * k) k X Y)|apply (continuous_plus (V := R_NormedModule) (fun k => E * om k) (fun k => p * k) k X Y)].
  - unfold rad_prim. assert (Z : om 0 = mu). { unfold om. replace (0 ^ 2 + mu ^ 2) with (mu ^ 2) by ring. apply sqrt_pow2. lra. }
    rewrite Z, !ln_div by lra. replace (E * mu + p * 0) with (E * mu) by ring. replace (E * mu - p * 0) with (E * mu) by ring. rewrite Rplus_0_l. pose proof M_pos. field. lra.
Qed.
Definition rad_0 := / M * (ln (2 * k0 / mu) - E / (2 * p) * ln ((E + p) / (E - p))).
Lemma square_close : Rabs (soft_square E p mu k0 - rad_0) <= / M * (1 + E ^ 2 / M) * (mu / k0).
Proof.
  rewrite square_is. unfold rad_0. pose proof M_pos as MP. pose proof (om_gt k0 ltac:(lra)) as [W1 W2]. pose proof (om_sum k0 ltac:(lra)) as (A & B & C). set (w := om k0) in *.
  set (g := fun t => E / (2 * p) * (ln (E + p * t) - ln (E - p * t))). set (t0 := k0 / w).
  assert (T : 0 < t0 < 1). { unfold t0. split; [apply Rdiv_lt_0_compat; lra|]. apply Rmult_lt_reg_r with w; [lra|]. unfold Rdiv. rewrite Rmult_assoc, Rinv_l; lra. }
  assert (R : forall t, t0 <= t <= 1 -> 0 < E + p * t /\ 0 < E - p * t). { intros t Ht. assert (p * t <= p * 1) by (apply Rmult_le_compat_l; lra). assert (0 < p * t) by (apply Rmult_lt_0_compat; lra). lra. }
  assert (G1 : E / (2 * p) * ln ((E + p) / (E - p)) = g 1). { unfold g. rewrite ln_div by lra. rewrite !Rmult_1_r. reflexivity. }
  assert (G0 : E / (2 * p) * ln ((E * w + p * k0) / (E * w - p * k0)) = g t0).
  { unfold g. pose proof (R t0 ltac:(lra)) as [X Y]. rewrite <- ln_div by assumption. do 2 f_equal. unfold t0. field. repeat split; lra. }
  destruct (MVT_gen g t0 1 (fun t => E ^ 2 / ((E + p * t) * (E - p * t)))) as (c & Hc & HM).
  { intros t. rewrite Rmin_left, Rmax_right by lra. intros Ht. pose proof (R t ltac:(lra)). unfold g. auto_derive; [lra|]. fold_minus. field. lra. }
  { intros t. rewrite Rmin_left, Rmax_right by lra. intros Ht. pose proof (R t ltac:(lra)). apply derivable_continuous_pt. exists (E ^ 2 / ((E + p * t) * (E - p * t))). apply is_derive_Reals. unfold g. auto_derive; [lra|]. fold_minus. field. lra. }
  rewrite Rmin_left, Rmax_right in Hc by lra. rewrite G1, G0.
  assert (L : ln ((k0 + w) / mu) - ln (2 * k0 / mu) = ln ((k0 + w) / (2 * k0))). { rewrite !ln_div by lra. ring. }
  assert (LB : 0 <= ln ((k0 + w) / (2 * k0)) <= mu / k0).
  { assert (X : 1 <= (k0 + w) / (2 * k0)). { apply Rmult_le_reg_r with (2 * k0); [lra|]. unfold Rdiv. rewrite Rmult_assoc, Rinv_l; lra. }
    split.
    - rewrite <- ln_1. destruct X as [X| <-]; [|lra]. left. apply ln_increasing; lra.
    - assert (Y : (k0 + w) / (2 * k0) <= 1 + mu / k0). { apply Rmult_le_reg_r with (2 * k0); [lra|]. replace ((1 + mu / k0) * (2 * k0)) with (2 * k0 + 2 * mu) by (field; lra). unfold Rdiv. rewrite Rmult_assoc, Rinv_l; lra. }
      assert (Z : 0 < mu / k0) by (apply Rdiv_lt_0_compat; lra). apply Rle_trans with (ln (1 + mu / k0)). { destruct Y as [Y| ->]; [|lra]. left. apply ln_increasing; lra. }
      rewrite <- (ln_exp (mu / k0)) at 2. left. apply ln_increasing; [lra|]. apply exp_ineq1. lra. }
  assert (GB : 0 <= g 1 - g t0 <= E ^ 2 / M * (mu / k0)).
  { rewrite HM. pose proof (R c Hc) as [X Y]. assert (Z : M <= (E + p * c) * (E - p * c)). { replace ((E + p * c) * (E - p * c)) with (M + p ^ 2 * (1 - c ^ 2)) by (unfold M; ring). assert (c ^ 2 <= 1) by (replace 1 with (1 ^ 2) by ring; apply pow_incr; lra). assert (0 <= p ^ 2 * (1 - c ^ 2)) by (apply Rmult_le_pos; [apply pow2_ge_0|lra]). lra. }
    assert (E2 : 0 < E ^ 2) by (apply pow_lt; lra).
    assert (U : 1 - t0 <= mu / k0). { unfold t0. replace (1 - k0 / w) with ((w - k0) / w) by (field; lra). apply Rle_trans with (mu / w); [unfold Rdiv; apply Rmult_le_compat_r; [left; apply Rinv_0_lt_compat|]; lra|]. unfold Rdiv. apply Rmult_le_compat_l; [lra|]. apply Rinv_le_contravar; lra. }
    split; [apply Rmult_le_pos; [left; apply Rdiv_lt_0_compat; [lra|apply Rmult_lt_0_compat; lra]|lra]|].
    apply Rmult_le_compat; [left; apply Rdiv_lt_0_compat; [lra|apply Rmult_lt_0_compat; lra]|lra| |exact U].
    unfold Rdiv. apply Rmult_le_compat_l; [lra|]. apply Rinv_le_contravar; lra. }
  replace (/ M * (ln ((k0 + w) / mu) - g t0) - / M * (ln (2 * k0 / mu) - g 1)) with (/ M * (ln ((k0 + w) / (2 * k0)) + (g 1 - g t0))) by (rewrite <- L; ring).
  assert (I : 0 < / M) by (apply Rinv_0_lt_compat; exact MP). rewrite Rabs_mult, (Rabs_pos_eq (/ M)), Rabs_pos_eq by lra. rewrite Rmult_assoc. apply Rmult_le_compat_l; lra.
Qed.
End K.
