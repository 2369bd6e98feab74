(** Proofs for C100: the doubles. *)
From Coq Require Import Reals ZArith Lia Lra Bool String.
From Flocq Require Import Core Relative.
From Verif Require Import TextModel TextNum TextPower FKinPoint ParticleModel ConstModel ConstSpec ConstProofs.
Local Open Scope R_scope.

Lemma RN_mono a b : a <= b -> RN a <= RN b.
Proof. intros H. unfold RN. apply round_le; [apply FLT_exp_valid; reflexivity|apply valid_rnd_N|exact H]. Qed.
(** Everything within a relative distance of 2^-64 of a fraction rounds to the same double. *)
Definition all_round (a b e n : Z) : bool := rounds (a * (2 ^ 64 - 1)) (b * 2 ^ 64) e n && rounds (a * (2 ^ 64 + 1)) (b * 2 ^ 64) e n.
Lemma all_round_ok a b e n v : (0 < b)%Z -> all_round a b e n = true -> Rabs (v - IZR a / IZR b) <= / IZR (2 ^ 64) * (IZR a / IZR b) -> RN v = IZR n * bpow radix2 e.
Proof.
  intros B H V. apply andb_prop in H. destruct H as (H1 & H2). assert (B' := B). apply IZR_lt in B'. assert (T : 0 < IZR (2 ^ 64)) by (apply IZR_lt; reflexivity).
  apply (rounds_ok (IZR (a * (2 ^ 64 - 1)) / IZR (b * 2 ^ 64))) in H1; [|reflexivity]. apply (rounds_ok (IZR (a * (2 ^ 64 + 1)) / IZR (b * 2 ^ 64))) in H2; [|reflexivity].
  rewrite !mult_IZR in H1, H2. rewrite minus_IZR in H1. rewrite plus_IZR in H2. set (t := IZR (2 ^ 64)) in *. clearbody t. apply Rabs_le_inv in V.
  replace (IZR a * (t - 1) / (IZR b * t)) with (IZR a / IZR b - / t * (IZR a / IZR b)) in H1 by (field; lra). replace (IZR a * (t + 1) / (IZR b * t)) with (IZR a / IZR b + / t * (IZR a / IZR b)) in H2 by (field; lra).
  apply Rle_antisym; [rewrite <- H2|rewrite <- H1]; apply RN_mono; lra.
Qed.
(** The doubles, as integers times powers of two. *)
Definition dbl (c : const) : Z * Z :=
  match c with
  | PI_ => (7074237752028440, -51) | E_NUM => (6121026514868073, -51) | SQRT_2 => (6369051672525773, -52)
  | MASS_E => (4713133390321001, -63) | MASS_MU => (7613488256428357, -56) | MASS_TAU => (8002266033889540, -52)
  | MASS_P => (8451203591429639, -53) | MASS_N => (8462852887754012, -53) | MASS_D => (8447009683632085, -52)
  | MASS_PI_0 => (4863058935228700, -55) | MASS_PI => (5028561177502983, -55) | MASS_K_0 => (8964162856701840, -54) | MASS_K => (8893294212965537, -54)
  | MASS_PHI => (4591244179718753, -52) | MASS_J_PSI => (6973598843001845, -51)
  end%Z.
Definition dval (c : const) : R := IZR (fst (dbl c)) * bpow radix2 (snd (dbl c)).
Lemma dec_pos c : (0 < 10 ^ decimals c)%Z.
Proof. destruct c; reflexivity. Qed.
Lemma near_lit c v : Rabs (v - literal c) <= / IZR (2 ^ 64) * literal c -> RN v = dval c.
Proof. intros H. apply (all_round_ok (digits c) (10 ^ decimals c)); [apply dec_pos| |exact H]. destruct c; vm_compute; reflexivity. Qed.
Lemma lit_range c : bpow radix2 (-11) <= literal c <= 4.
Proof.
  unfold literal. pose proof (dec_pos c) as P. assert (P' := P). apply IZR_lt in P'. change (bpow radix2 (-11)) with (/ IZR (2 ^ 11)).
  assert (A : (10 ^ decimals c <= 2 ^ 11 * digits c)%Z) by (destruct c; vm_compute; discriminate). assert (B : (digits c <= 4 * 10 ^ decimals c)%Z) by (destruct c; vm_compute; discriminate).
  apply IZR_le in A, B. rewrite mult_IZR in A, B. assert (T : 0 < IZR (2 ^ 11)) by (apply IZR_lt; reflexivity). set (t := IZR (2 ^ 11)) in *. clearbody t. set (n := IZR (digits c)) in *. set (d := IZR (10 ^ decimals c)) in *. split.
  - apply Rmult_le_reg_r with (t * d); [apply Rmult_lt_0_compat; lra|]. replace (/ t * (t * d)) with d by (field; lra). replace (n / d * (t * d)) with (t * n) by (field; lra). exact A.
  - apply Rmult_le_reg_r with d; [lra|]. replace (n / d * d) with n by (field; lra). exact B.
Qed.
Lemma long_near p emin x : (64 <= p)%Z -> (emin + p <= -20)%Z -> bpow radix2 (-11) <= x -> Rabs (to_long p emin x - x) <= / IZR (2 ^ 64) * x.
Proof.
  intros P E X. assert (P0 : Prec_gt_0 p) by (unfold Prec_gt_0; lia). pose proof (bpow_gt_0 radix2 (-11)) as X0.
  pose proof (relative_error_N_FLT radix2 emin p P0 (fun n => negb (Z.even n)) x) as R. rewrite (Rabs_pos_eq x) in R by lra. assert (Q : bpow radix2 (emin + p - 1) <= x) by (apply Rle_trans with (2 := X), bpow_le; lia). specialize (R Q). unfold to_long.
  eapply Rle_trans; [exact R|]. apply Rmult_le_compat_r; [lra|]. change (/ IZR (2 ^ 64)) with (bpow radix2 (- (64))). apply Rle_trans with (/ 2 * bpow radix2 (-63)); [apply Rmult_le_compat_l; [lra|]; apply bpow_le; lia|]. right. cbn. lra.
Qed.
Lemma constant_is p emin c : long_double p emin -> constant p emin c = dval c.
Proof.
  intros [(P & E)|(-> & ->)]; unfold constant.
  - apply near_lit, long_near; [exact P|exact E|apply lit_range].
  - unfold to_long. change (round radix2 (FLT_exp (-1074) 53) ZnearestE (literal c)) with (RN (literal c)).
    assert (L : RN (literal c) = dval c) by (apply near_lit; unfold Rminus; rewrite Rplus_opp_r, Rabs_R0; apply Rmult_le_pos; [left; apply Rinv_0_lt_compat, IZR_lt; reflexivity|apply Rle_trans with (2 := proj1 (lit_range c)), bpow_ge_0]).
    unfold RN at 1. rewrite round_generic; [exact L|apply valid_rnd_N|]. unfold RN. apply generic_format_round; [apply FLT_exp_valid; reflexivity|apply valid_rnd_N].
Qed.
Lemma near_meaning c x : meaning c = Some x -> RN x = dval c.
Proof.
  intros H. pose proof (digits_right c x H) as D. apply near_lit. unfold half_unit in D. eapply Rle_trans; [exact D|].
  apply Rle_trans with (/ IZR (2 ^ 64) * bpow radix2 (-11)); [|apply Rmult_le_compat_l; [left; apply Rinv_0_lt_compat, IZR_lt; reflexivity|apply lit_range]].
  assert (B : (2 ^ 75 <= 10 ^ decimals c)%Z) by (destruct c; try discriminate H; vm_compute; discriminate). apply IZR_le in B. assert (T : 0 < IZR (2 ^ 75)) by (apply IZR_lt; reflexivity).
  apply Rinv_le_contravar in B; [|exact T]. change (/ IZR (2 ^ 64)) with (bpow radix2 (-64)). rewrite <- bpow_plus. change (/ IZR (2 ^ 75)) with (bpow radix2 (-64 + -11)) in B. pose proof (bpow_gt_0 radix2 (-64 + -11)). assert (I : 0 < / IZR (10 ^ decimals c)) by (apply Rinv_0_lt_compat, IZR_lt, dec_pos). lra.
Qed.
Lemma dval_near c : Rabs (dval c - literal c) <= / IZR (2 ^ 53) * 4.
Proof.
  rewrite <- (near_lit c (literal c)) by (unfold Rminus; rewrite Rplus_opp_r, Rabs_R0; apply Rmult_le_pos; [left; apply Rinv_0_lt_compat, IZR_lt; reflexivity|apply Rle_trans with (2 := proj1 (lit_range c)), bpow_ge_0]).
  assert (P0 : Prec_gt_0 53) by reflexivity. pose proof (relative_error_N_FLT radix2 (-1074) 53 P0 (fun n => negb (Z.even n)) (literal c)) as R. destruct (lit_range c) as (L & U). pose proof (bpow_gt_0 radix2 (-11)) as X0. rewrite (Rabs_pos_eq (literal c)) in R by lra.
  assert (Q : bpow radix2 (-1074 + 53 - 1) <= literal c) by (apply Rle_trans with (2 := L), bpow_le; lia). specialize (R Q). unfold RN. eapply Rle_trans; [exact R|]. cbn. cbn in U. lra.
Qed.
Lemma agrees_lit c v e : Rabs (1000 * literal c - v) + 1000 * (/ IZR (2 ^ 53) * 4) <= e -> agrees (dval c) (v, e).
Proof.
  intros H. unfold agrees. cbn [fst snd]. pose proof (dval_near c) as D. replace (1000 * dval c - v) with ((1000 * literal c - v) + 1000 * (dval c - literal c)) by ring. eapply Rle_trans; [apply Rabs_triang|]. eapply Rle_trans; [|exact H]. apply Rplus_le_compat_l. rewrite Rabs_mult, (Rabs_pos_eq 1000) by lra. lra.
Qed.
