(** C99: the kinematic variables of the hadron in double arithmetic. *)
From Coq Require Import Reals ZArith Lia Lra.
From Flocq Require Import Core.
From Verif Require Import ExtModel TextModel FMathModel FMathSpec FMathDilog FMathSqrt FMathProps FKinModel FKinSpec FKinRel FKinProofs FKinMore FKinPoint.
Local Open Scope R_scope.

Definition inputs (S M mh x y z ph_t_sq : R) : Prop :=
  moderate S /\ moderate M /\ moderate mh /\ moderate x /\ moderate y /\ moderate z /\ moderate_sq ph_t_sq.
(** The event is not at the edge of what the masses allow: the longitudinal momentum is at least half of the energy, and
    4 M^2 x^2 is at most three times Q^2. *)
Definition inside (S M mh x y z ph_t_sq : R) : Prop := slowness S M mh y z ph_t_sq <= 3 / 4 /\ virtuality S M x y <= 3.
(** V_m is accurate relative to its natural size, however small that is compared to the two products whose difference it is. *)
Theorem C99_vm log log1p expm1 S M mh x y z ph_t_sq : ulp_libm log log1p expm1 -> inputs S M mh x y z ph_t_sq -> inside S M mh x y z ph_t_sq ->
  Rabs (f_V_m log1p expm1 S M mh x y z ph_t_sq - photon_hadron S M mh x y z ph_t_sq) <= 45 * / 2 ^ 53 * scale S M mh x y z ph_t_sq.
Proof.
  intros L (A & B & C & D & E & F & G) (I & J). rewrite e53. apply (V_err' log log1p expm1 (lib_of _ _ _ L)); try (apply moderate_inr; assumption); try apply moderate_sq_inr; assumption.
Qed.
Print Assumptions C99_vm.
(** So are the variables computed from it. *)
Theorem C99_derived log log1p expm1 S M mh x y z ph_t_sq : ulp_libm log log1p expm1 -> inputs S M mh x y z ph_t_sq -> inside S M mh x y z ph_t_sq ->
  Rabs (f_t log1p expm1 S M mh x y z ph_t_sq - transfer S M mh x y z ph_t_sq) <= 5 * / 2 ^ 53 * (mh ^ 2 + S * x * y) + 95 * / 2 ^ 53 * scale S M mh x y z ph_t_sq /\
  Rabs (f_W_sq S M x y - (M ^ 2 + S * y - S * x * y)) <= 4 * / 2 ^ 53 * (M ^ 2 + S * y + S * x * y) /\
  Rabs (f_mx_sq log1p expm1 S M mh x y z ph_t_sq - missing S M mh x y z ph_t_sq) <= 8 * / 2 ^ 53 * (M ^ 2 + mh ^ 2 + S * x * y + (1 + z) * (S * y)) + 100 * / 2 ^ 53 * scale S M mh x y z ph_t_sq.
Proof.
  intros L (A & B & C & D & E & F & G) (I & J). rewrite e53. apply moderate_inr in A, B, C, D, E, F. apply moderate_sq_inr in G. apply lib_of in L.
  split; [exact (t_err log log1p expm1 L S M mh x y z ph_t_sq A B C D E F G I J)|]. split; [exact (W_err S M x y A B D E)|exact (mx_err log log1p expm1 L S M mh x y z ph_t_sq A B C D E F G I J)].
Qed.
Print Assumptions C99_derived.
(** The longitudinal momentum is a number, and accurate. *)
Theorem C99_phl S M mh x y z ph_t_sq : inputs S M mh x y z ph_t_sq -> inside S M mh x y z ph_t_sq ->
  exists l, f_ph_l S M mh y z ph_t_sq = Some l /\ Rabs (l - longitudinal S M mh y z ph_t_sq) <= 34 * / 2 ^ 53 * longitudinal S M mh y z ph_t_sq.
Proof.
  intros (A & B & C & D & E & F & G) (I & J). rewrite e53. apply moderate_inr in A, B, C, D, E, F. apply moderate_sq_inr in G. exact (phl_err S M mh x y z ph_t_sq A B C D E F G I).
Qed.
Print Assumptions C99_phl.
Lemma mod_dyadic n e : (0 < n < 2 ^ 53)%Z -> (-1074 <= e <= 900)%Z -> / 2 ^ 50 <= IZR n * bpow radix2 e <= 2 ^ 50 -> moderate (IZR n * bpow radix2 e).
Proof. intros N E H. split; [apply dyadic_double; lia|exact H]. Qed.
Lemma mod_bp e : (-50 <= e <= 50)%Z -> moderate (bpow radix2 e).
Proof.
  intros E. rewrite <- (Rmult_1_l (bpow radix2 e)). apply (mod_dyadic 1); [lia|lia|]. rewrite Rmult_1_l, <- bpm50, <- bp50. split; apply bpow_le; lia.
Qed.
(** At the edge it is not: an allowed event whose longitudinal momentum is computed as the square root of a negative number. *)
Theorem C99_phl_refuted : exists S M mh x y z ph_t_sq, inputs S M mh x y z ph_t_sq /\ 0 < energy S M y z ^ 2 - mh ^ 2 - ph_t_sq /\ virtuality S M x y <= 3 /\
  f_ph_l S M mh y z ph_t_sq = None.
Proof.
  exists 7, (3 / 4), (1 / 8), (1 / 4), (7 / 8), (1 / 2), (4675612113138119 / 1125899906842624). destruct nan_phl as (N & P). split; [|split; [exact P|split; [unfold virtuality; lra|exact N]]].
  assert (Q : forall n e v, v = IZR n * bpow radix2 e -> (0 < n < 2 ^ 53)%Z -> (-1074 <= e <= 900)%Z -> / 2 ^ 50 <= v <= 2 ^ 50 -> moderate v) by (intros n e v ->; apply mod_dyadic).
  split; [apply (Q 7 0)%Z; [cbn|lia|lia|]; lra|]. split; [apply (Q 3 (-2))%Z; [cbn|lia|lia|]; lra|]. split; [apply (Q 1 (-3))%Z; [cbn|lia|lia|]; lra|]. split; [apply (Q 1 (-2))%Z; [cbn|lia|lia|]; lra|]. split; [apply (Q 7 (-3))%Z; [cbn|lia|lia|]; lra|]. split; [apply (Q 1 (-1))%Z; [cbn|lia|lia|]; lra|].
  destruct (Q 4675612113138119%Z (-50)%Z (4675612113138119 / 1125899906842624)) as (D & H); [cbn; lra|lia|lia|lra|]. split; [exact D|right; lra].
Qed.
Print Assumptions C99_phl_refuted.
(** Example, and what the rearrangement is for: here the plain difference of the two products gives zero, although V_m is not
    zero; the code gives it to within 45 roundings of its natural size, which is at most three times its value. *)
Lemma corner_inputs : inputs 1 (bpow radix2 (-3)) (bpow radix2 (-30)) (bpow radix2 (-50)) 1 1 0.
Proof.
  assert (O : moderate 1) by (apply (mod_bp 0); lia). repeat split; try (apply (mod_bp (-3)); lia); try (apply (mod_bp (-30)); lia); try (apply (mod_bp (-50)); lia); try apply O.
  - apply generic_format_0.
  - rewrite Rabs_R0. apply bpow_gt_0.
  - left. reflexivity.
Qed.
Theorem C99_plain : exists S M mh x y z, inputs S M mh x y z 0 /\ inside S M mh x y z 0 /\
  f_V_m_plain S M mh x y z 0 = Some 0 /\ scale S M mh x y z 0 <= 3 * Rabs (photon_hadron S M mh x y z 0) /\ photon_hadron S M mh x y z 0 <> 0.
Proof.
  exists 1, (bpow radix2 (-3)), (bpow radix2 (-30)), (bpow radix2 (-50)), 1, 1. pose proof corner_inputs as CI. split; [exact CI|].
  assert (E : energy 1 (bpow radix2 (-3)) 1 1 = 4) by (unfold energy; cbn; lra).
  assert (SL : slowness 1 (bpow radix2 (-3)) (bpow radix2 (-30)) 1 1 0 = bpow radix2 (-64)) by (unfold slowness; rewrite E; cbn; lra).
  assert (VI : virtuality 1 (bpow radix2 (-3)) (bpow radix2 (-50)) 1 = bpow radix2 (-54)) by (unfold virtuality; cbn; lra).
  assert (B4 : bpow radix2 (-64) = bpow radix2 (-54) / 1024) by (cbn; lra). assert (P : 0 < bpow radix2 (-54) < / 1000) by (split; [apply bpow_gt_0|cbn; lra]). set (v := bpow radix2 (-54)) in *.
  split; [split; [rewrite SL|rewrite VI]; lra|]. split; [exact plain_zero|].
  destruct CI as (A1 & A2 & A3 & A4 & A5 & A6 & A7). apply moderate_inr in A1, A2, A3, A4. apply moderate_sq_inr in A7.
  pose proof (v_exact 1 (bpow radix2 (-3)) (bpow radix2 (-30)) (bpow radix2 (-50)) 1 1 0) as VE. cbv zeta in VE. unfold scale. rewrite E, SL, VI, B4.
  assert (V : photon_hadron 1 (bpow radix2 (-3)) (bpow radix2 (-30)) (bpow radix2 (-50)) 1 1 0 = - (16 * (sqrt (1 + (v - v / 1024 * (1 + v))) - 1))).
  { rewrite VE; try assumption; try (rewrite SL; lra). rewrite E, SL, VI, B4. assert (H2 : 1 * 1 / (2 * bpow radix2 (-3)) * 4 = 16) by (cbn; lra). rewrite H2. ring. }
  rewrite V. set (w := v - v / 1024 * (1 + v)). assert (W : v * 0.99 <= w <= v) by (unfold w; nra).
  assert (Q : sqrt (1 + w) * sqrt (1 + w) = 1 + w) by (apply sqrt_sqrt; lra). pose proof (sqrt_pos (1 + w)) as SP. set (r := sqrt (1 + w)) in *. assert (R1 : 1 <= r) by nra. assert (R2 : r <= 1.01) by nra. assert (R3 : w <= 2.01 * (r - 1)) by nra.
  split.
  - rewrite Rabs_Ropp, Rabs_pos_eq by nra. assert (H2 : 1 * 1 / (2 * bpow radix2 (-3)) * 4 = 16) by (cbn; lra). rewrite H2. nra.
  - nra.
Qed.
Print Assumptions C99_plain.
Example C99_example log log1p expm1 : ulp_libm log log1p expm1 ->
  f_V_m log1p expm1 1 (bpow radix2 (-3)) (bpow radix2 (-30)) (bpow radix2 (-50)) 1 1 0 <> 0.
Proof.
  intros L. assert (E : energy 1 (bpow radix2 (-3)) 1 1 = 4) by (unfold energy; cbn; lra).
  assert (SL : slowness 1 (bpow radix2 (-3)) (bpow radix2 (-30)) 1 1 0 = bpow radix2 (-64)) by (unfold slowness; rewrite E; cbn; lra).
  assert (VI : virtuality 1 (bpow radix2 (-3)) (bpow radix2 (-50)) 1 = bpow radix2 (-54)) by (unfold virtuality; cbn; lra).
  assert (IN : inside 1 (bpow radix2 (-3)) (bpow radix2 (-30)) (bpow radix2 (-50)) 1 1 0). { split; [rewrite SL|rewrite VI]; cbn; lra. }
  pose proof (C99_vm log log1p expm1 _ _ _ _ _ _ _ L corner_inputs IN) as H. intros Z. rewrite Z in H. replace (0 - photon_hadron 1 (bpow radix2 (-3)) (bpow radix2 (-30)) (bpow radix2 (-50)) 1 1 0) with (- photon_hadron 1 (bpow radix2 (-3)) (bpow radix2 (-30)) (bpow radix2 (-50)) 1 1 0) in H by ring. rewrite Rabs_Ropp, e53 in H.
  destruct corner_inputs as (A1 & A2 & A3 & A4 & A5 & A6 & A7). apply moderate_inr in A1, A2, A3, A4. apply moderate_sq_inr in A7.
  assert (V : photon_hadron 1 (bpow radix2 (-3)) (bpow radix2 (-30)) (bpow radix2 (-50)) 1 1 0 <= - (16 * (0.49 * bpow radix2 (-54)))).
  { pose proof (v_exact 1 (bpow radix2 (-3)) (bpow radix2 (-30)) (bpow radix2 (-50)) 1 1 0) as VE. cbv zeta in VE. rewrite VE; try assumption; try (rewrite SL; cbn; lra). rewrite E, SL, VI. assert (H2 : 1 * 1 / (2 * bpow radix2 (-3)) * 4 = 16) by (cbn; lra). rewrite H2.
    assert (B4 : bpow radix2 (-64) = bpow radix2 (-54) / 1024) by (cbn; lra). rewrite B4. assert (P : 0 < bpow radix2 (-54) < / 1000) by (split; [apply bpow_gt_0|cbn; lra]). set (v := bpow radix2 (-54)) in *.
    set (w := v - v / 1024 * (1 + v)). assert (W : v * 0.99 <= w <= v) by (unfold w; nra).
    assert (Q : sqrt (1 + w) * sqrt (1 + w) = 1 + w) by (apply sqrt_sqrt; lra). pose proof (sqrt_pos (1 + w)) as SP. set (r := sqrt (1 + w)) in *. assert (R1 : 1 <= r) by nra. assert (R2 : r <= 1.01) by nra. assert (R3 : w <= 2.01 * (r - 1)) by nra. lra. }
  assert (SC : scale 1 (bpow radix2 (-3)) (bpow radix2 (-30)) (bpow radix2 (-50)) 1 1 0 <= 32 * bpow radix2 (-54)).
  { unfold scale. rewrite E, SL, VI. cbn. lra. }
  pose proof (bpow_gt_0 radix2 (-54)) as P. rewrite Rabs_left in H by lra. lra.
Qed.
