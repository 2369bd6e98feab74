(** C96: intervals in double arithmetic. *)
From Coq Require Import Reals ZArith Bool Lia Lra.
From Flocq Require Import Core.Core IEEE754.Binary IEEE754.Bits.
From Verif Require Import GridModel FBoundModel FBoundProofs FBoundLerp.
Local Open Scope R_scope.
(** the real number a finite double stands for *)
Local Notation B := (Binary.B2R 53 1024).
Definition double (bits : Z) : binary64 := b64_of_bits bits.

Lemma contains_real b x : f_isfinite (f_min b) = true -> f_isfinite (f_max b) = true -> f_isfinite x = true -> B (f_min b) <= B x <= B (f_max b) -> f_contains b x = true.
Proof. intros Fl Fh Fx H. apply contains_split. split; apply le_finite; tauto. Qed.

(** Shifting an interval, infinite ends included, never loses a point shifted with it, even where additions round or overflow. *)
Theorem C96_shift b x s : f_isfinite s = true -> f_contains b x = true ->
  f_contains (f_badd b s) (f_add x s) = true /\ f_contains (f_bsub b s) (f_sub x s) = true.
Proof. intros Fs H. split; [exact (add_keeps b x s Fs H)|exact (sub_keeps b x s Fs H)]. Qed.
(** The same for scaling by a positive finite number, and by zero if the ends are finite. *)
Theorem C96_scale b x s : f_isfinite s = true -> f_contains b x = true ->
  (0 < B s -> f_contains (f_bmul b s) (f_mul x s) = true /\ f_contains (f_bdiv b s) (f_div x s) = true) /\
  (B s = 0 -> f_isfinite (f_min b) = true -> f_isfinite (f_max b) = true -> f_contains (f_bmul b s) (f_mul x s) = true).
Proof.
  intros Fs H. split; [intros P; split; [exact (mul_keeps b x s Fs P H)|exact (div_keeps b x s Fs P H)]|intros Z Fl Fh; exact (mul_zero_keeps b x s Fl Fh Fs Z H)].
Qed.
(** The converse of C02 fails once sums are rounded: [1, 2] + 2^60 contains 0 + 2^60. Scaling [0, +inf) by zero loses the end. *)
Theorem C96_shift_back_refuted : exists b x s, f_isfinite s = true /\ f_isfinite x = true /\
  f_contains (f_badd b s) (f_add x s) = true /\ f_contains b x = false.
Proof. exists (f_bound (f_of_Z 1) (f_of_Z 2)), (f_of_Z 0), (f_of_Z (2 ^ 60)). repeat split; vm_compute; reflexivity. Qed.
Theorem C96_scale_zero_refuted : exists b x s, f_isfinite s = true /\ B s = 0 /\ f_contains b x = true /\ f_contains (f_bmul b s) (f_mul x s) = false.
Proof. exists (f_bound (f_of_Z 0) pinf), (f_of_Z 1), (f_of_Z 0). split; [reflexivity|]. split; [exact (proj1 zero_val)|]. split; vm_compute; reflexivity. Qed.

(** Both ends are hit exactly. *)
Theorem C96_lerp_ends b t : f_isfinite (f_min b) = true -> f_isfinite (f_max b) = true -> f_isfinite t = true ->
  (B t = 0 -> f_isfinite (f_lerp b t) = true /\ B (f_lerp b t) = B (f_min b)) /\
  (B t = 1 -> f_isfinite (f_lerp b t) = true /\ B (f_lerp b t) = B (f_max b)).
Proof. intros Fl Fh Ft. exact (lerp_ends b Fl Fh t Ft). Qed.
(** Across zero the interpolated point stays inside, and it never moves backwards. *)
Theorem C96_lerp_across_zero b t t' : f_isfinite (f_min b) = true -> f_isfinite (f_max b) = true -> f_isfinite t = true -> f_isfinite t' = true ->
  B (f_min b) <= 0 <= B (f_max b) -> 0 <= B t -> B t <= B t' -> B t' <= 1 ->
  f_contains b (f_lerp b t) = true /\ f_le (f_lerp b t) (f_lerp b t') = true.
Proof.
  intros Fl Fh Ft Ft' Hb H0 H1 H2. destruct (lerp_inside b Fl Fh t Ft ltac:(lra) Hb) as [G I]. destruct (lerp_inside b Fl Fh t' Ft' ltac:(lra) Hb) as [G' _].
  split; [apply contains_real; auto|]. apply le_finite; auto. exact (lerp_mono b Fl Fh t t' Ft Ft' H0 H1 H2 Hb).
Qed.
(** Everywhere the point is within four roundings of the exact one. *)
Theorem C96_lerp_error b t : f_isfinite (f_min b) = true -> f_isfinite (f_max b) = true -> f_isfinite t = true -> 0 <= B t <= 1 ->
  Rabs (B (f_min b)) <= bpow radix2 1022 -> Rabs (B (f_max b)) <= bpow radix2 1022 ->
  f_isfinite (f_lerp b t) = true /\
  Rabs (B (f_lerp b t) - ((1 - B t) * B (f_min b) + B t * B (f_max b)))
    <= 4 * bpow radix2 (-53) * ((1 - B t) * Rabs (B (f_min b)) + B t * Rabs (B (f_max b))) + 4 * bpow radix2 (-1075).
Proof. intros Fl Fh Ft Ht. exact (lerp_err b Fl Fh t Ft Ht). Qed.
(** Parameters on the grid of spacing 2^-53 give points inside every interval on one side of zero that is wider than 2^-52 of its far end. *)
Theorem C96_lerp_wide b t k : f_isfinite (f_min b) = true -> f_isfinite (f_max b) = true -> f_isfinite t = true ->
  (0 <= k <= 2 ^ 53)%Z -> B t = IZR k * bpow radix2 (-53) -> B (f_min b) <= B (f_max b) ->
  (0 <= B (f_min b) /\ bpow radix2 (-900) <= B (f_max b) /\ 2 * bpow radix2 (-53) * B (f_max b) <= B (f_max b) - B (f_min b)) \/
  (B (f_max b) <= 0 /\ bpow radix2 (-900) <= - B (f_min b) /\ 2 * bpow radix2 (-53) * - B (f_min b) <= B (f_max b) - B (f_min b)) ->
  f_contains b (f_lerp b t) = true.
Proof. intros Fl Fh Ft Hk Et L H. destruct (lerp_wide b Fl Fh t Ft k Hk Et L H) as [G I]. apply contains_real; auto. Qed.
(** Without either condition it does leave: [0.9, 0.9] at 3/16 gives the double after 0.9, and [0.6, 0.7] at 5 / 2^56 the double before 0.6. *)
Theorem C96_lerp_inside_refuted :
  (let b := f_bound (double 0x3FECCCCCCCCCCCCD) (double 0x3FECCCCCCCCCCCCD) in let t := double 0x3FC8000000000000 in
   f_le (f_min b) (f_max b) = true /\ f_le (f_of_Z 0) t = true /\ f_lt t (f_of_Z 1) = true /\
   bits_of_b64 (f_lerp b t) = 0x3FECCCCCCCCCCCCE%Z /\ f_contains b (f_lerp b t) = false) /\
  (let b := f_bound (double 0x3FE3333333333333) (double 0x3FE6666666666666) in let t := double 0x3C94000000000000 in
   f_le (f_min b) (f_max b) = true /\ f_le (f_of_Z 0) t = true /\ f_lt t (f_of_Z 1) = true /\
   bits_of_b64 (f_lerp b t) = 0x3FE3333333333332%Z /\ f_contains b (f_lerp b t) = false).
Proof. cbv zeta. repeat split; vm_compute; reflexivity. Qed.
(** The linear view of a grid interpolates with the same expression (interpolate.ipp), so it does not reproduce constant data exactly either. *)
Theorem C96_linear_constant_refuted :
  (forall f1 f2 x, f_linear f1 f2 x = f_lerp (FBnd f1 f2) x) /\ exists v x, f_isfinite v = true /\ f_lt x (f_of_Z 1) = true /\ f_lt v (f_linear v v x) = true.
Proof. split; [reflexivity|]. exists (double 0x3FECCCCCCCCCCCCD), (double 0x3FC8000000000000). repeat split; vm_compute; reflexivity. Qed.

(** [1, 3] at 1/2 meets the hypotheses of [C96_lerp_wide], [-1, 3] those of [C96_lerp_across_zero]. *)
Example C96_example :
  f_contains (f_bound (f_of_Z 1) (f_of_Z 3)) (f_lerp (f_bound (f_of_Z 1) (f_of_Z 3)) (f_half 1)) = true /\
  f_contains (f_bound (f_of_Z (-1)) (f_of_Z 3)) (f_lerp (f_bound (f_of_Z (-1)) (f_of_Z 3)) (f_half 1)) = true /\
  bits_of_b64 (f_lerp (f_bound (f_of_Z 1) (f_of_Z 3)) (f_half 1)) = bits_of_b64 (f_of_Z 2) /\
  f_contains (f_badd (f_bound (f_of_Z 1) pinf) (f_of_Z 2)) (f_add (f_of_Z 1) (f_of_Z 2)) = true /\
  f_contains (f_bmul (f_bound (f_of_Z 1) pinf) (f_of_Z 2)) (f_mul (f_of_Z 1) (f_of_Z 2)) = true /\
  f_bmul (f_bound (f_of_Z 1) (f_of_Z 2)) (f_of_Z (-1)) = f_invalid /\ f_bdiv (f_bound (f_of_Z 1) (f_of_Z 2)) (f_of_Z 0) = f_invalid.
Proof.
  split.
  - assert (V : forall n, (0 <= n <= 2 ^ 53)%Z -> B (f_of_Z n) = IZR n) by (intros; apply GridFloat.of_Z_spec; auto).
    assert (E : f_bound (f_of_Z 1) (f_of_Z 3) = FBnd (f_of_Z 1) (f_of_Z 3)) by (unfold f_bound; assert (L : f_le (f_of_Z 1) (f_of_Z 3) = true) by (vm_compute; reflexivity); rewrite L; reflexivity). rewrite E.
    assert (EH : B (f_half 1) = IZR (2 ^ 52) * bpow radix2 (-53)) by (vm_compute B; cbn; lra).
    apply (C96_lerp_wide _ _ (2 ^ 52)%Z); [vm_compute; reflexivity|vm_compute; reflexivity|vm_compute; reflexivity|lia|exact EH| |].
    + cbn [f_min f_max]. rewrite !V by lia. lra.
    + left. cbn [f_min f_max]. rewrite !V by lia. assert (bpow radix2 (-900) <= bpow radix2 0) by (apply bpow_le; lia).
      assert (bpow radix2 (-53) <= bpow radix2 (-10)) by (apply bpow_le; lia). change (bpow radix2 0) with 1 in *. assert (bpow radix2 (-10) <= / 1000) by (cbn; lra). lra.
  - repeat split; vm_compute; reflexivity.
Qed.
Print Assumptions C96_shift. Print Assumptions C96_scale. Print Assumptions C96_lerp_ends. Print Assumptions C96_lerp_across_zero. Print Assumptions C96_lerp_error.
Print Assumptions C96_lerp_wide. Print Assumptions C96_lerp_inside_refuted. Print Assumptions C96_example.
