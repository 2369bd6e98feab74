(** Intervals in double arithmetic: proofs. *)
From Coq Require Import Reals ZArith Bool Lia Lra Psatz.
From Flocq Require Import Core.Core Relative IEEE754.Binary IEEE754.Bits IEEE754.BinarySingleNaN.
From Verif Require Import GridModel GridFloat FBoundModel.
Local Open Scope R_scope.

Local Notation fexp := (FLT_exp (-1074) 53).
Local Notation F := (generic_format radix2 fexp).
Local Notation rnd := (round radix2 fexp (Znearest (fun x => negb (Z.even x)))).
Local Notation B := (Binary.B2R 53 1024).
Local Notation top := (bpow radix2 1024).
Definition pinf : binary64 := Binary.B754_infinity 53 1024 false.
Definition ninf : binary64 := Binary.B754_infinity 53 1024 true.

Definition ordered (x y : binary64) : Prop :=
  f_isnan x = false /\ f_isnan y = false /\ (x = ninf \/ y = pinf \/ (f_isfinite x = true /\ f_isfinite y = true /\ B x <= B y)).
Lemma le_finite x y : f_isfinite x = true -> f_isfinite y = true -> (f_le x y = true <-> B x <= B y).
Proof.
  intros Fx Fy. unfold f_le, b64_compare. rewrite Binary.Bcompare_correct by auto. destruct (Rcompare_spec (B x) (B y)); split; try discriminate; auto; lra.
Qed.
Lemma le_iff x y : f_le x y = true <-> ordered x y.
Proof.
  unfold ordered. destruct (f_isfinite x) eqn:Fx; [destruct (f_isfinite y) eqn:Fy|].
  - rewrite (le_finite x y Fx Fy). split.
    + intros H. destruct x; try discriminate; destruct y; try discriminate; auto 8.
    + intros (_ & _ & [->|[->|(_ & _ & H)]]); try discriminate. exact H.
  - destruct y as [sy|sy|sy py ey|sy my ey hy]; try discriminate.
    + destruct x as [sx|sx|sx px ex|sx mx ex hx]; try discriminate; destruct sy; unfold pinf, ninf; cbn; split; intros H; try discriminate; auto;
        try (destruct sx); try discriminate; destruct H as (_ & _ & [H|[H|(_ & H & _)]]); discriminate.
    + split; [|intros (_ & H & _); discriminate]. destruct x as [sx|sx|sx px ex|sx mx ex hx]; try discriminate; try (destruct sx; discriminate).
  - destruct x as [sx|sx|sx px ex|sx mx ex hx]; try discriminate.
    + destruct y as [sy|sy|sy py ey|sy my ey hy]; destruct sx; try destruct sy; unfold pinf, ninf; cbn; split; intros H; try discriminate; auto;
        destruct H as (H1 & H2 & H); try discriminate; destruct H as [H|[H|(H & _)]]; discriminate.
    + split; [|intros (H & _); discriminate]. destruct y as [sy|sy|sy py ey|sy my ey hy]; discriminate.
Qed.

(** [z] is the double nearest to the real [r], or the infinity it overflows to *)
Definition rounded (r : R) (z : binary64) : Prop :=
  (Rabs (rnd r) < top /\ f_isfinite z = true /\ B z = rnd r) \/ (top <= rnd r /\ z = pinf) \/ (rnd r <= - top /\ z = ninf).
Lemma top_pos : 0 < top. Proof. apply bpow_gt_0. Qed.
Lemma rnd_le x y : x <= y -> rnd x <= rnd y.
Proof. intros H. apply round_le; fv. Qed.
Lemma finite_nan z : f_isfinite z = true -> f_isnan z = false.
Proof. destruct z; auto; discriminate. Qed.
Lemma rounded_nan r z : rounded r z -> f_isnan z = false.
Proof. intros [(_ & H & _)|[(_ & ->)|(_ & ->)]]; auto. apply finite_nan; auto. Qed.
Lemma rounded_le r1 r2 z1 z2 : rounded r1 z1 -> rounded r2 z2 -> r1 <= r2 -> f_le z1 z2 = true.
Proof.
  intros H1 H2 L. apply le_iff. split; [eapply rounded_nan; eauto|]. split; [eapply rounded_nan; eauto|].
  pose proof (rnd_le _ _ L) as L'. pose proof top_pos as T.
  destruct H1 as [(A1 & B1 & C1)|[(A1 & C1)|(A1 & C1)]]; destruct H2 as [(A2 & B2 & C2)|[(A2 & C2)|(A2 & C2)]]; auto.
  - right. right. repeat split; auto. lra.
  - exfalso. apply Rabs_def2 in A1. lra.
  - exfalso. apply Rabs_def2 in A2. lra.
  - exfalso. lra.
Qed.
Lemma rounded_finite r z : rounded r z -> f_isfinite z = true -> B z = rnd r.
Proof. intros [(_ & _ & H)|[(_ & ->)|(_ & ->)]]; auto; discriminate. Qed.
Lemma rounded_small r z : rounded r z -> Rabs (rnd r) < top -> f_isfinite z = true /\ B z = rnd r.
Proof. intros [H|[(H & _)|(H & _)]] A; [tauto| |]; apply Rabs_def2 in A; lra. Qed.
Lemma overflow_inf (z : binary64) s : Binary.B2FF 53 1024 z = Binary.binary_overflow 53 1024 mode_NE s -> z = Binary.B754_infinity 53 1024 s.
Proof. destruct z as [sz|sz|sz pz ez|sz mz ez hz]; cbn; intros H; try discriminate. congruence. Qed.
Lemma sign_le (x : binary64) : Binary.Bsign 53 1024 x = true -> B x <= 0.
Proof.
  destruct x as [s|s|s p e|s m e h]; cbn -[F2R]; intros H; try lra. subst s. apply F2R_le_0. cbn. lia.
Qed.
Lemma sign_ge (x : binary64) : Binary.Bsign 53 1024 x = false -> 0 <= B x.
Proof.
  destruct x as [s|s|s p e|s m e h]; cbn -[F2R]; intros H; try lra. subst s. apply F2R_ge_0. cbn. lia.
Qed.
Lemma rnd_nonpos x : x <= 0 -> rnd x <= 0.
Proof. intros H. apply round_le_generic; fv. apply generic_format_0. Qed.
Lemma big_pos r : top <= Rabs (rnd r) -> 0 <= r -> top <= rnd r.
Proof. intros H P. rewrite Rabs_pos_eq in H; auto. apply rnd_nonneg; auto. Qed.
Lemma big_neg r : top <= Rabs (rnd r) -> r <= 0 -> rnd r <= - top.
Proof. intros H P. rewrite Rabs_left1 in H; [lra|]. apply rnd_nonpos; auto. Qed.
Lemma add_rounded x y : f_isfinite x = true -> f_isfinite y = true -> rounded (B x + B y) (f_add x y).
Proof.
  intros Fx Fy. pose proof (Binary.Bplus_correct 53 1024 (eq_refl _) (eq_refl _) binop_nan_pl64 mode_NE x y Fx Fy) as C.
  cbn [round_mode] in C. change (SpecFloat.fexp 53 1024) with fexp in C. unfold f_add, b64_plus.
  destruct (Rlt_bool_spec (Rabs (rnd (B x + B y))) top) as [L|L].
  - left. destruct C as (C1 & C2 & _). auto.
  - right. destruct C as [C S]. apply overflow_inf in C. destruct (Binary.Bsign 53 1024 x) eqn:E.
    + right. split; auto. apply big_neg; auto. apply sign_le in E. symmetry in S. apply sign_le in S. lra.
    + left. split; auto. apply big_pos; auto. apply sign_ge in E. symmetry in S. apply sign_ge in S. lra.
Qed.
Lemma sub_rounded x y : f_isfinite x = true -> f_isfinite y = true -> rounded (B x - B y) (f_sub x y).
Proof.
  intros Fx Fy. pose proof (Binary.Bminus_correct 53 1024 (eq_refl _) (eq_refl _) binop_nan_pl64 mode_NE x y Fx Fy) as C.
  cbn [round_mode] in C. change (SpecFloat.fexp 53 1024) with fexp in C. unfold f_sub, b64_minus.
  destruct (Rlt_bool_spec (Rabs (rnd (B x - B y))) top) as [L|L].
  - left. destruct C as (C1 & C2 & _). auto.
  - right. destruct C as [C S]. apply overflow_inf in C. destruct (Binary.Bsign 53 1024 x) eqn:E.
    + right. split; auto. apply big_neg; auto. apply sign_le in E. destruct (Binary.Bsign 53 1024 y) eqn:E'; [discriminate|]. apply sign_ge in E'. lra.
    + left. split; auto. apply big_pos; auto. apply sign_ge in E. destruct (Binary.Bsign 53 1024 y) eqn:E'; [|discriminate]. apply sign_le in E'. lra.
Qed.
Lemma mul_rounded x y : f_isfinite x = true -> f_isfinite y = true -> rounded (B x * B y) (f_mul x y).
Proof.
  intros Fx Fy. pose proof (Binary.Bmult_correct 53 1024 (eq_refl _) (eq_refl _) binop_nan_pl64 mode_NE x y) as C.
  cbn [round_mode] in C. change (SpecFloat.fexp 53 1024) with fexp in C. unfold f_mul, b64_mult.
  destruct (Rlt_bool_spec (Rabs (rnd (B x * B y))) top) as [L|L].
  - left. destruct C as (C1 & C2 & _). unfold f_isfinite in *. rewrite C2, Fx, Fy. auto.
  - right. apply overflow_inf in C. destruct (Binary.Bsign 53 1024 x) eqn:E; destruct (Binary.Bsign 53 1024 y) eqn:E'; cbn [xorb] in C;
      [left|right|right|left]; (split; [|auto]); [apply big_pos|apply big_neg|apply big_neg|apply big_pos]; auto;
      try apply sign_le in E; try apply sign_le in E'; try apply sign_ge in E; try apply sign_ge in E'; nra.
Qed.
Lemma div_rounded x y : f_isfinite x = true -> 0 < B y -> rounded (B x / B y) (f_div x y).
Proof.
  intros Fx Py. pose proof (Binary.Bdiv_correct 53 1024 (eq_refl _) (eq_refl _) binop_nan_pl64 mode_NE x y ltac:(lra)) as C.
  cbn [round_mode] in C. change (SpecFloat.fexp 53 1024) with fexp in C. unfold f_div, b64_div.
  assert (I : 0 < / B y) by (apply Rinv_0_lt_compat; auto).
  destruct (Rlt_bool_spec (Rabs (rnd (B x / B y))) top) as [L|L].
  - left. destruct C as (C1 & C2 & _). unfold f_isfinite in *. rewrite C2, Fx. auto.
  - right. apply overflow_inf in C. assert (E' : Binary.Bsign 53 1024 y = false).
    { destruct (Binary.Bsign 53 1024 y) eqn:E'; auto. apply sign_le in E'. lra. }
    rewrite E' in C. destruct (Binary.Bsign 53 1024 x) eqn:E; cbn [xorb] in C;
      [right|left]; (split; [|auto]); [apply big_neg|apply big_pos]; auto; [apply sign_le in E|apply sign_ge in E]; unfold Rdiv; nra.
Qed.

(** ** Shifts and scalings *)
Lemma inf_add s : f_isfinite s = true -> f_add pinf s = pinf /\ f_add ninf s = ninf /\ f_sub pinf s = pinf /\ f_sub ninf s = ninf.
Proof. intros H. destruct s; try discriminate; repeat split; reflexivity. Qed.
Lemma pos_sign s : f_isfinite s = true -> 0 < B s -> f_mul pinf s = pinf /\ f_mul ninf s = ninf /\ f_div pinf s = pinf /\ f_div ninf s = ninf.
Proof.
  intros H P. destruct s as [s|s|s p e|s m e h]; try discriminate; [cbn in P; lra|].
  destruct s; [|repeat split; reflexivity]. exfalso. revert P. apply Rle_not_lt. apply sign_le. reflexivity.
Qed.
(** every double is a finite one, an infinity or NaN *)
Lemma kinds x : f_isnan x = false -> f_isfinite x = true \/ x = pinf \/ x = ninf.
Proof. destruct x as [s|[|]|s p e|s m e h]; intros H; try discriminate; auto. Qed.
Lemma le_trans_inf z : f_isnan z = false -> f_le ninf z = true /\ f_le z pinf = true.
Proof. intros H. split; apply le_iff; unfold ordered; auto. Qed.
Lemma mono_op (op : binary64 -> binary64) (g : R -> R) :
  op pinf = pinf -> op ninf = ninf -> (forall x, f_isfinite x = true -> rounded (g (B x)) (op x)) -> (forall a b, a <= b -> g a <= g b) ->
  forall x y, f_le x y = true -> f_le (op x) (op y) = true.
Proof.
  intros P N R M x y H. apply le_iff in H. destruct H as (Nx & Ny & H).
  assert (NO : forall z, f_isnan z = false -> f_isnan (op z) = false).
  { intros z Hz. destruct (kinds z Hz) as [Fz|[ -> | -> ]]; [eapply rounded_nan; eauto|rewrite P; auto|rewrite N; auto]. }
  destruct H as [->|[->|(Fx & Fy & H)]].
  - rewrite N. apply le_trans_inf; auto.
  - rewrite P. apply le_trans_inf; auto.
  - eapply rounded_le; eauto.
Qed.
Lemma finite_mono_op (op : binary64 -> binary64) (g : R -> R) :
  (forall x, f_isfinite x = true -> rounded (g (B x)) (op x)) -> (forall a b, a <= b -> g a <= g b) ->
  forall x y, f_isfinite x = true -> f_isfinite y = true -> f_le x y = true -> f_le (op x) (op y) = true.
Proof. intros R M x y Fx Fy H. eapply rounded_le; eauto. apply M. apply le_finite in H; auto. Qed.
Lemma contains_split b x : f_contains b x = true <-> f_le (f_min b) x = true /\ f_le x (f_max b) = true.
Proof. unfold f_contains. apply andb_true_iff. Qed.
Lemma add_keeps b x s : f_isfinite s = true -> f_contains b x = true -> f_contains (f_badd b s) (f_add x s) = true.
Proof.
  intros Fs H. apply contains_split in H. apply contains_split. unfold f_badd; cbn [f_min f_max]. destruct (inf_add s Fs) as (P & N & _ & _).
  assert (M := mono_op (fun x => f_add x s) (fun r => r + B s) P N (fun x Fx => add_rounded x s Fx Fs) ltac:(intros; lra)). cbv beta in M. split; apply M; tauto.
Qed.
Lemma sub_keeps b x s : f_isfinite s = true -> f_contains b x = true -> f_contains (f_bsub b s) (f_sub x s) = true.
Proof.
  intros Fs H. apply contains_split in H. apply contains_split. unfold f_bsub; cbn [f_min f_max]. destruct (inf_add s Fs) as (_ & _ & P & N).
  assert (M := mono_op (fun x => f_sub x s) (fun r => r - B s) P N (fun x Fx => sub_rounded x s Fx Fs) ltac:(intros; lra)). cbv beta in M. split; apply M; tauto.
Qed.
Lemma zero_val : B (f_of_Z 0) = 0 /\ f_isfinite (f_of_Z 0) = true. Proof. apply of_Z_spec. lia. Qed.
Lemma one_val : B (f_of_Z 1) = 1 /\ f_isfinite (f_of_Z 1) = true. Proof. apply of_Z_spec. lia. Qed.
Lemma lt_zero s : f_isfinite s = true -> 0 <= B s -> f_lt s (f_of_Z 0) = false.
Proof.
  intros Fs H. unfold f_lt, b64_compare. destruct zero_val as [E Fz]. rewrite Binary.Bcompare_correct by auto. rewrite E. destruct (Rcompare_spec (B s) 0); auto; lra.
Qed.
Lemma le_zero s : f_isfinite s = true -> 0 < B s -> f_le s (f_of_Z 0) = false.
Proof.
  intros Fs H. destruct (f_le s (f_of_Z 0)) eqn:E; auto. destruct zero_val as [E0 Fz]. apply le_finite in E; auto. lra.
Qed.
Lemma mul_keeps b x s : f_isfinite s = true -> 0 < B s -> f_contains b x = true -> f_contains (f_bmul b s) (f_mul x s) = true.
Proof.
  intros Fs Ps H. apply contains_split in H. unfold f_bmul. rewrite lt_zero by (auto; lra). apply contains_split. cbn [f_min f_max]. destruct (pos_sign s Fs Ps) as (P & N & _ & _).
  assert (M := mono_op (fun x => f_mul x s) (fun r => r * B s) P N (fun x Fx => mul_rounded x s Fx Fs) ltac:(intros; nra)). cbv beta in M. split; apply M; tauto.
Qed.
Lemma div_keeps b x s : f_isfinite s = true -> 0 < B s -> f_contains b x = true -> f_contains (f_bdiv b s) (f_div x s) = true.
Proof.
  intros Fs Ps H. apply contains_split in H. unfold f_bdiv. rewrite le_zero by auto. apply contains_split. cbn [f_min f_max]. destruct (pos_sign s Fs Ps) as (_ & _ & P & N).
  assert (I : 0 < / B s) by (apply Rinv_0_lt_compat; auto).
  assert (M := mono_op (fun x => f_div x s) (fun r => r / B s) P N (fun x Fx => div_rounded x s Fx Ps) ltac:(intros; unfold Rdiv; nra)). cbv beta in M. split; apply M; tauto.
Qed.
Lemma mul_zero_keeps b x s : f_isfinite (f_min b) = true -> f_isfinite (f_max b) = true -> f_isfinite s = true -> B s = 0 -> f_contains b x = true ->
  f_contains (f_bmul b s) (f_mul x s) = true.
Proof.
  intros Fl Fh Fs Zs H. apply contains_split in H. destruct H as [H1 H2]. unfold f_bmul. rewrite lt_zero by (auto; lra). apply contains_split. cbn [f_min f_max].
  assert (Fx : f_isfinite x = true).
  { apply le_iff in H1, H2. destruct H1 as (_ & Nx & H1). destruct H2 as (_ & _ & H2). destruct (kinds x Nx) as [|[ -> | -> ]]; auto; exfalso.
    - destruct H2 as [H2|[H2|(H2 & _)]]; try discriminate. rewrite H2 in Fh; discriminate.
    - destruct H1 as [H1|[H1|(_ & H1 & _)]]; try discriminate. rewrite H1 in Fl; discriminate. }
  assert (M := finite_mono_op (fun x => f_mul x s) (fun r => r * B s) (fun x Fx => mul_rounded x s Fx Fs) ltac:(intros; nra)). cbv beta in M. split; apply M; auto.
Qed.

(** ** Interpolation between the ends *)
Lemma rnd_id x : F x -> rnd x = x. Proof. intros H. apply round_generic; fv. Qed.
Lemma F1 : F 1. Proof. change 1 with (bpow radix2 0). apply generic_format_bpow. cbn. lia. Qed.
Lemma finite_top x : f_isfinite x = true -> Rabs (B x) < top.
Proof. intros _. apply Binary.abs_B2R_lt_emax. Qed.
Lemma unit_small r : 0 <= r <= 1 -> 0 <= rnd r <= 1.
Proof. intros [H0 H1]. split; [apply rnd_nonneg; auto|]. rewrite <- (rnd_id 1 F1). apply rnd_le. auto. Qed.
Lemma one_top : 1 < top. Proof. change 1 with (bpow radix2 0). apply bpow_lt. lia. Qed.
Lemma complement t : f_isfinite t = true -> 0 <= B t <= 1 ->
  f_isfinite (f_sub (f_of_Z 1) t) = true /\ B (f_sub (f_of_Z 1) t) = rnd (1 - B t) /\ 0 <= rnd (1 - B t) <= 1.
Proof.
  intros Ft Ht. destruct one_val as [E1 F1']. pose proof (sub_rounded _ _ F1' Ft) as R. rewrite E1 in R. pose proof (unit_small (1 - B t) ltac:(lra)) as U.
  destruct (rounded_small _ _ R) as [A1 A2]; [|auto]. rewrite Rabs_pos_eq by tauto. pose proof one_top. lra.
Qed.
(** a factor between 0 and 1 never overflows and keeps the product between 0 and the other factor *)
Lemma product c x : f_isfinite c = true -> f_isfinite x = true -> 0 <= B c <= 1 ->
  f_isfinite (f_mul c x) = true /\ B (f_mul c x) = rnd (B c * B x) /\ (0 <= B x -> 0 <= rnd (B c * B x) <= B x) /\ (B x <= 0 -> B x <= rnd (B c * B x) <= 0).
Proof.
  intros Fc Fx Hc. pose proof (mul_rounded c x Fc Fx) as R. pose proof (finite_top x Fx) as T. apply Rabs_def2 in T.
  assert (P : 0 <= B x -> 0 <= rnd (B c * B x) <= B x).
  { intros H. split; [apply rnd_nonneg; nra|]. rewrite <- (rnd_id (B x) (format_of x)) at 2. apply rnd_le. nra. }
  assert (N : B x <= 0 -> B x <= rnd (B c * B x) <= 0).
  { intros H. split; [|apply rnd_nonpos; nra]. rewrite <- (rnd_id (B x) (format_of x)) at 1. apply rnd_le. nra. }
  destruct (rounded_small _ _ R) as [A1 A2].
  - destruct (Rle_dec 0 (B x)) as [H|H]; [specialize (P H)|specialize (N ltac:(lra))]; apply Rabs_def1; lra.
  - auto.
Qed.
Lemma rnd_sum_in a b x y : F a -> F b -> a <= x + y <= b -> a <= rnd (x + y) <= b.
Proof. intros Fa Fb [H1 H2]. split; [rewrite <- (rnd_id a Fa)|rewrite <- (rnd_id b Fb)]; apply rnd_le; auto. Qed.
Section Lerp.
Context (b : fbound) (Fl : f_isfinite (f_min b) = true) (Fh : f_isfinite (f_max b) = true).
Definition part1 t := rnd (rnd (1 - B t) * B (f_min b)).
Definition part2 t := rnd (B t * B (f_max b)).
Lemma lerp_rounded t : f_isfinite t = true -> 0 <= B t <= 1 ->
  rounded (part1 t + part2 t) (f_lerp b t) /\
  (0 <= B (f_min b) -> 0 <= part1 t <= B (f_min b)) /\ (B (f_min b) <= 0 -> B (f_min b) <= part1 t <= 0) /\
  (0 <= B (f_max b) -> 0 <= part2 t <= B (f_max b)) /\ (B (f_max b) <= 0 -> B (f_max b) <= part2 t <= 0).
Proof.
  intros Ft Ht. destruct (complement t Ft Ht) as (C1 & C2 & C3).
  destruct (product _ _ C1 Fl ltac:(rewrite C2; auto)) as (P1 & P2 & P3 & P4). rewrite C2 in P2, P3, P4.
  destruct (product _ _ Ft Fh Ht) as (Q1 & Q2 & Q3 & Q4). unfold f_lerp. pose proof (add_rounded _ _ P1 Q1) as R. rewrite P2, Q2 in R. unfold part1, part2. auto.
Qed.
Lemma lerp_inside t : f_isfinite t = true -> 0 <= B t <= 1 -> B (f_min b) <= 0 <= B (f_max b) ->
  f_isfinite (f_lerp b t) = true /\ B (f_min b) <= B (f_lerp b t) <= B (f_max b).
Proof.
  intros Ft Ht Hb. destruct (lerp_rounded t Ft Ht) as (R & _ & N & P & _). specialize (N ltac:(tauto)). specialize (P ltac:(tauto)).
  assert (S : B (f_min b) <= rnd (part1 t + part2 t) <= B (f_max b)) by (apply rnd_sum_in; try apply format_of; lra).
  pose proof (finite_top _ Fl) as T1. pose proof (finite_top _ Fh) as T2. apply Rabs_def2 in T1, T2.
  destruct (rounded_small _ _ R) as [A1 A2]; [apply Rabs_def1; lra|]. rewrite A2. auto.
Qed.
Lemma lerp_mono t t' : f_isfinite t = true -> f_isfinite t' = true -> 0 <= B t -> B t <= B t' -> B t' <= 1 -> B (f_min b) <= 0 <= B (f_max b) ->
  B (f_lerp b t) <= B (f_lerp b t').
Proof.
  intros Ft Ft' H0 H1 H2 Hb. destruct (lerp_inside t Ft ltac:(lra) Hb) as [G _]. destruct (lerp_inside t' Ft' ltac:(lra) Hb) as [G' _].
  destruct (lerp_rounded t Ft ltac:(lra)) as (R & _). destruct (lerp_rounded t' Ft' ltac:(lra)) as (R' & _).
  rewrite (rounded_finite _ _ R G), (rounded_finite _ _ R' G'). apply rnd_le. apply Rplus_le_compat; apply rnd_le; [|nra].
  assert (rnd (1 - B t') <= rnd (1 - B t)) by (apply rnd_le; lra). nra.
Qed.
Lemma lerp_ends t : f_isfinite t = true -> (B t = 0 -> f_isfinite (f_lerp b t) = true /\ B (f_lerp b t) = B (f_min b)) /\ (B t = 1 -> f_isfinite (f_lerp b t) = true /\ B (f_lerp b t) = B (f_max b)).
Proof.
  intros Ft. split; intros E; destruct (lerp_rounded t Ft ltac:(lra)) as (R & _); unfold part1, part2 in R; rewrite E in R.
  - rewrite Rminus_0_r, (rnd_id 1 F1), Rmult_1_l, Rmult_0_l, round_0, Rplus_0_r in R by fv. rewrite (rnd_id _ (format_of (f_min b))) in R.
    destruct (rounded_small _ _ R) as [A1 A2]; rewrite (rnd_id _ (format_of (f_min b))) in *; [apply finite_top; auto|auto].
  - replace (1 - 1) with 0 in R by ring. rewrite round_0, Rmult_0_l, round_0, Rmult_1_l, Rplus_0_l in R by fv. rewrite (rnd_id _ (format_of (f_max b))) in R.
    destruct (rounded_small _ _ R) as [A1 A2]; rewrite (rnd_id _ (format_of (f_max b))) in *; [apply finite_top; auto|auto].
Qed.
End Lerp.
