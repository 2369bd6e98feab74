(** Proofs: accuracy of printed doubles, and the values that do not survive a file. *)
From Coq Require Import String Ascii Reals ZArith List Bool Lia Lra.
From Flocq Require Import Core Relative.
From Verif Require Import ExtModel BoundProofs TextModel TextNum ParamModel ParamSpec ParamTextSpec TextProofs ParamTextModel ParamTextProofs ParamTextRound.
Import ListNotations.
Local Open Scope list_scope.

Lemma put_double_value p r : (1 <= p)%nat -> r <> 0%R -> (Rabs (RN (dec_value p (decimal p (Rabs r)))) < bpow radix2 1024)%R ->
  exists s, (s = 1 \/ s = -1)%R /\ (s * Rabs r = r)%R /\ forall a t, all_blank a -> clean t -> get_double (open (a ++ put_double p (Fin r) ++ t)) = (Fin (s * RN (dec_value p (decimal p (Rabs r)))), Stream t (at_end t) false).
Proof.
  intros P R0 FIN. cbn [put_double]. destruct (reqb r 0) eqn:RE; [apply reqb_spec in RE; contradiction|].
  assert (AP : (0 < Rabs r)%R) by (apply Rabs_pos_lt; exact R0). destruct (decimal p (Rabs r)) as (n, e) eqn:DE.
  destruct (decimal_spec p P (Rabs r) AP) as (_ & DB). rewrite DE in DB. cbn [fst] in DB.
  assert (SG : exists sg k, (if rltb r 0 then ["-"%char] else []) = sg /\ signed sg k /\ (IZR k * Rabs r = r)%R /\ (k = 1 \/ k = -1)%Z /\ Forall solid sg).
  { destruct (rltb r 0) eqn:LT; [apply rltb_spec in LT; exists (str "-"), (-1)%Z|apply rltb_false in LT; exists [], 1%Z]; (split; [reflexivity|split; [constructor|]]).
    - rewrite Rabs_left by lra. split; [ring|]. split; [right; reflexivity|]. constructor; [apply solidb_ok; reflexivity|constructor].
    - rewrite Rabs_pos_eq by lra. split; [ring|]. split; [left; reflexivity|]. constructor. }
  destruct SG as (sg & k & -> & S & SV & KV & SS). exists (IZR k). split; [destruct KV as [->| ->]; [left|right]; reflexivity|]. split; [exact SV|].
  destruct (format_scan p n e sg k [] P DB S (or_introl eq_refl)) as (_ & (c & w & FE & FC) & _).
  intros a t A T. destruct (format_scan p n e sg k t P DB S T) as (SC & _ & _). rewrite <- app_assoc. unfold get_double.
  assert (HD : exists y u, sg ++ format p n e ++ t = y :: u /\ ~ blank y).
  { rewrite FE. apply digit_solid in FC. destruct sg as [|y sg]; cbn [app]; eexists; eexists; (split; [reflexivity|]); [apply FC|]. inversion SS as [|? ? Y]; subst. apply Y. }
  destruct HD as (y & u & HE & HB). rewrite HE. rewrite sentry_skip by assumption. cbn [rest]. rewrite <- HE, SC.
  assert (RV : RN (IZR k * dec_value p (n, e)) = (IZR k * RN (dec_value p (n, e)))%R).
  { destruct KV as [->| ->]; [rewrite !Rmult_1_l; reflexivity|]. replace (IZR (-1) * dec_value p (n, e))%R with (- dec_value p (n, e))%R by ring. rewrite RN_opp. ring. }
  rewrite RV. assert (RA : Rabs (IZR k * RN (dec_value p (n, e))) = Rabs (RN (dec_value p (n, e)))).
  { rewrite Rabs_mult. destruct KV as [->| ->]; [rewrite Rabs_R1; ring|]. replace (IZR (-1)) with (- (1))%R by ring. rewrite Rabs_Ropp, Rabs_R1. ring. }
  rewrite RA. destruct (rltb (Rabs (RN (dec_value p (n, e)))) (bpow radix2 1024)) eqn:LT; [reflexivity|]. apply rltb_false in LT. lra.
Qed.
Lemma accuracy p r : (1 <= p)%nat -> (powerRZ 2 (-1021) <= Rabs r <= powerRZ 2 1023)%R ->
  exists r', parse_value TDouble (put_double p (Fin r)) = Some (VDouble (Fin r')) /\ (Rabs (r' - r) <= (/ 2 * powerRZ 10 (1 - Z.of_nat p) + powerRZ 2 (-52)) * Rabs r)%R.
Proof.
  intros P. rewrite <- !bpow2, <- bpow10. intros (LO & HI). assert (AP : (0 < Rabs r)%R) by (pose proof (bpow_gt_0 radix2 (-1021)); lra).
  assert (R0 : r <> 0%R) by (intros ->; rewrite Rabs_R0 in AP; lra). set (s := dec_value p (decimal p (Rabs r))).
  pose proof (decimal_error p P (Rabs r) AP) as E1. fold s in E1.
  assert (T1 : (0 < bpow radix10 (1 - Z.of_nat p) <= 1)%R). { split; [apply bpow_gt_0|]. change 1%R with (bpow radix10 0). apply bpow_le. lia. }
  set (q := bpow radix10 (1 - Z.of_nat p)) in *. assert (E2 : (Rabs (s - Rabs r) <= / 2 * Rabs r)%R). { eapply Rle_trans; [exact E1|]. apply Rmult_le_compat_r; lra. }
  apply Rabs_le_inv in E2. assert (S0 : (Rabs r / 2 <= s <= 3 / 2 * Rabs r)%R) by lra.
  assert (B21 : (bpow radix2 (-1021) = 2 * bpow radix2 (-1022))%R) by (change (-1021)%Z with (1 + -1022)%Z; rewrite bpow_plus; reflexivity).
  assert (E3 : (Rabs (RN s - s) <= / 2 * bpow radix2 (-52) * s)%R).
  { pose proof (relative_error_N_FLT radix2 (-1074) 53 ltac:(reflexivity) (fun t => negb (Z.even t)) s) as RE. rewrite (Rabs_pos_eq s) in RE by lra. apply RE. change (-1074 + 53 - 1)%Z with (-1022)%Z. lra. }
  assert (B52 : (0 < bpow radix2 (-52) <= / 4)%R). { split; [apply bpow_gt_0|]. replace (/ 4)%R with (bpow radix2 (-2)) by (cbn; lra). apply bpow_le. lia. }
  set (u := bpow radix2 (-52)) in *.
  assert (E4 : (Rabs (RN s - s) <= 3 / 4 * u * Rabs r)%R). { eapply Rle_trans; [exact E3|]. replace (3 / 4 * u * Rabs r)%R with (/ 2 * u * (3 / 2 * Rabs r))%R by field. apply Rmult_le_compat_l; [lra|lra]. }
  destruct (put_double_value p r P R0) as (sg & SV & SR & G).
  { fold s. assert (B24 : (bpow radix2 1024 = 2 * bpow radix2 1023)%R) by (change 1024%Z with (1 + 1023)%Z; rewrite bpow_plus; reflexivity).
    assert (UR : (3 / 4 * u * Rabs r <= 3 / 16 * Rabs r)%R) by (apply Rmult_le_compat_r; lra).
    replace (RN s) with (s + (RN s - s))%R by ring. eapply Rle_lt_trans; [apply Rabs_triang|]. rewrite (Rabs_pos_eq s) by lra. lra. }
  fold s in G. exists (sg * RN s)%R. split.
  - unfold parse_value. cbn [read_value]. rewrite <- (app_nil_r (put_double p (Fin r))). change (put_double p (Fin r) ++ []) with ([] ++ put_double p (Fin r) ++ []). rewrite (G [] []); [reflexivity|constructor|left; reflexivity].
  - assert (D : (Rabs (sg * RN s - r) = Rabs (RN s - Rabs r))%R).
    { rewrite <- SR at 1. rewrite <- Rmult_minus_distr_l, Rabs_mult. destruct SV as [->| ->]; [rewrite Rabs_R1; ring|]. replace (-1)%R with (- (1))%R by ring. rewrite Rabs_Ropp, Rabs_R1. ring. }
    rewrite D. replace (RN s - Rabs r)%R with ((RN s - s) + (s - Rabs r))%R by ring. eapply Rle_trans; [apply Rabs_triang|]. rewrite Rmult_plus_distr_r.
    assert (3 / 4 * u * Rabs r <= u * Rabs r)%R by (apply Rmult_le_compat_r; lra). lra.
Qed.
(** 16 digits do not tell all doubles apart. *)
Lemma F2_int n : (Z.abs n < 2 ^ 53)%Z -> F2 (IZR n).
Proof. intros H. apply generic_format_FLT. exists (Float radix2 n 0); [unfold F2R; cbn; ring|exact H|cbn; lia]. Qed.
Lemma F2_next : F2 (1 + powerRZ 2 (-52)).
Proof.
  apply generic_format_FLT. exists (Float radix2 (2 ^ 52 + 1) (-52)); [|cbn; lia|cbn; lia]. unfold F2R. cbn [Fnum Fexp]. rewrite <- bpow2, plus_IZR. change (IZR (2 ^ 52)) with (IZR (radix2 ^ 52)). rewrite (IZR_Zpower radix2 52) by lia.
  rewrite Rmult_plus_distr_r, <- bpow_plus. change (bpow radix2 (52 + -52)) with 1%R. ring.
Qed.
Lemma decimal_near_one r : (1 <= r < 1 + / 4000000000000000)%R -> decimal 16 r = (10 ^ 15, 0)%Z.
Proof.
  intros H. assert (M : (mag radix10 r - 1)%Z = 0%Z).
  { rewrite (mag_unique radix10 r 1); [reflexivity|]. rewrite Rabs_pos_eq by lra. cbn. lra. }
  unfold decimal. rewrite M. change (Z.of_nat 16 - 1 - 0)%Z with 15%Z. assert (B : bpow radix10 15 = 1000000000000000%R) by (rewrite ten_pow by lia; reflexivity). rewrite B.
  rewrite (Znearest_imp _ _ (10 ^ 15)%Z); [reflexivity|]. change (IZR (10 ^ 15)) with 1000000000000000%R. apply Rabs_def1; lra.
Qed.
Lemma same_text : put_double 16 (Fin 1) = put_double 16 (Fin (1 + powerRZ 2 (-52))).
Proof.
  assert (B : (0 < powerRZ 2 (-52) < / 4000000000000000)%R).
  { rewrite <- bpow2. split; [apply bpow_gt_0|]. change (-52)%Z with (- (52))%Z. rewrite (bpow_opp radix2 52). apply Rinv_lt_contravar; [apply Rmult_lt_0_compat; [lra|apply bpow_gt_0]|]. rewrite <- (IZR_Zpower radix2 52) by lia. apply IZR_lt. reflexivity. }
  cbn [put_double]. destruct (reqb 1 0) eqn:E1; [apply reqb_spec in E1; lra|]. destruct (reqb (1 + powerRZ 2 (-52)) 0) eqn:E2; [apply reqb_spec in E2; lra|].
  rewrite !Rabs_pos_eq by lra. rewrite !decimal_near_one by lra. destruct (rltb 1 0) eqn:E3; [apply rltb_spec in E3; lra|]. destruct (rltb (1 + powerRZ 2 (-52)) 0) eqn:E4; [apply rltb_spec in E4; lra|]. reflexivity.
Qed.
(** Seeds run together. *)
Lemma get_int_numeral lo hi ds : numeral ds -> eof (snd (get_int lo hi (open ds))) = true.
Proof.
  intros D. pose proof (signed_sign [] 1 ds [] signed_none D) as (neg & E & _). cbn [app] in E. rewrite app_nil_r in E. apply numeral_digits in D. destruct D as (N & D). destruct ds as [|c ds]; [contradiction|].
  pose proof (Forall_inv D) as DC. apply digit_solid in DC. unfold get_int. change (open (c :: ds)) with (open ([] ++ c :: ds)). rewrite sentry_skip; [|constructor|apply DC]. cbn [rest]. rewrite E.
  rewrite <- (app_nil_r (c :: ds)). rewrite span_app; [|exact D|left; reflexivity]. cbn [at_end]. match goal with |- context [(?v <? lo)%Z] => destruct (v <? lo)%Z; [reflexivity|]; destruct (hi <? v)%Z; reflexivity end.
Qed.
Lemma concat_numeral l : l <> [] -> Forall (fun n => 0 <= n)%Z l -> numeral (List.concat (map put_int l)).
Proof.
  intros N H. apply numeral_digits. destruct l as [|a l]; [contradiction|]. assert (A : forall n, (0 <= n)%Z -> put_int n = digits n) by (intros n B; unfold put_int; destruct (Z.ltb_spec n 0); [lia|reflexivity]). split.
  - inversion H; subst. cbn. rewrite A by assumption. destruct (digits_spec a) as (_ & NE & _); [assumption|]. destruct (digits a); [contradiction|discriminate].
  - clear N. induction H as [|n l' Hn H IH]; [constructor|]. cbn. apply Forall_app. split; [|exact IH]. rewrite A by exact Hn. apply digits_spec. exact Hn.
Qed.
Lemma seeds_lost p l : (2 <= length l)%nat -> Forall (fun n => 0 <= n)%Z l -> forall t, write_value p (VSeedGen l) = Some t -> parse_value TSeedGen t <> Some (VSeedGen l).
Proof.
  intros L H t [= <-]. assert (N : l <> []) by (intros ->; cbn in L; lia). pose proof (concat_numeral l N H) as D. set (t := List.concat (map put_int l)) in *. unfold parse_value. cbn [read_value]. change (rest (open t)) with t.
  pose proof (get_int_numeral int_min int_max t D) as E. destruct (get_int int_min int_max (open t)) as (v, s) eqn:GI. cbn [snd] in E.
  assert (G : get_seeds (S (length t)) [] (open t) = ([v], s)). { rewrite gs_step. change (good (open t)) with true. cbn iota. rewrite GI. destruct (length t); [reflexivity|]. rewrite gs_step. unfold good. rewrite E. reflexivity. }
  rewrite G. destruct (fail s); [discriminate|]. destruct (get_line s) as (rem, s'). destruct rem; [|discriminate]. intros [= X]. subst l. cbn in L. lia.
Qed.
