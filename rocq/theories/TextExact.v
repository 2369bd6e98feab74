(** Exactly which doubles are read back from what is written for them. *)
From Coq Require Import String Ascii Reals ZArith List Bool Lia Lra.
From Flocq Require Import Core.
From Verif Require Import ExtModel BoundProofs TextModel TextNum TextPower ParamModel ParamSpec ParamTextSpec TextProofs ParamTextModel ParamTextProofs ParamTextRound ParamTextRefute PowerSpec.
Import ListNotations.
Local Open Scope list_scope.

Lemma put_double_over p r : (1 <= p)%nat -> r <> 0%R -> (bpow radix2 1024 <= Rabs (RN (dec_value p (decimal p (Rabs r)))))%R ->
  fail (snd (get_double (open (put_double p (Fin r))))) = true.
Proof.
  intros P R0 FIN. cbn [put_double]. destruct (reqb r 0) eqn:RE; [apply reqb_spec in RE; contradiction|].
  assert (AP : (0 < Rabs r)%R) by (apply Rabs_pos_lt; exact R0). destruct (decimal p (Rabs r)) as (n, e) eqn:DE.
  destruct (decimal_spec p P (Rabs r) AP) as (_ & DB). rewrite DE in DB. cbn [fst] in DB.
  assert (SG : exists sg k, (if rltb r 0 then ["-"%char] else []) = sg /\ signed sg k /\ (k = 1 \/ k = -1)%Z /\ Forall solid sg).
  { destruct (rltb r 0); [exists (str "-"), (-1)%Z|exists [], 1%Z]; (split; [reflexivity|split; [constructor|]]); (split; [lia|]); [constructor; [apply solidb_ok; reflexivity|constructor]|constructor]. }
  destruct SG as (sg & k & -> & S & KV & SS). destruct (format_scan p n e sg k [] P DB S (or_introl eq_refl)) as (SC & (c & w & FE & FC) & _). rewrite app_nil_r in SC. unfold get_double.
  assert (HD : exists y u, sg ++ format p n e = y :: u /\ ~ blank y).
  { rewrite FE. apply digit_solid in FC. destruct sg as [|y sg]; cbn [app]; eexists; eexists; (split; [reflexivity|]); [apply FC|]. inversion SS as [|? ? Y]; subst. apply Y. }
  destruct HD as (y & u & HE & HB). pose proof (sentry_skip [] y u (Forall_nil _) HB) as SE. cbn [app] in SE. rewrite HE, SE. cbn [rest]. rewrite <- HE, SC.
  assert (RA : Rabs (RN (IZR k * dec_value p (n, e))) = Rabs (RN (dec_value p (n, e)))).
  { destruct KV as [->| ->]; [rewrite Rmult_1_l; reflexivity|]. replace (IZR (-1) * dec_value p (n, e))%R with (- dec_value p (n, e))%R by ring. rewrite RN_opp. apply Rabs_Ropp. }
  rewrite RA. destruct (rltb (Rabs (RN (dec_value p (n, e)))) (bpow radix2 1024)) eqn:LT; [|reflexivity]. apply rltb_spec in LT. lra.
Qed.
(** A nonzero double is read back if and only if its printed decimal rounds to it. *)
Lemma restored p r : (1 <= p)%nat -> r <> 0%R -> (Rabs r < bpow radix2 1024)%R ->
  parse_value TDouble (put_double p (Fin r)) = Some (VDouble (Fin r)) <-> RN (dec_value p (decimal p (Rabs r))) = Rabs r.
Proof.
  intros P R0 FIN. set (v := RN (dec_value p (decimal p (Rabs r)))).
  assert (AP : (0 < Rabs r)%R) by (apply Rabs_pos_lt; exact R0).
  destruct (Rlt_le_dec (Rabs v) (bpow radix2 1024)) as [L|L].
  - destruct (put_double_value p r P R0 L) as (s & SV & SR & G). fold v in G. specialize (G [] [] (Forall_nil _) (or_introl eq_refl)). rewrite app_nil_r in G. cbn [app] in G.
    unfold parse_value. cbn [read_value]. rewrite G. cbn [fail]. change (get_line (Stream [] (at_end []) false)) with (@nil ascii, Stream [] true true). cbn iota. split.
    + intros H. injection H as H. rewrite <- SR in H at 1. assert (S0 : (s <> 0)%R) by (destruct SV; lra). apply Rmult_eq_reg_l with s; [|exact S0]. rewrite SR. rewrite SR in H. exact H.
    + intros H. rewrite H, SR. reflexivity.
  - split.
    + pose proof (put_double_over p r P R0 L) as O. unfold parse_value. cbn [read_value]. destruct (get_double (open (put_double p (Fin r)))) as (d, s0). cbn [snd] in O. rewrite O. discriminate.
    + intros H. exfalso. rewrite H, Rabs_Rabsolu in L. lra.
Qed.
Lemma restored_seventeen p r : (17 <= p)%nat -> nearest_double r = r -> (Rabs r < powerRZ 2 1024)%R ->
  parse_value TDouble (put_double p (Fin r)) = Some (VDouble (Fin r)).
Proof.
  intros P F FIN. rewrite <- bpow2 in FIN. destruct (Req_dec r 0) as [->|R0].
  - cbn [put_double]. destruct (reqb 0 0) eqn:E; [|apply reqb_false in E; contradiction]. destruct (put_double_shape p (Fin 0) ltac:(lia)) as (_ & G).
    { exists 0%R. split; [reflexivity|]. split; [rewrite <- bpow2; exact FIN|left; reflexivity]. }
    specialize (G [] [] (Forall_nil _) (or_introl eq_refl)). rewrite app_nil_r in G. cbn [app put_double] in G. rewrite E in G. unfold parse_value. cbn [read_value]. rewrite G. reflexivity.
  - apply restored; [lia|exact R0|exact FIN|]. apply seventeen; [exact P| |apply Rabs_pos_lt; exact R0]. apply generic_format_abs. rewrite <- F. apply RN_F.
Qed.
Lemma restored_exact p r : (1 <= p)%nat -> nearest_double r = r -> r <> 0%R -> (Rabs r < powerRZ 2 1024)%R -> ~ power_of_two r ->
  parse_value TDouble (put_double p (Fin r)) = Some (VDouble (Fin r)) <-> exists x, short_decimal p x /\ nearest_double x = r.
Proof.
  intros P F R0 FIN NP. rewrite <- bpow2 in FIN. assert (AP : (0 < Rabs r)%R) by (apply Rabs_pos_lt; exact R0). rewrite restored by assumption. split.
  - intros H. set (q := decimal p (Rabs r)) in *. destruct (decimal_spec p P (Rabs r) AP) as (_ & DB). fold q in DB.
    assert (SD : forall k, (k = 1 \/ k = -1)%Z -> short_decimal p (IZR k * dec_value p q)).
    { intros k K. exists (k * fst q)%Z, (snd q - Z.of_nat p + 1)%Z. split; [rewrite Z.abs_mul; replace (Z.abs k) with 1%Z by lia; assert (0 < 10 ^ (Z.of_nat p - 1))%Z by (apply Z.pow_pos_nonneg; lia); rewrite Z.abs_eq; lia|].
      unfold dec_value. rewrite bpow10, mult_IZR. ring. }
    destruct (Rle_lt_dec 0 r) as [S|S].
    + exists (dec_value p q). split; [rewrite <- (Rmult_1_l (dec_value p q)); apply SD; left; reflexivity|]. change (RN (dec_value p q) = r). rewrite H. apply Rabs_pos_eq. exact S.
    + exists (IZR (-1) * dec_value p q)%R. split; [apply SD; right; reflexivity|]. change (RN (IZR (-1) * dec_value p q) = r). replace (IZR (-1) * dec_value p q)%R with (- dec_value p q)%R by ring. rewrite RN_opp, H, Rabs_left by exact S. ring.
  - intros (x & (n & e & N & XE) & X). apply (decimal_back p P (Rabs r) (Rabs x)).
    + apply generic_format_abs. rewrite XE, <- bpow10. apply decimal_F10; assumption.
    + rewrite <- X. unfold nearest_double, RN. symmetry. apply (@round_NE_abs radix2 (FLT_exp (-1074) 53)). apply FLT_exp_valid. reflexivity.
    + exact AP.
    + right. intros C. apply NP. exists (mag radix2 (Rabs r) - 1)%Z. rewrite <- bpow2. exact C.
Qed.
(** All powers of two, from 2^1023 downwards: 2^k 10^j in [10^15, 10^16) is kept between two
    multiples of 2^-68. *)
Local Open Scope Z_scope.
Definition one68 : Z := 2 ^ 68.
Definition half68 : Z := 2 ^ 67.
Definition low68 : Z := 10 ^ 15 * one68.
Definition twice68 : Z := 2 * low68.
Definition high68 : Z := 10 ^ 16 * one68.
Definition judge (pl ph m u : Z) : option bool :=
  if (low68 <=? m) && (u <? high68) then
    let n := Z.shiftl (Z.shiftr (m + half68) 68) 68 in
    if (n <? m + half68) && (u <? n + half68) then
      if (pl * (u - n) <? m) && (ph * (n - m) <? m) then Some true
      else if (u <? pl * (m - n)) || (u <? ph * (n - u)) then Some false else None
    else
      let q := Z.shiftr m 68 in
      let n := Z.shiftl q 68 in
      if (n <=? m) && (u <=? n + one68) && (u <? pl * (m - n)) && ((u <? ph * (n + one68 - u)) || (m =? u) && (m =? n + half68) && Z.even q) then Some false else None
  else None.
Fixpoint walk (f : nat) (k m u : Z) (acc : list Z) : option (list Z) :=
  match f with
  | O => Some acc
  | S f =>
      match judge (2 ^ Z.min 54 (k + 1075)) (2 ^ Z.min 53 (k + 1075)) m u with
      | None => None
      | Some b =>
          let acc := if b then acc else k :: acc in
          if twice68 <=? m then walk f (k - 1) (Z.div2 m) (Z.div2 (u + 1)) acc else walk f (k - 1) (5 * m) (5 * u) acc
      end
  end.
Definition first68 : Z := 2652926814549581736869827008514192926.
Definition both : option (list Z) := match walk 1023 1023 first68 (first68 + 1) [] with Some a => walk 1075 0 low68 low68 a | None => None end.
Lemma walk_table : both = Some lost_powers.
Proof. vm_compute. reflexivity. Qed.
Lemma first_ok : first68 * 5 ^ 292 <= 2 ^ 799 <= (first68 + 1) * 5 ^ 292.
Proof. split; apply Z.leb_le; vm_compute; reflexivity. Qed.
Local Open Scope R_scope.
Notation S68 := (IZR one68).
Lemma s68 : 0 < S68.
Proof. apply IZR_lt. reflexivity. Qed.
Lemma near_unique y n : IZR n - / 2 < y < IZR n + / 2 -> ZnearestE y = n.
Proof. intros H. apply Znearest_imp. apply Rabs_def1; lra. Qed.
Lemma near_either y n : IZR n < y < IZR n + 1 -> ZnearestE y = n \/ ZnearestE y = (n + 1)%Z.
Proof.
  intros H. pose proof (Znearest_half (fun x => negb (Z.even x)) y) as Q. apply Rabs_le_inv in Q. fold ZnearestE in Q. set (z := ZnearestE y) in *.
  assert (A : (n - 1 < z)%Z) by (apply lt_IZR; rewrite minus_IZR; lra). assert (B : (z < n + 2)%Z) by (apply lt_IZR; rewrite plus_IZR; lra). lia.
Qed.
Lemma judge_ok k j m u b : (-1074 <= k)%Z ->
  IZR m <= bpow radix2 k * bpow radix10 j * S68 <= IZR u -> judge (2 ^ Z.min 54 (k + 1075)) (2 ^ Z.min 53 (k + 1075)) m u = Some b ->
  RN (dec_value 16 (decimal 16 (bpow radix2 k))) = bpow radix2 k <-> b = true.
Proof.
  intros KL. remember (bpow radix2 k * bpow radix10 j) as y eqn:Y. intros (YM & YU) J. unfold judge in J. pose proof s68 as S0.
  set (pl := (2 ^ Z.min 54 (k + 1075))%Z) in *. set (ph := (2 ^ Z.min 53 (k + 1075))%Z) in *.
  assert (PL : 0 <= IZR pl) by (apply IZR_le, Z.pow_nonneg; lia). assert (PH : 0 <= IZR ph) by (apply IZR_le, Z.pow_nonneg; lia).
  destruct ((low68 <=? m) && (u <? high68))%Z eqn:RG; [|discriminate]. apply andb_prop in RG. destruct RG as (R1 & R2). apply Z.leb_le, IZR_le in R1. apply Z.ltb_lt, IZR_lt in R2.
  assert (YR : bpow radix10 15 <= y < bpow radix10 16).
  { unfold low68 in R1. unfold high68 in R2. rewrite mult_IZR in R1, R2. rewrite <- !IZR_Zpower by lia. change (radix_val radix10 ^ 15)%Z with (10 ^ 15)%Z. change (radix_val radix10 ^ 16)%Z with (10 ^ 16)%Z. split; [apply Rmult_le_reg_r with S68|apply Rmult_lt_reg_r with S68]; lra. }
  clear R1 R2.
  assert (SH : forall a, IZR (Z.shiftl a 68) = IZR a * S68). { intros a. rewrite Z.shiftl_mul_pow2 by lia. rewrite mult_IZR. reflexivity. }
  assert (HALF : IZR half68 = S68 / 2). { unfold half68, one68. change (2 ^ 68)%Z with (2 ^ 67 * 2)%Z. rewrite mult_IZR. lra. }
  cbv zeta in J. generalize dependent (Z.shiftr (m + half68) 68)%Z. intros n J.
  destruct ((Z.shiftl n 68 <? m + half68) && (u <? Z.shiftl n 68 + half68))%Z eqn:NG.
  - apply andb_prop in NG. destruct NG as (N1 & N2). apply Z.ltb_lt, IZR_lt in N1, N2. rewrite plus_IZR, SH, HALF in N1. rewrite plus_IZR, SH, HALF in N2.
    assert (YN : ZnearestE y = n) by (apply near_unique; split; apply Rmult_lt_reg_r with S68; lra).
    destruct ((pl * (u - Z.shiftl n 68) <? m) && (ph * (Z.shiftl n 68 - m) <? m))%Z eqn:K1.
    + apply andb_prop in K1. destruct K1 as (A & B). apply Z.ltb_lt, IZR_lt in A, B. rewrite mult_IZR, minus_IZR, SH in A. rewrite mult_IZR, minus_IZR, SH in B. inversion J; subst b. split; [reflexivity|intros _].
      apply (scaled_kept k j n y KL Y YR YN); apply Rmult_lt_reg_r with S68; try exact S0; fold pl; fold ph.
      * assert (IZR pl * (y * S68 - IZR n * S68) <= IZR pl * (IZR u - IZR n * S68)) by (apply Rmult_le_compat_l; lra). lra.
      * assert (IZR ph * (IZR n * S68 - y * S68) <= IZR ph * (IZR n * S68 - IZR m)) by (apply Rmult_le_compat_l; lra). lra.
    + destruct ((u <? pl * (m - Z.shiftl n 68)) || (u <? ph * (Z.shiftl n 68 - u)))%Z eqn:K2; [|discriminate]. inversion J; subst b. split; [|discriminate]. intros C. exfalso. revert C.
      apply (scaled_lost k j n y KL Y YR YN). fold pl; fold ph. apply orb_prop in K2. destruct K2 as [A|A]; apply Z.ltb_lt, IZR_lt in A; rewrite mult_IZR, minus_IZR, SH in A; [left|right]; apply Rmult_lt_reg_r with S68; try exact S0.
      * assert (IZR pl * (IZR m - IZR n * S68) <= IZR pl * (y * S68 - IZR n * S68)) by (apply Rmult_le_compat_l; lra). lra.
      * assert (IZR ph * (IZR n * S68 - IZR u) <= IZR ph * (IZR n * S68 - y * S68)) by (apply Rmult_le_compat_l; lra). lra.
  - clear NG n. revert J. generalize (Z.shiftr m 68)%Z. intros n J.
    destruct ((Z.shiftl n 68 <=? m) && (u <=? Z.shiftl n 68 + one68) && (u <? pl * (m - Z.shiftl n 68)) && ((u <? ph * (Z.shiftl n 68 + one68 - u)) || (m =? u) && (m =? Z.shiftl n 68 + half68) && Z.even n))%Z eqn:K; [|discriminate]. inversion J; subst b. split; [|discriminate]. intros C. exfalso. revert C.
    apply andb_prop in K. destruct K as (K & D). apply andb_prop in K. destruct K as (K & E). apply andb_prop in K. destruct K as (N1 & N2). apply Z.leb_le, IZR_le in N1, N2. apply Z.ltb_lt, IZR_lt in E.
    rewrite SH in N1. rewrite plus_IZR, SH in N2. rewrite mult_IZR, minus_IZR, SH in E.
    assert (Y0 : 0 < y) by (pose proof (bpow_gt_0 radix10 15); lra). assert (YS : 0 < y * S68) by (apply Rmult_lt_0_compat; lra).
    assert (A1 : y < IZR pl * (y - IZR n)).
    { apply Rmult_lt_reg_r with S68; [exact S0|]. assert (IZR pl * (IZR m - IZR n * S68) <= IZR pl * (y * S68 - IZR n * S68)) by (apply Rmult_le_compat_l; lra). lra. }
    apply orb_prop in D. destruct D as [D|D].
    + apply Z.ltb_lt, IZR_lt in D. rewrite mult_IZR, minus_IZR, plus_IZR, SH in D. assert (A2 : y < IZR ph * (IZR (n + 1) - y)).
      { rewrite plus_IZR. apply Rmult_lt_reg_r with S68; [exact S0|]. assert (IZR ph * (IZR n * S68 + S68 - IZR u) <= IZR ph * (IZR n * S68 + S68 - y * S68)) by (apply Rmult_le_compat_l; lra). lra. }
      assert (B : IZR n < y < IZR n + 1).
      { rewrite plus_IZR in A2. split.
        - destruct (Rlt_le_dec (IZR n) y) as [Q|Q]; [exact Q|]. assert (IZR pl * (y - IZR n) <= IZR pl * 0) by (apply Rmult_le_compat_l; lra). lra.
        - destruct (Rlt_le_dec y (IZR n + 1)) as [Q|Q]; [exact Q|]. assert (IZR ph * (IZR n + 1 - y) <= IZR ph * 0) by (apply Rmult_le_compat_l; lra). lra. }
      destruct (near_either y n B) as [YN|YN]; apply (scaled_lost k j _ y KL Y YR YN); [left|right]; assumption.
    + apply andb_prop in D. destruct D as (D & EV). apply andb_prop in D. destruct D as (D1 & D2). apply Z.eqb_eq, (f_equal IZR) in D1, D2. rewrite plus_IZR, SH, HALF in D2.
      assert (YE : y = IZR n + / 2) by (apply Rmult_eq_reg_r with S68; lra).
      apply (scaled_lost k j n y KL Y YR); [|left; exact A1]. rewrite YE. unfold ZnearestE, Znearest. replace (Zfloor (IZR n + / 2)) with n by (symmetry; apply Zfloor_imp; rewrite plus_IZR; lra). rewrite Rcompare_Eq by lra. rewrite EV. reflexivity.
Qed.
Lemma walk_ok f : forall k j m u acc L, (-1074 <= k - Z.of_nat f + 1)%Z -> IZR m <= bpow radix2 k * bpow radix10 j * S68 <= IZR u -> walk f k m u acc = Some L ->
  forall x, In x L <-> In x acc \/ (k - Z.of_nat f < x <= k)%Z /\ RN (dec_value 16 (decimal 16 (bpow radix2 x))) <> bpow radix2 x.
Proof.
  induction f as [|f IH]; intros k j m u acc L KL B W x; cbn [walk] in W.
  - inversion W; subst L. change (Z.of_nat 0) with 0%Z. split; [tauto|intros [H|(H & _)]; [exact H|lia]].
  - destruct (judge _ _ m u) as [b|] eqn:J; [|discriminate]. apply (judge_ok k j m u b ltac:(lia) B) in J.
    assert (HV : bpow radix2 k = 2 * bpow radix2 (k - 1)). { change 2 with (bpow radix2 1). rewrite <- bpow_plus. f_equal. lia. }
    assert (IN : In x L <-> In x (if b then acc else k :: acc) \/ (k - 1 - Z.of_nat f < x <= k - 1)%Z /\ RN (dec_value 16 (decimal 16 (bpow radix2 x))) <> bpow radix2 x).
    { destruct (twice68 <=? m)%Z; eapply IH; try exact W; try lia.
      - instantiate (1 := j). rewrite HV in B. pose proof (Z.div2_odd m) as M. pose proof (Z.div2_odd (u + 1)) as U. apply (f_equal IZR) in M, U. rewrite plus_IZR, mult_IZR in M. rewrite !plus_IZR, mult_IZR in U. destruct (Z.odd m), (Z.odd (u + 1)); cbn [Z.b2z] in M, U; lra.
      - instantiate (1 := (j + 1)%Z). rewrite bpow_plus. change (bpow radix10 1) with 10. rewrite HV in B. rewrite !mult_IZR. lra. }
    rewrite IN. replace (k - Z.of_nat (S f))%Z with (k - 1 - Z.of_nat f)%Z by lia. destruct b; cbn [In].
    + split; [intros [H|(H & N)]; [left; exact H|right; split; [lia|exact N]]|intros [H|(H & N)]; [left; exact H|]]. right. split; [|exact N]. assert (x <> k) by (intros ->; apply N, J; reflexivity). lia.
    + split; [intros [[H|H]|(H & N)]; [right; subst x; split; [lia|]|left; exact H|right; split; [lia|exact N]]|intros [H|(H & N)]; [left; right; exact H|]].
      * intros C. apply J in C. discriminate.
      * destruct (Z.eq_dec k x) as [E|E]; [left; left; exact E|right; split; [lia|exact N]].
Qed.
Lemma scaled_ring a b c f t : 0 < f -> 0 < t -> a * b = c * t -> a * / (t * f) * b * f = c.
Proof. intros F T H. replace (a * / (t * f) * b * f) with (a * b / t) by (field; lra). rewrite H. field. lra. Qed.
Lemma first_scaled : IZR first68 <= bpow radix2 1023 * bpow radix10 (-292) * S68 <= IZR (first68 + 1).
Proof.
  destruct first_ok as (A & B). apply IZR_le in A. apply IZR_le in B. rewrite mult_IZR in A. rewrite mult_IZR in B. assert (P : 0 < IZR (5 ^ 292)) by (apply IZR_lt, Z.pow_pos_nonneg; lia). assert (T : 0 < IZR (2 ^ 292)) by (apply IZR_lt, Z.pow_pos_nonneg; lia).
  assert (E : bpow radix2 1023 * bpow radix10 (-292) * S68 * IZR (5 ^ 292) = IZR (2 ^ 799)).
  { change (-292)%Z with (- (292))%Z. rewrite bpow_opp, <- !IZR_Zpower by lia. change (radix_val radix2) with 2%Z. change (radix_val radix10) with (2 * 5)%Z. rewrite Z.pow_mul_l. unfold one68. rewrite mult_IZR.
    apply scaled_ring; [exact P|exact T|]. rewrite <- !mult_IZR. apply (f_equal IZR). rewrite <- !Z.pow_add_r by lia. reflexivity. }
  split; apply Rmult_le_reg_r with (IZR (5 ^ 292)); try exact P; rewrite E; assumption.
Qed.
Lemma restored_powers k : (-1074 <= k <= 1023)%Z ->
  parse_value TDouble (put_double 16 (Fin (powerRZ 2 k))) = Some (VDouble (Fin (powerRZ 2 k))) <-> ~ In k lost_powers.
Proof.
  intros K. pose proof walk_table as T. unfold both in T. destruct (walk 1023 1023 first68 (first68 + 1) []) as [a|] eqn:W; [|discriminate].
  assert (Z0 : IZR low68 <= bpow radix2 0 * bpow radix10 15 * S68 <= IZR low68).
  { unfold low68. rewrite mult_IZR. change (bpow radix2 0) with 1. rewrite <- (IZR_Zpower radix10 15) by lia. change (radix_val radix10 ^ 15)%Z with (10 ^ 15)%Z. lra. }
  rewrite (walk_ok 1075 0 15 _ _ a lost_powers ltac:(lia) Z0 T k), (walk_ok 1023 1023 (-292) _ _ [] a ltac:(lia) first_scaled W k).
  rewrite <- bpow2. pose proof (bpow_gt_0 radix2 k) as B. pose proof (restored 16 (bpow radix2 k) ltac:(lia) ltac:(lra)) as E. rewrite (Rabs_pos_eq (bpow radix2 k)) in E by lra. rewrite E by (apply bpow_lt; lia).
  split; [intros H [[[]|(_ & N)]|(_ & N)]; exact (N H)|]. intros H. destruct (Req_dec (RN (dec_value 16 (decimal 16 (bpow radix2 k)))) (bpow radix2 k)) as [Q|Q]; [exact Q|]. exfalso. apply H. destruct (Z_lt_le_dec 0 k); [left; right|right]; (split; [lia|exact Q]).
Qed.
