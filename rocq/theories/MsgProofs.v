(** Proofs about the texts shown to the user. *)
From Coq Require Import String Ascii Reals ZArith List Bool Lia Lra.
From Flocq Require Import Core.
From Verif Require Import ExtModel BoundProofs TextModel TextNum TextProofs ParamTextSpec ParticleModel StatModel MsgModel MsgSpec.
Import ListNotations.
Local Open Scope list_scope.

Lemma width_spec p : forall n, (0 <= n < 10 ^ Z.of_nat p)%Z ->
  length (digits_width p n) = p /\ Forall (fun c => is_digit c = true) (digits_width p n) /\ number_of (digits_width p n) = n.
Proof.
  induction p as [|p IH]; intros n H.
  - cbn in *. split; [reflexivity|]. split; [constructor|]. change (number_of []) with 0%Z. lia.
  - cbn [digits_width]. rewrite Nat2Z.inj_succ, Z.pow_succ_r in H by lia.
    assert (D : (0 <= n / 10 < 10 ^ Z.of_nat p)%Z) by (split; [apply Z.div_pos; lia|apply Z.div_lt_upper_bound; lia]).
    destruct (IH _ D) as (L & A & V). pose proof (Z.mod_pos_bound n 10 ltac:(lia)) as M. destruct (digit_ok (n mod 10)) as (D1 & D2); [lia|].
    split; [rewrite app_length, L; cbn; lia|]. split; [apply Forall_app; split; [exact A|constructor; [exact D1|constructor]]|].
    rewrite number_app, V. cbn [length]. change (Z.of_nat 1) with 1%Z. rewrite number_cons. cbn [length]. change (number_of []) with 0%Z. rewrite D2.
    change (10 ^ Z.of_nat 0)%Z with 1%Z. change (10 ^ 1)%Z with 10%Z. pose proof (Z.div_mod n 10 ltac:(lia)). lia.
Qed.
Lemma alld_all t : Forall (fun c => is_digit c = true) t -> all_digits t.
Proof. intros H. eapply Forall_impl; [|exact H]. intros c. apply is_digit_spec. Qed.
Lemma ten_powerRZ k : bpow radix10 k = powerRZ 10 k.
Proof. rewrite bpow_powerRZ. reflexivity. Qed.
Lemma sign_text r : exists k, signed (if rltb r 0 then ["-"%char] else []) k /\ (IZR k * Rabs r = r)%R /\ (Rabs (IZR k) = 1)%R.
Proof.
  unfold rltb. destruct (Rlt_dec r 0) as [H|H].
  - exists (-1)%Z. split; [constructor|]. rewrite Rabs_left by exact H. split; [lra|]. rewrite Rabs_left; lra.
  - exists 1%Z. split; [constructor|]. rewrite Rabs_pos_eq by lra. split; [lra|]. apply Rabs_pos_eq. lra.
Qed.
Lemma near_half x : (Rabs (IZR (ZnearestE x) - x) <= / 2)%R.
Proof. rewrite Rabs_minus_sym. apply Znearest_half. Qed.
Lemma near_pos x : (0 <= x)%R -> (0 <= ZnearestE x)%Z.
Proof. intros H. rewrite <- (Zrnd_IZR (Znearest (fun t => negb (Z.even t))) 0). apply Zrnd_le; [apply valid_rnd_N|exact H]. Qed.
Lemma with_fraction ip fp : with_point ip fp = ip ++ fraction fp.
Proof. unfold with_point, fraction. destruct fp; [rewrite app_nil_r; reflexivity|reflexivity]. Qed.

(** The value of a fixed text, exactly. *)
Definition fixed_value (p : nat) (r : R) : R := (IZR (ZnearestE (Rabs r * bpow radix10 (Z.of_nat p))) * bpow radix10 (- Z.of_nat p))%R.
Lemma fixed_ok p r : exists k, decimal_text (put_fixed p (Fin r)) (IZR k * fixed_value p r) /\ (IZR k * Rabs r = r)%R /\ (Rabs (IZR k) = 1)%R
  /\ places (put_fixed p (Fin r)) p.
Proof.
  destruct (sign_text r) as (k & S & E & A). exists k. cbn [put_fixed]. set (n := ZnearestE (Rabs r * bpow radix10 (Z.of_nat p))).
  assert (N0 : (0 <= n)%Z) by (apply near_pos; apply Rmult_le_pos; [apply Rabs_pos|apply bpow_ge_0]).
  assert (T : (0 < 10 ^ Z.of_nat p)%Z) by (apply Z.pow_pos_nonneg; lia).
  destruct (digits_spec (n / 10 ^ Z.of_nat p)) as (DI & NI & VI & _); [apply Z.div_pos; lia|].
  destruct (width_spec p (n mod 10 ^ Z.of_nat p)) as (LW & DW & VW); [apply Z.mod_pos_bound; exact T|].
  rewrite with_fraction. assert (NU : numeral (digits (n / 10 ^ Z.of_nat p))) by (apply numeral_digits; split; assumption).
  split; [|split; [exact E|split; [exact A|]]].
  - replace (IZR k * fixed_value p r)%R with (IZR (k * denotes (digits (n / 10 ^ Z.of_nat p) ++ digits_width p (n mod 10 ^ Z.of_nat p))) * powerRZ 10 (- Z.of_nat (length (digits_width p (n mod 10 ^ Z.of_nat p)))))%R.
    + apply decimal_fixed; [exact S|exact NU|apply alld_all; exact DW].
    + rewrite LW, <- number_denotes, number_app, LW, VI, VW. rewrite Z.mul_comm with (n := (n / 10 ^ Z.of_nat p)%Z). rewrite <- Z.div_mod by lia.
      rewrite mult_IZR, <- ten_powerRZ. unfold fixed_value. fold n. ring.
  - exists (if rltb r 0 then ["-"%char] else []), k, (digits (n / 10 ^ Z.of_nat p)), (digits_width p (n mod 10 ^ Z.of_nat p)).
    split; [reflexivity|]. split; [exact S|]. split; [exact NU|]. split; [apply alld_all; exact DW|exact LW].
Qed.
Lemma fixed_value_err p r : (Rabs (fixed_value p r - Rabs r) <= / 2 * bpow radix10 (- Z.of_nat p))%R.
Proof.
  unfold fixed_value. pose proof (near_half (Rabs r * bpow radix10 (Z.of_nat p))) as H. set (n := ZnearestE _) in *.
  assert (B : (0 < bpow radix10 (- Z.of_nat p))%R) by apply bpow_gt_0. assert (BB : (bpow radix10 (Z.of_nat p) * bpow radix10 (- Z.of_nat p) = 1)%R) by (rewrite <- bpow_plus; replace (Z.of_nat p + - Z.of_nat p)%Z with 0%Z by lia; reflexivity).
  replace (IZR n * bpow radix10 (- Z.of_nat p) - Rabs r)%R with ((IZR n - Rabs r * bpow radix10 (Z.of_nat p)) * bpow radix10 (- Z.of_nat p))%R.
  - rewrite Rabs_mult, (Rabs_pos_eq (bpow _ _)) by lra. apply Rmult_le_compat_r; lra.
  - rewrite Rmult_minus_distr_r, Rmult_assoc, BB. ring.
Qed.
Lemma fixed_tells p r : tells (put_fixed p (Fin r)) r (/ 2 * powerRZ 10 (- Z.of_nat p)) /\ places (put_fixed p (Fin r)) p.
Proof.
  destruct (fixed_ok p r) as (k & D & E & A & P). split; [|exact P]. exists (IZR k * fixed_value p r)%R. split; [exact D|].
  rewrite <- E at 2. rewrite <- Rmult_minus_distr_l, Rabs_mult, A, Rmult_1_l, <- ten_powerRZ. apply fixed_value_err.
Qed.
Lemma sci_ok p r : r <> 0%R -> tells (put_sci p (Fin r)) r (/ 2 * powerRZ 10 (- Z.of_nat p) * Rabs r) /\ scientific (put_sci p (Fin r)) p.
Proof.
  intros R0. destruct (sign_text r) as (k & S & E & A). cbn [put_sci]. unfold reqb. destruct (Req_EM_T r 0) as [C|_]; [contradiction|].
  assert (RA : (0 < Rabs r)%R) by (apply Rabs_pos_lt; exact R0).
  assert (P1 : (1 <= Datatypes.S p)%nat) by lia. pose proof (decimal_spec _ P1 (Rabs r) RA) as (_ & B). pose proof (decimal_error _ P1 (Rabs r) RA) as ER. destruct (decimal (Datatypes.S p) (Rabs r)) as (n & x) eqn:DE. cbn [fst] in B.
  assert (NB : (0 <= n < 10 ^ Z.of_nat (Datatypes.S p))%Z). { assert (0 < 10 ^ (Z.of_nat (Datatypes.S p) - 1))%Z by (apply Z.pow_pos_nonneg; lia). lia. }
  destruct (width_spec (Datatypes.S p) n NB) as (L & D & V). set (ds := digits_width (Datatypes.S p) n) in *. destruct ds as [|d fp]; [discriminate L|]. cbn [firstn skipn].
  injection L as L. pose proof (Forall_inv D) as D1. pose proof (Forall_inv_tail D) as D2. rewrite with_fraction.
  set (es := (if (Z.abs x <? 10)%Z then ["0"%char] else []) ++ digits (Z.abs x)). destruct (digits_spec (Z.abs x)) as (DX & NX & VX & _); [lia|].
  assert (NES : numeral es). { apply numeral_digits. unfold es. destruct (Z.abs x <? 10)%Z; [split; [discriminate|constructor; [reflexivity|exact DX]]|split; [exact NX|exact DX]]. }
  assert (VES : denotes es = Z.abs x). { rewrite <- number_denotes. unfold es. rewrite number_app, VX. destruct (Z.abs x <? 10)%Z; [|reflexivity]. change (number_of ["0"%char]) with 0%Z. lia. }
  assert (SGE : exists sge ke, (if (x <? 0)%Z then "-"%char else "+"%char) :: es = sge ++ es /\ signed sge ke /\ (ke * Z.abs x = x)%Z).
  { destruct (Z.ltb_spec x 0) as [Y|Y]; [exists (str "-"), (-1)%Z|exists (str "+"), 1%Z]; (split; [reflexivity|]; split; [constructor|]; lia). }
  destruct SGE as (sge & ke & SE1 & SE2 & SE3). rewrite SE1. rewrite <- app_assoc.
  assert (ND : numeral [d]) by (apply numeral_digits; split; [discriminate|constructor; [exact D1|constructor]]). split.
  - eexists. split; [apply (decimal_exp _ k [d] fp sge ke es S ND (alld_all _ D2) SE2 NES)|].
    rewrite VES, SE3, L. cbn [app]. rewrite <- number_denotes, V, mult_IZR, <- !ten_powerRZ. rewrite <- E at 1. rewrite Rmult_assoc, <- Rmult_minus_distr_l, Rabs_mult, A, Rmult_1_l.
    unfold dec_value in ER. cbn [fst snd] in ER. replace (1 - Z.of_nat (Datatypes.S p))%Z with (- Z.of_nat p)%Z in ER by lia. replace (x - Z.of_nat (Datatypes.S p) + 1)%Z with (x - Z.of_nat p)%Z in ER by lia. exact ER.
  - exists (if rltb r 0 then ["-"%char] else []), k, d, fp, sge, ke, es. split; [reflexivity|]. repeat (split; [first [assumption|apply alld_all; assumption]|]). exact NES.
Qed.

(** A message that refuses a mass threshold. *)
Lemma message_ok t b h x a c d : make_particles t b h (Fin x) = ThresholdOutOfRange a c d ->
  what_mass_threshold a c d = str "Mass threshold " ++ put_fixed 6 (Fin x) ++ str " GeV is not within valid kinematic range " ++ put_fixed 6 (Fin (mass_n t))
    ++ str " GeV to " ++ put_fixed 6 (Fin (mass_n t + mass_h h)) ++ str " GeV" /\ ((x < mass_n t)%R \/ (mass_n t + mass_h h < x)%R).
Proof.
  unfold make_particles. cbn [eadd]. intros H. destruct (negb _ || negb _) eqn:C in H; [|discriminate H]. injection H as <- <- <-. split; [reflexivity|].
  apply orb_prop in C. destruct C as [C|C]; apply negb_true_iff in C; [left|right].
  - cbn in C. unfold rleb in C. destruct (Rle_dec _ _) in C; [discriminate C|lra].
  - cbn in C. unfold rleb in C. destruct (Rle_dec _ _) in C; [discriminate C|lra].
Qed.

(** Shown on the right side of a limit that is missed by more than the last place. *)
Lemma sound_below x y : (x < y - / 1000000)%R -> exists v w, decimal_text (put_fixed 6 (Fin x)) v /\ decimal_text (put_fixed 6 (Fin y)) w /\ (v < w)%R.
Proof.
  intros H. destruct (fixed_tells 6 x) as ((v & D & A) & _). destruct (fixed_tells 6 y) as ((w & D' & A') & _). exists v, w. split; [exact D|]. split; [exact D'|].
  assert (E : powerRZ 10 (- Z.of_nat 6) = (/ 1000000)%R) by (change (/ (10 ^ 6) = / 1000000)%R; f_equal; lra). rewrite E in A, A'. apply Rabs_le_inv in A. apply Rabs_le_inv in A'. lra.
Qed.
Lemma near_is y n : (IZR n - / 2 < y < IZR n + / 2)%R -> ZnearestE y = n.
Proof. intros H. apply Znearest_imp. apply Rabs_def1; lra. Qed.
Lemma six_text x n : (0 <= x)%R -> (IZR n - / 2 < x * 1000000 < IZR n + / 2)%R ->
  put_fixed 6 (Fin x) = with_point (digits (n / 1000000)) (digits_width 6 (n mod 1000000)).
Proof.
  intros X H. cbn [put_fixed]. change (10 ^ Z.of_nat 6)%Z with 1000000%Z. rewrite (Rabs_pos_eq x X). assert (E : bpow radix10 (Z.of_nat 6) = 1000000%R) by (cbn; lra). rewrite E.
  rewrite (near_is _ n H). unfold rltb. destruct (Rlt_dec x 0); [lra|reflexivity].
Qed.
(** For every target there is a threshold that is refused for being below a limit shown by the same digits. *)
Lemma message_same t b h : exists x, make_particles t b h (Fin x) = ThresholdOutOfRange (Fin x) (Fin (mass_n t)) (Fin (mass_n t + mass_h h))
  /\ (x < mass_n t)%R /\ put_fixed 6 (Fin x) = put_fixed 6 (Fin (mass_n t)).
Proof.
  exists (mass_n t - / 1000000000)%R. split; [|split; [lra|]].
  - unfold make_particles. cbn [eadd egeb eleb]. unfold egeb. cbn [eleb]. unfold rleb at 1. destruct (Rle_dec _ _) as [C|C]; [lra|]. reflexivity.
  - destruct t; cbn [mass_n]; [rewrite !(six_text _ 938272)|rewrite !(six_text _ 939565)|rewrite !(six_text _ 1875613)]; first [reflexivity|lra].
Qed.
Lemma nucleus_name a b : name_nucleus a = name_nucleus b -> a = b.
Proof. destruct a, b; intros H; first [reflexivity|discriminate H]. Qed.
Lemma hadron_name a b : name_hadron a = name_hadron b -> a = b.
Proof. destruct a, b; intros H; first [reflexivity|discriminate H]. Qed.
Lemma put_int_inj a b : put_int a = put_int b -> a = b.
Proof.
  intros H. pose proof (put_get_int (Z.min a b) (Z.max a b) a [] [] ltac:(lia) ltac:(constructor) ltac:(left; reflexivity)) as A.
  pose proof (put_get_int (Z.min a b) (Z.max a b) b [] [] ltac:(lia) ltac:(constructor) ltac:(left; reflexivity)) as B. rewrite H in A. rewrite A in B. injection B as B. exact B.
Qed.
Lemma target_names a b c d : what_target_mismatch a b = what_target_mismatch c d -> a = c /\ b = d.
Proof. destruct a, b, c, d; intros H; first [split; reflexivity|discriminate H]. Qed.
Lemma hadron_message a b : what_hadron a = what_hadron b -> a = b.
Proof. unfold what_hadron. intros H. apply app_inv_head, app_inv_tail in H. apply hadron_name. exact H. Qed.
Lemma flavor_message a b : what_flavor a = what_flavor b -> a = b.
Proof. unfold what_flavor, to_string_unsigned. intros H. apply app_inv_head, app_inv_tail in H. apply put_int_inj. exact H. Qed.
Lemma file_message a b : what_not_found a = what_not_found b \/ what_parse_error a = what_parse_error b -> a = b.
Proof. unfold what_not_found, what_parse_error. intros [H|H]; apply app_inv_head, app_inv_tail in H; exact H. Qed.
Lemma file_kinds a b : what_not_found a <> what_parse_error b.
Proof. intros H. discriminate H. Qed.

(** Streams. *)
Lemma send_app st a b : send_all st (a ++ b) = let (x, st) := send_all st a in let (y, st) := send_all st b in (x ++ y, st).
Proof.
  revert st. induction a as [|i a IH]; intros st; cbn [app send_all].
  - destruct (send_all st b) as (y, st'). reflexivity.
  - destruct (send st i) as (x, st1). rewrite IH. destruct (send_all st1 a) as (y, st2). destruct (send_all st2 b) as (z, st3). rewrite app_assoc. reflexivity.
Qed.
Lemma stats_indep h s f p p' : fst (stream_write_integ h s (OState f p)) = fst (stream_write_integ h s (OState FDefault p')) /\ snd (stream_write_integ h s (OState f p)) = OState f 1.
Proof. split; reflexivity. Qed.
Lemma plain_state l : forall st, snd (send_all st (map plain_item l)) = st.
Proof.
  induction l as [|i l IH]; intros st; [reflexivity|]. cbn [map send_all]. destruct (send st (plain_item i)) as (a, st1) eqn:E. specialize (IH st1).
  destruct (send_all st1 (map plain_item l)) as (b, st2). cbn [snd] in *. subst st2. destruct i; cbn in E; injection E as _ <-; reflexivity.
Qed.
Lemma params_indep ps f p : fst (show_params ps (OState f p)) = fst (show_params ps (OState f 6)) /\ snd (show_params ps (OState f p)) = OState f 16.
Proof.
  unfold show_params. cbn [o_field send_all send o_prec]. pose proof (plain_state ps (OState f 16)) as S. rewrite send_app. destruct (send_all (OState f 16) (map plain_item ps)) as (a, st). cbn [snd] in S. subst st. split; reflexivity.
Qed.
Lemma show_indep x p : fst (show x (OState FDefault p)) = fst (show x fresh) /\ o_field (snd (show x (OState FDefault p))) = FDefault.
Proof.
  destruct x as [ps|n v|h s|t]; cbn [show].
  - split; [apply params_indep|rewrite (proj2 (params_indep ps FDefault p)); reflexivity].
  - split; reflexivity.
  - split; reflexivity.
  - split; reflexivity.
Qed.
Lemma session l : forall p, fst (show_all l (OState FDefault p)) = concat (map (fun x => fst (show x fresh)) l) /\ o_field (snd (show_all l (OState FDefault p))) = FDefault.
Proof.
  induction l as [|x l IH]; intros p; [split; reflexivity|]. cbn [show_all map concat]. destruct (show_indep x p) as (A & B). destruct (show x (OState FDefault p)) as (a, st). cbn [fst snd] in *.
  destruct st as (f, q). cbn [o_field] in B. subst f. destruct (IH q) as (C & D). destruct (show_all l (OState FDefault q)) as (b, st2). cbn [fst snd] in *. rewrite A, C. split; [reflexivity|exact D].
Qed.

(** Percentages. *)
Lemma percent_range v : (0 <= v <= 100)%R -> exists w, decimal_text (put_fixed 1 (Fin v)) w /\ (0 <= w <= 100)%R /\ (Rabs (w - v) <= / 20)%R.
Proof.
  intros H. destruct (fixed_ok 1 v) as (k & D & E & A & P). pose proof (fixed_value_err 1 v) as ER. exists (IZR k * fixed_value 1 v)%R. split; [exact D|].
  assert (B1 : bpow radix10 (Z.of_nat 1) = 10%R) by (cbn; lra). assert (B2 : bpow radix10 (- Z.of_nat 1) = (/ 10)%R) by (cbn; lra).
  assert (V : (0 <= fixed_value 1 v <= 100)%R).
  { unfold fixed_value. rewrite B1, B2, Rabs_pos_eq by lra. assert (0 <= ZnearestE (v * 10) <= 1000)%Z as (L & U).
    { split; [apply near_pos; lra|]. rewrite <- (Zrnd_IZR (Znearest (fun t => negb (Z.even t))) 1000). apply Zrnd_le; [apply valid_rnd_N|lra]. }
    apply IZR_le in L. apply IZR_le in U. lra. }
  assert (K : k = 1%Z \/ fixed_value 1 v = 0%R /\ v = 0%R).
  { destruct (Req_dec v 0) as [Z0|Z0].
    - right. split; [|exact Z0]. unfold fixed_value. rewrite Z0, Rabs_R0, Rmult_0_l. rewrite (near_is 0 0) by lra. lra.
    - left. rewrite Rabs_pos_eq in E by lra. apply eq_IZR. apply Rmult_eq_reg_r with v; lra. }
  rewrite B2, (Rabs_pos_eq v) in ER by lra. destruct K as [->|(K & ->)].
  - rewrite Rmult_1_l. split; [exact V|]. lra.
  - rewrite K, Rmult_0_r. split; [lra|]. rewrite Rminus_0_r, Rabs_R0. lra.
Qed.
Lemma eff_range v : (0 <= v)%R -> exists e, eff (Fin v) = Fin e /\ (0 < e <= 1)%R.
Proof.
  intros H. exists (shown_eff v). split; [cbn; unfold rltb; destruct (Rlt_dec (-1) v); [reflexivity|lra]|]. unfold shown_eff, log1p. split; [apply exp_pos|].
  apply Rle_trans with (exp 0); [|rewrite exp_0; lra]. assert (L : (0 <= ln (1 + v))%R). { rewrite <- ln_1. destruct (Req_dec v 0) as [->|N]; [rewrite Rplus_0_r; lra|left; apply ln_increasing; lra]. }
  destruct (Req_dec (ln (1 + v)) 0) as [->|N]; [rewrite Rmult_0_r; lra|left; apply exp_increasing; lra].
Qed.
Lemma eff_sqrt v e : (0 <= v)%R -> eff (Fin v) = Fin e -> e = (/ sqrt (1 + v))%R.
Proof.
  intros H. cbn. unfold rltb. destruct (Rlt_dec (-1) v); [|lra]. intros E. injection E as <-. unfold shown_eff, log1p.
  replace (- (1 / 2) * ln (1 + v))%R with (- (ln (1 + v) * / 2))%R by lra. rewrite exp_Ropp. f_equal.
  rewrite <- Rpower_sqrt by lra. unfold Rpower. f_equal. lra.
Qed.
Lemma example_ok : let s := Said 12 (Fin 1) (Fin 1) (Fin 1) (Fin 1) (Fin (1 / 2)) (Fin 3) (Fin 1) in
  fst (show_all [ShowParams [PNum (Fin 2)]; ShowStats (str "total") s; ShowParams [PNum (Fin 2)]] fresh)
  = (put_double 16 (Fin 2) ++ fst (stream_write_integ (str "total") s fresh) ++ put_double 16 (Fin 2) ++ [])%list
  /\ put_fixed 6 (Fin (9382720813 / 10000000000)) = str "0.938272".
Proof.
  intros s. split.
  - unfold fresh. rewrite (proj1 (session _ 6)). cbn [map concat show]. change (fst (show_params [PNum (Fin 2)] fresh)) with (put_double 16 (Fin 2) ++ [] ++ []). rewrite !app_nil_r. reflexivity.
  - rewrite (six_text _ 938272) by lra. reflexivity.
Qed.
(** The report line by line. *)
Lemma report_ok h n xs xe pr no ac rv re st : xs <> 0%R -> xe <> 0%R -> pr <> 0%R -> no <> 0%R -> (0 <= ac <= 1)%R -> (0 < rv)%R -> re <> 0%R ->
  exists a b c d e f g i, fst (stream_write_integ h (Said n (Fin xs) (Fin xe) (Fin pr) (Fin no) (Fin ac) (Fin rv) (Fin re)) st)
    = (tab ++ h ++ [newline]) ++ (tab ++ tab ++ str "count:         " ++ put_int n ++ [newline])
      ++ (tab ++ tab ++ str "cross-section: " ++ a ++ str " ± " ++ b ++ [newline])
      ++ (tab ++ tab ++ str "prime:         " ++ c ++ [newline]) ++ (tab ++ tab ++ str "norm:          " ++ d ++ [newline])
      ++ (tab ++ tab ++ str "acceptance:    " ++ e ++ str "%" ++ [newline])
      ++ (tab ++ tab ++ str "rel. variance: " ++ f ++ str " ± " ++ g ++ [newline])
      ++ (tab ++ tab ++ str "efficiency:    " ++ i ++ str "%" ++ [newline])
    /\ tells a xs (Rabs xs / 2000) /\ tells b xe (Rabs xe / 2000) /\ tells c pr (Rabs pr / 2000) /\ tells d no (Rabs no / 2000)
    /\ tells e (100 * ac) (/ 20) /\ tells f rv (rv / 2000) /\ tells g re (Rabs re / 2000) /\ tells i (100 / sqrt (1 + rv)) (/ 20).
Proof.
  intros X1 X2 X3 X4 A V X5. assert (E : (powerRZ 10 (- Z.of_nat 3) = / 1000)%R) by (change (/ (10 ^ 3) = / 1000)%R; f_equal; lra).
  assert (SC : forall r, r <> 0%R -> tells (put_sci 3 (Fin r)) r (Rabs r / 2000)). { intros r R0. pose proof (proj1 (sci_ok 3 r R0)) as H. rewrite E in H. replace (Rabs r / 2000)%R with (/ 2 * / 1000 * Rabs r)%R by lra. exact H. }
  assert (FX : forall r, (0 <= r <= 100)%R -> tells (put_fixed 1 (Fin r)) r (/ 20)). { intros r R0. destruct (percent_range r R0) as (w & D & _ & W). exists w. split; assumption. }
  destruct (eff_range rv ltac:(lra)) as (ef & EQ & EF). pose proof (eff_sqrt rv ef ltac:(lra) EQ) as ES.
  exists (put_sci 3 (Fin xs)), (put_sci 3 (Fin xe)), (put_sci 3 (Fin pr)), (put_sci 3 (Fin no)), (put_fixed 1 (Fin (100 * ac))), (put_sci 3 (Fin rv)), (put_sci 3 (Fin re)), (put_fixed 1 (Fin (100 * ef))).
  split; [|split; [apply SC; exact X1|split; [apply SC; exact X2|split; [apply SC; exact X3|split; [apply SC; exact X4|split; [apply FX; lra|split; [|split; [apply SC; exact X5|]]]]]]]].
  - unfold stream_write_integ. cbn [s_count_acc s_xs s_xs_err s_prime s_norm s_acc s_rel_var s_rel_var_err]. rewrite EQ.
    cbn [app send_all send endl put o_field o_prec fst emul OUTPUT_STATS_PRECISION]. unfold OUTPUT_STATS_PRECISION. rewrite <- ?app_assoc, ?app_nil_r, <- ?app_assoc. reflexivity.
  - pose proof (SC rv ltac:(lra)) as H. rewrite Rabs_pos_eq in H by lra. exact H.
  - replace (100 / sqrt (1 + rv))%R with (100 * ef)%R by (rewrite ES; reflexivity). apply FX. lra.
Qed.
