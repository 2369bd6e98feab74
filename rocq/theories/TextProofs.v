(** Proofs about texts, words and numbers in streams. *)
From Coq Require Import String Ascii Reals ZArith List Bool Lia Lra.
From Flocq Require Import Core.
From Verif Require Import ExtModel BoundProofs TextModel TextNum ParamModel ParamTextSpec.
Import ListNotations.
Local Open Scope list_scope.

(** Characters. *)
Lemma is_space_spec c : is_space c = true <-> blank c.
Proof.
  destruct c as [[] [] [] [] [] [] [] []]; unfold blank, blanks; cbn; (split; [intros H; try discriminate H; tauto|intros H; decompose [or] H; (contradiction || discriminate || reflexivity)]).
Qed.
Lemma is_space_false c : is_space c = false <-> ~ blank c.
Proof. rewrite <- is_space_spec. destruct (is_space c); split; intros; try discriminate; try tauto. Qed.
Lemma is_digit_spec c : is_digit c = true <-> In c (str "0123456789").
Proof.
  destruct c as [[] [] [] [] [] [] [] []]; cbn; (split; [intros H; try discriminate H; tauto|intros H; decompose [or] H; (contradiction || discriminate || reflexivity)]).
Qed.
Lemma ascii_eqb_false a b : Ascii.eqb a b = false <-> a <> b.
Proof. destruct (Ascii.eqb_spec a b); split; intros; try discriminate; try tauto. Qed.
Lemma digit_solid c : is_digit c = true -> solid c.
Proof.
  intros H. apply is_digit_spec in H. cbn in H. unfold solid, blank, blanks. cbn. decompose [or] H; try contradiction; subst c; (split; [intros B; decompose [or] B; discriminate || contradiction|discriminate]).
Qed.
Lemma digit_facts c : is_digit c = true -> c <> "-"%char /\ c <> "+"%char /\ c <> "."%char /\ c <> "e"%char /\ c <> "E"%char.
Proof. intros H. apply is_digit_spec in H. cbn in H. decompose [or] H; try contradiction; subst c; repeat split; discriminate. Qed.
Lemma newline_blank : blank newline.
Proof. apply is_space_spec. reflexivity. Qed.
Lemma unstr_str s : unstr (str s) = s.
Proof. apply string_of_list_ascii_of_string. Qed.
Lemma str_unstr t : str (unstr t) = t.
Proof. apply list_ascii_of_string_of_list_ascii. Qed.
Lemma str_inj a b : str a = str b -> a = b.
Proof. intros H. rewrite <- (unstr_str a), H. apply unstr_str. Qed.

(** Prefixes. *)
Definition stops (p : ascii -> bool) (t : text) : Prop := t = [] \/ exists c t', t = c :: t' /\ p c = false.
Lemma span_app p a b : Forall (fun c => p c = true) a -> stops p b -> span p (a ++ b) = (a, b).
Proof.
  intros HA HB. induction HA as [|c a Hc HA IH].
  - destruct HB as [->|(c & t & -> & Hc)]; cbn; [reflexivity|rewrite Hc; reflexivity].
  - cbn. rewrite Hc, IH. reflexivity.
Qed.
Lemma span_spec p t : exists a b, span p t = (a, b) /\ t = a ++ b /\ Forall (fun c => p c = true) a /\ stops p b.
Proof.
  induction t as [|c t (a & b & E & T & HA & HB)]; cbn.
  - exists [], []. repeat split; [constructor|left; reflexivity].
  - destruct (p c) eqn:Hc.
    + rewrite E. exists (c :: a), b. rewrite T. repeat split; [constructor; assumption|exact HB].
    + exists [], (c :: t). repeat split; [constructor|right; exists c, t; split; [reflexivity|exact Hc]].
Qed.
Lemma drop_space_app a b : all_blank a -> stops is_space b -> drop_space (a ++ b) = b.
Proof.
  intros HA HB. induction HA as [|c a Hc HA IH].
  - destruct HB as [->|(c & t & -> & Hc)]; cbn; [reflexivity|rewrite Hc; reflexivity].
  - cbn. rewrite (proj2 (is_space_spec c) Hc). exact IH.
Qed.
Lemma drop_space_spec t : exists a, t = a ++ drop_space t /\ all_blank a /\ stops is_space (drop_space t).
Proof.
  induction t as [|c t (a & T & HA & HB)]; cbn.
  - exists []. repeat split; [constructor|left; reflexivity].
  - destruct (is_space c) eqn:Hc.
    + exists (c :: a). cbn. rewrite <- T. repeat split; [constructor; [apply is_space_spec; exact Hc|exact HA]|exact HB].
    + exists []. repeat split; [constructor|right; exists c, t; split; [reflexivity|exact Hc]].
Qed.

(** Words, lines, integers out of a stream. *)
Lemma word_head w : word w -> exists c w', w = c :: w' /\ solid c.
Proof. intros (N & H). destruct w as [|c w]; [contradiction|]. inversion H. exists c, w. split; [reflexivity|assumption]. Qed.
Lemma stops_space_solid c t : solid c -> stops is_space (c :: t).
Proof. intros (H & _). right. exists c, t. split; [reflexivity|apply is_space_false; exact H]. Qed.
Lemma sentry_skip a c t : all_blank a -> ~ blank c -> sentry true (open (a ++ c :: t)) = (true, Stream (c :: t) false false).
Proof.
  intros A C. unfold sentry. cbn [good eof fail open negb andb rest]. rewrite drop_space_app; [reflexivity|exact A|].
  right. exists c, t. split; [reflexivity|apply is_space_false; exact C].
Qed.
Lemma sentry_blank a : all_blank a -> sentry true (open a) = (false, Stream [] true true).
Proof.
  intros A. unfold sentry. cbn [good eof fail open negb andb rest]. rewrite <- (app_nil_r a). rewrite drop_space_app; [reflexivity|exact A|left; reflexivity].
Qed.
Definition ends (t : text) : Prop := stops (fun c => negb (is_space c)) t.
Lemma get_word_ok a w t : all_blank a -> w <> [] -> Forall (fun c => ~ blank c) w -> ends t ->
  get_word (open (a ++ w ++ t)) = (w, Stream t (at_end t) false).
Proof.
  intros A N W T. destruct w as [|c w]; [contradiction|]. unfold get_word. cbn [app]. rewrite sentry_skip; [|exact A|inversion W; assumption].
  cbn [rest]. change (c :: w ++ t) with ((c :: w) ++ t). rewrite span_app; [reflexivity| |exact T].
  eapply Forall_impl; [|exact W]. intros x X. cbn. rewrite (proj2 (is_space_false x) X). reflexivity.
Qed.
Lemma get_line_ok l t : ~ In newline l -> get_line (open (l ++ newline :: t)) = (l, open t).
Proof.
  intros H. unfold get_line, sentry. cbn [good eof fail open negb andb rest]. rewrite span_app; [reflexivity| |].
  - apply Forall_forall. intros c C. destruct (Ascii.eqb_spec c newline) as [->|]; [contradiction|reflexivity].
  - right. exists newline, t. split; [reflexivity|]. rewrite Ascii.eqb_refl. reflexivity.
Qed.
Lemma get_line_last l : ~ In newline l -> get_line (open l) = (l, Stream [] true (at_end l)).
Proof.
  intros H. unfold get_line, sentry. cbn [good eof fail open negb andb rest]. rewrite <- (app_nil_r l) at 1. rewrite span_app; [reflexivity| |left; reflexivity].
  apply Forall_forall. intros c C. destruct (Ascii.eqb_spec c newline) as [->|]; [contradiction|reflexivity].
Qed.

(** Numbers. *)
Local Open Scope Z_scope.
Definition num_from (a : Z) (ds : text) : Z := fold_left (fun a c => 10 * a + digit_val c) ds a.
Lemma num_from_spec ds : forall a, num_from a ds = a * 10 ^ Z.of_nat (length ds) + number_of ds.
Proof.
  induction ds as [|c ds IH]; intros a; unfold number_of.
  - cbn. ring.
  - cbn [num_from fold_left length]. fold (num_from (10 * a + digit_val c) ds). fold (num_from (10 * 0 + digit_val c) ds). rewrite !IH.
    rewrite Nat2Z.inj_succ, Z.pow_succ_r by lia. ring.
Qed.
Lemma number_app a b : number_of (a ++ b) = number_of a * 10 ^ Z.of_nat (length b) + number_of b.
Proof. unfold number_of at 1. rewrite fold_left_app. fold (num_from (fold_left (fun a c => 10 * a + digit_val c) a 0) b). rewrite num_from_spec. reflexivity. Qed.
Lemma number_cons c b : number_of (c :: b) = digit_val c * 10 ^ Z.of_nat (length b) + number_of b.
Proof. change (c :: b) with ([c] ++ b). rewrite number_app. unfold number_of at 1. cbn [fold_left]. ring. Qed.
Lemma number_denotes ds : number_of ds = denotes ds.
Proof. induction ds as [|c ds IH]; [reflexivity|]. rewrite number_cons, IH. reflexivity. Qed.
Lemma number_zeros k : number_of (repeat "0"%char k) = 0.
Proof. induction k as [|k IH]; [reflexivity|]. cbn [repeat]. rewrite number_cons, IH. unfold digit_val. cbn [nat_of_ascii]. reflexivity. Qed.
Lemma digit_ok d : 0 <= d <= 9 -> is_digit (digit d) = true /\ digit_val (digit d) = d.
Proof.
  intros H. assert (D : d = 0 \/ d = 1 \/ d = 2 \/ d = 3 \/ d = 4 \/ d = 5 \/ d = 6 \/ d = 7 \/ d = 8 \/ d = 9) by lia.
  decompose [or] D; subst d; split; reflexivity.
Qed.
Lemma digits_aux_spec f : forall n acc, 0 <= n < 10 ^ Z.of_nat (S f) -> exists l, digits_aux f n acc = l ++ acc /\ Forall (fun c => is_digit c = true) l /\ l <> []
  /\ number_of l = n /\ n < 10 ^ Z.of_nat (length l) /\ (0 < n -> 10 ^ (Z.of_nat (length l) - 1) <= n).
Proof.
  assert (ONE : forall n, 0 <= n < 10 -> Forall (fun c => is_digit c = true) [digit (n mod 10)] /\ [digit (n mod 10)] <> [] /\ number_of [digit (n mod 10)] = n
     /\ n < 10 ^ Z.of_nat (length [digit (n mod 10)]) /\ (0 < n -> 10 ^ (Z.of_nat (length [digit (n mod 10)]) - 1) <= n)).
  { intros n H. rewrite Z.mod_small by lia. destruct (digit_ok n) as (D1 & D2); [lia|]. split; [constructor; [exact D1|constructor]|]. split; [discriminate|].
    split; [unfold number_of; cbn [fold_left]; rewrite D2; ring|]. cbn [length]. change (10 ^ Z.of_nat 1) with 10. change (10 ^ (Z.of_nat 1 - 1)) with 1. lia. }
  induction f as [|f IH]; intros n acc H; cbn [digits_aux].
  - exists [digit (n mod 10)]. split; [reflexivity|]. apply ONE. exact H.
  - destruct (Z.ltb_spec n 10) as [L|L].
    + exists [digit (n mod 10)]. split; [reflexivity|]. apply ONE. lia.
    + assert (P10 : 10 ^ Z.of_nat (S (S f)) = 10 * 10 ^ Z.of_nat (S f)) by (rewrite (Nat2Z.inj_succ (S f)), Z.pow_succ_r by lia; reflexivity).
      assert (DM := Z.div_mod n 10 ltac:(lia)). assert (MB := Z.mod_pos_bound n 10 ltac:(lia)).
      destruct (IH (n / 10) (digit (n mod 10) :: acc)) as (l & E & DG & NE & NU & UB & LB); [split; [lia|lia]|].
      exists (l ++ [digit (n mod 10)]). rewrite E. rewrite <- app_assoc. split; [reflexivity|]. destruct (digit_ok (n mod 10)) as (D1 & D2); [lia|].
      split; [apply Forall_app; split; [exact DG|constructor; [exact D1|constructor]]|]. split; [intros C; apply app_eq_nil in C; destruct C; discriminate|].
      rewrite number_app, app_length. cbn [length]. rewrite NU. rewrite number_cons. cbn [length]. rewrite D2. change (number_of []) with 0. change (10 ^ Z.of_nat 0) with 1. change (10 ^ Z.of_nat 1) with 10.
      split; [lia|]. replace (Z.of_nat (length l + 1)) with (Z.succ (Z.of_nat (length l))) by lia. rewrite Z.pow_succ_r by lia. split; [lia|]. intros _.
      replace (Z.succ (Z.of_nat (length l)) - 1) with (Z.succ (Z.of_nat (length l) - 1)) by lia. destruct l as [|c l]; [contradiction|]. rewrite Z.pow_succ_r by (cbn [length]; lia). lia.
Qed.
Lemma digits_spec n : 0 <= n -> Forall (fun c => is_digit c = true) (digits n) /\ digits n <> [] /\ number_of (digits n) = n
  /\ n < 10 ^ Z.of_nat (length (digits n)) /\ (0 < n -> 10 ^ (Z.of_nat (length (digits n)) - 1) <= n).
Proof.
  intros H. unfold digits. destruct (digits_aux_spec (Z.to_nat (Z.log2 n)) n []) as (l & E & R).
  - split; [exact H|]. destruct (Z.eq_dec n 0) as [->|N]; [reflexivity|]. pose proof (Z.log2_spec n ltac:(lia)) as (_ & L). pose proof (Z.log2_nonneg n) as LN.
    rewrite Nat2Z.inj_succ, Z2Nat.id by exact LN. eapply Z.lt_le_trans; [exact L|]. apply Z.pow_le_mono_l. lia.
  - rewrite E, app_nil_r. exact R.
Qed.
Lemma digits_length p n : (1 <= p)%nat -> 10 ^ (Z.of_nat p - 1) <= n < 10 ^ Z.of_nat p -> length (digits n) = p.
Proof.
  intros P H. assert (0 < 10 ^ (Z.of_nat p - 1)) by (apply Z.pow_pos_nonneg; lia). destruct (digits_spec n) as (_ & NE & _ & UB & LB); [lia|]. specialize (LB ltac:(lia)).
  assert (A : 10 ^ (Z.of_nat p - 1) < 10 ^ Z.of_nat (length (digits n))) by lia. assert (B : 10 ^ (Z.of_nat (length (digits n)) - 1) < 10 ^ Z.of_nat p) by lia.
  apply Z.pow_lt_mono_r_iff in A; [|lia|lia]. apply Z.pow_lt_mono_r_iff in B; [|lia|lia]. lia.
Qed.
Lemma sign_of_none c t : c <> "-"%char -> c <> "+"%char -> sign_of (c :: t) = (false, c :: t).
Proof. intros A B. unfold sign_of. rewrite (proj2 (ascii_eqb_false _ _) A), (proj2 (ascii_eqb_false _ _) B). reflexivity. Qed.
Definition no_digit (t : text) : Prop := stops is_digit t.
Lemma signed_sign sg k ds t : signed sg k -> numeral ds -> exists neg, sign_of (sg ++ ds ++ t) = (neg, ds ++ t) /\ (forall v, (if neg then - v else v) = k * v).
Proof.
  intros S (N & D). destruct ds as [|c ds]; [contradiction|]. inversion D as [|? ? DC]; subst. apply is_digit_spec in DC. destruct (digit_facts c DC) as (F1 & F2 & _).
  destruct S; cbn [app str list_ascii_of_string].
  - exists false. split; [apply sign_of_none; assumption|intros v; ring].
  - exists false. split; [reflexivity|intros v; ring].
  - exists true. split; [reflexivity|intros v; ring].
Qed.
Lemma numeral_digits ds : numeral ds <-> ds <> [] /\ Forall (fun c => is_digit c = true) ds.
Proof. unfold numeral. rewrite !Forall_forall. setoid_rewrite is_digit_spec. reflexivity. Qed.
Lemma get_int_ok lo hi a sg k ds t : all_blank a -> signed sg k -> numeral ds -> no_digit t -> lo <= k * denotes ds <= hi ->
  get_int lo hi (open (a ++ sg ++ ds ++ t)) = (k * denotes ds, Stream t (at_end t) false).
Proof.
  intros A S D T H. unfold get_int. destruct (signed_sign sg k ds t S D) as (neg & E & V).
  assert (HD : exists c r, sg ++ ds ++ t = c :: r /\ ~ blank c).
  { destruct D as (N & D). destruct ds as [|c ds]; [contradiction|]. inversion D as [|? ? DC]; subst. apply is_digit_spec, digit_solid in DC.
    destruct S; cbn [app str list_ascii_of_string]; eexists; eexists; (split; [reflexivity|]); [apply DC| |]; apply is_space_false; reflexivity. }
  destruct HD as (c & r & HE & HC). rewrite HE. rewrite sentry_skip by assumption. cbn [rest]. rewrite <- HE, E. apply numeral_digits in D. destruct D as (N & D).
  rewrite span_app; [|exact D|exact T]. destruct ds as [|d ds]; [contradiction|]. rewrite V, number_denotes.
  destruct (Z.ltb_spec (k * denotes (d :: ds)) lo); [lia|]. destruct (Z.ltb_spec hi (k * denotes (d :: ds))); [lia|]. reflexivity.
Qed.
(** Whatever an integer was read from. *)
Lemma get_int_inv lo hi x n s : get_int lo hi (open x) = (n, s) -> fail s = false ->
  exists a sg k ds, x = a ++ sg ++ ds ++ rest s /\ all_blank a /\ signed sg k /\ numeral ds /\ n = k * denotes ds /\ lo <= n <= hi /\ no_digit (rest s) /\ s = Stream (rest s) (at_end (rest s)) false.
Proof.
  unfold get_int. destruct (drop_space_spec x) as (a & X & A & ST). destruct ST as [ST|(c & t & ST & SC)].
  { rewrite ST, app_nil_r in X. rewrite X, sentry_blank by exact A. intros [= <- <-]. discriminate. }
  rewrite ST in X. rewrite X. rewrite sentry_skip; [|exact A|apply is_space_false; exact SC]. cbn [rest].
  assert (SG : exists sg k, c :: t = sg ++ snd (sign_of (c :: t)) /\ signed sg k /\ forall v, (if fst (sign_of (c :: t)) then - v else v) = k * v).
  { unfold sign_of. destruct (Ascii.eqb_spec c "-") as [->|N1]; [exists (str "-"), (-1); (split; [reflexivity|split; [constructor|intros; cbn [fst]; ring]])|].
    destruct (Ascii.eqb_spec c "+") as [->|N2]; [exists (str "+"), 1; (split; [reflexivity|split; [constructor|intros; cbn [fst]; ring]])|].
    exists [], 1. (split; [reflexivity|split; [constructor|intros; cbn [fst]; ring]]). }
  destruct SG as (sg & k & SE & SS & SV). destruct (sign_of (c :: t)) as (neg, t1). cbn [fst snd] in *.
  destruct (span_spec is_digit t1) as (ds & r & E & T1 & DD & DS). rewrite E. destruct ds as [|d ds]; [intros [= <- <-]; discriminate|].
  rewrite SV. set (v := k * number_of (d :: ds)). destruct (Z.ltb_spec v lo) as [L|L]; [intros [= <- <-]; discriminate|]. destruct (Z.ltb_spec hi v) as [G|G]; [intros [= <- <-]; discriminate|].
  intros HH _. injection HH as Hn Hs. subst n s. cbn [rest]. exists a, sg, k, (d :: ds). rewrite SE, T1. repeat split; try assumption; try lia.
  - discriminate.
  - apply numeral_digits. split; [discriminate|exact DD].
  - unfold v. rewrite number_denotes. reflexivity.
Qed.
Lemma put_int_shape n : exists sg k ds, put_int n = sg ++ ds /\ signed sg k /\ numeral ds /\ k * denotes ds = n /\ word (put_int n).
Proof.
  unfold put_int. destruct (Z.ltb_spec n 0) as [L|L].
  - destruct (digits_spec (- n)) as (D & N & V & _); [lia|]. exists (str "-"), (-1), (digits (- n)). split; [reflexivity|]. split; [constructor|]. split; [apply numeral_digits; split; assumption|].
    rewrite <- number_denotes, V. split; [ring|]. split; [discriminate|]. constructor; [split; [apply is_space_false; reflexivity|discriminate]|]. eapply Forall_impl; [|exact D]. apply digit_solid.
  - destruct (digits_spec n) as (D & N & V & _); [lia|]. exists [], 1, (digits n). split; [reflexivity|]. split; [constructor|]. split; [apply numeral_digits; split; assumption|].
    rewrite <- number_denotes, V. split; [ring|]. split; [exact N|]. eapply Forall_impl; [|exact D]. apply digit_solid.
Qed.
Lemma put_get_int lo hi n a t : lo <= n <= hi -> all_blank a -> no_digit t -> get_int lo hi (open (a ++ put_int n ++ t)) = (n, Stream t (at_end t) false).
Proof.
  intros H A T. destruct (put_int_shape n) as (sg & k & ds & E & S & D & V & _). rewrite E, <- app_assoc. rewrite (get_int_ok lo hi a sg k ds t) by (assumption || lia). rewrite V. reflexivity.
Qed.

(** Doubles. *)
Lemma strip_zeros_spec t : exists k, t = strip_zeros t ++ repeat "0"%char k.
Proof.
  unfold strip_zeros. assert (H : forall u, exists k, u = repeat "0"%char k ++ drop_zeros u).
  { induction u as [|c u (k & E)]; [exists O; reflexivity|]. cbn. destruct (Ascii.eqb_spec c "0") as [->|N]; [exists (S k); cbn; rewrite <- E; reflexivity|exists O; reflexivity]. }
  destruct (H (rev t)) as (k & E). exists k. rewrite <- (rev_involutive t) at 1. rewrite E at 1. rewrite rev_app_distr. f_equal.
  clear. induction k as [|k IH]; [reflexivity|]. cbn. rewrite IH. clear. induction k as [|k IH]; [reflexivity|]. cbn. rewrite IH. reflexivity.
Qed.
Definition clean (t : text) : Prop :=
  t = [] \/ exists c t', t = c :: t' /\ is_digit c = false /\ c <> "."%char /\ c <> "e"%char /\ c <> "E"%char.
Lemma clean_no_digit t : clean t -> no_digit t.
Proof. intros [->|(c & t' & -> & H & _)]; [left; reflexivity|right; exists c, t'; split; [reflexivity|exact H]]. Qed.
Definition dec_text (ip fp : text) (e : Z) : R := (IZR (number_of (ip ++ fp)) * bpow radix10 (e - Z.of_nat (length fp)))%R.
Notation alld := (Forall (fun c => is_digit c = true)).
Lemma scan_mantissa ip fp t : alld ip -> alld fp -> ip <> [] -> (stops is_digit t /\ (forall t', t <> "."%char :: t')) ->
  span is_digit (with_point ip fp ++ t) = (ip, match fp with [] => t | _ => "."%char :: fp ++ t end).
Proof.
  intros I FF N (T & TP). unfold with_point. destruct fp as [|c fp].
  - apply span_app; assumption.
  - rewrite <- app_assoc. cbn [app]. apply span_app; [exact I|]. right. eexists; eexists; split; [reflexivity|reflexivity].
Qed.
Lemma scan_point sg k ip fp t : signed sg k -> alld ip -> alld fp -> ip <> [] -> clean t ->
  scan_double (sg ++ with_point ip fp ++ t) = (Some (IZR k * dec_text ip fp 0)%R, t).
Proof.
  intros S I FF N T. unfold scan_double. assert (NU : numeral ip) by (apply numeral_digits; split; assumption).
  assert (WP : exists u, with_point ip fp ++ t = ip ++ u). { unfold with_point. destruct fp; [exists t; reflexivity|rewrite <- app_assoc; eexists; reflexivity]. }
  destruct WP as (u & WP). destruct (signed_sign sg k ip u S NU) as (neg & E & V). rewrite WP, E, <- WP. clear E WP u.
  rewrite scan_mantissa; [|assumption..|split; [apply clean_no_digit; exact T|intros t' ->; destruct T as [T|(c & t'' & T & _ & T2 & _)]; [discriminate|injection T as <- <-; congruence]]].
  assert (SP : (match (match fp with [] => t | _ => "."%char :: fp ++ t end) with c :: t' => if Ascii.eqb c "." then span is_digit t' else ([], match fp with [] => t | _ => "."%char :: fp ++ t end) | [] => ([], match fp with [] => t | _ => "."%char :: fp ++ t end) end) = (fp, t)).
  { destruct fp as [|d fp].
    - destruct T as [->|(c & t' & -> & _ & C & _)]; [reflexivity|]. rewrite (proj2 (ascii_eqb_false _ _) C). reflexivity.
    - rewrite Ascii.eqb_refl. apply span_app; [exact FF|apply clean_no_digit; exact T]. }
  rewrite SP. clear SP. rewrite V. assert (N2 : exists a b, ip ++ fp = a :: b) by (destruct ip as [|a ip]; [contradiction|eexists; eexists; reflexivity]). destruct N2 as (a & b & N2).
  unfold dec_text. rewrite N2. rewrite mult_IZR, Rmult_assoc. replace (0 - Z.of_nat (length fp)) with (- Z.of_nat (length fp)) by lia.
  destruct T as [->|(c & t' & -> & _ & _ & C1 & C2)]; [reflexivity|]. rewrite (proj2 (ascii_eqb_false _ _) C1), (proj2 (ascii_eqb_false _ _) C2). reflexivity.
Qed.
Lemma scan_exp sg k ip fp sge ke es t : signed sg k -> alld ip -> alld fp -> ip <> [] -> signed sge ke -> numeral es -> no_digit t ->
  scan_double (sg ++ with_point ip fp ++ "e"%char :: sge ++ es ++ t) = (Some (IZR k * dec_text ip fp (ke * denotes es))%R, t).
Proof.
  intros S I FF N SE NE T. unfold scan_double. assert (NU : numeral ip) by (apply numeral_digits; split; assumption). assert (TL : exists tl : text, tl = "e"%char :: sge ++ es ++ t) by (eexists; reflexivity). destruct TL as (tl & TL). rewrite <- TL.
  assert (WP : exists u, with_point ip fp ++ tl = ip ++ u). { unfold with_point. destruct fp; [exists tl; reflexivity|rewrite <- app_assoc; eexists; reflexivity]. }
  destruct WP as (u & WP). destruct (signed_sign sg k ip u S NU) as (neg & E & V). rewrite WP, E, <- WP. clear E WP u.
  assert (TS : stops is_digit tl) by (right; rewrite TL; eexists; eexists; split; reflexivity).
  rewrite scan_mantissa; [|assumption..|split; [exact TS|intros t' X; rewrite TL in X; discriminate X]].
  assert (SP : (match (match fp with [] => tl | _ => "."%char :: fp ++ tl end) with c :: t' => if Ascii.eqb c "." then span is_digit t' else ([], match fp with [] => tl | _ => "."%char :: fp ++ tl end) | [] => ([], match fp with [] => tl | _ => "."%char :: fp ++ tl end) end) = (fp, tl)).
  { destruct fp as [|d fp]; [rewrite TL; reflexivity|]. rewrite Ascii.eqb_refl. apply span_app; [exact FF|exact TS]. }
  rewrite SP. clear SP. rewrite V. assert (N2 : exists a b, ip ++ fp = a :: b) by (destruct ip as [|a ip]; [contradiction|eexists; eexists; reflexivity]). destruct N2 as (a & b & N2).
  unfold dec_text. rewrite N2. rewrite TL. change (Ascii.eqb "e" "e" || Ascii.eqb "e" "E") with true. cbn iota. destruct (signed_sign sge ke es t SE NE) as (eneg & E & VE). rewrite E.
  apply numeral_digits in NE. destruct NE as (NN & NE). rewrite span_app by assumption. destruct es as [|e es]; [contradiction|]. rewrite VE, (number_denotes (e :: es)). rewrite mult_IZR, Rmult_assoc.
  replace (- Z.of_nat (length fp) + ke * denotes (e :: es)) with (ke * denotes (e :: es) - Z.of_nat (length fp)) by lia. reflexivity.
Qed.
Lemma dec_text_strip ip fp k e ds n : ds = ip ++ fp ++ repeat "0"%char k -> number_of ds = n ->
  dec_text ip fp e = (IZR n * bpow radix10 (e - Z.of_nat (length fp + k)))%R.
Proof.
  intros E V. unfold dec_text. rewrite <- V, E, app_assoc, (number_app (ip ++ fp) (repeat _ k)), number_zeros, repeat_length, Z.add_0_r, mult_IZR. rewrite <- ten_pow by lia. rewrite Rmult_assoc, <- bpow_plus. f_equal. f_equal. lia.
Qed.
Lemma Forall_firstn_skipn {A} (P : A -> Prop) k l : Forall P l -> Forall P (firstn k l) /\ Forall P (skipn k l).
Proof. intros H. rewrite <- Forall_app, firstn_skipn. exact H. Qed.
Lemma alld_strip t : alld t -> alld (strip_zeros t).
Proof. intros H. destruct (strip_zeros_spec t) as (k & E). rewrite E in H. apply Forall_app in H. apply H. Qed.
Lemma format_scan p n x sg k t : (1 <= p)%nat -> 10 ^ (Z.of_nat p - 1) <= n < 10 ^ Z.of_nat p -> signed sg k -> clean t ->
  scan_double (sg ++ format p n x ++ t) = (Some (IZR k * dec_value p (n, x))%R, t) /\ (exists c w, format p n x = c :: w /\ is_digit c = true) /\ Forall solid (format p n x).
Proof.
  intros P B S T. assert (0 < 10 ^ (Z.of_nat p - 1)) by (apply Z.pow_pos_nonneg; lia). destruct (digits_spec n) as (D & NE & V & _); [lia|]. pose proof (digits_length p n P B) as L.
  unfold format, dec_value. cbn [fst snd]. set (ds := digits n) in *.
  assert (SOL : forall ip fp, alld ip -> alld fp -> Forall solid (with_point ip fp)).
  { intros ip fp I FF. unfold with_point. assert (I' : Forall solid ip) by (eapply Forall_impl; [apply digit_solid|exact I]). assert (F' : Forall solid fp) by (eapply Forall_impl; [apply digit_solid|exact FF]).
    destruct fp; [exact I'|]. apply Forall_app. split; [exact I'|]. constructor; [split; [apply is_space_false; reflexivity|discriminate]|exact F']. }
  assert (HDD : forall ip fp, alld ip -> ip <> [] -> forall r, exists c w, with_point ip fp ++ r = c :: w /\ is_digit c = true).
  { intros [|c ip] fp I N r; [contradiction|]. apply Forall_inv in I. unfold with_point. destruct fp; cbn [app]; eexists; eexists; (split; [reflexivity|exact I]). }
  destruct ((-4 <=? x) && (x <? Z.of_nat p)) eqn:RG; [destruct (Z.leb_spec 0 x) as [X|X]|].
  - apply andb_prop in RG. destruct RG as (R1 & R2). apply Z.leb_le in R1. apply Z.ltb_lt in R2.
    set (q := Z.to_nat (x + 1)). destruct (Forall_firstn_skipn _ q ds D) as (DI & DS). destruct (strip_zeros_spec (skipn q ds)) as (z & Z0).
    pose proof (alld_strip _ DS) as DSS. assert (NI : firstn q ds <> []) by (intros C; apply (f_equal (@length _)) in C; rewrite firstn_length, L in C; cbn in C; unfold q in C; lia).
    split; [|split; [rewrite <- (app_nil_r (with_point _ _)); apply HDD; assumption|apply SOL; assumption]].
    rewrite (scan_point sg k) by assumption. f_equal. f_equal. f_equal. rewrite (dec_text_strip _ _ z 0 ds n); [|rewrite <- Z0; symmetry; apply firstn_skipn|exact V].
    f_equal. f_equal. assert (LE : length (skipn q ds) = (length (strip_zeros (skipn q ds)) + z)%nat) by (rewrite Z0 at 1; rewrite app_length, repeat_length; reflexivity).
    rewrite <- LE, skipn_length, L. unfold q. lia.
  - apply andb_prop in RG. destruct RG as (R1 & R2). apply Z.leb_le in R1. apply Z.ltb_lt in R2. destruct (strip_zeros_spec ds) as (z & Z0). pose proof (alld_strip _ D) as DSS.
    assert (DZ : alld (repeat "0"%char (Z.to_nat (- x - 1)) ++ strip_zeros ds)) by (apply Forall_app; split; [|exact DSS]; apply Forall_forall; intros c C; apply repeat_spec in C; subst c; reflexivity).
    assert (D0 : alld ["0"%char]) by (constructor; [reflexivity|constructor]).
    split; [|split; [rewrite <- (app_nil_r (with_point _ _)); apply HDD; [exact D0|discriminate]|apply SOL; assumption]].
    rewrite (scan_point sg k); [|assumption|exact D0|exact DZ|discriminate|assumption]. f_equal. f_equal. f_equal.
    rewrite (dec_text_strip _ _ z 0 ("0"%char :: repeat "0"%char (Z.to_nat (- x - 1)) ++ ds) n).
    + f_equal. f_equal. rewrite app_length, repeat_length. assert (LE : length ds = (length (strip_zeros ds) + z)%nat) by (rewrite Z0 at 1; rewrite app_length, repeat_length; reflexivity). lia.
    + cbn [app]. rewrite <- app_assoc, <- Z0. reflexivity.
    + change ("0"%char :: repeat "0"%char (Z.to_nat (- x - 1)) ++ ds) with (repeat "0"%char (Datatypes.S (Z.to_nat (- x - 1))) ++ ds). rewrite number_app, number_zeros. lia.
  - destruct (Forall_firstn_skipn _ 1 ds D) as (DI & DS). destruct (strip_zeros_spec (skipn 1 ds)) as (z & Z0). pose proof (alld_strip _ DS) as DSS.
    assert (NI : firstn 1 ds <> []) by (destruct ds; [contradiction|discriminate]). clear RG.
    set (es := (if Z.abs x <? 10 then ["0"%char] else []) ++ digits (Z.abs x)). destruct (digits_spec (Z.abs x)) as (DX & NX & VX & _); [lia|].
    assert (NES : numeral es). { apply numeral_digits. unfold es. destruct (Z.abs x <? 10); [split; [discriminate|constructor; [reflexivity|exact DX]]|split; [exact NX|exact DX]]. }
    assert (VES : denotes es = Z.abs x). { rewrite <- number_denotes. unfold es. rewrite number_app, VX. destruct (Z.abs x <? 10); [|reflexivity]. change (number_of ["0"%char]) with 0. lia. }
    assert (SGE : exists sge ke, (if x <? 0 then "-"%char else "+"%char) :: es = sge ++ es /\ signed sge ke /\ ke * Z.abs x = x /\ Forall solid sge).
    { destruct (Z.ltb_spec x 0) as [Y|Y]; [exists (str "-"), (-1)|exists (str "+"), 1]; (split; [reflexivity|]; split; [constructor|]; split; [lia|]; constructor; [split; [apply is_space_false; reflexivity|discriminate]|constructor]). }
    destruct SGE as (sge & ke & SE1 & SE2 & SE3 & SE4). change (((if x <? 0 then "-"%char else "+"%char) :: (if Z.abs x <? 10 then ["0"%char] else []) ++ digits (Z.abs x))) with ((if x <? 0 then "-"%char else "+"%char) :: es). rewrite SE1.
    split; [|split; [apply HDD; assumption|]].
    + rewrite <- app_assoc. cbn [app]. rewrite <- app_assoc. rewrite (scan_exp sg k _ _ sge ke); [|assumption..|apply clean_no_digit; exact T]. f_equal. f_equal. f_equal. rewrite VES, SE3.
      rewrite (dec_text_strip _ _ z x ds n); [|rewrite <- Z0; symmetry; apply firstn_skipn|exact V]. f_equal. f_equal.
      assert (LE : length (skipn 1 ds) = (length (strip_zeros (skipn 1 ds)) + z)%nat) by (rewrite Z0 at 1; rewrite app_length, repeat_length; reflexivity). rewrite <- LE, skipn_length, L. lia.
    + apply Forall_app. split; [apply SOL; assumption|]. constructor; [split; [apply is_space_false; reflexivity|discriminate]|]. apply Forall_app. split; [exact SE4|]. apply numeral_digits in NES. eapply Forall_impl; [apply digit_solid|apply NES].
Qed.
