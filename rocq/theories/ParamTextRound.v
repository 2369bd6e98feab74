(** Proofs: what the values of each type are read from, and that written values are read back. *)
From Coq Require Import String Ascii Reals ZArith List Bool Lia Lra Permutation Sorted.
From Flocq Require Import Core.
From Verif Require Import ExtModel BoundProofs TextModel TextNum TextPower ParamModel ParamSpec ParamTextSpec TextProofs ParamTextModel ParamTextProofs.
Import ListNotations.
Local Open Scope list_scope.

(** End of a value. *)
Lemma finish {A} (val : A) r : ~ In newline r -> (let (rem, _) := get_line (Stream r (at_end r) false) in match rem with [] => Some val | _ => None end) = match r with [] => Some val | _ => None end.
Proof.
  intros N. destruct r as [|c r]; [reflexivity|]. change (Stream (c :: r) (at_end (c :: r)) false) with (open (c :: r)). rewrite get_line_last by exact N. reflexivity.
Qed.
Lemma parse_int t lo hi (wrap : Z -> evalue) : (forall s, read_value t s = let (n, s) := get_int lo hi s in (wrap n, s)) ->
  forall v x, line v -> (parse_value t v = Some x <-> exists a sg k ds, v = a ++ sg ++ ds /\ all_blank a /\ signed sg k /\ numeral ds /\ (lo <= k * denotes ds <= hi)%Z /\ x = wrap (k * denotes ds)%Z).
Proof.
  intros R v x L. unfold parse_value. rewrite R. destruct (get_int lo hi (open v)) as (n, s) eqn:E. cbn zeta iota. split.
  - destruct (fail s) eqn:FS; [discriminate|]. destruct (get_int_inv lo hi v n s E FS) as (a & sg & k & ds & V & A & SG & D & NE & B & _ & SE).
    rewrite SE. rewrite finish; [|intros H; apply L; rewrite V, !in_app_iff; tauto]. destruct (rest s) eqn:RS; [|discriminate]. intros [= <-].
    exists a, sg, k, ds. rewrite app_nil_r in V. subst n. repeat split; try assumption; try lia; apply D.
  - intros (a & sg & k & ds & V & A & SG & D & B & ->). rewrite <- (app_nil_r ds) in V. rewrite V in E. rewrite (get_int_ok lo hi a sg k ds []) in E by (assumption || (left; reflexivity)). injection E as <- <-. cbn [fail]. reflexivity.
Qed.
Lemma parse_string v x : line v -> (parse_value TString v = Some x <-> v <> [] /\ x = VString (unstr v)).
Proof.
  intros L. unfold parse_value. cbn [read_value]. rewrite get_line_last by exact L. destruct v as [|c v]; cbn [fail at_end].
  - split; [discriminate|intros (H & _); contradiction].
  - cbn. split; [intros [= <-]; split; [discriminate|reflexivity]|intros (_ & ->); reflexivity].
Qed.
(** Enumerations. *)
Lemma find_name_in {A} (table : list (A * list string)) w b : find_name table w = Some b -> exists names s, In (b, names) table /\ In s names /\ w = str s.
Proof.
  induction table as [|(a, names) table IH]; cbn; [discriminate|]. destruct (existsb (fun n => text_eqb w (str n)) names) eqn:E.
  - intros [= ->]. apply existsb_exists in E. destruct E as (s & S & E). destruct (text_eqb_spec w (str s)); [|discriminate]. exists names, s. split; [left; reflexivity|split; assumption].
  - intros H. destruct (IH H) as (n & s & I & S & W). exists n, s. split; [right; exact I|split; assumption].
Qed.
Lemma parse_enum {A} (table : list (A * list string)) first t (wrap : A -> evalue) (sp : list (string * evalue)) :
  (forall s, read_value t s = let (a, s) := get_enum table first s in (wrap a, s)) ->
  (forall b names s, In (b, names) table -> In s names -> In (s, wrap b) sp) -> (forall s x, In (s, x) sp -> exists b, find_name table (str s) = Some b /\ x = wrap b) -> (forall s x, In (s, x) sp -> word (str s)) ->
  forall v x, line v -> (parse_value t v = Some x <-> exists a s, all_blank a /\ v = a ++ str s /\ In (s, x) sp).
Proof.
  intros R S1 S2 S3 v x L. unfold parse_value. rewrite R. unfold get_enum. split.
  - destruct (drop_space_spec v) as (a & V & A0 & ST). destruct ST as [ST|(c & u & ST & X)].
    { rewrite ST, app_nil_r in V. subst v. unfold get_word. rewrite sentry_blank by exact A0. destruct (find_name table []); cbn; discriminate. }
    rewrite ST in V. destruct (span_spec (fun c => negb (is_space c)) (c :: u)) as (w & r & _ & E & W & SR). rewrite E in V. rewrite V.
    rewrite get_word_ok; [|exact A0| |eapply Forall_impl; [|exact W]; intros y Y; apply is_space_false; cbv beta in Y; destruct (is_space y); [discriminate|reflexivity]|exact SR].
    2:{ intros ->. cbn in E. destruct SR as [SR|(y & t' & SR & Y)]; rewrite <- E in SR; [discriminate|]. injection SR as <- _. rewrite X in Y. discriminate. }
    destruct (find_name table w) as [b|] eqn:F; cbn [fail set_fail]; [|discriminate]. rewrite finish; [|intros H; apply L; rewrite V, !in_app_iff; tauto]. destruct r as [|y r]; [|discriminate]. intros [= <-].
    destruct (find_name_in table w b F) as (names & s & I & IN & ->). exists a, s. rewrite app_nil_r. split; [exact A0|]. split; [reflexivity|]. apply (S1 b names s I IN).
  - intros (a & s & A0 & -> & I). rewrite <- (app_nil_r (str s)). pose proof (S3 s x I) as W. rewrite get_word_ok; [|exact A0|apply W|apply word_no_blank; exact W|left; reflexivity].
    destruct (S2 s x I) as (b & F & ->). rewrite F. reflexivity.
Qed.
Lemma solid_dec c : {solid c} + {~ solid c}.
Proof.
  destruct (is_space c) eqn:E; [right; intros (H & _); apply H; apply is_space_spec; exact E|]. destruct (Ascii.ascii_dec c "#") as [->|N]; [right; intros (_ & H); apply H; reflexivity|left; split; [apply is_space_false; exact E|exact N]].
Qed.
Definition solidb (c : ascii) : bool := negb (is_space c) && negb (Ascii.eqb c "#").
Lemma solidb_ok c : solidb c = true -> solid c.
Proof. unfold solidb. intros H. apply andb_prop in H. destruct H as (A & B). split; [apply is_space_false; destruct (is_space c); [discriminate|reflexivity]|]. intros ->. discriminate. Qed.
Definition wordb (t : text) : bool := negb (at_end t) && forallb solidb t.
Lemma wordb_ok t : wordb t = true -> word t.
Proof. unfold wordb. intros H. apply andb_prop in H. destruct H as (A & B). split; [intros ->; discriminate|]. rewrite forallb_forall in B. apply Forall_forall. intros c C. apply solidb_ok, B, C. Qed.
Ltac enum_table :=
  [> intros s; cbn [read_value]; reflexivity
   | intros b names s I IN; cbn in I; decompose [or] I; try contradiction;
     match goal with E : (_, _) = (_, _) |- _ => injection E as <- <- end; cbn in IN; decompose [or] IN; try contradiction; subst s; repeat (first [left; reflexivity|right])
   | intros s x I; cbn in I; decompose [or] I; try contradiction; match goal with E : (_, _) = (_, _) |- _ => injection E as <- <- end; eexists; split; reflexivity
   | intros s x I; cbn in I; decompose [or] I; try contradiction; match goal with E : (_, _) = (_, _) |- _ => injection E as <- <- end; apply wordb_ok; reflexivity ].
Lemma parse_spelled t v x : In t [TBool; TRcMethod; TNucleus; TLepton; THadron] -> line v ->
  (parse_value t v = Some x <-> exists a s, all_blank a /\ v = a ++ str s /\ In (s, x) (spellings t)).
Proof.
  intros T L. cbn in T. decompose [or] T; try contradiction; subst t; revert v x L.
  - apply (parse_enum bool_table false TBool VBool (spellings TBool)); enum_table.
  - apply (parse_enum rc_table RcNone TRcMethod VRcMethod (spellings TRcMethod)); enum_table.
  - apply (parse_enum nucleus_table NucP TNucleus VNucleus (spellings TNucleus)); enum_table.
  - apply (parse_enum lepton_table LepE TLepton VLepton (spellings TLepton)); enum_table.
  - apply (parse_enum hadron_table HadPi0 THadron VHadron (spellings THadron)); enum_table.
Qed.
(** Doubles. *)
Lemma bpow10 e : bpow radix10 e = powerRZ 10 e.
Proof. apply bpow_powerRZ. Qed.
Lemma bpow2 e : bpow radix2 e = powerRZ 2 e.
Proof. apply bpow_powerRZ. Qed.
Lemma with_point_fraction ip fp : with_point ip fp = ip ++ fraction fp.
Proof. destruct fp; cbn; [symmetry; apply app_nil_r|reflexivity]. Qed.
Lemma all_digits_alld t : all_digits t -> Forall (fun c => is_digit c = true) t.
Proof. intros H. eapply Forall_impl; [|exact H]. intros c. apply is_digit_spec. Qed.
Lemma decimal_scan w x t : decimal_text w x -> clean t -> scan_double (w ++ t) = (Some x, t) /\ exists c w', w = c :: w' /\ ~ blank c.
Proof.
  intros H T. assert (HD : forall sg k ip r, signed sg k -> numeral ip -> exists c w', sg ++ ip ++ r = c :: w' /\ ~ blank c).
  { intros sg k ip r S (N & D). destruct ip as [|c ip]; [contradiction|]. apply Forall_inv in D. apply is_digit_spec, digit_solid in D. destruct S; cbn [app str list_ascii_of_string]; eexists; eexists; (split; [reflexivity|]); [apply D| |]; apply is_space_false; reflexivity. }
  destruct H as [sg k ip fp S I FF|sg k ip fp sge ke es S I FF SE E].
  - split; [|apply (HD sg k); assumption]. rewrite <- !app_assoc, app_assoc with (l := ip), <- with_point_fraction. apply numeral_digits in I. rewrite (scan_point sg k); [|exact S|apply I|apply all_digits_alld; exact FF|apply I|exact T].
    f_equal. f_equal. unfold dec_text. rewrite number_denotes, mult_IZR, bpow10, Rmult_assoc. replace (0 - Z.of_nat (length fp))%Z with (- Z.of_nat (length fp))%Z by lia. reflexivity.
  - split; [|apply (HD sg k); assumption]. replace ((sg ++ ip ++ fraction fp ++ "e"%char :: sge ++ es) ++ t) with (sg ++ with_point ip fp ++ "e"%char :: sge ++ es ++ t) by (rewrite with_point_fraction, <- !app_assoc; cbn [app]; rewrite <- !app_assoc; reflexivity).
    apply numeral_digits in I. rewrite (scan_exp sg k ip fp sge ke es); [|exact S|apply I|apply all_digits_alld; exact FF|apply I|exact SE|exact E|apply clean_no_digit; exact T].
    f_equal. f_equal. unfold dec_text. rewrite number_denotes, mult_IZR, bpow10, Rmult_assoc. reflexivity.
Qed.
Lemma get_double_ok a w x t : all_blank a -> decimal_text w x -> clean t -> finite_double x -> get_double (open (a ++ w ++ t)) = (Fin (nearest_double x), Stream t (at_end t) false).
Proof.
  intros A D T FD. destruct (decimal_scan w x t D T) as (SC & c & w' & E & NB). unfold get_double. rewrite E in *. cbn [app] in *. rewrite sentry_skip by assumption. cbn [rest]. rewrite SC.
  unfold finite_double in FD. rewrite <- bpow2 in FD. change (nearest_double x) with (RN x) in *. destruct (rltb (Rabs (RN x)) (bpow radix2 1024)) eqn:LT; [reflexivity|]. apply rltb_false in LT. lra.
Qed.
Lemma gap_clean b t : gap b -> clean (b ++ t).
Proof.
  intros (N & B). destruct b as [|c b]; [contradiction|]. apply Forall_inv in B. right. exists c, (b ++ t). split; [reflexivity|]. apply is_space_spec in B.
  assert (is_digit c = false). { destruct (is_digit c) eqn:D; [|reflexivity]. apply digit_solid in D. destruct D as (D & _). apply is_space_spec in B. contradiction. }
  split; [assumption|]. repeat split; intros ->; discriminate.
Qed.
Lemma parse_double w x : decimal_text w x -> finite_double x -> parse_value TDouble w = Some (VDouble (Fin (nearest_double x))).
Proof.
  intros D FD. unfold parse_value. cbn [read_value]. rewrite <- (app_nil_r w). change (w ++ []) with ([] ++ w ++ []). rewrite (get_double_ok [] w x []); [|constructor|exact D|left; reflexivity|exact FD]. reflexivity.
Qed.
Lemma stream_gap b t : gap b -> Stream (b ++ t) (at_end (b ++ t)) false = open (b ++ t).
Proof. intros (N & _). destruct b; [contradiction|reflexivity]. Qed.
Lemma parse_vec3 w1 x1 b1 w2 x2 b2 w3 x3 : decimal_text w1 x1 -> decimal_text w2 x2 -> decimal_text w3 x3 -> gap b1 -> gap b2 -> finite_double x1 -> finite_double x2 -> finite_double x3 ->
  parse_value TVec3 (w1 ++ b1 ++ w2 ++ b2 ++ w3) = Some (VVec3 (Fin (nearest_double x1)) (Fin (nearest_double x2)) (Fin (nearest_double x3))).
Proof.
  intros D1 D2 D3 B1 B2 F1 F2 F3. unfold parse_value. cbn [read_value]. change (w1 ++ b1 ++ w2 ++ b2 ++ w3) with ([] ++ w1 ++ (b1 ++ w2 ++ b2 ++ w3)).
  rewrite (get_double_ok [] w1 x1); [|constructor|exact D1|apply gap_clean; exact B1|exact F1]. rewrite stream_gap by exact B1.
  rewrite (get_double_ok b1 w2 x2); [|apply B1|exact D2|apply gap_clean; exact B2|exact F2]. rewrite stream_gap by exact B2.
  rewrite <- (app_nil_r w3). rewrite (get_double_ok b2 w3 x3 []); [|apply B2|exact D3|left; reflexivity|exact F3]. reflexivity.
Qed.
Lemma parse_bound w1 x1 b1 w2 x2 : decimal_text w1 x1 -> decimal_text w2 x2 -> gap b1 -> finite_double x1 -> finite_double x2 ->
  parse_value TBound (w1 ++ b1 ++ w2) = if rleb (nearest_double x1) (nearest_double x2) then Some (VBound (Fin (nearest_double x1)) (Fin (nearest_double x2))) else None.
Proof.
  intros D1 D2 B1 F1 F2. unfold parse_value. cbn [read_value]. change (w1 ++ b1 ++ w2) with ([] ++ w1 ++ (b1 ++ w2)).
  rewrite (get_double_ok [] w1 x1); [|constructor|exact D1|apply gap_clean; exact B1|exact F1]. rewrite stream_gap by exact B1.
  rewrite <- (app_nil_r w2). rewrite (get_double_ok b1 w2 x2 []); [|apply B1|exact D2|left; reflexivity|exact F2]. cbn [eleb]. destruct (rleb (nearest_double x1) (nearest_double x2)); reflexivity.
Qed.
(** Seeds. *)
Lemma insert_perm n l : Permutation (n :: l) (insert n l).
Proof. induction l as [|m l IH]; cbn; [reflexivity|]. destruct (Z.leb_spec m n); [|reflexivity]. etransitivity; [apply perm_swap|]. apply perm_skip. exact IH. Qed.
Lemma insert_sorted n l : Sorted Z.le l -> Sorted Z.le (insert n l).
Proof.
  induction 1 as [|m l S IH H]; cbn; [repeat constructor|]. destruct (Z.leb_spec m n) as [L|L].
  - constructor; [exact IH|]. destruct l as [|k l]; cbn; [constructor; exact L|]. inversion H; subst. destruct (Z.leb_spec k n); constructor; assumption.
  - constructor; [constructor; assumption|constructor; lia].
Qed.
Lemma gs_step f seeds s : get_seeds (S f) seeds s = if good s then let (v, s) := get_int int_min int_max s in get_seeds f (insert v seeds) s else (seeds, s).
Proof. reflexivity. Qed.
Lemma get_seeds_ok t l : integers t l -> forall f a seeds, all_blank a -> (length t < f)%nat -> exists l', get_seeds f seeds (open (a ++ t)) = (l', Stream [] true false) /\ Permutation (l ++ seeds) l' /\ (Sorted Z.le seeds -> Sorted Z.le l').
Proof.
  intros H. induction H as [sg k ds S D B|sg k ds b t l S D B G H IH]; intros f a seeds A FU.
  - destruct f as [|f]; [lia|]. rewrite gs_step. cbn [good eof fail open negb andb]. replace (a ++ sg ++ ds) with (a ++ sg ++ ds ++ []) by (rewrite app_nil_r; reflexivity). rewrite (get_int_ok _ _ a sg k ds []); [|assumption..|left; reflexivity|exact B].
    exists (insert (k * denotes ds) seeds). split; [destruct f; reflexivity|]. split; [apply insert_perm|apply insert_sorted].
  - destruct f as [|f]; [lia|]. rewrite gs_step. cbn [good eof fail open negb andb]. rewrite (get_int_ok _ _ a sg k ds (b ++ t)); [|assumption..|apply clean_no_digit, gap_clean; exact G|exact B].
    rewrite stream_gap by exact G. destruct (IH f b (insert (k * denotes ds) seeds)) as (l' & E & P & SO); [apply G|rewrite !app_length in FU; destruct D as (N & _), G as (NG & _); destruct ds; [contradiction|]; cbn in FU; lia|].
    exists l'. split; [exact E|]. split; [|intros X; apply SO, insert_sorted; exact X]. rewrite <- P. cbn [app]. rewrite <- insert_perm. apply Permutation_middle.
Qed.
Lemma parse_seeds t l : integers t l -> exists l', parse_value TSeedGen t = Some (VSeedGen l') /\ Permutation l l' /\ Sorted Z.le l'.
Proof.
  intros H. unfold parse_value. cbn [read_value]. destruct (get_seeds_ok t l H (S (length t)) [] []) as (l' & E & P & SO); [constructor|lia|]. cbn [app] in E. rewrite app_nil_r in P. cbn [open rest] in *. rewrite E.
  exists l'. split; [reflexivity|]. split; [exact P|apply SO; constructor].
Qed.

(** Printed doubles. *)
Lemma put_double_shape p d : (1 <= p)%nat -> survives p d -> word (put_double p d) /\ forall a t, all_blank a -> clean t -> get_double (open (a ++ put_double p d ++ t)) = (d, Stream t (at_end t) false).
Proof.
  intros P (r & -> & FIN & H). rewrite <- bpow2 in FIN. cbn [put_double]. destruct (reqb r 0) eqn:R0.
  { apply reqb_spec in R0. subst r. split; [apply wordb_ok; reflexivity|]. intros a t A T. rewrite (get_double_ok a (str "0") 0 t).
    - do 2 f_equal. unfold nearest_double. apply round_0. typeclasses eauto.
    - exact A.
    - replace 0%R with (IZR (1 * denotes (["0"%char] ++ [])) * powerRZ 10 (- Z.of_nat (length (@nil ascii))))%R by (change (1 * denotes (["0"%char] ++ []))%Z with 0%Z; apply Rmult_0_l). apply (decimal_fixed [] 1 ["0"%char] []); [constructor|split; [discriminate|constructor; [left; reflexivity|constructor]]|constructor].
    - exact T.
    - unfold finite_double, nearest_double. rewrite round_0, Rabs_R0 by typeclasses eauto. rewrite <- bpow2. apply bpow_gt_0. }
  apply reqb_false in R0. destruct H as [H|H]; [contradiction|].
  assert (AP : (0 < Rabs r)%R) by (apply Rabs_pos_lt; exact R0). destruct (decimal p (Rabs r)) as (n, e) eqn:DE.
  destruct (decimal_spec p P (Rabs r) AP) as (_ & DB). rewrite DE in DB. cbn [fst] in DB.
  assert (BACK : RN (dec_value p (n, e)) = Rabs r).
  { rewrite <- DE. destruct H as [(x & (n0 & e0 & N0 & XE) & RX & PW)|(P17 & RX)].
    2: { apply seventeen; [exact P17| |exact AP]. apply generic_format_abs. rewrite RX. apply RN_F. }
    apply (decimal_back p P (Rabs r) (Rabs x)).
    - apply generic_format_abs. rewrite XE, <- bpow10. apply decimal_F10; assumption.
    - rewrite RX. unfold nearest_double, RN. symmetry. apply (@round_NE_abs radix2 (FLT_exp (-1074) 53)). apply FLT_exp_valid. exact prec53.
    - exact AP.
    - destruct PW as [->|NP]; [left; reflexivity|right]. intros C. apply NP. exists (mag radix2 (Rabs r) - 1)%Z. rewrite <- bpow2. exact C. }
  assert (SG : exists sg k, (if rltb r 0 then ["-"%char] else []) = sg /\ signed sg k /\ (IZR k * Rabs r = r)%R /\ (k = 1 \/ k = -1)%Z /\ Forall solid sg).
  { destruct (rltb r 0) eqn:LT; [apply rltb_spec in LT; exists (str "-"), (-1)%Z|apply rltb_false in LT; exists [], 1%Z]; (split; [reflexivity|split; [constructor|]]).
    - rewrite Rabs_left by lra. split; [ring|]. split; [right; reflexivity|]. constructor; [apply solidb_ok; reflexivity|constructor].
    - rewrite Rabs_pos_eq by lra. split; [ring|]. split; [left; reflexivity|]. constructor. }
  destruct SG as (sg & k & -> & S & SV & KV & SS). destruct (format_scan p n e sg k [] P DB S (or_introl eq_refl)) as (_ & (c & w & FE & FC) & FS).
  split. { split; [rewrite FE; destruct sg; discriminate|apply Forall_app; split; assumption]. }
  intros a t A T. destruct (format_scan p n e sg k t P DB S T) as (SC & _ & _). rewrite <- app_assoc. unfold get_double.
  assert (HD : exists y u, sg ++ format p n e ++ t = y :: u /\ ~ blank y).
  { rewrite FE. apply digit_solid in FC. destruct sg as [|y sg]; cbn [app]; eexists; eexists; (split; [reflexivity|]); [apply FC|]. inversion SS as [|? ? Y]; subst. apply Y. }
  destruct HD as (y & u & HE & HB). rewrite HE. rewrite sentry_skip by assumption. cbn [rest]. rewrite <- HE, SC.
  assert (RV : RN (IZR k * dec_value p (n, e)) = r). { transitivity (IZR k * Rabs r)%R; [|exact SV]. rewrite <- BACK. destruct KV as [->| ->]; [rewrite !Rmult_1_l; reflexivity|]. replace (IZR (-1) * dec_value p (n, e))%R with (- dec_value p (n, e))%R by ring. rewrite RN_opp. ring. }
  rewrite RV. destruct (rltb (Rabs r) (bpow radix2 1024)) eqn:LT; [reflexivity|]. apply rltb_false in LT. lra.
Qed.

(** One value. *)
Lemma word_text t : word t -> tidy t /\ t <> [] /\ ~ In newline t.
Proof. intros W. split; [apply word_tidy; exact W|]. split; [apply W|apply word_no_newline; exact W]. Qed.
Lemma word_app a b : word a -> Forall solid b -> word (a ++ b).
Proof. intros (N & A) B. split; [destruct a; [contradiction|discriminate]|apply Forall_app; split; assumption]. Qed.
Lemma space_gap : gap [" "%char].
Proof. split; [discriminate|]. constructor; [apply is_space_spec; reflexivity|constructor]. Qed.
Lemma round_trip p v : (1 <= p)%nat -> plain p v -> exists t, write_value p v = Some t /\ parse_value (vtype_of v) t = Some v /\ tidy t /\ t <> [] /\ ~ In newline t.
Proof.
  intros P PL.
  assert (INT : forall lo hi n, (lo <= n <= hi)%Z -> exists a sg k ds, put_int n = a ++ sg ++ ds /\ all_blank a /\ signed sg k /\ numeral ds /\ (lo <= k * denotes ds <= hi)%Z /\ n = (k * denotes ds)%Z).
  { intros lo hi n B. destruct (put_int_shape n) as (sg & k & ds & E & S & D & V & _). exists [], sg, k, ds. rewrite E, V. repeat split; try (constructor || assumption || lia); apply D. }
  assert (WI : forall n, word (put_int n)) by (intros n; destruct (put_int_shape n) as (sg & k & ds & _ & _ & _ & _ & W); exact W).
  assert (EN : forall t s v', In t [TBool; TRcMethod; TNucleus; TLepton; THadron] -> In (s, v') (spellings t) -> word (str s) -> parse_value t (str s) = Some v' /\ tidy (str s) /\ str s <> [] /\ ~ In newline (str s)).
  { intros t s v' T I W. split; [|apply word_text; exact W]. apply parse_spelled; [exact T|apply word_no_newline; exact W|]. exists [], s. split; [constructor|split; [reflexivity|exact I]]. }
  destruct v as [a b|d|n|n|b|s|l|m|m|m|m|x y z|lo hi]; cbn [write_value vtype_of plain] in *.
  - eexists; split; [reflexivity|]. split; [|apply word_text; apply word_app; [apply WI|constructor; [apply solidb_ok; reflexivity|apply WI]]].
    unfold parse_value. cbn [read_value]. change (put_int a ++ "."%char :: put_int b) with ([] ++ put_int a ++ "."%char :: put_int b).
    rewrite (put_get_int int_min int_max a []); [|apply PL|constructor|right; eexists; eexists; split; reflexivity]. cbn [at_end].
    change (get_char (Stream ("."%char :: put_int b) false false)) with (Some "."%char, open (put_int b)). cbn iota beta. change (Ascii.eqb "." ".") with true. cbn iota.
    rewrite <- (app_nil_r (put_int b)). change (put_int b ++ []) with ([] ++ put_int b ++ []). rewrite (put_get_int int_min int_max b []); [|apply PL|constructor|left; reflexivity]. reflexivity.
  - destruct (put_double_shape p d P PL) as (W & G). eexists; split; [reflexivity|]. split; [|apply word_text; exact W]. unfold parse_value. cbn [read_value]. rewrite <- (app_nil_r (put_double p d)). change (put_double p d ++ []) with ([] ++ put_double p d ++ []).
    rewrite (G [] []); [reflexivity|constructor|left; reflexivity].
  - eexists; split; [reflexivity|]. split; [|apply word_text; apply WI]. apply (parse_int TInt int_min int_max VInt); [reflexivity|apply word_no_newline, WI|]. destruct (INT int_min int_max n PL) as (a & sg & k & ds & E & A & S & D & B & V). exists a, sg, k, ds. rewrite <- V. repeat split; try assumption; try lia; apply D.
  - eexists; split; [reflexivity|]. split; [|apply word_text; apply WI]. apply (parse_int TLong long_min long_max VLong); [reflexivity|apply word_no_newline, WI|]. destruct (INT long_min long_max n PL) as (a & sg & k & ds & E & A & S & D & B & V). exists a, sg, k, ds. rewrite <- V. repeat split; try assumption; try lia; apply D.
  - eexists; split; [reflexivity|]. destruct b; apply EN; try (cbn; tauto); apply wordb_ok; reflexivity.
  - destruct PL as (N & T & L). assert (NS : str s <> []) by (destruct s; [contradiction|discriminate]). eexists; split; [reflexivity|]. split; [|split; [exact T|split; assumption]]. apply parse_string; [exact L|]. split; [exact NS|]. rewrite unstr_str. reflexivity.
  - destruct PL as (n & -> & B). eexists; split; [reflexivity|]. cbn [map List.concat]. rewrite app_nil_r. split; [|apply word_text; apply WI].
    destruct (put_int_shape n) as (sg & k & ds & E & S & D & V & _). rewrite E. rewrite <- V in B |- *. destruct (parse_seeds (sg ++ ds) [(k * denotes ds)%Z]) as (l' & PS & PE & _); [constructor; assumption|]. rewrite PS. apply Permutation_length_1_inv in PE. subst l'. reflexivity.
  - destruct m; eexists; (split; [reflexivity|]); apply EN; try (cbn; tauto); apply wordb_ok; reflexivity.
  - destruct m; eexists; (split; [reflexivity|]); apply EN; try (cbn; tauto); apply wordb_ok; reflexivity.
  - destruct m; eexists; (split; [reflexivity|]); apply EN; try (cbn; tauto); apply wordb_ok; reflexivity.
  - destruct m; eexists; (split; [reflexivity|]); apply EN; try (cbn; tauto); apply wordb_ok; reflexivity.
  - destruct PL as (X & Y & Z). destruct (put_double_shape p x P X) as (WX & GX). destruct (put_double_shape p y P Y) as (WY & GY). destruct (put_double_shape p z P Z) as (WZ & GZ).
    eexists; split; [reflexivity|]. split; [|split; [|split]].
    + unfold parse_value. cbn [read_value]. change (put_double p x ++ " "%char :: put_double p y ++ " "%char :: put_double p z) with ([] ++ put_double p x ++ ([" "%char] ++ put_double p y ++ ([" "%char] ++ put_double p z))).
      rewrite (GX [] _); [|constructor|apply gap_clean, space_gap]. rewrite stream_gap by apply space_gap. rewrite (GY [" "%char] _); [|apply space_gap|apply gap_clean, space_gap]. rewrite stream_gap by apply space_gap.
      rewrite <- (app_nil_r (put_double p z)). rewrite (GZ [" "%char] []); [reflexivity|apply space_gap|left; reflexivity].
    + replace (put_double p x ++ " "%char :: put_double p y ++ " "%char :: put_double p z) with (put_double p x ++ (" "%char :: put_double p y ++ [" "%char]) ++ put_double p z) by (cbn; rewrite <- !app_assoc; reflexivity).
      apply tidy_mid; try assumption. intros [H|H]; [discriminate|]. apply in_app_or in H. destruct H as [H|[H|[]]]; [exact (word_no_hash _ WY H)|discriminate].
    + destruct WX as (NX & _). destruct (put_double p x); [contradiction|discriminate].
    + rewrite in_app_iff. intros [H|[H|H]]; [exact (word_no_newline _ WX H)|discriminate|]. rewrite in_app_iff in H. destruct H as [H|[H|H]]; [exact (word_no_newline _ WY H)|discriminate|exact (word_no_newline _ WZ H)].
  - destruct PL as (X & Y & LE). destruct (put_double_shape p lo P X) as (WX & GX). destruct (put_double_shape p hi P Y) as (WY & GY).
    eexists; split; [reflexivity|]. split; [|split; [|split]].
    + unfold parse_value. cbn [read_value]. change (put_double p lo ++ " "%char :: put_double p hi) with ([] ++ put_double p lo ++ ([" "%char] ++ put_double p hi)).
      rewrite (GX [] _); [|constructor|apply gap_clean, space_gap]. rewrite stream_gap by apply space_gap. rewrite <- (app_nil_r (put_double p hi)). rewrite (GY [" "%char] []); [|apply space_gap|left; reflexivity]. rewrite LE. reflexivity.
    + change (put_double p lo ++ " "%char :: put_double p hi) with (put_double p lo ++ [" "%char] ++ put_double p hi). apply tidy_mid; try assumption. intros [H|[]]; discriminate.
    + destruct WX as (NX & _). destruct (put_double p lo); [contradiction|discriminate].
    + rewrite in_app_iff. intros [H|[H|H]]; [exact (word_no_newline _ WX H)|discriminate|exact (word_no_newline _ WY H)].
Qed.

(** A whole set. *)
Lemma write_lines p ps : (1 <= p)%nat -> Forall (fun q => word (str (fst q))) ps -> Forall (fun q => forall v, p_value (snd q) = Some v -> plain p v) ps ->
  exists ls es, write_stream p ps = Ok (join (ls ++ [[]])) /\ entries (ls ++ [[]]) es
   /\ (forall k v, In (k, v) es -> exists q val, In (unstr k, q) ps /\ p_value q = Some val /\ parse_value (vtype_of val) v = Some val)
   /\ map fst es = map (fun q => str (fst q)) (filter (fun q => match p_value (snd q) with Some _ => true | None => false end) ps).
Proof.
  intros P W H. induction ps as [|(n, q) ps IH].
  - exists [], []. cbn. split; [reflexivity|]. split; [|split; [intros k v []|reflexivity]]. constructor; [intros []|apply (says_nothing [] []); [constructor|left; reflexivity]|constructor].
  - inversion W as [|? ? W1 W2]; subst. inversion H as [|? ? H1 H2]; subst. destruct (IH W2 H2) as (ls & es & E & EN & V & M). cbn [fst snd] in *. cbn [write_stream filter map fst snd]. destruct (p_value q) as [v|] eqn:Q.
    + destruct (round_trip p v P (H1 v eq_refl)) as (t & WV & PV & T & NT & LT). rewrite WV, E. cbn [bind]. exists ((str n ++ " "%char :: t) :: ls), ((str n, t) :: es). split; [|split; [|split]].
      * f_equal. cbn [app]. destruct (ls ++ [[]]) eqn:LE; [destruct ls; discriminate|]. cbn [join]. rewrite <- app_assoc. reflexivity.
      * cbn [app]. apply entries_cons; [|replace (str n ++ " "%char :: t) with ([] ++ str n ++ [" "%char] ++ t ++ [] ++ []) by (cbn; rewrite app_nil_r; reflexivity)|exact EN].
        { intros I. apply in_app_or in I. destruct I as [I|[I|I]]; [exact (word_no_newline _ W1 I)|discriminate|contradiction]. }
        apply says_value; try assumption; [constructor|apply space_gap|discriminate|constructor|left; reflexivity].
      * intros k v' [[= <- <-]|I].
        { exists q, v. rewrite unstr_str. split; [left; reflexivity|split; [exact Q|exact PV]]. }
        destruct (V k v' I) as (q' & val & I' & R). exists q', val. split; [right; exact I'|exact R].
      * cbn [map fst]. rewrite M. reflexivity.
    + exists ls, es. split; [exact E|]. split; [exact EN|]. split; [|exact M]. intros k v I. destruct (V k v I) as (q' & val & I' & R). exists q', val. split; [right; exact I'|exact R].
Qed.
Lemma NoDup_map_filter {A B} (f : A -> B) g l : NoDup (map f l) -> NoDup (map f (filter g l)).
Proof.
  induction l as [|a l IH]; cbn; [constructor|]. intros N. inversion N as [|? ? NI N']; subst. destruct (g a); [|apply IH; exact N']. cbn. constructor; [|apply IH; exact N']. intros C. apply NI. apply in_map_iff in C. destruct C as (b & E & I). apply filter_In in I. apply in_map_iff. exists b. tauto.
Qed.
Lemma shape_names a b : same_shape a b -> map fst a = map fst b.
Proof. intros H. apply (f_equal (map fst)) in H. rewrite !map_map in H. exact H. Qed.
Lemma shape_lookup a b name p : same_shape a b -> lookup a name = Some p -> exists q, lookup b name = Some q /\ p_type q = p_type p.
Proof.
  unfold same_shape. revert b. induction a as [|(n, x) a IH]; intros [|(m, y) b] H; try discriminate; cbn in *; try discriminate. injection H as HN HT HR. subst m.
  destruct (String.eqb n name); [intros [= <-]; exists y; split; [reflexivity|symmetry; exact HT]|apply IH; exact HR].
Qed.
Lemma write_read p ps base : (1 <= p)%nat -> well_named ps -> well_typed ps -> Forall (fun q => forall v, p_value (snd q) = Some v -> plain p v) ps -> same_shape base ps ->
  exists t ps', write_stream p ps = Ok t /\ read_stream base t = Ok ps' /\ map fst ps' = map fst ps
   /\ (forall name v, value_of ps name = Some v -> value_of ps' name = Some v) /\ (forall name, value_of ps name = None -> lookup ps' name = lookup base name).
Proof.
  intros P (ND & W) WT H SH. destruct (write_lines p ps P W H) as (ls & es & E & EN & V & M). assert (WT' : forall n q v, In (n, q) ps -> p_value q = Some v -> vtype_of v = p_type q) by (intros n q v I; unfold well_typed in WT; rewrite Forall_forall in WT; exact (WT _ I v)).
  assert (NDE : NoDup (map fst es)). { rewrite M. rewrite <- (map_map fst str). apply FinFun.Injective_map_NoDup; [intros a b; apply str_inj|]. apply NoDup_map_filter. exact ND. }
  assert (NDB : NoDup (map fst base)) by (rewrite (shape_names base ps SH); exact ND).
  assert (SH' : same_shape ps base) by (symmetry; exact SH).
  destruct (read_stream_ok base (ls ++ [[]]) es) as (ps' & RS & MF & SET & KEEP); [exact NDB|destruct ls; discriminate|exact EN|exact NDE| |].
  { intros k v I. destruct (V k v I) as (q & val & IQ & QV & PV). destruct (shape_lookup ps base (unstr k) q SH' (lookup_nodup _ _ _ ND IQ)) as (b & LB & TB). exists b, val. split; [exact LB|]. rewrite TB, <- (WT' _ _ val IQ QV). exact PV. }
  exists (join (ls ++ [[]])), ps'. split; [exact E|]. split; [exact RS|]. split; [rewrite MF; apply shape_names; exact SH|]. unfold value_of. split.
  - intros name v L. destruct (lookup ps name) as [q|] eqn:LQ; [|discriminate]. apply lookup_in in LQ.
    assert (IE : In (str name) (map fst es)). { rewrite M. apply in_map_iff. exists (name, q). split; [reflexivity|]. apply filter_In. split; [exact LQ|]. cbn. rewrite L. reflexivity. }
    apply in_map_iff in IE. destruct IE as ((k, u) & KE & IE). cbn in KE. subst k. destruct (V _ _ IE) as (q' & val & IQ & QV & PV). rewrite unstr_str in IQ.
    pose proof (lookup_nodup _ _ _ ND IQ) as A. rewrite (lookup_nodup _ _ _ ND LQ) in A. injection A as <-. assert (val = v) as -> by congruence.
    destruct (SET _ _ IE) as (b & val & LB & PB & LS). rewrite unstr_str in *. rewrite LS. cbn. f_equal. destruct (shape_lookup ps base name q SH' (lookup_nodup _ _ _ ND LQ)) as (b' & LB' & TB). assert (b' = b) as -> by congruence.
    rewrite TB, <- (WT' _ _ v LQ L) in PB. congruence.
  - intros name L. apply KEEP. rewrite M. intros C. apply in_map_iff in C. destruct C as ((n, q) & NE & I). cbn in NE. apply str_inj in NE. subst n. apply filter_In in I. destruct I as (I & B). cbn in B. rewrite (lookup_nodup _ _ _ ND I) in L. rewrite L in B. discriminate.
Qed.
(** Versions: two integers with a point between them. *)
Lemma get_int_failed lo hi s n s' : fail s = true -> get_int lo hi s = (n, s') -> fail s' = true.
Proof. intros F. unfold get_int, sentry, good. rewrite F. destruct (eof s); cbn [negb andb]; intros [= <- <-]; reflexivity. Qed.
Lemma parse_version v x : line v -> (parse_value TVersion v = Some x <->
  exists a sg k ds b a' sg' k' ds', v = a ++ sg ++ ds ++ b ++ "."%char :: a' ++ sg' ++ ds' /\ all_blank a /\ all_blank b /\ all_blank a' /\
    signed sg k /\ numeral ds /\ signed sg' k' /\ numeral ds' /\ in_int (k * denotes ds) /\ in_int (k' * denotes ds') /\ x = VVersion (k * denotes ds) (k' * denotes ds')).
Proof.
  intros L. unfold parse_value. cbn [read_value]. cbv zeta. split.
  - destruct (get_int int_min int_max (open v)) as (n, s) eqn:E. destruct (fail s) eqn:FS.
    { assert (GC : get_char s = (None, set_fail s)) by (unfold get_char, sentry, good; rewrite FS; destruct (eof s); reflexivity). rewrite GC. cbv beta iota zeta.
      destruct (get_int int_min int_max (set_fail (set_fail s))) as (n', s') eqn:E'. apply get_int_failed in E'; [cbv iota beta; rewrite E'; discriminate|reflexivity]. }
    destruct (get_int_inv int_min int_max v n s E FS) as (a & sg & k & ds & V & A & SG & D & NE & B & ND & SE).
    destruct (rest s) as [|c0 r0] eqn:RS.
    { rewrite SE. cbn. discriminate. }
    assert (SO : s = open (c0 :: r0)) by exact SE. rewrite SO.
    destruct (drop_space_spec (c0 :: r0)) as (b & X & BB & ST). destruct ST as [ST|(c & t & ST & SC)].
    { rewrite ST, app_nil_r in X. unfold get_char. rewrite X, sentry_blank by exact BB. cbn. discriminate. }
    rewrite ST in X. unfold get_char. rewrite X, sentry_skip; [|exact BB|apply is_space_false; exact SC].
    destruct (Ascii.eqb_spec c ".") as [->|NC].
    2:{ cbv beta iota zeta. match goal with |- context [get_int int_min int_max (set_fail ?u)] => destruct (get_int int_min int_max (set_fail u)) as (n', s') eqn:E' end. apply get_int_failed in E'; [cbv iota beta; rewrite E'; discriminate|reflexivity]. }
    change (Stream t false false) with (open t). destruct (get_int int_min int_max (open t)) as (n', s') eqn:E'. cbv iota beta. destruct (fail s') eqn:FS'; [discriminate|].
    destruct (get_int_inv int_min int_max t n' s' E' FS') as (a' & sg' & k' & ds' & V' & A' & SG' & D' & NE' & B' & _ & SE').
    assert (NN : ~ In newline (rest s')). { intros H. apply L. rewrite V, X, V'. rewrite !in_app_iff. cbn [In]. rewrite !in_app_iff. tauto. }
    rewrite SE', finish by exact NN. destruct (rest s') eqn:RS'; [|discriminate]. intros [= <-].
    exists a, sg, k, ds, b, a', sg', k', ds'. rewrite V, X, V', app_nil_r. subst n n'. split; [reflexivity|]. repeat split; try assumption; try (apply D); try (apply D'); unfold in_int, int_min, int_max in *; lia.
  - intros (a & sg & k & ds & b & a' & sg' & k' & ds' & -> & A & BB & A' & SG & D & SG' & D' & B & B' & ->).
    rewrite (get_int_ok _ _ a sg k ds (b ++ "."%char :: a' ++ sg' ++ ds')); try assumption.
    2:{ destruct b as [|y b]; right; [exists "."%char, (a' ++ sg' ++ ds'); split; reflexivity|]. exists y, (b ++ "."%char :: a' ++ sg' ++ ds'). split; [reflexivity|]. inversion BB as [|? ? Y]; subst.
        destruct (is_digit y) eqn:DY; [|reflexivity]. exfalso. apply digit_solid in DY. apply (proj1 DY Y). }
    assert (AE : at_end (b ++ "."%char :: a' ++ sg' ++ ds') = false) by (destruct b; reflexivity). rewrite AE. change (Stream ?t false false) with (open t). unfold get_char. rewrite sentry_skip; [|exact BB|apply is_space_false; reflexivity].
    change (Ascii.eqb "." ".") with true. cbn iota. change (Stream ?t false false) with (open t).
    rewrite <- (app_nil_r ds') at 1. rewrite (get_int_ok _ _ a' sg' k' ds' []); try assumption; [reflexivity|left; reflexivity].
Qed.
