(** Parameter files: C51 (reading) and C52 (writing then reading). *)
From Coq Require Import String Ascii Reals ZArith List Bool Lia Lra Permutation Sorted.
From Flocq Require Import Core.
From Verif Require Import ExtModel BoundProofs TextModel TextNum ParamModel ParamSpec ParamTextSpec TextProofs ParamTextModel ParamTextProofs ParamTextRound ParamTextRefute.
Import ListNotations.
Local Open Scope list_scope.

(** Every text is a sequence of lines, and its lines say exactly one sequence of entries. *)
Theorem C51_every_file (t : text) :
  exists ls es, ls <> [] /\ t = join ls /\ entries ls es /\ (forall es', entries ls es' -> es' = es).
Proof.
  destruct (split_text t) as (ls & N & J & L). destruct (entries_total ls L) as (es & E). exists ls, es. split; [exact N|]. split; [symmetry; exact J|]. split; [exact E|]. intros es' E'. exact (entries_unique ls es' es E' E).
Qed.
Print Assumptions C51_every_file.
(** A file without duplicate keys whose keys are all known and whose values all parse sets exactly these parameters. *)
Theorem C51_reads (ps : eparams) ls es : NoDup (map fst ps) -> ls <> [] -> entries ls es -> NoDup (map fst es) ->
  (forall k v, In (k, v) es -> exists p val, lookup ps (unstr k) = Some p /\ parse_value (p_type p) v = Some val) ->
  exists ps', read_stream ps (join ls) = Ok ps' /\ map fst ps' = map fst ps
   /\ (forall k v, In (k, v) es -> exists p val, lookup ps (unstr k) = Some p /\ parse_value (p_type p) v = Some val /\ lookup ps' (unstr k) = Some (with_value p (Some val)))
   /\ (forall name, ~ In (str name) (map fst es) -> lookup ps' name = lookup ps name).
Proof. exact (read_stream_ok ps ls es). Qed.
Print Assumptions C51_reads.
(** Everything else is rejected: duplicate keys, values that do not parse completely, unknown keys. *)
Theorem C51_rejects (ps : eparams) ls es : NoDup (map fst ps) -> ls <> [] -> entries ls es ->
  (~ NoDup (map fst es) -> exists k, In k (map fst es) /\ read_stream ps (join ls) = Throw (EDuplicate (unstr k))) /\
  (NoDup (map fst es) -> (exists k v p, In (k, v) es /\ lookup ps (unstr k) = Some p /\ parse_value (p_type p) v = None) -> exists n, read_stream ps (join ls) = Throw (EParse n)) /\
  (NoDup (map fst es) -> (forall k v p, In (k, v) es -> lookup ps (unstr k) = Some p -> parse_value (p_type p) v <> None) -> (exists k, In k (map fst es) /\ lookup ps (unstr k) = None) -> read_stream ps (join ls) = Throw EUnrecognized).
Proof. exact (read_stream_reject ps ls es). Qed.
Print Assumptions C51_rejects.
(** Integers: blanks, a sign, digits, nothing else, within the range of the type. *)
Theorem C51_integers v x : line v ->
  (parse_value TInt v = Some x <-> exists a sg k ds, v = a ++ sg ++ ds /\ all_blank a /\ signed sg k /\ numeral ds /\ in_int (k * denotes ds) /\ x = VInt (k * denotes ds)%Z) /\
  (parse_value TLong v = Some x <-> exists a sg k ds, v = a ++ sg ++ ds /\ all_blank a /\ signed sg k /\ numeral ds /\ in_long (k * denotes ds) /\ x = VLong (k * denotes ds)%Z).
Proof. intros L. split; [apply (parse_int TInt int_min int_max VInt)|apply (parse_int TLong long_min long_max VLong)]; try reflexivity; exact L. Qed.
Print Assumptions C51_integers.
(** Versions: two integers of type int with a point between them; blanks may precede the integers and the point. *)
Theorem C51_versions v x : line v -> (parse_value TVersion v = Some x <->
  exists a sg k ds b a' sg' k' ds', v = a ++ sg ++ ds ++ b ++ "."%char :: a' ++ sg' ++ ds' /\ all_blank a /\ all_blank b /\ all_blank a' /\
    signed sg k /\ numeral ds /\ signed sg' k' /\ numeral ds' /\ in_int (k * denotes ds) /\ in_int (k' * denotes ds') /\ x = VVersion (k * denotes ds)%Z (k' * denotes ds')%Z).
Proof. exact (parse_version v x). Qed.
Example C51_version_example : parse_value TVersion (str " 2 .+4") = Some (VVersion 2 4) /\ parse_value TVersion (str "2,4") = None.
Proof. split; vm_compute; reflexivity. Qed.
Print Assumptions C51_versions.
(** Enumerations and switches: exactly the listed words. *)
Theorem C51_words t v x : In t [TBool; TRcMethod; TNucleus; TLepton; THadron] -> line v ->
  (parse_value t v = Some x <-> exists a s, all_blank a /\ v = a ++ str s /\ In (s, x) (spellings t)).
Proof. exact (parse_spelled t v x). Qed.
Print Assumptions C51_words.
(** Strings: everything, if there is anything. *)
Theorem C51_strings v x : line v -> (parse_value TString v = Some x <-> v <> [] /\ x = VString (unstr v)).
Proof. exact (parse_string v x). Qed.
Print Assumptions C51_strings.
(** Doubles, vectors and bounds: the nearest doubles to the decimals; a bound must be ordered. *)
Theorem C51_doubles w1 x1 b1 w2 x2 b2 w3 x3 : decimal_text w1 x1 -> decimal_text w2 x2 -> decimal_text w3 x3 -> gap b1 -> gap b2 ->
  finite_double x1 -> finite_double x2 -> finite_double x3 ->
  parse_value TDouble w1 = Some (VDouble (Fin (nearest_double x1))) /\
  parse_value TVec3 (w1 ++ b1 ++ w2 ++ b2 ++ w3) = Some (VVec3 (Fin (nearest_double x1)) (Fin (nearest_double x2)) (Fin (nearest_double x3))) /\
  ((nearest_double x1 <= nearest_double x2)%R -> parse_value TBound (w1 ++ b1 ++ w2) = Some (VBound (Fin (nearest_double x1)) (Fin (nearest_double x2)))) /\
  ((nearest_double x2 < nearest_double x1)%R -> parse_value TBound (w1 ++ b1 ++ w2) = None).
Proof.
  intros D1 D2 D3 B1 B2 F1 F2 F3. split; [apply parse_double; assumption|]. split; [apply parse_vec3; assumption|]. rewrite (parse_bound w1 x1 b1 w2 x2) by assumption. destruct (rleb (nearest_double x1) (nearest_double x2)) eqn:E; [apply rleb_spec in E|apply rleb_false in E]; split; intros H; try reflexivity; lra.
Qed.
Print Assumptions C51_doubles.
(** Seeds: all the integers of the value, in increasing order. *)
Theorem C51_seeds t l : integers t l -> exists l', parse_value TSeedGen t = Some (VSeedGen l') /\ Permutation l l' /\ Sorted Z.le l'.
Proof. exact (parse_seeds t l). Qed.
Print Assumptions C51_seeds.

(** Example: a file with a comment, a blank line, and three parameters. *)
Local Open Scope string_scope.
Definition ex_params : eparams :=
  [("file.event_out", Param TString None None [] false); ("mc.num_events", Param TLong None None [] false);
   ("phys.rc_method", Param TRcMethod (Some (VRcMethod RcNone)) None [] true); ("setup.target", Param TNucleus None None [] false)].
Definition ex_lines : list text :=
  [str "# events"; str ""; str "mc.num_events   1000 # many"; str "  setup.target  neutron"; str "file.event_out gen out.root  "].
Definition ex_entries : list (text * text) :=
  [(str "mc.num_events", str "1000"); (str "setup.target", str "neutron"); (str "file.event_out", str "gen out.root")].
Local Close Scope string_scope.
Ltac texts := cbn [str list_ascii_of_string app]; reflexivity.
Lemma no_newline_dec t : forallb (fun c => negb (Ascii.eqb c newline)) t = true -> line t.
Proof. intros H I. rewrite forallb_forall in H. specialize (H _ I). rewrite Ascii.eqb_refl in H. discriminate. Qed.
Lemma blank_dec t : forallb is_space t = true -> all_blank t.
Proof. intros H. rewrite forallb_forall in H. apply Forall_forall. intros c C. apply is_space_spec, H, C. Qed.
Example ex_file : entries ex_lines ex_entries.
Proof.
  apply entries_skip; [apply no_newline_dec; reflexivity|apply (says_nothing [] (str "# events")); [constructor|right; eexists; texts]|].
  apply entries_skip; [apply no_newline_dec; reflexivity|apply (says_nothing [] []); [constructor|left; reflexivity]|].
  apply entries_cons; [apply no_newline_dec; reflexivity|apply (says_value [] (str "mc.num_events") (str "   ") (str "1000") (str " ") (str "# many"));
    [constructor|apply wordb_ok; reflexivity|apply blank_dec; reflexivity|discriminate|apply word_tidy, wordb_ok; reflexivity|discriminate|apply blank_dec; reflexivity|right; eexists; texts]|].
  apply entries_cons; [apply no_newline_dec; reflexivity|apply (says_value (str "  ") (str "setup.target") (str "  ") (str "neutron") [] []);
    [apply blank_dec; reflexivity|apply wordb_ok; reflexivity|apply blank_dec; reflexivity|discriminate|apply word_tidy, wordb_ok; reflexivity|discriminate|constructor|left; reflexivity]|].
  apply entries_cons; [apply no_newline_dec; reflexivity|apply (says_value [] (str "file.event_out") (str " ") (str "gen out.root") (str "  ") []);
    [constructor|apply wordb_ok; reflexivity|apply blank_dec; reflexivity|discriminate| |discriminate|apply blank_dec; reflexivity|left; reflexivity]|constructor].
  apply (tidy_mid (str "gen") (str " ") (str "out.root")); [apply wordb_ok; reflexivity|apply wordb_ok; reflexivity|]. intros [H|[]]. discriminate.
Qed.
Example ex_read : exists ps', read_stream ex_params (join ex_lines) = Ok ps' /\ value_of ps' "mc.num_events"%string = Some (VLong 1000)
  /\ value_of ps' "setup.target"%string = Some (VNucleus NucN) /\ value_of ps' "file.event_out"%string = Some (VString "gen out.root"%string)
  /\ value_of ps' "phys.rc_method"%string = Some (VRcMethod RcNone).
Proof. eexists. split; [vm_compute; reflexivity|]. repeat split. Qed.
Example ex_rejected :
  read_stream ex_params (str "mc.num_events 10 20") = Throw (EParse "mc.num_events") /\
  read_stream ex_params (str "mc.num_event 10") = Throw EUnrecognized /\
  (exists t, read_stream ex_params (str "mc.num_events 10" ++ newline :: str "mc.num_events 10") = Throw (EDuplicate t)).
Proof. repeat split; try (vm_compute; reflexivity). eexists. vm_compute. reflexivity. Qed.
Example ex_decimal : decimal_text (str "-10.6e-1") (-106 * powerRZ 10 (-2)) /\ finite_double (-106 * powerRZ 10 (-2)).
Proof.
  split.
  - apply (decimal_exp (str "-") (-1) (str "10") (str "6") (str "-") (-1) (str "1"));
      [constructor|apply numeral_digits; split; [discriminate|repeat constructor]|constructor; [apply is_digit_spec; reflexivity|constructor]|constructor|apply numeral_digits; split; [discriminate|repeat constructor]].
  - unfold finite_double, nearest_double. apply Rle_lt_trans with 2%R; [|rewrite <- bpow2; change 2%R with (bpow radix2 1); apply bpow_lt; lia].
    assert (P2 : powerRZ 10 (-2) = (/ 100)%R) by (rewrite <- bpow10; reflexivity). assert (H : (-2 <= -106 * powerRZ 10 (-2) <= 2)%R) by (rewrite P2; lra). apply Rabs_le. split.
    + change (- (2))%R with (IZR (-2)). rewrite <- (RN_id (-2)); [|apply (F2_int (-2)); reflexivity]. apply RN_le. lra.
    + rewrite <- (RN_id 2); [|apply (F2_int 2); reflexivity]. apply RN_le. lra.
Qed.
Example ex_integers : integers (str "7 -3  5") [7; -3; 5]%Z.
Proof.
  apply (integers_more [] 1 (str "7") (str " ") (str "-3  5")); [constructor|apply numeral_digits; split; [discriminate|repeat constructor]|split; discriminate|split; [discriminate|apply blank_dec; reflexivity]|].
  apply (integers_more (str "-") (-1) (str "3") (str "  ") (str "5")); [constructor|apply numeral_digits; split; [discriminate|repeat constructor]|split; discriminate|split; [discriminate|apply blank_dec; reflexivity]|].
  apply (integers_one [] 1 (str "5")); [constructor|apply numeral_digits; split; [discriminate|repeat constructor]|split; discriminate].
Qed.

(** C52: a parameter set with plain values is restored, at every precision; parameters without a value are left alone. *)
Theorem C52_write_read p (ps base : eparams) : (1 <= p)%nat -> well_named ps -> well_typed ps ->
  Forall (fun q => forall v, p_value (snd q) = Some v -> plain p v) ps -> same_shape base ps ->
  exists t ps', write_stream p ps = Ok t /\ read_stream base t = Ok ps' /\ map fst ps' = map fst ps
   /\ (forall name v, value_of ps name = Some v -> value_of ps' name = Some v) /\ (forall name, value_of ps name = None -> lookup ps' name = lookup base name).
Proof. exact (write_read p ps base). Qed.
Print Assumptions C52_write_read.
(** Every double of ordinary size is restored up to the printed precision. *)
Theorem C52_accuracy p r : (1 <= p)%nat -> (powerRZ 2 (-1021) <= Rabs r <= powerRZ 2 1023)%R ->
  exists r', parse_value TDouble (put_double p (Fin r)) = Some (VDouble (Fin r')) /\ (Rabs (r' - r) <= (/ 2 * powerRZ 10 (1 - Z.of_nat p) + powerRZ 2 (-52)) * Rabs r)%R.
Proof. exact (accuracy p r). Qed.
Print Assumptions C52_accuracy.
(** The precision that sidisgen sets, 16, gives two different doubles the same text. *)
Theorem C52_doubles_refuted : exists r1 r2, r1 <> r2 /\ nearest_double r1 = r1 /\ nearest_double r2 = r2 /\ write_value 16 (VDouble (Fin r1)) = write_value 16 (VDouble (Fin r2)).
Proof.
  exists 1%R, (1 + powerRZ 2 (-52))%R. split; [rewrite <- bpow2; pose proof (bpow_gt_0 radix2 (-52)); lra|]. split; [apply RN_id; apply (F2_int 1); reflexivity|]. split; [apply RN_id, F2_next|]. cbn [write_value]. f_equal. exact same_text.
Qed.
Print Assumptions C52_doubles_refuted.
(** Two or more non-negative seeds never come back: their digits are written without a separator. *)
Theorem C52_seeds_refuted p l : (2 <= length l)%nat -> Forall (fun n => 0 <= n)%Z l ->
  forall t, write_value p (VSeedGen l) = Some t -> parse_value TSeedGen t <> Some (VSeedGen l).
Proof. exact (seeds_lost p l). Qed.
Print Assumptions C52_seeds_refuted.
Definition one (t : vtype) (v : option evalue) : eparams := [("x"%string, Param t v None [] false)].
(** Seeds 1 and 2 come back as 12; a string is cut at a '#'; empty strings and infinities make the file unreadable. *)
Theorem C52_values_refuted p :
  (exists t, write_stream p (one TSeedGen (Some (VSeedGen [1; 2]%Z))) = Ok t /\ read_stream (one TSeedGen None) t = Ok (one TSeedGen (Some (VSeedGen [12]%Z)))) /\
  (exists t, write_stream p (one TString (Some (VString "run#2.root"))) = Ok t /\ read_stream (one TString None) t = Ok (one TString (Some (VString "run")))) /\
  (exists t, write_stream p (one TString (Some (VString ""))) = Ok t /\ read_stream (one TString None) t = Throw (EParse "x")) /\
  (exists t, write_stream p (one TDouble (Some (VDouble PInf))) = Ok t /\ read_stream (one TDouble None) t = Throw (EParse "x")).
Proof. repeat split; (eexists; split; [vm_compute; reflexivity|vm_compute; reflexivity]). Qed.
Print Assumptions C52_values_refuted.

(** Example: a beam energy of 10.6 and a lower half bound. *)
Lemma beam_between : (10 <= nearest_double (106 * powerRZ 10 (-1)) <= 11)%R.
Proof.
  assert (P1 : powerRZ 10 (-1) = (/ 10)%R) by (rewrite <- bpow10; reflexivity). assert (H : (10 <= 106 * powerRZ 10 (-1) <= 11)%R) by (rewrite P1; lra). split.
  - apply Rle_trans with (RN 10); [right; symmetry; apply RN_id; apply (F2_int 10); reflexivity|]. apply RN_le. apply H.
  - rewrite <- (RN_id 11); [|apply (F2_int 11); reflexivity]. apply RN_le. apply H.
Qed.
Example ex_survives : survives 16 (Fin (nearest_double (106 * powerRZ 10 (-1)))) /\ survives 16 (Fin (/ 2)).
Proof.
  pose proof beam_between as B. split.
  - eexists; split; [reflexivity|]. rewrite Rabs_pos_eq by lra. split; [apply Rle_lt_trans with 16%R; [lra|rewrite <- bpow2; change 16%R with (bpow radix2 4); apply bpow_lt; lia]|]. right. left. exists (106 * powerRZ 10 (-1))%R.
    split; [exists 106%Z, (-1)%Z; split; [reflexivity|reflexivity]|]. split; [reflexivity|]. right. intros (k & K). rewrite Rabs_pos_eq in K by lra. rewrite <- bpow2 in K.
    destruct (Z_le_gt_dec k 3) as [L|L]; [apply (bpow_le radix2) in L; change (bpow radix2 3) with 8%R in L; lra|]. assert (G : (4 <= k)%Z) by lia. apply (bpow_le radix2) in G. change (bpow radix2 4) with 16%R in G. lra.
  - eexists; split; [reflexivity|]. rewrite Rabs_pos_eq by lra. split; [apply Rle_lt_trans with 1%R; [lra|rewrite <- bpow2; change 1%R with (bpow radix2 0); apply bpow_lt; lia]|]. right. left. exists (/ 2)%R.
    split; [exists 5%Z, (-1)%Z; split; [reflexivity|rewrite <- bpow10; change (bpow radix10 (-1)) with (/ 10)%R; field]|]. split; [|left; reflexivity]. symmetry. apply RN_id. replace (/ 2)%R with (bpow radix2 (-1)) by (cbn; lra). apply generic_format_bpow. cbn. lia.
Qed.
Definition ex_set : eparams :=
  [("cut.x"%string, Param TBound (Some (VBound (Fin (/ 2)) (Fin (nearest_double (106 * powerRZ 10 (-1)))))) None [] false);
   ("mc.seed"%string, Param TSeedGen (Some (VSeedGen [42%Z])) None [] false); ("mc.nrad"%string, Param TBool None None [] false);
   ("setup.beam_energy"%string, Param TDouble (Some (VDouble (Fin (nearest_double (106 * powerRZ 10 (-1)))))) None [] true)].
Example ex_write_read : well_named ex_set /\ well_typed ex_set /\ Forall (fun q => forall v, p_value (snd q) = Some v -> plain 16 v) ex_set.
Proof.
  destruct ex_survives as (S1 & S2). pose proof beam_between as B. split; [|split].
  - split; [cbn; repeat (apply NoDup_cons; [cbn; intuition discriminate|]); apply NoDup_nil|repeat (apply Forall_cons; [apply wordb_ok; reflexivity|]); apply Forall_nil].
  - repeat (apply Forall_cons; [cbn; intros v [= <-]; reflexivity|]); apply Forall_nil.
  - constructor; [|constructor; [|constructor; [|constructor; [|constructor]]]]; cbn [snd p_value]; intros v V; (discriminate || apply (f_equal (fun o => match o with Some w => w | None => v end)) in V; cbv beta iota in V; subst v; cbn [plain]).
    + split; [exact S2|]. split; [exact S1|]. cbn [eleb]. apply rleb_spec. lra.
    + exists 42%Z. split; [reflexivity|split; discriminate].
    + exact S1.
Qed.
