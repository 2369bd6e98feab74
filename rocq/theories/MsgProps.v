(** C104: what the messages and the printed statistics say. *)
From Coq Require Import String Ascii Reals ZArith List Bool Lra.
From Verif Require Import ExtModel TextModel ParamTextSpec ParticleModel StatModel MsgModel MsgSpec MsgProofs.
Import ListNotations.
Local Open Scope R_scope.

(** A number printed with [p] decimals: exactly [p] digits behind the point, off by at most half a unit of the last. *)
Theorem C104_fixed p r : tells (put_fixed p (Fin r)) r (/ 2 * powerRZ 10 (- Z.of_nat p)) /\ places (put_fixed p (Fin r)) p.
Proof. exact (fixed_tells p r). Qed.
(** In scientific notation: one digit before the point and [p] behind, off by at most half a unit of the last relative to
    the number. *)
Theorem C104_scientific p r : r <> 0 ->
  tells (put_sci p (Fin r)) r (/ 2 * powerRZ 10 (- Z.of_nat p) * Rabs r) /\ scientific (put_sci p (Fin r)) p.
Proof. exact (sci_ok p r). Qed.
(** The message of a refused mass threshold names the threshold and the two limits, each to six decimals. *)
Theorem C104_threshold_message t b h x mth mn mx : make_particles t b h (Fin x) = ThresholdOutOfRange mth mn mx ->
  exists a c d, what_mass_threshold mth mn mx = (str "Mass threshold " ++ a ++ str " GeV is not within valid kinematic range " ++ c
      ++ str " GeV to " ++ d ++ str " GeV")%list
    /\ tells a x (/ 2 * powerRZ 10 (-6)) /\ tells c (mass_n t) (/ 2 * powerRZ 10 (-6)) /\ tells d (mass_n t + mass_h h) (/ 2 * powerRZ 10 (-6)).
Proof.
  intros H. destruct (message_ok t b h x mth mn mx H) as (E & _). exists (put_fixed 6 (Fin x)), (put_fixed 6 (Fin (mass_n t))), (put_fixed 6 (Fin (mass_n t + mass_h h))).
  split; [exact E|]. split; [exact (proj1 (fixed_tells 6 x))|]. split; [exact (proj1 (fixed_tells 6 _))|exact (proj1 (fixed_tells 6 _))].
Qed.
(** A threshold missed by more than the last printed digit is also shown on the wrong side of the limit. *)
Theorem C104_threshold_shown x y : x < y - / 1000000 ->
  exists v w, decimal_text (to_string (Fin x)) v /\ decimal_text (to_string (Fin y)) w /\ v < w.
Proof. exact (sound_below x y). Qed.
(** Not so for all thresholds refused: for every choice of particles one is refused with a message in which threshold and
    lower limit are the same. *)
Theorem C104_threshold_shown_refuted : ~ (forall t b h x, make_particles t b h (Fin x) = ThresholdOutOfRange (Fin x) (Fin (mass_n t)) (Fin (mass_n t + mass_h h)) ->
  x < mass_n t -> to_string (Fin x) <> to_string (Fin (mass_n t))).
Proof. intros H. destruct (message_same P_ E_ PI_P) as (x & R & L & E). exact (H _ _ _ _ R L E). Qed.
Theorem C104_threshold_same t b h : exists x, make_particles t b h (Fin x) = ThresholdOutOfRange (Fin x) (Fin (mass_n t)) (Fin (mass_n t + mass_h h))
  /\ x < mass_n t /\ to_string (Fin x) = to_string (Fin (mass_n t)).
Proof. exact (message_same t b h). Qed.
(** The other messages determine what they are about. *)
Theorem C104_messages_tell : (forall a b c d, what_target_mismatch a b = what_target_mismatch c d -> a = c /\ b = d)
  /\ (forall a b, what_hadron a = what_hadron b -> a = b) /\ (forall a b, what_flavor a = what_flavor b -> a = b)
  /\ (forall a b, what_not_found a = what_not_found b \/ what_parse_error a = what_parse_error b -> a = b)
  /\ (forall a b, what_not_found a <> what_parse_error b).
Proof. exact (conj target_names (conj hadron_message (conj flavor_message (conj file_message file_kinds)))). Qed.
(** The names of leptons do not: an electron and a massless one have the same name. *)
Theorem C104_lepton_names_refuted : ~ (forall a b, name_lepton a = name_lepton b -> a = b).
Proof. intros H. specialize (H E_ MASSLESS_E eq_refl). discriminate H. Qed.
(** Acceptance and efficiency are shown between 0 and 100 percent, to a twentieth of a percent. *)
Theorem C104_percent a v : 0 <= a <= 1 -> 0 <= v ->
  (exists w, decimal_text (put_fixed 1 (emul (Fin 100) (Fin a))) w /\ 0 <= w <= 100 /\ Rabs (w - 100 * a) <= / 20)
  /\ (exists w, decimal_text (put_fixed 1 (emul (Fin 100) (eff (Fin v)))) w /\ 0 <= w <= 100 /\ Rabs (w - 100 / sqrt (1 + v)) <= / 20).
Proof.
  intros A V. split; [exact (percent_range (100 * a) ltac:(lra))|]. destruct (eff_range v V) as (e & EQ & E). rewrite EQ. assert (S : e = / sqrt (1 + v) -> 100 * e = 100 / sqrt (1 + v)) by (intros ->; reflexivity).
  rewrite <- S; [exact (percent_range (100 * e) ltac:(lra))|]. exact (eff_sqrt v e V EQ).
Qed.
(** The report, line by line: each value behind its name, to the printed digits. *)
Theorem C104_report h n xs xe pr no ac rv re st : xs <> 0 -> xe <> 0 -> pr <> 0 -> no <> 0 -> (0 <= ac <= 1) -> (0 < rv) -> re <> 0 ->
  exists a b c d e f g i, fst (stream_write_integ h (Said n (Fin xs) (Fin xe) (Fin pr) (Fin no) (Fin ac) (Fin rv) (Fin re)) st)
    = ((tab ++ h ++ [newline]) ++ (tab ++ tab ++ str "count:         " ++ put_int n ++ [newline])
      ++ (tab ++ tab ++ str "cross-section: " ++ a ++ str " ± " ++ b ++ [newline])
      ++ (tab ++ tab ++ str "prime:         " ++ c ++ [newline]) ++ (tab ++ tab ++ str "norm:          " ++ d ++ [newline])
      ++ (tab ++ tab ++ str "acceptance:    " ++ e ++ str "%" ++ [newline])
      ++ (tab ++ tab ++ str "rel. variance: " ++ f ++ str " ± " ++ g ++ [newline])
      ++ (tab ++ tab ++ str "efficiency:    " ++ i ++ str "%" ++ [newline]))%list
    /\ tells a xs (Rabs xs / 2000) /\ tells b xe (Rabs xe / 2000) /\ tells c pr (Rabs pr / 2000) /\ tells d no (Rabs no / 2000)
    /\ tells e (100 * ac) (/ 20) /\ tells f rv (rv / 2000) /\ tells g re (Rabs re / 2000) /\ tells i (100 / sqrt (1 + rv)) (/ 20).
Proof. exact (report_ok h n xs xe pr no ac rv re st). Qed.
(** Whatever was printed before, each part of the output of a run looks as it would on a new stream. *)
Theorem C104_session l p : fst (show_all l (OState FDefault p)) = concat (map (fun x => fst (show x fresh)) l).
Proof. exact (proj1 (session l p)). Qed.
Theorem C104_flags_restored h s st : o_field (snd (stream_write_integ h s st)) = o_field st
  /\ fst (stream_write_integ h s st) = fst (stream_write_integ h s fresh).
Proof. destruct st as (f, p). split; reflexivity. Qed.
(** The precision of the stream is not restored: after printing statistics it is one, and what is sent next is cut. *)
Theorem C104_precision_restored_refuted : ~ (forall h s st, snd (stream_write_integ h s st) = st).
Proof. intros H. specialize (H [] (Said 0 NaN NaN NaN NaN NaN NaN NaN) fresh). discriminate H. Qed.
Theorem C104_precision_left h s st : snd (stream_write_integ h s st) = OState (o_field st) 1.
Proof. destruct st as (f, p). reflexivity. Qed.

(** A run that prints parameters, then statistics, then parameters again. *)
Example C104_example : let s := Said 12 (Fin 1) (Fin 1) (Fin 1) (Fin 1) (Fin (1 / 2)) (Fin 3) (Fin 1) in
  fst (show_all [ShowParams [PNum (Fin 2)]; ShowStats (str "total") s; ShowParams [PNum (Fin 2)]] fresh)
  = (put_double 16 (Fin 2) ++ fst (stream_write_integ (str "total") s fresh) ++ put_double 16 (Fin 2) ++ [])%list
  /\ put_fixed 6 (Fin (9382720813 / 10000000000)) = str "0.938272".
Proof. exact example_ok. Qed.
Print Assumptions C104_fixed.
Print Assumptions C104_scientific.
Print Assumptions C104_threshold_message.
Print Assumptions C104_threshold_shown.
Print Assumptions C104_threshold_shown_refuted.
Print Assumptions C104_threshold_same.
Print Assumptions C104_messages_tell.
Print Assumptions C104_lepton_names_refuted.
Print Assumptions C104_percent.
Print Assumptions C104_session.
Print Assumptions C104_flags_restored.
Print Assumptions C104_precision_restored_refuted.
Print Assumptions C104_precision_left.
Print Assumptions C104_report.
