(** Loading grid files: proofs. *)
From Coq Require Import String Ascii Reals ZArith List Bool Lia Lra.
From Flocq Require Import Core.
From Verif Require Import ExtModel BoundProofs TextModel TextNum ParamModel ParamTextSpec TextProofs ParamTextRound GridModel ReadGridModel GridFileModel GridFileSpec.
Import ListNotations.
Local Open Scope list_scope.

Lemma find_spec fs dd name t : find_file fs dd name = Some t <-> exists before p after, places dd name = before ++ p :: after /\ fs p = Some t /\ Forall (fun q => fs q = None) before.
Proof.
  unfold find_file, places, try_open.
  set (p1 := (dd ++ _ ++ name)%string). set (p2 := ("../share/sf_set/prokudin/" ++ name)%string). set (p3 := ("sf_set/prokudin/" ++ name)%string). set (p4 := ("prokudin/" ++ name)%string).
  split.
  - intros H. destruct (fs p1) eqn:E1; [exists [], p1, [p2; p3; p4; name]; repeat split; [congruence|constructor]|].
    destruct (fs p2) eqn:E2; [exists [p1], p2, [p3; p4; name]; repeat split; [congruence|auto]|].
    destruct (fs p3) eqn:E3; [exists [p1; p2], p3, [p4; name]; repeat split; [congruence|auto]|].
    destruct (fs p4) eqn:E4; [exists [p1; p2; p3], p4, [name]; repeat split; [congruence|auto]|].
    destruct (fs name) eqn:E5; [exists [p1; p2; p3; p4], name, []; repeat split; [congruence|auto]|discriminate].
  - intros (b & p & a & E & F & N).
    destruct b as [|q1 b]; cbn [app] in E; injection E as E0 E; [subst p; rewrite F; reflexivity|]. apply Forall_cons_iff in N. destruct N as [N1 N]. subst q1. rewrite N1.
    destruct b as [|q1 b]; cbn [app] in E; injection E as E0 E; [subst p; rewrite F; reflexivity|]. apply Forall_cons_iff in N. destruct N as [N2 N]. subst q1. rewrite N2.
    destruct b as [|q1 b]; cbn [app] in E; injection E as E0 E; [subst p; rewrite F; reflexivity|]. apply Forall_cons_iff in N. destruct N as [N3 N]. subst q1. rewrite N3.
    destruct b as [|q1 b]; cbn [app] in E; injection E as E0 E; [subst p; rewrite F; reflexivity|]. apply Forall_cons_iff in N. destruct N as [N4 N]. subst q1. rewrite N4.
    destruct b as [|q1 b]; cbn [app] in E; injection E as E0 E; [subst p; rewrite F; reflexivity|]. destruct b; discriminate.
Qed.
Lemma find_none fs dd name : find_file fs dd name = None <-> Forall (fun q => fs q = None) (places dd name).
Proof.
  unfold find_file, places, try_open. rewrite !Forall_cons_iff.
  destruct (fs (dd ++ "/sf_set/prokudin/" ++ name)%string), (fs ("../share/sf_set/prokudin/" ++ name)%string), (fs ("sf_set/prokudin/" ++ name)%string), (fs ("prokudin/" ++ name)%string), (fs name);
    split; intros H; try discriminate; try tauto; try (decompose [and] H; discriminate).
  repeat split; auto.
Qed.

(** ** Numbers *)
Lemma alld_iff t : all_digits t <-> Forall (fun c => is_digit c = true) t.
Proof. unfold all_digits. rewrite !Forall_forall. setoid_rewrite is_digit_spec. reflexivity. Qed.
Lemma stops_iff t : stops is_digit t <-> not_next digit_char t.
Proof.
  unfold stops, not_next, digit_char. split.
  - intros [->|(c & t' & -> & H)] c' t'' E; [discriminate|]. injection E as <- <-. rewrite <- is_digit_spec. congruence.
  - intros H. destruct t as [|c t]; [left; reflexivity|right]. exists c, t. split; [reflexivity|]. destruct (is_digit c) eqn:D; [|reflexivity]. apply is_digit_spec in D. destruct (H c t eq_refl D).
Qed.
Lemma sign_inv t : exists sg k, t = sg ++ snd (sign_of t) /\ signed sg k /\ forall v, (if fst (sign_of t) then - v else v)%Z = (k * v)%Z.
Proof.
  destruct t as [|c t]; [exists [], 1%Z; (split; [reflexivity|split; [exact signed_none|intros; cbn [sign_of fst]; lia]])|]. unfold sign_of.
  destruct (Ascii.eqb_spec c "-") as [->|N1]; [exists (str "-"), (-1)%Z; (split; [reflexivity|split; [exact signed_minus|intros; cbn [fst]; lia]])|].
  destruct (Ascii.eqb_spec c "+") as [->|N2]; [exists (str "+"), 1%Z; (split; [reflexivity|split; [exact signed_plus|intros; cbn [fst]; lia]])|].
  exists [], 1%Z. (split; [reflexivity|split; [exact signed_none|intros; cbn [fst]; lia]]).
Qed.
Lemma sign_app sg k t : signed sg k -> not_next (fun c => c = "-"%char \/ c = "+"%char) t -> exists neg, sign_of (sg ++ t) = (neg, t) /\ forall v, (if neg then - v else v)%Z = (k * v)%Z.
Proof.
  intros S N. destruct S; cbn [app str list_ascii_of_string].
  - exists false. split; [|intros; lia]. destruct t as [|c t]; [reflexivity|]. apply sign_of_none; intros ->; apply (N _ _ eq_refl); auto.
  - exists false. split; [reflexivity|intros; lia].
  - exists true. split; [reflexivity|intros; lia].
Qed.
Lemma digits_no_sign ds t : ds <> [] -> all_digits ds -> not_next (fun c => c = "-"%char \/ c = "+"%char) (ds ++ t).
Proof.
  intros N D c t' E. destruct ds as [|d ds]; [contradiction|]. apply alld_iff, Forall_inv in D. injection E as <- _. destruct (digit_facts d D) as (A & B & _). tauto.
Qed.
Lemma mantissa_no_sign m n d p t : mantissa m n d p -> not_next (fun c => c = "-"%char \/ c = "+"%char) (m ++ t).
Proof.
  intros [ip [N D]|ip fp I Fp N]; [apply digits_no_sign; auto|]. rewrite <- app_assoc. destruct ip as [|c ip]; [|apply digits_no_sign; auto; discriminate].
  intros c t' E. injection E as <- _. intros [H|H]; discriminate.
Qed.
(** the scan of digits, point, digits *)
Definition scan_point (t : text) : text * text * text :=
  let (ip, t) := span is_digit t in
  let (fp, t) := match t with c :: t' => if Ascii.eqb c "." then span is_digit t' else ([], t) | [] => ([], t) end in (ip, fp, t).
Lemma scan_unfold t : scan_double t = let (neg, t) := sign_of t in let '(ip, fp, t) := scan_point t in
  let s := if neg then (- number_of (ip ++ fp))%Z else number_of (ip ++ fp) in
  match ip ++ fp with
  | [] => (None, t)
  | _ => match t with
    | c :: t' => if Ascii.eqb c "e" || Ascii.eqb c "E" then
        let (eneg, t') := sign_of t' in match span is_digit t' with
        | ([], r) => (None, r)
        | (es, r) => (Some (IZR s * bpow radix10 (- Z.of_nat (length fp) + (if eneg then - number_of es else number_of es)))%R, r) end
      else (Some (IZR s * bpow radix10 (- Z.of_nat (length fp)))%R, t)
    | [] => (Some (IZR s * bpow radix10 (- Z.of_nat (length fp)))%R, t)
    end end.
Proof.
  unfold scan_double, scan_point. destruct (sign_of t) as (neg, t1). destruct (span is_digit t1) as (ip, t2).
  destruct (match t2 with c :: t' => if Ascii.eqb c "." then span is_digit t' else ([], t2) | [] => ([], t2) end) as (fp, t3). reflexivity.
Qed.
Lemma point_app m n d p t : mantissa m n d p -> not_next digit_char t -> (p = false -> not_next (eq "."%char) t) ->
  exists ip fp, scan_point (m ++ t) = (ip, fp, t) /\ ip ++ fp <> [] /\ n = number_of (ip ++ fp) /\ d = length fp.
Proof.
  intros [ip [N D]|ip fp I Fp N] T P; unfold scan_point.
  - apply alld_iff in D. apply stops_iff in T. rewrite span_app by auto. exists ip, []. rewrite app_nil_r, number_denotes.
    split; [|auto]. destruct t as [|c t]; [reflexivity|]. destruct (Ascii.eqb_spec c ".") as [->|NE]; [|reflexivity]. destruct (P eq_refl _ _ eq_refl eq_refl).
  - apply alld_iff in I, Fp. apply stops_iff in T. rewrite <- app_assoc. cbn [app]. rewrite span_app; [|exact I|right; eexists; eexists; split; reflexivity].
    rewrite Ascii.eqb_refl. rewrite span_app by auto. exists ip, fp. rewrite number_denotes. auto.
Qed.
Lemma point_inv t ip fp r : scan_point t = (ip, fp, r) -> ip ++ fp <> [] ->
  exists m p, t = m ++ r /\ mantissa m (number_of (ip ++ fp)) (length fp) p /\ not_next digit_char r /\ (p = false -> not_next (eq "."%char) r).
Proof.
  unfold scan_point. destruct (span_spec is_digit t) as (a & b & E & T & DA & SB). rewrite E. destruct b as [|c b].
  - intros [= <- <- <-] N. rewrite app_nil_r in *. exists a, false. rewrite number_denotes. subst t. repeat split; [symmetry; apply app_nil_r|constructor; split; auto; apply alld_iff; auto|apply stops_iff; auto|intros _ c t' H; discriminate].
  - destruct (Ascii.eqb_spec c ".") as [->|NE].
    + destruct (span_spec is_digit b) as (a' & b' & E' & T' & DA' & SB'). rewrite E'. intros [= <- <- <-] N. exists (a ++ "."%char :: a'), true. rewrite number_denotes.
      repeat split; [subst; rewrite <- app_assoc; reflexivity|apply mantissa_point; [apply alld_iff|apply alld_iff|]; auto|apply stops_iff; auto|discriminate].
    + intros [= <- <- <-] N. rewrite app_nil_r in *. exists a, false. rewrite number_denotes. repeat split; [auto|constructor; split; auto; apply alld_iff; auto|apply stops_iff; auto|].
      intros _ c' t' H. injection H as <- _. congruence.
Qed.
Lemma scan_iff t x r : scan_double t = (Some x, r) <-> number_then t x r.
Proof.
  rewrite scan_unfold. split.
  - destruct (sign_inv t) as (sg & k & T & S & V). destruct (sign_of t) as (neg, t1). cbn [fst snd] in *. destruct (scan_point t1) as [[ip fp] t2] eqn:E. rewrite V.
    destruct (ip ++ fp) as [|z zs] eqn:EZ; [discriminate|]. rewrite <- EZ in *. assert (NE : ip ++ fp <> []) by (rewrite EZ; discriminate).
    destruct (point_inv _ _ _ _ E NE) as (m & p & T1 & M & ND & NP). subst t t1.
    assert (PL : not_next (fun c => c = "e"%char \/ c = "E"%char) t2 -> number_then (sg ++ m ++ t2) (IZR (k * number_of (ip ++ fp)) * bpow radix10 (- Z.of_nat (length fp)))%R t2).
    { intros NX. rewrite bpow10. apply number_plain with (point := p); auto. }
    destruct t2 as [|c t2]; [intros [= <- <-]; apply PL; intros c t' H; discriminate|].
    destruct (Ascii.eqb c "e" || Ascii.eqb c "E") eqn:EE.
    + apply orb_true_iff in EE. rewrite !Ascii.eqb_eq in EE. destruct (sign_inv t2) as (sge & ke & T2 & SE & VE). destruct (sign_of t2) as (eneg, t3). cbn [fst snd] in *.
      destruct (span_spec is_digit t3) as (es & r' & ES & T3 & DE & SR). rewrite ES. destruct es as [|e0 es]; [discriminate|]. intros [= <- <-]. rewrite VE, bpow10. subst t2 t3.
      rewrite (number_denotes (e0 :: es)). replace (- Z.of_nat (length fp) + ke * denotes (e0 :: es))%Z with (ke * denotes (e0 :: es) - Z.of_nat (length fp))%Z by lia.
      apply (number_exp sg k m _ _ p c sge ke (e0 :: es) r'); auto; [split; [discriminate|apply alld_iff; auto]|apply stops_iff; auto].
    + intros [= <- <-]. apply PL. intros c' t' H. injection H as <- _. apply orb_false_iff in EE. rewrite !ascii_eqb_false in EE. tauto.
  - intros H. destruct H as [sg k m n d p r S M ND NX NP|sg k m n d p e sge ke es r S M EE SE ES ND].
    + destruct (sign_app sg k (m ++ r) S (mantissa_no_sign _ _ _ _ _ M)) as (neg & E & V). rewrite E. destruct (point_app m n d p r M ND NP) as (ip & fp & E2 & NE & -> & ->). rewrite E2, V.
      destruct (ip ++ fp) as [|z zs] eqn:EZ; [contradiction|]. rewrite <- EZ. rewrite <- bpow10. destruct r as [|c r]; [reflexivity|].
      assert (X : Ascii.eqb c "e" || Ascii.eqb c "E" = false). { apply orb_false_iff. rewrite !ascii_eqb_false. split; intros ->; apply (NX _ _ eq_refl); auto. }
      rewrite X. reflexivity.
    + assert (ED : not_next digit_char (e :: sge ++ es ++ r)). { intros c t' H. injection H as <- _. unfold digit_char. rewrite <- is_digit_spec. destruct EE as [->| ->]; discriminate. }
      assert (EP : p = false -> not_next (eq "."%char) (e :: sge ++ es ++ r)). { intros _ c t' H. injection H as <- _. destruct EE as [->| ->]; discriminate. }
      destruct (sign_app sg k (m ++ e :: sge ++ es ++ r) S (mantissa_no_sign _ _ _ _ _ M)) as (neg & E & V). rewrite E. destruct (point_app m n d p _ M ED EP) as (ip & fp & E2 & NE & -> & ->). rewrite E2, V.
      destruct (ip ++ fp) as [|z zs] eqn:EZ; [contradiction|]. rewrite <- EZ. assert (X : Ascii.eqb e "e" || Ascii.eqb e "E" = true) by (destruct EE as [->| ->]; reflexivity). rewrite X.
      destruct ES as [N D]. destruct (sign_app sge ke (es ++ r) SE (digits_no_sign es r N D)) as (eneg & E3 & V3). rewrite E3. apply alld_iff in D. apply stops_iff in ND. rewrite span_app by auto.
      destruct es as [|c es]; [contradiction|]. rewrite V3, (number_denotes (c :: es)), <- bpow10. replace (- Z.of_nat (length fp) + ke * denotes (c :: es))%Z with (ke * denotes (c :: es) - Z.of_nat (length fp))%Z by lia. reflexivity.
Qed.
