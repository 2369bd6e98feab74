(** Loading grid files: rows and lines. *)
From Coq Require Import String Ascii Reals ZArith List Bool Lia Lra.
From Flocq Require Import Core.
From Verif Require Import ExtModel BoundProofs TextModel TextNum ParamModel ParamTextSpec TextProofs ParamTextRound GridModel ReadGridModel GridFileModel GridFileSpec GridFileProofs.
Import ListNotations.
Local Open Scope list_scope.

Definition at_text (t : text) (s : stream) : Prop := s = open t \/ s = Stream t (at_end t) false.
Lemma number_head t x r : number_then t x r -> exists c t', t = c :: t' /\ ~ blank c.
Proof.
  assert (M : forall sg k m n d p u, signed sg k -> mantissa m n d p -> exists c t', sg ++ m ++ u = c :: t' /\ ~ blank c).
  { intros sg k m n d p u S M. assert (H : exists c m', m = c :: m' /\ ~ blank c).
    { destruct M as [ip [N D]|ip fp I Fp N].
      - destruct ip as [|c ip]; [contradiction|]. apply alld_iff, Forall_inv, digit_solid in D. exists c, ip. split; [reflexivity|apply D].
      - destruct ip as [|c ip]; [exists "."%char, fp; split; [reflexivity|apply is_space_false; reflexivity]|]. apply alld_iff, Forall_inv, digit_solid in I. eexists; eexists. split; [reflexivity|apply I]. }
    destruct H as (c & m' & -> & NB). destruct S; cbn [app str list_ascii_of_string]; eexists; eexists; (split; [reflexivity|]); [exact NB| |]; apply is_space_false; reflexivity. }
  intros [sg k m n d p u S H _ _ _|sg k m n d p e sge ke es u S H _ _ _ _]; eapply M; eauto.
Qed.
Lemma sentry_text t s : at_text t s -> (all_blank t /\ sentry true s = (false, Stream [] true true)) \/
  exists a c u, t = a ++ c :: u /\ all_blank a /\ ~ blank c /\ sentry true s = (true, open (c :: u)).
Proof.
  intros H. destruct (drop_space_spec t) as (a & T & A & ST). destruct ST as [ST|(c & u & ST & SC)].
  - left. rewrite ST, app_nil_r in T. subst a. split; [exact A|]. destruct H as [->| ->]; [apply sentry_blank; auto|]. destruct t as [|c t]; [reflexivity|]. apply (sentry_blank (c :: t)). exact A.
  - right. rewrite ST in T. exists a, c, u. apply is_space_false in SC. repeat split; auto. rewrite T in H. assert (E : at_end (a ++ c :: u) = false) by (destruct a; reflexivity).
    destruct H as [->| ->]; [|rewrite E]; apply (sentry_skip a c u A SC).
Qed.
Lemma get_num_ok a t x u s : all_blank a -> number_then t x u -> finite_double x -> at_text (a ++ t) s -> get_num s = (Some (Fin (nearest_double x)), Stream u (at_end u) false).
Proof.
  intros A H FD S. destruct (number_head _ _ _ H) as (c & t' & -> & NB). unfold get_num, get_double.
  assert (E : sentry true s = (true, open (c :: t'))).
  { destruct (sentry_text _ _ S) as [(B & _)|(a' & c' & u' & T & A' & NB' & E)].
    - exfalso. unfold all_blank in B. rewrite Forall_app in B. destruct B as [_ B]. apply Forall_inv in B. contradiction.
    - rewrite E. f_equal. f_equal. assert (D1 : drop_space (a ++ c :: t') = c :: t') by (apply drop_space_app; [exact A|right; exists c, t'; split; [reflexivity|apply is_space_false; exact NB]]).
      rewrite T in D1. rewrite drop_space_app in D1; [exact D1|exact A'|]. right. exists c', u'. split; [reflexivity|apply is_space_false; exact NB']. }
  rewrite E. cbn [rest open]. rewrite (proj2 (scan_iff _ _ _) H). unfold finite_double in FD. rewrite <- bpow2 in FD. change (nearest_double x) with (RN x) in *.
  destruct (rltb (Rabs (RN x)) (bpow radix2 1024)) eqn:LT; [reflexivity|]. apply rltb_false in LT. lra.
Qed.
Lemma get_num_inv t s o s' : at_text t s -> get_num s = (o, s') -> fail s' = false ->
  exists a t' x u, t = a ++ t' /\ all_blank a /\ number_then t' x u /\ finite_double x /\ o = Some (Fin (nearest_double x)) /\ s' = Stream u (at_end u) false.
Proof.
  intros S. unfold get_num, get_double. destruct (sentry_text _ _ S) as [(B & E)|(a & c & u & T & A & NB & E)]; rewrite E; [intros [= <- <-]; discriminate|].
  cbn [rest open]. destruct (scan_double (c :: u)) as [[x|] r] eqn:SC; [|intros [= <- <-]; discriminate].
  destruct (rltb (Rabs (RN x)) (bpow radix2 1024)) eqn:LT; [|intros [= <- <-]; discriminate]. intros [= <- <-] _. apply rltb_spec in LT.
  exists a, (c :: u), x, r. apply scan_iff in SC. repeat split; auto. unfold finite_double. rewrite <- bpow2. exact LT.
Qed.
Lemma get_num_fail s : fail s = true -> exists s', get_num s = (None, s') /\ fail s' = true.
Proof. intros H. unfold get_num, sentry, good. rewrite H, andb_false_r. eexists. split; [reflexivity|reflexivity]. Qed.
Lemma get_row_fail n : forall s, fail s = true -> exists s', get_row n s = (repeat None n, s') /\ fail s' = true.
Proof.
  induction n as [|n IH]; intros s H; [exists s; auto|]. destruct (get_num_fail s H) as (s1 & E1 & F1). destruct (IH s1 F1) as (s2 & E2 & F2).
  exists s2. cbn. rewrite E1, E2. auto.
Qed.
Lemma row_fwd n t vs r : row_then n t vs r -> forall s, at_text t s -> exists s', get_row n s = (map Some vs, s') /\ at_text r s'.
Proof.
  induction 1 as [t|n a t x u vs r A N FD R IH]; intros s S; [exists s; auto|]. cbn [get_row]. rewrite (get_num_ok a t x u s A N FD S).
  destruct (IH (Stream u (at_end u) false)) as (s' & E & S'); [right; reflexivity|]. rewrite E. exists s'. auto.
Qed.
Lemma row_bwd n : forall t s os s', at_text t s -> get_row n s = (os, s') -> fail s' = false -> exists vs r, row_then n t vs r /\ os = map Some vs /\ at_text r s'.
Proof.
  induction n as [|n IH]; intros t s os s' S H F.
  - injection H as <- <-. exists [], t. repeat split; [constructor|exact S].
  - cbn [get_row] in H. destruct (get_num s) as (o, s1) eqn:E1. destruct (get_row n s1) as (os', s2) eqn:E2. injection H as <- <-.
    destruct (fail s1) eqn:F1; [destruct (get_row_fail n s1 F1) as (s3 & E3 & F3); congruence|].
    destruct (get_num_inv _ _ _ _ S E1 F1) as (a & t' & x & u & -> & A & N & FD & -> & ->).
    destruct (IH u _ _ _ (or_intror eq_refl) E2 F) as (vs & r & R & -> & S'). exists (Fin (nearest_double x) :: vs), r. repeat split; auto. econstructor; eauto.
Qed.
Lemma at_text_fail t s : at_text t s -> fail s = false. Proof. intros [->| ->]; reflexivity. Qed.
Lemma written_some vs : written (map Some vs) = Some vs.
Proof. induction vs as [|v vs IH]; [reflexivity|]. cbn. rewrite IH. reflexivity. Qed.
Lemma row_fun n l vs vs' : row_of n l vs -> row_of n l vs' -> vs = vs'.
Proof.
  intros (r & H) (r' & H'). destruct (row_fwd _ _ _ _ H (open l) (or_introl eq_refl)) as (s & E & _). destruct (row_fwd _ _ _ _ H' (open l) (or_introl eq_refl)) as (s' & E' & _).
  assert (X : map Some vs = map Some vs') by congruence. apply (f_equal written) in X. rewrite !written_some in X. congruence.
Qed.
(** a line is read, or refused with all its numbers written, or refused with a number not written *)
Lemma get_row_cases n : forall t s, at_text t s -> exists os s', get_row n s = (os, s') /\
  ((exists vs r, row_then n t vs r /\ os = map Some vs /\ fail s' = false) \/
   (unreadable n t /\ fail s' = true /\ exists vs, os = map Some vs) \/
   ((forall v, ~ row_of n t v) /\ ~ unreadable n t /\ fail s' = true /\ written os = None)).
Proof.
  intros t s TS. destruct (get_row n s) as (os, s') eqn:E. exists os, s'. split; [reflexivity|]. destruct (fail s') eqn:F.
  2:{ left. destruct (row_bwd n t s os s' TS E F) as (vs & r & R & -> & _). exists vs, r. auto. }
  right. assert (NR : forall v, ~ row_of n t v). { intros v (r & R). destruct (row_fwd _ _ _ _ R s TS) as (s2 & E2 & S2). apply at_text_fail in S2. congruence. }
  assert (G : (unreadable n t /\ exists vs, os = map Some vs) \/ (~ unreadable n t /\ written os = None)).
  { clear NR. revert t s os s' TS E F. induction n as [|n IH]; intros t s os s' TS E F; [injection E as <- <-; apply at_text_fail in TS; congruence|].
    assert (NR : forall v, ~ row_of (S n) t v). { intros v (r & R). destruct (row_fwd _ _ _ _ R s TS) as (s2 & E2 & S2). apply at_text_fail in S2. congruence. }
    cbn [get_row] in E. destruct (get_num s) as (o, s1) eqn:E1. destruct (get_row n s1) as (os', s2) eqn:E2. injection E as <- <-. destruct (fail s1) eqn:F1.
    - destruct (get_row_fail n s1 F1) as (s3 & E3 & F3). rewrite E2 in E3. injection E3 as -> ->. destruct n as [|n].
      + unfold get_num in E1. destruct (sentry_text _ _ TS) as [(B & X)|(a & c & u & T & A & NB & X)]; rewrite X in E1.
        * injection E1 as <- <-. right. split; [|reflexivity]. intros (m & vs & r & M & R & NB & _). injection M as <-. inversion R; subst. contradiction.
        * destruct (get_double (open (c :: u))) as (v, s4) eqn:GD. assert (exists w, o = Some w) as (w & ->). { destruct (get_double s); injection E1; eauto. }
          left. split; [|exists [w]; reflexivity]. exists O, [], t. repeat split; [constructor| |exact NR]. rewrite T. intros B. unfold all_blank in B. rewrite Forall_app in B. destruct B as [_ B]. apply Forall_inv in B. contradiction.
      + right. split; [|destruct o; reflexivity]. intros (m & vs & r & M & R & NB & _). injection M as <-. inversion R as [|? a t' x u vs' ? A N FD R']; subst.
        rewrite (get_num_ok _ _ _ _ _ A N FD TS) in E1. injection E1 as <- <-. discriminate.
    - destruct (get_num_inv _ _ _ _ TS E1 F1) as (a & t' & x & u & -> & A & N & FD & -> & ->).
      destruct (IH u _ _ _ (or_intror eq_refl) E2 F) as [[U (vs & ->)]|[U W]].
      + left. destruct U as (m & vs' & r & -> & R & NB & NU). split; [|exists (Fin (nearest_double x) :: vs); reflexivity].
        exists (S m), (Fin (nearest_double x) :: vs'), r. repeat split; [econstructor; eauto|exact NB|exact NR].
      + right. split; [|cbn; rewrite W; reflexivity]. intros (m & vs' & r & M & R & NB & _). injection M as <-. destruct n as [|n].
        { cbn in E2. injection E2 as <- <-. discriminate. }
        inversion R as [|? a' t2 x' u' vs2 ? A' N' FD' R']; subst. match goal with H : a' ++ t2 = a ++ t' |- _ => rename H into AT end.
        assert (UE : u' = u). { pose proof (get_num_ok a' t2 x' u' (open (a ++ t')) A' N' FD' (or_introl (f_equal open (eq_sym AT)))) as G1. rewrite (get_num_ok a t' x u _ A N FD (or_introl eq_refl)) in G1. congruence. }
        subst u'. apply U. exists n, vs2, r. repeat split; auto. intros v (r' & R2). apply (NR (Fin (nearest_double x) :: v)). exists r'. econstructor; eauto. }
  destruct G as [[U V]|[U W]]; [left|right]; auto.
Qed.

(** ** Lines *)
Lemma ended_cons l ls : ended (l :: ls) = l ++ newline :: ended ls.
Proof. unfold ended. cbn. rewrite <- app_assoc. reflexivity. Qed.
Lemma line_app_inj l l' t t' : line l -> line l' -> l ++ newline :: t = l' ++ newline :: t' -> l = l' /\ t = t'.
Proof.
  unfold line. revert l'. induction l as [|c l IH]; intros [|c' l'] L L' E; cbn in E.
  - injection E as <-. auto.
  - injection E as <- _. destruct L'. left. reflexivity.
  - injection E as -> _. destruct L. left. reflexivity.
  - injection E as <- E. destruct (IH l') as [-> ->]; auto; [intros X; apply L; right; exact X|intros X; apply L'; right; exact X].
Qed.
Lemma lines_nil ls : lines_of [] ls <-> ls = [].
Proof.
  unfold lines_of. split.
  - intros (_ & [H|(ls' & l & -> & N & H)]).
    + destruct ls as [|l ls]; [reflexivity|]. rewrite ended_cons in H. destruct l; discriminate.
    + symmetry in H. apply app_eq_nil in H. tauto.
  - intros ->. split; [constructor|left; reflexivity].
Qed.
Lemma lines_cons l t ls : line l -> (lines_of (l ++ newline :: t) ls <-> exists ls', ls = l :: ls' /\ lines_of t ls').
Proof.
  intros L. unfold lines_of. split.
  - intros (F & [H|(ls' & l' & -> & N & H)]).
    + destruct ls as [|l0 ls]; [destruct l; discriminate|]. rewrite ended_cons in H. apply Forall_cons_iff in F. destruct F as [F0 F].
      destruct (line_app_inj _ _ _ _ L F0 H) as [<- ->]. exists ls. auto.
    + destruct ls' as [|l0 ls']; cbn [app] in *.
      * exfalso. cbn in H. apply Forall_inv in F. apply F. rewrite <- H. apply in_or_app. right. left. reflexivity.
      * rewrite ended_cons, <- app_assoc in H. apply Forall_cons_iff in F. destruct F as [F0 F]. destruct (line_app_inj _ _ _ _ L F0 H) as [<- ->].
        exists (ls' ++ [l']). split; [reflexivity|]. split; [exact F|]. right. exists ls', l'. auto.
  - intros (ls' & -> & F & H). split; [constructor; auto|]. destruct H as [->|(ls2 & l' & -> & N & ->)].
    + left. rewrite ended_cons. reflexivity.
    + right. exists (l :: ls2), l'. rewrite ended_cons, <- app_assoc. auto.
Qed.
Lemma lines_last l ls : line l -> l <> [] -> (lines_of l ls <-> ls = [l]).
Proof.
  intros L N. unfold lines_of. assert (X : forall l0 t, l <> l0 ++ newline :: t). { intros l0 t ->. apply L. apply in_or_app. right. left. reflexivity. }
  split.
  - intros (F & [H|(ls' & l' & -> & N' & H)]).
    + destruct ls as [|l0 ls]; [destruct (N H)|]. rewrite ended_cons in H. destruct (X _ _ H).
    + destruct ls' as [|l0 ls']; [cbn in H; subst; reflexivity|]. rewrite ended_cons, <- app_assoc in H. destruct (X _ _ H).
  - intros ->. split; [constructor; auto|]. right. exists [], l. auto.
Qed.
Lemma text_cases t : t = [] \/ (exists l r, t = l ++ newline :: r /\ line l) \/ (t <> [] /\ line t).
Proof.
  destruct (span_spec (fun c => negb (Ascii.eqb c newline)) t) as (l & r & _ & T & D & S).
  assert (L : line l). { unfold line. intros I. rewrite Forall_forall in D. specialize (D _ I). cbv beta in D. rewrite Ascii.eqb_refl in D. discriminate. }
  destruct S as [->|(c & r' & -> & C)].
  - rewrite app_nil_r in T. subst l. destruct t; [left; reflexivity|right; right; split; [discriminate|exact L]].
  - apply negb_false_iff, Ascii.eqb_eq in C. subst c. right. left. exists l, r'. auto.
Qed.
(** what becomes of the lines, one after the other *)
Inductive fate (n : nat) : list text -> loaded -> Prop :=
| fate_rows ls rs : Forall2 (row_of n) ls rs -> fate n ls (Rows rs)
| fate_bad ls l ls' rs : Forall2 (row_of n) ls rs -> unreadable n l -> fate n (ls ++ l :: ls') ParseError
| fate_indet ls l ls' rs : Forall2 (row_of n) ls rs -> (forall v, ~ row_of n l v) -> ~ unreadable n l -> fate n (ls ++ l :: ls') Indeterminate.
Lemma fate_cons n l ls v f : row_of n l v -> fate n ls f -> fate n (l :: ls) (match f with Rows rs => Rows (v :: rs) | f => f end).
Proof.
  intros R [ls0 rs H|ls0 l0 ls' rs H U|ls0 l0 ls' rs H U W].
  - constructor. constructor; auto.
  - apply (fate_bad n (l :: ls0) l0 ls' (v :: rs)); auto.
  - apply (fate_indet n (l :: ls0) l0 ls' (v :: rs)); auto.
Qed.
Definition after (data : list row) (f : loaded) : loaded := match f with Rows rs => Rows (data ++ rs) | f => f end.
Lemma load_fate n : forall fuel t, length t < fuel -> exists ls f, lines_of t ls /\ fate n ls f /\ forall data, load_lines fuel n data (open t) = after data f.
Proof.
  induction fuel as [|fuel IH]; intros t HF; [lia|].
  assert (ONE : forall l s ls f, line l -> get_line (open t) = (l, s) -> fail s = false ->
    (fate n ls f /\ forall data, load_lines fuel n data s = after data f) -> lines_of t (l :: ls) ->
    exists ls f, lines_of t ls /\ fate n ls f /\ forall data, load_lines (S fuel) n data (open t) = after data f).
  { intros l s ls f L G F (FT & LD) LT. destruct (get_row_cases n l (open l) (or_introl eq_refl)) as (os & s' & E & [(vs & r & R & -> & F')|[(U & F' & vs & ->)|(NR & U & F' & W)]]).
    - exists (l :: ls), (match f with Rows rs => Rows (vs :: rs) | f => f end). split; [exact LT|]. split; [apply fate_cons; [exists r|]; auto|]. intros data. cbn [load_lines]. rewrite G, F, E, written_some, F', LD.
      destruct f; cbn; [rewrite <- app_assoc|..]; reflexivity.
    - exists (l :: ls), ParseError. split; [exact LT|]. split; [apply (fate_bad n [] l ls []); [constructor|exact U]|]. intros data. cbn [load_lines]. rewrite G, F, E, written_some, F'. reflexivity.
    - exists (l :: ls), Indeterminate. split; [exact LT|]. split; [apply (fate_indet n [] l ls []); [constructor|exact NR|exact U]|]. intros data. cbn [load_lines]. rewrite G, F, E, W. reflexivity. }
  destruct (text_cases t) as [->|[(l & r & -> & L)|(N & L)]].
  - exists [], (Rows []). split; [apply lines_nil; reflexivity|]. split; [constructor; constructor|]. intros data. cbn. rewrite app_nil_r. reflexivity.
  - destruct (IH r) as (ls & f & LR & FR & LD). { rewrite app_length in HF. cbn in HF. lia. }
    apply (ONE l (open r) ls f); auto; [apply get_line_ok; exact L|]. apply lines_cons; auto. exists ls. auto.
  - apply (ONE t (Stream [] true (at_end t)) [] (Rows [])); auto.
    + apply get_line_last. exact L.
    + destruct t; [contradiction|reflexivity].
    + split; [constructor; constructor|]. intros data. destruct fuel; cbn; [|destruct t; [contradiction|]]; cbn; rewrite app_nil_r; reflexivity.
    + apply lines_last; auto.
Qed.
Lemma lines_fun t ls : lines_of t ls -> forall ls', lines_of t ls' -> ls = ls'.
Proof.
  remember (length t) as k eqn:K. revert t ls K. induction k as [k IH] using lt_wf_ind. intros t ls -> H ls' H'.
  destruct (text_cases t) as [->|[(l & r & -> & L)|(N & L)]].
  - apply lines_nil in H, H'. congruence.
  - apply lines_cons in H, H'; auto. destruct H as (a & -> & H), H' as (b & -> & H'). f_equal. eapply IH; [|reflexivity|exact H|exact H']. rewrite app_length. cbn. lia.
  - apply lines_last in H, H'; auto. congruence.
Qed.
Lemma rows_fun n ls rs : Forall2 (row_of n) ls rs -> forall rs', Forall2 (row_of n) ls rs' -> rs = rs'.
Proof.
  induction 1 as [|l v ls rs R _ IH]; intros rs' H; inversion H; subst; [reflexivity|]. f_equal; [eapply row_fun; eauto|apply IH; auto].
Qed.
Lemma load_rows_fate n t : exists ls, lines_of t ls /\ fate n ls (load_rows n t).
Proof.
  destruct (load_fate n (S (length t)) t ltac:(lia)) as (ls & f & L & FT & LD). exists ls. split; [exact L|]. unfold load_rows. rewrite LD. destruct f; exact FT.
Qed.
Lemma fate_no_rows n ls l ls' rs : (forall v, ~ row_of n l v) -> ~ Forall2 (row_of n) (ls ++ l :: ls') rs.
Proof. intros N H. apply Forall2_app_inv_l in H. destruct H as (a & b & _ & H & _). inversion H; subst. eapply N; eauto. Qed.
Lemma load_rows_iff n t rs : load_rows n t = Rows rs <-> exists ls, lines_of t ls /\ Forall2 (row_of n) ls rs.
Proof.
  destruct (load_rows_fate n t) as (ls & L & FT). split.
  - intros E. rewrite E in FT. inversion FT; subst. exists ls. auto.
  - intros (ls' & L' & R). rewrite <- (lines_fun _ _ L _ L') in R. destruct FT as [ls rs' H|ls l ls2 rs' H U|ls l ls2 rs' H N U].
    + f_equal. eapply rows_fun; eauto.
    + exfalso. destruct U as (m & vs & r & _ & _ & _ & N). eapply fate_no_rows; eauto.
    + exfalso. eapply fate_no_rows; eauto.
Qed.
Lemma bad_unique n ls l ls' rs : forall ls2 l2 ls2' rs2, (forall v, ~ row_of n l v) -> (forall v, ~ row_of n l2 v) -> Forall2 (row_of n) ls rs -> Forall2 (row_of n) ls2 rs2 ->
  ls ++ l :: ls' = ls2 ++ l2 :: ls2' -> l = l2.
Proof.
  revert rs. induction ls as [|a ls IH]; intros rs [|b ls2] l2 ls2' rs2 N N2 H H2 E; cbn in E; injection E as E0 E.
  - exact E0.
  - subst b. inversion H2; subst. exfalso. eapply N; eauto.
  - subst a. inversion H; subst. exfalso. eapply N2; eauto.
  - inversion H; subst. inversion H2; subst. eapply IH; eauto.
Qed.
Lemma unreadable_no n l : unreadable n l -> forall v, ~ row_of n l v.
Proof. intros (m & vs & r & _ & _ & _ & N). exact N. Qed.
Lemma refused_iff n t :
  (load_rows n t = ParseError <-> exists ls l ls' rs, lines_of t (ls ++ l :: ls') /\ Forall2 (row_of n) ls rs /\ unreadable n l) /\
  (load_rows n t = Indeterminate <-> exists ls l ls' rs, lines_of t (ls ++ l :: ls') /\ Forall2 (row_of n) ls rs /\ (forall v, ~ row_of n l v) /\ ~ unreadable n l).
Proof.
  destruct (load_rows_fate n t) as (ls & L & FT). split; split.
  - intros E. rewrite E in FT. inversion FT as [|a l b rs H U|]; subst. exists a, l, b, rs. auto.
  - intros (a & l & b & rs & L' & H & U). assert (X := lines_fun _ _ L _ L'). subst ls. clear L'. inversion FT as [? ? H2|? ? ? ? H2 U2|? ? ? ? H2 N2 U2]; subst.
    + exfalso. eapply fate_no_rows; [|exact H2]. apply unreadable_no; auto.
    + reflexivity.
    + exfalso. apply U2. match goal with E : _ ++ _ = _ ++ _ |- _ => assert (X := bad_unique n _ _ _ _ _ _ _ _ N2 (unreadable_no _ _ U) H2 H E) end. congruence.
  - intros E. rewrite E in FT. inversion FT as [| |a l b rs H N U]; subst. exists a, l, b, rs. auto.
  - intros (a & l & b & rs & L' & H & N & U). assert (X := lines_fun _ _ L _ L'). subst ls. clear L'. inversion FT as [? ? H2|? ? ? ? H2 U2|? ? ? ? H2 N2 U2]; subst.
    + exfalso. eapply fate_no_rows; [|exact H2]. exact N.
    + exfalso. apply U. match goal with E : _ ++ _ = _ ++ _ |- _ => assert (X := bad_unique n _ _ _ _ _ _ _ _ (unreadable_no _ _ U2) N H2 H E) end. congruence.
    + reflexivity.
Qed.
Lemma row_len n l vs : row_of n l vs -> length vs = n.
Proof. intros (r & H). induction H; cbn; auto. Qed.
Lemma row_fewer n k t vs r : row_then (n + k) t vs r -> exists r', row_then n t (firstn n vs) r'.
Proof.
  revert t vs. induction n as [|n IH]; intros t vs H; [exists t; constructor|]. inversion H as [|? a t' x u vs' ? A N FD R]; subst. destruct (IH _ _ R) as (r' & R'). exists r'. cbn. econstructor; eauto.
Qed.
Lemma fewer_columns n k t rows : load_rows (n + k) t = Rows rows -> load_rows n t = Rows (map (firstn n) rows).
Proof.
  rewrite !load_rows_iff. intros (ls & L & H). exists ls. split; [exact L|]. clear L. induction H as [|l v ls rs (r & R) _ IH]; cbn; constructor; auto. eapply row_fewer; eauto.
Qed.
Lemma blank_first n a t : all_blank a -> line a -> load_rows (S n) (a ++ newline :: t) = Indeterminate.
Proof.
  intros A L. apply refused_iff. destruct (load_rows_fate (S n) t) as (ls & LT & _). exists [], a, ls, []. split; [apply lines_cons; auto; exists ls; auto|]. split; [constructor|].
  assert (N : forall m v r, ~ row_then (S m) a v r).
  { intros m v r H. inversion H as [|? b t' x u vs ? B NT FD R]; subst. destruct (number_head _ _ _ NT) as (c & t2 & -> & NB). unfold all_blank in A. rewrite Forall_app in A. destruct A as [_ A]. apply Forall_inv in A. contradiction. }
  split; [intros v (r & H); eapply N; eauto|]. intros (m & vs & r & E & R & NB & _). injection E as <-. destruct n as [|n]; [inversion R; subst; contradiction|]. eapply N; eauto.
Qed.
