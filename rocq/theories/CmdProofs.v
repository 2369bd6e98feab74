From Coq Require Import String Ascii ZArith Lia List Bool.
From Verif Require Import TextModel ParamModel ParamTextModel FormatModel RootModel RootSpec RootProofs CmdModel CmdSpec.
Import ListNotations.
Local Open Scope string_scope.
Local Open Scope list_scope.

(** * The command line *)
Lemma strip_cases c : exists s, strip c = Some s /\ (s = c \/ (c = ("--" ++ s)%string /\ forall s', s <> String "-" s')) /\
  ((forall s', c = ("--" ++ s')%string -> exists s'', s' = String "-" s'') -> s = c).
Proof.
  unfold strip, char_is. destruct c as [|a c]; cbn [char_at option_map].
  - eexists. split; [reflexivity|]. auto.
  - destruct (Ascii.eqb_spec a "-") as [->|N]; [|eexists; split; [reflexivity|]; auto].
    destruct c as [|b c]; cbn [char_at option_map]; [eexists; split; [reflexivity|]; auto|].
    destruct (Ascii.eqb_spec b "-") as [->|N]; [|eexists; split; [reflexivity|]; auto].
    destruct c as [|d c]; cbn [char_at option_map].
    + eexists. split; [reflexivity|]. cbn [drop]. split; [right; split; [reflexivity|discriminate]|]. intros H. destruct (H "" eq_refl) as (? & ?). discriminate.
    + destruct (Ascii.eqb_spec d "-") as [->|N]; (eexists; split; [reflexivity|]); [auto|]. cbn [drop].
      split; [right; split; [reflexivity|congruence]|]. intros H. destruct (H (String d c) eq_refl) as (? & ?). congruence.
Qed.
Lemma strip_name name arg s : (forall s', name <> String "-" s') -> strip arg = Some s -> (s = name <-> spelled name arg).
Proof.
  intros N E. destruct (strip_cases arg) as (s0 & E0 & H1 & H2). rewrite E in E0. injection E0 as <-. unfold spelled. split.
  - intros ->. destruct H1 as [->|[-> _]]; auto.
  - intros [-> | ->].
    + apply H2. intros s' ->. exfalso. eapply N. reflexivity.
    + destruct H1 as [->|[H1 _]].
      * unfold strip, char_is in E. cbn in E. destruct name as [|d name]; [cbn in E; discriminate|]. cbn in E.
        destruct (Ascii.eqb_spec d "-") as [->|D]; [exfalso; eapply N; reflexivity|]. exfalso. congruence.
      * cbn in H1. congruence.
Qed.
Lemma strip_short arg s c : c <> "-"%char -> strip arg = Some s -> (s = String "-" (String c "") <-> arg = String "-" (String c "")).
Proof.
  intros C E. destruct (strip_cases arg) as (s0 & E0 & H1 & H2). rewrite E in E0. injection E0 as <-. split.
  - intros ->. destruct H1 as [H1|[_ H1]]; [congruence|]. exfalso. eapply H1. reflexivity.
  - intros ->. destruct H1 as [H1|[H1 H3]]; [exact H1|]. cbn in H1. injection H1 as H1. congruence.
Qed.
Lemma one_of_spec s l : one_of s l = true <-> In s l.
Proof.
  unfold one_of. rewrite existsb_exists. split; [intros (x & I & E); apply String.eqb_eq in E; subst; exact I|]. intros I. exists s. split; [exact I|apply String.eqb_refl].
Qed.
Lemma dispatch_defined argv : dispatch argv <> AUndefined.
Proof.
  destruct argv as [|p [|arg rest]]; cbn [dispatch]; try discriminate. destruct (strip_cases arg) as (s & -> & _).
  destruct (one_of s ["help"; "-?"]); [destruct rest as [|topic ?]; [discriminate|]; destruct (String.eqb topic "params"); discriminate|].
  destruct (one_of s ["version"; "-v"]); [discriminate|].
  destruct (one_of s ["inspect"; "-i"]); [destruct rest as [|? [|? ?]]; discriminate|]. destruct (one_of s ["initialize"; "-i"]); [destruct rest as [|? [|? ?]]; discriminate|].
  destruct (one_of s ["generate"; "-g"]); [destruct rest as [|? [|? ?]]; discriminate|]. destruct (one_of s ["merge-soft"]); [destruct rest as [|? [|? ?]]; discriminate|].
  destruct (one_of s ["merge-hard"]); [destruct rest as [|? [|? ?]]; discriminate|]. discriminate.
Qed.
(** Which command a stripped argument selects. *)
Lemma one_of_false s l : one_of s l = false -> ~ In s l.
Proof. rewrite <- one_of_spec. intros ->. discriminate. Qed.
Definition known := ["help"; "-?"; "version"; "-v"; "inspect"; "-i"; "initialize"; "generate"; "-g"; "merge-soft"; "merge-hard"].
(** What [dispatch] does, by the stripped command. *)
Definition chosen (s : string) (rest : list string) : action :=
  if in_dec string_dec s ["help"; "-?"] then match rest with [] => AHelp | t :: _ => if String.eqb t "params" then AHelpParams else AHelpParam t end
  else if in_dec string_dec s ["version"; "-v"] then AVersion
  else if in_dec string_dec s ["inspect"; "-i"] then match rest with [f] => AInspect f | _ => ABadArguments end
  else if in_dec string_dec s ["initialize"] then match rest with [f] => AInitialize f | _ => ABadArguments end
  else if in_dec string_dec s ["generate"; "-g"] then match rest with [f] => AGenerate f | _ => ABadArguments end
  else if in_dec string_dec s ["merge-soft"] then match rest with out :: (_ :: _) as files => AMergeSoft out files | _ => ABadArguments end
  else if in_dec string_dec s ["merge-hard"] then match rest with out :: (_ :: _) as files => AMergeHard out files | _ => ABadArguments end
  else ABadArguments.
Lemma known_cases s : In s known \/ ~ In s known.
Proof. destruct (in_dec string_dec s known); auto. Qed.
Lemma one_of_dec s l : one_of s l = if in_dec string_dec s l then true else false.
Proof. destruct (in_dec string_dec s l) as [I|I]; [apply one_of_spec, I|]. destruct (one_of s l) eqn:E; [|reflexivity]. apply one_of_spec in E. contradiction. Qed.
Lemma dispatch_chosen p arg rest s : strip arg = Some s -> dispatch (p :: arg :: rest) = chosen s rest.
Proof.
  intros E. cbn [dispatch]. rewrite E. unfold chosen. rewrite !one_of_dec.
  destruct (in_dec string_dec s ["help"; "-?"]); [destruct rest; reflexivity|]. destruct (in_dec string_dec s ["version"; "-v"]); [reflexivity|].
  destruct (in_dec string_dec s ["inspect"; "-i"]) as [|N]; [reflexivity|].
  destruct (in_dec string_dec s ["initialize"; "-i"]) as [I|I]; destruct (in_dec string_dec s ["initialize"]) as [J|J]; try (exfalso; cbn [In] in *; tauto); [reflexivity|].
  destruct (in_dec string_dec s ["generate"; "-g"]); [reflexivity|]. destruct (in_dec string_dec s ["merge-soft"]); [reflexivity|]. destruct (in_dec string_dec s ["merge-hard"]); reflexivity.
Qed.
Ltac chosen_tac s rest := 
  destruct (known_cases s) as [K|K];
  [unfold known in K; cbn [In] in K; repeat (destruct K as [K|K]; [subst s|]); [..|contradiction K];
   cbn -[String.eqb]; destruct rest as [|r1 [|r2 r]]; try (destruct (String.eqb_spec r1 "params"))
  |unfold chosen; repeat match goal with |- context [in_dec string_dec s ?l] => destruct (in_dec string_dec s l) as [I|I]; [exfalso; apply K; unfold known; cbn [In] in *; tauto|clear I] end;
   unfold known in K; cbn [In] in K].
Ltac fin := split; [intros H; try discriminate H; try (injection H; intros; subst); intuition (eauto; try discriminate)|intros H; intuition (try discriminate; try congruence)].
Lemma chosen_inspect s rest f : chosen s rest = AInspect f <-> rest = [f] /\ (s = "inspect" \/ s = "-i").
Proof. chosen_tac s rest; fin. Qed.
Lemma chosen_initialize s rest f : chosen s rest = AInitialize f <-> rest = [f] /\ s = "initialize".
Proof. chosen_tac s rest; fin. Qed.
Lemma chosen_generate s rest f : chosen s rest = AGenerate f <-> rest = [f] /\ (s = "generate" \/ s = "-g").
Proof. chosen_tac s rest; fin. Qed.
Lemma chosen_soft s rest out l : chosen s rest = AMergeSoft out l <-> rest = out :: l /\ l <> [] /\ s = "merge-soft".
Proof. chosen_tac s rest; fin. Qed.
Lemma chosen_hard s rest out l : chosen s rest = AMergeHard out l <-> rest = out :: l /\ l <> [] /\ s = "merge-hard".
Proof. chosen_tac s rest; fin. Qed.
Lemma chosen_version s rest : chosen s rest = AVersion <-> s = "version" \/ s = "-v".
Proof. chosen_tac s rest; fin. Qed.
Lemma chosen_help s rest : chosen s rest = AHelp <-> rest = [] /\ (s = "help" \/ s = "-?").
Proof. chosen_tac s rest; fin. Qed.
Lemma chosen_hint s rest : chosen s rest <> AHint.
Proof. chosen_tac s rest; discriminate. Qed.

(** * Files *)
Lemma put_same fs n f : put_file fs n f n = Some f.
Proof. unfold put_file. rewrite String.eqb_refl. reflexivity. Qed.
Lemma put_other fs n f m : m <> n -> put_file fs n f m = fs m.
Proof. intros N. unfold put_file. destruct (String.eqb_spec m n); [contradiction|reflexivity]. Qed.
(** What a command leaves behind: nothing new, or one new file. *)
Definition leaves (fs fs' : files) (o : option string) : Prop :=
  fs' = fs \/ exists n f, o = Some n /\ fs n = None /\ fs' = put_file fs n f.
Lemma leaves_kept fs fs' o : leaves fs fs' o -> kept fs fs' /\ adds_only fs fs' (fun n => o = Some n).
Proof.
  intros [->|(n & f & -> & N & ->)]; [split; repeat intro; auto|]. split.
  - intros m g M. rewrite put_other; [exact M|]. congruence.
  - intros m M. apply put_other. congruence.
Qed.
Lemma step_exit code fs o c fs' : step code fs o = Exit c fs' -> (code = SUCCESS /\ o = Exit c fs') \/ (code <> SUCCESS /\ c = code /\ fs' = fs).
Proof. unfold step. destruct (Z.eqb_spec code SUCCESS); [auto|]. intros [= <- <-]. auto. Qed.
Ltac ex := match goal with H : Exit _ _ = Exit _ _ |- _ => injection H as <- <- end.
Ltac same := left; reflexivity.
Lemma init_leaves w e fs c fs' : initialize w e fs = Exit c fs' -> leaves fs fs' (i_name e).
Proof.
  unfold initialize. intros H. destruct (i_opened e); cbn [negb] in H; [|ex; same]. destruct (i_parsed e); cbn [negb] in H; [|ex; same].
  apply step_exit in H. destruct H as [[_ H]|(_ & _ & ->)]; [|same]. destruct (i_name e) as [n|]; [|ex; same]. destruct (fs n) eqn:N; [ex; same|].
  destruct (creatable w n); cbn [negb] in H; [|ex; same]. cbv zeta in H.
  assert (L : forall f, leaves fs (put_file fs n f) (Some n)) by (intros f; right; exists n, f; auto).
  destruct (i_types e) as [[|t ts]|]; [ex; apply L| |ex; apply L].
  destruct (forallb (i_density e) (t :: ts)); cbn [negb] in H; [|ex; apply L].
  destruct (negb (i_complete e) && i_strict e); [ex; apply L|]. destruct (build_all w e (t :: ts) empty_file) as [code f].
  apply step_exit in H. destruct H as [[_ H]|(_ & _ & ->)]; [|apply L]. destruct (write_param_dir w (i_params e) f). ex. apply L.
Qed.
Lemma gen_leaves w e fs c fs' : generate w e fs = Exit c fs' -> leaves fs fs' (g_name e).
Proof.
  unfold generate. intros H. destruct (g_opened e); cbn [negb] in H; [|ex; same]. destruct (g_parsed e); cbn [negb] in H; [|ex; same].
  apply step_exit in H. destruct H as [[_ H]|(_ & _ & ->)]; [|same]. destruct (g_types e) as [[|t ts]|]; [ex; same| |ex; same].
  destruct (g_foam e) as [fn|]; [|ex; same]. destruct (fs fn) as [foam|]; [|ex; same]. destruct (f_params foam) as [d|]; [|ex; same].
  destruct (read_params (g_format e) d) as [ps| |]; [|ex; same|discriminate]. destruct (g_seeds e) as [k|]; [|ex; same].
  destruct (Nat.eqb k 1); cbn [negb] in H; [|ex; same]. destruct (g_compatible e ps); cbn [negb] in H; [|ex; same].
  apply step_exit in H. destruct H as [[_ H]|(_ & _ & ->)]; [|same]. destruct (g_name e) as [n|]; [|ex; same]. destruct (fs n) eqn:N; [ex; same|].
  destruct (creatable w n); cbn [negb] in H; [|ex; same]. cbv zeta in H.
  assert (L : forall f, leaves fs (put_file fs n f) (Some n)) by (intros f; right; exists n, f; auto).
  apply step_exit in H. destruct H as [[_ H]|(_ & _ & ->)]; [|apply L]. destruct (g_num_events e <=? 0)%Z; [ex; apply L|]. destruct (g_mc_coords e); [ex; apply L|].
  destruct (negb (g_complete e) && g_strict e); [ex; apply L|]. destruct (write_param_dir w (g_params e) empty_file) as [code f].
  apply step_exit in H. destruct H as [[_ H]|(_ & _ & ->)]; [|apply L]. destruct (disk w "events"); cbn [negb] in H; [|ex; apply L].
  destruct (write_stats w (g_stats e) _). ex. apply L.
Qed.
Lemma merge_leaves w e out names fs c fs' : merge_soft w e out names fs = Exit c fs' -> leaves fs fs' (Some out).
Proof.
  unfold merge_soft. intros H. destruct (merge_pars e fs names None) as [ps|code|]; [|ex; same|discriminate]. cbv zeta in H.
  destruct (merge_integs e fs names None) as [l|code|]; [|ex; same|discriminate]. destruct (fs out) eqn:N; [ex; same|].
  destruct (creatable w out); cbn [negb] in H; [|ex; same].
  assert (L : forall f, leaves fs (put_file fs out f) (Some out)) by (intros f; right; exists out, f; auto).
  destruct (write_param_dir w _ empty_file) as [code f]. apply step_exit in H. destruct H as [[_ H]|(_ & _ & ->)]; [|apply L].
  destruct (write_stats w _ f) as [code' f']. apply step_exit in H. destruct H as [[_ H]|(_ & _ & ->)]; [|apply L].
  destruct (disk w "events"); cbn [negb] in H; ex; apply L.
Qed.
Lemma main_leaves e argv fs c fs' : main e argv fs = Exit c fs' -> kept fs fs' /\ adds_only fs fs' (output e argv).
Proof.
  intros H. unfold main, merge_hard in H. assert (same_ : forall P, kept fs fs /\ adds_only fs fs P) by (intros; split; repeat intro; auto).
  destruct (dispatch argv) eqn:D; try (ex; apply same_); try discriminate.
  - unfold inspect in H. destruct (fs file) as [f|]; [|ex; apply same_]. destruct (f_params f) as [d|]; [|ex; apply same_].
    destruct (read_params _ d); [|ex; apply same_|discriminate]. destruct (f_stats f) as [s|]; [|ex; apply same_]. destruct (read_integs s); try discriminate; ex; apply same_.
  - apply init_leaves, leaves_kept in H. destruct H as [H1 H2]. split; [exact H1|]. intros n N. apply H2. intros E. apply N. left. eauto.
  - apply gen_leaves, leaves_kept in H. destruct H as [H1 H2]. split; [exact H1|]. intros n N. apply H2. intros E. apply N. right. left. eauto.
  - apply merge_leaves, leaves_kept in H. destruct H as [H1 H2]. split; [exact H1|]. intros n N. apply H2. intros [= <-]. apply N. right. right. eauto.
Qed.

(** * What is in the files *)
Lemma short_name_inj a b : short_name a = short_name b -> a = b.
Proof. destruct a, b; cbn; congruence. Qed.
Lemma build_all_done w e ts : forall f f', build_all w e ts f = (SUCCESS, f') ->
  f_params f' = f_params f /\ (forall t, In t ts -> exists data, i_build e t = Some data /\ get_gen (f_gens f') (short_name t) = Some data) /\
  (forall t, ~ In t ts -> get_gen (f_gens f') (short_name t) = get_gen (f_gens f) (short_name t)).
Proof.
  induction ts as [|t ts IH]; intros f f' H; cbn [build_all] in H.
  - injection H as <-. split; [reflexivity|]. split; [intros ? []|reflexivity].
  - destruct (i_build e t) as [data|] eqn:B; [|discriminate]. destruct ((Z.of_nat (length data) <=? 2 ^ 31 - 1)%Z && disk w (short_name t)); [|discriminate].
    destruct (IH _ _ H) as (P & G & O). cbn [f_params f_gens] in *. split; [exact P|]. split.
    + intros t' I. destruct (in_dec (fun a b : event_type => ltac:(decide equality) : {a = b} + {a <> b}) t' ts) as [J|J]; [exact (G t' J)|].
      destruct I as [<-|I]; [|contradiction]. exists data. split; [exact B|]. rewrite (O t J). cbn [get_gen]. rewrite String.eqb_refl. reflexivity.
    + intros t' N. rewrite (O t'); [|intros J; apply N; right; exact J]. cbn [get_gen]. destruct (String.eqb_spec (short_name t) (short_name t')) as [E|_]; [|reflexivity].
      apply short_name_inj in E. exfalso. apply N. left. exact E.
Qed.
Lemma build_all_params w e ts : forall f c f', build_all w e ts f = (c, f') -> f_params f' = f_params f /\ f_stats f' = f_stats f.
Proof.
  induction ts as [|t ts IH]; intros f c f' H; cbn [build_all] in H; [injection H as <- <-; auto|].
  destruct (i_build e t) as [data|]; [|injection H as <- <-; auto].
  destruct ((Z.of_nat (length data) <=? 2 ^ 31 - 1)%Z && disk w (short_name t)); [|injection H as <- <-; auto]. apply IH in H. exact H.
Qed.
Lemma param_dir_done w ps f f' : write_param_dir w ps f = (SUCCESS, f') ->
  exists d, write_params (disk w) ps [] = (true, d) /\ f' = RFile (Some d) (f_gens f) (f_events f) (f_stats f).
Proof. unfold write_param_dir. destruct (write_params (disk w) ps []) as [[] d]; intros [=]; subst. eauto. Qed.
Lemma init_done w e fs fs' : initialize w e fs = Exit SUCCESS fs' ->
  exists n f, i_name e = Some n /\ fs n = None /\ fs' = put_file fs n f /\ generator_file w e f.
Proof.
  unfold initialize. intros H. destruct (i_opened e); cbn [negb] in H; [|discriminate]. destruct (i_parsed e); cbn [negb] in H; [|discriminate].
  apply step_exit in H. destruct H as [[_ H]|(N & E & _)]; [|congruence]. destruct (i_name e) as [n|]; [|discriminate]. destruct (fs n) eqn:N; [discriminate|].
  destruct (creatable w n); cbn [negb] in H; [|discriminate]. cbv zeta in H.
  destruct (i_types e) as [[|t ts]|] eqn:T; [discriminate| |discriminate].
  destruct (forallb (i_density e) (t :: ts)); cbn [negb] in H; [|discriminate].
  destruct (negb (i_complete e) && i_strict e); [discriminate|]. destruct (build_all w e (t :: ts) empty_file) as [code f] eqn:B.
  apply step_exit in H. destruct H as [[-> H]|(N' & E & _)]; [|congruence]. destruct (write_param_dir w (i_params e) f) as [code f'] eqn:W.
  injection H as -> <-. destruct (param_dir_done _ _ _ _ W) as (d & D & ->). destruct (build_all_done _ _ _ _ _ B) as (_ & G & _).
  exists n, (RFile (Some d) (f_gens f) (f_events f) (f_stats f)). split; [reflexivity|]. split; [exact N|]. split; [reflexivity|]. split; [exists d; auto|].
  exists (t :: ts). split; [exact T|]. split; [discriminate|exact G].
Qed.
Lemma write_objs_done w l : forall d d', NoDup (map fst l) -> write_objs w l d = (SUCCESS, d') ->
  (forall name o, In (name, o) l -> get_obj d' name = Some o) /\ (forall name, ~ In name (map fst l) -> get_obj d' name = get_obj d name).
Proof.
  induction l as [|[n o] l IH]; intros d d' ND H; cbn [write_objs] in H.
  - injection H as <-. split; [intros ? ? []|reflexivity].
  - destruct (disk w n); [|discriminate]. inversion ND as [|? ? N1 N2]; subst. destruct (IH _ _ N2 H) as [A B]. split.
    + intros name o' [E|I]; [|exact (A _ _ I)]. injection E as <- <-. rewrite (B n N1). cbn [get_obj]. rewrite String.eqb_refl. reflexivity.
    + intros name N. cbn [map fst In] in N. rewrite B by tauto. cbn [get_obj]. destruct (String.eqb_spec n name); [tauto|reflexivity].
Qed.
Lemma integs_nodup total l : NoDup (map fst (write_integs total l)).
Proof. cbn. repeat constructor; cbn; intuition discriminate. Qed.
(** Statistics cut short are not complete. *)
Lemma write_objs_cut w l : forall d c d', write_objs w l d = (c, d') -> c <> SUCCESS ->
  exists name, In name (map fst l) /\ disk w name = false /\ (~ In name (map fst d) -> get_obj d' name = None).
Proof.
  assert (A : forall (d : rdir) n, ~ In n (map fst d) -> get_obj d n = None).
  { induction d as [|[m o] d IH]; intros n N; [reflexivity|]. cbn [map fst In get_obj] in *. destruct (String.eqb_spec m n); [tauto|]. apply IH. tauto. }
  induction l as [|[n o] l IH]; intros d c d' H N; cbn [write_objs] in H; [injection H as <- <-; contradiction|].
  destruct (disk w n) eqn:D.
  - destruct (IH _ _ _ H N) as (name & I & DN & G). exists name. split; [right; exact I|]. split; [exact DN|]. intros X. apply G. cbn [map fst In]. intros [->|J]; [congruence|contradiction].
  - injection H as <- <-. exists n. split; [left; reflexivity|]. split; [exact D|]. apply A.
Qed.
Lemma stats_cut w s f c f' : write_stats w s f = (c, f') -> c <> SUCCESS -> exists d, f_stats f' = Some d /\ ~ stats_complete d.
Proof.
  unfold write_stats. destruct (write_objs w (write_integs (fst s) (snd s)) []) as [c' d] eqn:W. intros [= <- <-] N. exists d. split; [reflexivity|]. intros C.
  destruct (write_objs_cut _ _ _ _ _ W N) as (name & I & _ & G). specialize (G ltac:(intros [])).
  cbn in I. repeat destruct I as [<-|I]; try contradiction I; cbn [fst] in G;
    (match type of G with get_obj d ?nm = None => assert (S : exists size, In (nm, size) stats_arrays) by (eexists; unfold stats_arrays; cbn; eauto 10);
       destruct S as [size S]; destruct (C _ _ S) as (l & L & _); congruence end).
Qed.
Lemma stats_whole w s f f' : length (snd s) = 2%nat -> write_stats w s f = (SUCCESS, f') -> exists d, f_stats f' = Some d /\ stats_complete d /\
  forall name o, In (name, o) (write_integs (fst s) (snd s)) -> get_obj d name = Some o.
Proof.
  unfold write_stats. intros L. destruct (write_objs w (write_integs (fst s) (snd s)) []) as [c' d] eqn:W. intros [= -> <-]. exists d. split; [reflexivity|].
  destruct (write_objs_done _ _ _ _ (integs_nodup _ _) W) as [G _]. split; [|exact G].
  destruct s as [total [|a [|b [|? ?]]]]; try discriminate. cbn [fst snd] in *. intros name size I. cbn in I.
  repeat destruct I as [[= <- <-]|I]; try contradiction I; (eexists; split; [apply G; cbn; eauto 10|reflexivity]).
Qed.
Lemma gen_done w e fs fs' : generate w e fs = Exit SUCCESS fs' ->
  exists n f, g_name e = Some n /\ fs n = None /\ fs' = put_file fs n f /\ event_file w e f.
Proof.
  unfold generate. intros H. destruct (g_opened e); cbn [negb] in H; [|discriminate]. destruct (g_parsed e); cbn [negb] in H; [|discriminate].
  apply step_exit in H. destruct H as [[_ H]|(N & E & _)]; [|congruence]. destruct (g_types e) as [[|t ts]|]; [discriminate| |discriminate].
  destruct (g_foam e) as [fn|]; [|discriminate]. destruct (fs fn) as [foam|]; [|discriminate]. destruct (f_params foam) as [d|]; [|discriminate].
  destruct (read_params (g_format e) d) as [ps| |]; [|discriminate|discriminate]. destruct (g_seeds e) as [k|]; [|discriminate].
  destruct (Nat.eqb k 1); cbn [negb] in H; [|discriminate]. destruct (g_compatible e ps); cbn [negb] in H; [|discriminate].
  apply step_exit in H. destruct H as [[_ H]|(N & E & _)]; [|congruence]. destruct (g_name e) as [n|]; [|discriminate]. destruct (fs n) eqn:N; [discriminate|].
  destruct (creatable w n); cbn [negb] in H; [|discriminate]. cbv zeta in H.
  apply step_exit in H. destruct H as [[_ H]|(N' & E & _)]; [|congruence]. destruct (Z.leb_spec (g_num_events e) 0) as [|P]; [discriminate|]. destruct (g_mc_coords e); [discriminate|].
  destruct (negb (g_complete e) && g_strict e); [discriminate|]. destruct (write_param_dir w (g_params e) empty_file) as [code f] eqn:W.
  apply step_exit in H. destruct H as [[-> H]|(N' & E & _)]; [|congruence]. destruct (disk w "events"); cbn [negb] in H; [|discriminate].
  destruct (write_stats w (g_stats e) _) as [code f'] eqn:WS. injection H as -> <-. destruct (param_dir_done _ _ _ _ W) as (dp & D & ->).
  exists n, f'. split; [reflexivity|]. split; [exact N|]. split; [reflexivity|]. unfold write_stats in WS. cbn [f_params f_gens f_events f_stats] in WS.
  destruct (write_objs w _ []) as [c' ds] eqn:WO. injection WS as -> <-. destruct (write_objs_done _ _ _ _ (integs_nodup _ _) WO) as [G _].
  split; [exists dp; auto|]. split.
  - eexists. split; [reflexivity|]. rewrite map_length, seq_length. split; [lia|]. intros i r R. 
    rewrite nth_error_map in R. destruct (nth_error (seq 0 (Z.to_nat (g_num_events e))) i) as [j|] eqn:J; [|discriminate]. injection R as <-.
    assert (i < Z.to_nat (g_num_events e))%nat by (rewrite <- (seq_length (Z.to_nat (g_num_events e)) 0); apply nth_error_Some; congruence).
    apply (nth_error_nth _ _ 0%nat) in J. rewrite seq_nth in J by assumption. subst j. reflexivity.
  - exists ds. split; [reflexivity|exact G].
Qed.

(** * Merging *)
Lemma merge_pars_done e fs names : forall acc r, merge_pars e fs names acc = MGood r ->
  forall n, In n names -> exists f d ps, fs n = Some f /\ f_params f = Some d /\ read_params (m_format e) d = PRead ps.
Proof.
  induction names as [|m names IH]; intros acc r H n I; [destruct I|]. cbn [merge_pars] in H.
  destruct (fs m) as [f|] eqn:F; [|discriminate]. destruct (f_params f) as [d|] eqn:D; [|discriminate]. destruct (read_params (m_format e) d) as [ps| |] eqn:P; try discriminate.
  assert (M : exists f d ps, fs m = Some f /\ f_params f = Some d /\ read_params (m_format e) d = PRead ps) by (exists f, d, ps; auto).
  destruct acc as [acc|]; [destruct (m_merge e ps acc); [|discriminate]|]; (destruct I as [<-|I]; [exact M|exact (IH _ _ H n I)]).
Qed.
Lemma merge_integs_done e fs names : forall acc r, merge_integs e fs names acc = MGood r ->
  (forall n, In n names -> exists f d, fs n = Some f /\ f_stats f = Some d /\ stats_complete d).
Proof.
  induction names as [|m names IH]; intros acc r H n I; [destruct I|]. cbn [merge_integs] in H.
  destruct (fs m) as [f|] eqn:F; [|discriminate]. destruct (f_stats f) as [d|] eqn:D; [|discriminate]. destruct (read_integs d) as [l| |] eqn:P; try discriminate.
  destruct I as [<-|I]; [|exact (IH _ _ H n I)]. exists f, d. split; [exact F|]. split; [exact D|]. apply complete_iff. congruence.
Qed.
Lemma merge_integs_two e fs names : (forall a b, length a = 2%nat -> length b = 2%nat -> length (m_add e a b) = 2%nat) ->
  forall acc r, (forall l, acc = Some l -> length l = 2%nat) -> merge_integs e fs names acc = MGood r -> forall l, r = Some l -> length l = 2%nat.
Proof.
  intros A. induction names as [|m names IH]; intros acc r L H l E; cbn [merge_integs] in H; [injection H as <-; auto|].
  destruct (fs m) as [f|]; [|discriminate]. destruct (f_stats f) as [d|]; [|discriminate]. destruct (read_integs d) as [l'| |] eqn:P; try discriminate.
  assert (L' : length l' = 2%nat).
  { unfold read_integs in P. do 6 (match type of P with context [get_array d ?n ?k] => destruct (get_array d n k) end; try discriminate).
    destruct (all_some _) as [l''|] eqn:S; [|discriminate]. injection P as <-. clear -S. cbn [num_event_types seq map all_some] in S.
    destruct (read_integ l0 l1 l2 l3 l4 1); [|discriminate]. destruct (read_integ l0 l1 l2 l3 l4 2); [|discriminate]. injection S as <-. reflexivity. }
  eapply IH; [|exact H|exact E]. intros l0 [= <-]. destruct acc as [a|]; [apply A; auto|exact L'].
Qed.
Lemma merge_done w e out names fs fs' : merge_soft w e out names fs = Exit SUCCESS fs' ->
  (forall a b, length a = 2%nat -> length b = 2%nat -> length (m_add e a b) = 2%nat) ->
  fs out = None /\ (forall n, In n names -> n <> out /\ mergeable e (fs n)) /\
  exists f, fs' = put_file fs out f /\ f_events f = Some (Chain names) /\ f_params f <> None /\ exists d, f_stats f = Some d /\ stats_complete d.
Proof.
  unfold merge_soft. intros H A. destruct (merge_pars e fs names None) as [ps|code|] eqn:P; [|injection H as -> <-|discriminate].
  2:{ exfalso. clear -P. revert P. generalize (@None eparams). induction names as [|m names IH]; intros acc P; cbn [merge_pars] in P; [discriminate|].
      destruct (fs m) as [f|]; [|discriminate]. destruct (f_params f) as [d|]; [|discriminate]. destruct (read_params (m_format e) d) as [ps| |]; try discriminate.
      destruct acc as [acc|]; [destruct (m_merge e ps acc); [|discriminate]|]; eapply IH; exact P. }
  cbv zeta in H. destruct (merge_integs e fs names None) as [l|code|] eqn:L; [|injection H as -> <-|discriminate].
  2:{ exfalso. clear -L. revert L. generalize (@None (list ginteg)). induction names as [|m names IH]; intros acc P; cbn [merge_integs] in P; [discriminate|].
      destruct (fs m) as [f|]; [|discriminate]. destruct (f_stats f) as [d|]; [|discriminate]. destruct (read_integs d) as [ps| |]; try discriminate. eapply IH; exact P. }
  destruct (fs out) eqn:N; [discriminate|]. split; [reflexivity|]. split.
  { intros n I. destruct (merge_pars_done _ _ _ _ _ P n I) as (f & d & q & F & D & Q). destruct (merge_integs_done _ _ _ _ _ L n I) as (f' & s & F' & S & C).
    split; [congruence|]. assert (f' = f) by congruence. subst f'. exists f, d, q, s. auto. }
  destruct (creatable w out); cbn [negb] in H; [|discriminate].
  destruct (write_param_dir w _ empty_file) as [code f] eqn:W. apply step_exit in H. destruct H as [[-> H]|(N' & E & _)]; [|congruence].
  destruct (write_stats w _ f) as [code' f'] eqn:WS. apply step_exit in H. destruct H as [[-> H]|(N' & E & _)]; [|congruence].
  destruct (disk w "events"); cbn [negb] in H; [|discriminate]. injection H as <-. eexists. split; [reflexivity|]. split; [reflexivity|].
  destruct (param_dir_done _ _ _ _ W) as (dp & D & ->). cbn [f_params f_stats]. split.
  - unfold write_stats in WS. destruct (write_objs w _ []). injection WS as _ <-. discriminate.
  - edestruct (stats_whole w) as (d & S & C & _); [|exact WS|exists d; auto]. cbn [snd]. destruct l as [l|]; [|reflexivity].
    eapply merge_integs_two; [exact A| |exact L|reflexivity]. discriminate.
Qed.

(** * Failures *)
Definition no_params (o : option rfile) : Prop := forall f, o = Some f -> f_params f = None.
Lemma init_fail w e fs c fs' n : initialize w e fs = Exit c fs' -> c <> SUCCESS -> c <> ERROR_WRITING_PARAMS -> i_name e = Some n -> fs n = None -> no_params (fs' n).
Proof.
  unfold initialize. intros H NS NW NM N. assert (B : no_params (fs n)) by (rewrite N; intros ? [=]).
  assert (L : forall f, f_params f = None -> no_params (put_file fs n f n)) by (intros f F g; rewrite put_same; intros [= <-]; exact F).
  destruct (i_opened e); cbn [negb] in H; [|ex; exact B]. destruct (i_parsed e); cbn [negb] in H; [|ex; exact B].
  apply step_exit in H. destruct H as [[_ H]|(_ & _ & ->)]; [|exact B]. rewrite NM in H. rewrite N in H. 
  destruct (creatable w n); cbn [negb] in H; [|ex; exact B]. cbv zeta in H.
  destruct (i_types e) as [[|t ts]|]; [ex; apply L; reflexivity| |ex; apply L; reflexivity].
  destruct (forallb (i_density e) (t :: ts)); cbn [negb] in H; [|ex; apply L; reflexivity].
  destruct (negb (i_complete e) && i_strict e); [ex; apply L; reflexivity|]. destruct (build_all w e (t :: ts) empty_file) as [code f] eqn:BA.
  apply step_exit in H. destruct H as [[_ H]|(_ & _ & ->)]; [|apply L; apply build_all_params in BA; exact (proj1 BA)].
  unfold write_param_dir in H. destruct (write_params (disk w) (i_params e) []) as [[] d]; injection H as <- <-; contradiction.
Qed.
Lemma gen_refuses w e fs n : g_foam e = Some n -> no_params (fs n) -> exists c, c <> SUCCESS /\ generate w e fs = Exit c fs.
Proof.
  intros F N. unfold generate. destruct (g_opened e); cbn [negb]; [|eexists; split; [|reflexivity]; discriminate]. destruct (g_parsed e); cbn [negb]; [|eexists; split; [|reflexivity]; discriminate].
  unfold step at 1. destruct (Z.eqb_spec (g_sf e) SUCCESS) as [_|E]; [|eauto].
  destruct (g_types e) as [[|t ts]|]; [eexists; split; [|reflexivity]; discriminate| |eexists; split; [|reflexivity]; discriminate].
  rewrite F. destruct (fs n) as [f|]; [|eexists; split; [|reflexivity]; discriminate]. rewrite (N f eq_refl). eexists; split; [|reflexivity]; discriminate.
Qed.
Lemma gen_fail w e m fs c fs' n : generate w e fs = Exit c fs' -> c <> SUCCESS -> g_name e = Some n -> fs n = None -> ~ mergeable m (fs' n).
Proof.
  intros H NS NM N.
  assert (B : ~ mergeable m (fs n)) by (rewrite N; intros (? & ? & ? & ? & [=] & _)).
  assert (L : forall f, (forall d, f_stats f = Some d -> ~ stats_complete d) -> ~ mergeable m (put_file fs n f n)) by (intros f F; rewrite put_same; intros (? & ? & ? & s & [= <-] & _ & _ & S & C); exact (F s S C)).
  assert (L0 : forall f, f_stats f = None -> ~ mergeable m (put_file fs n f n)) by (intros f F; apply L; rewrite F; discriminate).
  unfold generate in H. destruct (g_opened e); cbn [negb] in H; [|ex; exact B]. destruct (g_parsed e); cbn [negb] in H; [|ex; exact B].
  apply step_exit in H. destruct H as [[_ H]|(_ & _ & ->)]; [|exact B]. destruct (g_types e) as [[|t ts]|]; [ex; exact B| |ex; exact B].
  destruct (g_foam e) as [fn|]; [|ex; exact B]. destruct (fs fn) as [foam|]; [|ex; exact B]. destruct (f_params foam) as [d|]; [|ex; exact B].
  destruct (read_params (g_format e) d) as [ps| |]; [|ex; exact B|discriminate]. destruct (g_seeds e) as [k|]; [|ex; exact B].
  destruct (Nat.eqb k 1); cbn [negb] in H; [|ex; exact B]. destruct (g_compatible e ps); cbn [negb] in H; [|ex; exact B].
  apply step_exit in H. destruct H as [[_ H]|(_ & _ & ->)]; [|exact B]. rewrite NM, N in H.
  destruct (creatable w n); cbn [negb] in H; [|ex; exact B]. cbv zeta in H.
  apply step_exit in H. destruct H as [[_ H]|(_ & _ & ->)]; [|apply L0; reflexivity]. destruct (g_num_events e <=? 0)%Z; [ex; apply L0; reflexivity|]. destruct (g_mc_coords e); [ex; apply L0; reflexivity|].
  destruct (negb (g_complete e) && g_strict e); [ex; apply L0; reflexivity|]. destruct (write_param_dir w (g_params e) empty_file) as [code f] eqn:W.
  assert (f_stats f = None) by (unfold write_param_dir in W; destruct (write_params (disk w) (g_params e) []); injection W as _ <-; reflexivity).
  apply step_exit in H. destruct H as [[_ H]|(_ & _ & ->)]; [|apply L0; assumption]. destruct (disk w "events"); cbn [negb] in H; [|ex; apply L0; assumption].
  destruct (write_stats w (g_stats e) _) as [code' f'] eqn:WS. injection H as <- <-. apply L. destruct (stats_cut _ _ _ _ _ WS NS) as (s & S & C). rewrite S. intros ? [= <-]. exact C.
Qed.
Lemma merge_refuses w e out names fs c fs' n : In n names -> ~ mergeable e (fs n) -> merge_soft w e out names fs = Exit c fs' -> c <> SUCCESS /\ fs' = fs.
Proof.
  intros I M H. unfold merge_soft in H. destruct (merge_pars e fs names None) as [ps|code|] eqn:P; [| |discriminate].
  2:{ ex. split; [|reflexivity]. clear -P. revert P. generalize (@None eparams). induction names as [|m names IH]; intros acc P; cbn [merge_pars] in P; [discriminate|].
      destruct (fs m) as [f|]; [|injection P as <-; discriminate]. destruct (f_params f) as [d|]; [|injection P as <-; discriminate]. destruct (read_params (m_format e) d) as [ps| |]; [|injection P as <-; discriminate|discriminate].
      destruct acc as [acc|]; [destruct (m_merge e ps acc); [|injection P as <-; discriminate]|]; eapply IH; exact P. }
  cbv zeta in H. destruct (merge_integs e fs names None) as [l|code|] eqn:L; [| |discriminate].
  2:{ ex. split; [|reflexivity]. clear -L. revert L. generalize (@None (list ginteg)). induction names as [|m names IH]; intros acc P; cbn [merge_integs] in P; [discriminate|].
      destruct (fs m) as [f|]; [|injection P as <-; discriminate]. destruct (f_stats f) as [d|]; [|injection P as <-; discriminate]. destruct (read_integs d) as [ps| |]; [|injection P as <-; discriminate|discriminate]. eapply IH; exact P. }
  exfalso. apply M. destruct (merge_pars_done _ _ _ _ _ P n I) as (f & d & q & F & D & Q). destruct (merge_integs_done _ _ _ _ _ L n I) as (f' & s & F' & S & C).
  assert (f' = f) by congruence. subst f'. exists f, d, q, s. auto.
Qed.

(** * One after the other *)
Lemma build_all_ok w e data ts : (forall name, disk w name = true) -> (forall t, In t ts -> i_build e t = Some (data t) /\ (Z.of_nat (length (data t)) < 2 ^ 31)%Z) ->
  forall f, exists f', build_all w e ts f = (SUCCESS, f') /\ f_params f' = f_params f.
Proof.
  intros D. induction ts as [|t ts IH]; intros H f; cbn [build_all]; [eauto|]. destruct (H t (or_introl eq_refl)) as [-> L].
  replace (Z.of_nat (length (data t)) <=? 2 ^ 31 - 1)%Z with true by (symmetry; apply Z.leb_le; lia). rewrite D. cbn [andb].
  edestruct IH as (f' & B & P); [intros t' I; apply H; right; exact I|]. exists f'. split; [exact B|exact P].
Qed.
Lemma init_runs w e fmt data fs n : init_ok w e fmt data -> i_name e = Some n -> fs n = None ->
  exists f d r, initialize w e fs = Exit SUCCESS (put_file fs n f) /\ generator_file w e f /\ f_params f = Some d /\ read_params fmt d = PRead r /\ carries fmt (i_params e) r.
Proof.
  intros (O & P & SF & (n' & NM & CR) & (ts & T & NE & TS) & CO & D & (ND & SH & WT & ST)) NM' N. rewrite NM in NM'. injection NM' as ->.
  assert (H : exists fs', initialize w e fs = Exit SUCCESS fs').
  { unfold initialize. rewrite O, P, SF, NM, N, CR, T. cbn [negb]. unfold step at 1. cbv zeta. cbn [SUCCESS Z.eqb]. change (SUCCESS =? SUCCESS)%Z with true. cbv iota.
    destruct ts as [|t ts]; [contradiction|]. replace (forallb (i_density e) (t :: ts)) with true by (symmetry; apply forallb_forall; intros t' I; apply TS, I). cbn [negb].
    replace (negb (i_complete e) && i_strict e) with false by (destruct CO as [-> | ->]; [reflexivity|destruct (i_complete e); reflexivity]).
    destruct (build_all_ok w e data (t :: ts) D) with (f := empty_file) as (f & -> & _); [intros t' I; destruct (TS t' I); tauto|]. unfold step. change (SUCCESS =? SUCCESS)%Z with true. cbv iota.
    unfold write_param_dir. destruct (root_round (disk w) (i_params e) fmt D ND SH WT ST) as (d & r & -> & _). eauto. }
  destruct H as [fs' H]. destruct (init_done _ _ _ _ H) as (n1 & f & NM1 & _ & -> & G). rewrite NM in NM1. injection NM1 as <-.
  destruct (root_round (disk w) (i_params e) fmt D ND SH WT ST) as (d & r & W & R & C). exists f, d, r. split; [exact H|]. split; [exact G|].
  destruct G as [(d' & W' & F) _]. split; [congruence|]. auto.
Qed.
Lemma gen_runs w e ps data fs m foam d n r : gen_ok w e ps data -> g_foam e = Some m -> fs m = Some foam -> f_params foam = Some d ->
  read_params (g_format e) d = PRead r -> carries (g_format e) ps r -> g_name e = Some n -> fs n = None ->
  (forall ts t, g_types e = Some ts -> In t ts -> get_gen (f_gens foam) (short_name t) = Some (data t)) ->
  exists f dp r' s l, generate w e fs = Exit SUCCESS (put_file fs n f) /\ event_file w e f /\ f_params f = Some dp /\ read_params (g_format e) dp = PRead r' /\
    f_stats f = Some s /\ stats_complete s /\ read_integs s = SRead l.
Proof.
  intros (O & P & SF & (ts & T & NE & TS) & SD & CM & (n' & NM & CR) & SU & NEV & MC & CO & D & (ND & SH & WT & ST) & (a & b & AB & OA & OB)) FN FM FP RP CA NM' N GG.
  rewrite NM in NM'. injection NM' as ->.
  destruct (root_round (disk w) (g_params e) (g_format e) D ND SH WT ST) as (dp & r' & W & R' & _).
  assert (WO : forall l d0, exists d1, write_objs w l d0 = (SUCCESS, d1)) by (induction l as [|[n1 o1] l IH]; intros d0; cbn [write_objs]; [eauto|rewrite D; apply IH]).
  assert (H : exists fs', generate w e fs = Exit SUCCESS fs').
  { unfold generate. rewrite O, P, SF, T, FN, FM, FP, RP, SD, (CM r CA), NM, N, CR, SU, MC. cbn [negb Nat.eqb]. unfold step at 1. change (SUCCESS =? SUCCESS)%Z with true. cbv iota zeta.
    destruct ts as [|t ts]; [contradiction|].
    assert (LA : load_all e (t :: ts) foam = SUCCESS).
    { assert (G : forall l, incl l (t :: ts) -> load_all e l foam = SUCCESS); [|apply G, incl_refl]. induction l as [|t' l IH]; intros I; [reflexivity|]. cbn [load_all].
      rewrite (GG _ t' T (I t' (or_introl eq_refl))), (TS t' (I t' (or_introl eq_refl))). apply IH. intros x X. apply I. right. exact X. }
    rewrite LA. unfold step. change (SUCCESS =? SUCCESS)%Z with true. cbv iota. destruct (Z.leb_spec (g_num_events e) 0); [lia|].
    replace (negb (g_complete e) && g_strict e) with false by (destruct CO as [-> | ->]; [reflexivity|destruct (g_complete e); reflexivity]).
    unfold write_param_dir. rewrite W. change (SUCCESS =? SUCCESS)%Z with true. cbv iota. rewrite D. cbn [negb]. unfold write_stats.
    destruct (WO (write_integs (fst (g_stats e)) (snd (g_stats e))) []) as (d1 & ->). eauto. }
  destruct H as [fs' H]. destruct (gen_done _ _ _ _ H) as (n1 & f & NM1 & _ & -> & G). rewrite NM in NM1. injection NM1 as <-.
  pose proof G as ((d' & W' & F) & _ & (s & S & SG)). rewrite W in W'. injection W' as <-.
  assert (SC : stats_complete s /\ exists l, read_integs s = SRead l).
  { destruct (integs_back (fst (g_stats e)) a b OA OB) as (a' & b' & IB & _). rewrite AB in SG.
    assert (EQ : forall name k, In name (map fst stats_arrays) -> get_array s name k = get_array (write_integs (fst (g_stats e)) [a; b]) name k).
    { intros name k I. unfold get_array. unfold stats_arrays in I. cbn [map fst In] in I.
      repeat (destruct I as [<-|I]; [erewrite SG; [|unfold write_integs; cbn [In]; eauto 10]; reflexivity|]). destruct I. }
    assert (RE : read_integs s = read_integs (write_integs (fst (g_stats e)) [a; b])).
    { unfold read_integs. rewrite !EQ by (cbn; tauto). reflexivity. }
    split; [apply complete_iff; congruence|]. rewrite RE, IB. eauto. }
  destruct SC as (SC & l & RL). exists f, dp, r', s, l. auto 10.
Qed.
Lemma merge_pars_one e fs n f d r : fs n = Some f -> f_params f = Some d -> read_params (m_format e) d = PRead r -> merge_pars e fs [n] None = MGood (Some r).
Proof. intros F P R. cbn [merge_pars]. rewrite F, P, R. reflexivity. Qed.
(** Written parameters never fail when everything can be written. *)
Lemma write_params_ok (dk : string -> bool) ps : (forall name, dk name = true) -> forall d, exists d', write_params dk ps d = (true, d').
Proof. intros D. induction ps as [|[n p] ps IH]; intros d; cbn [write_params]; [eauto|]. destruct (p_value p); [rewrite D|]; apply IH. Qed.
Lemma pipeline w ie ge me fs data n m out :
  init_ok w ie (g_format ge) data -> gen_ok w ge (i_params ie) data -> m_format me = g_format ge ->
  (forall its gts, i_types ie = Some its -> g_types ge = Some gts -> incl gts its) ->
  i_name ie = Some n -> g_foam ge = Some n -> g_name ge = Some m -> NoDup [n; m; out] -> fs n = None -> fs m = None -> fs out = None -> creatable w out = true ->
  exists fs1 fs2 fs3 f g h, initialize w ie fs = Exit SUCCESS fs1 /\ generate w ge fs1 = Exit SUCCESS fs2 /\ merge_soft w me out [m] fs2 = Exit SUCCESS fs3 /\
    fs3 n = Some f /\ fs3 m = Some g /\ fs3 out = Some h /\ generator_file w ie f /\ event_file w ge g /\ f_events h = Some (Chain [m]).
Proof.
  intros IO GO MF TY NI FG NG ND N1 N2 N3 CR. 
  assert (NM : n <> m /\ n <> out /\ m <> out).
  { inversion ND as [|? ? A B]; subst. inversion B as [|? ? A' B']; subst. cbn [In] in *. intuition congruence. }
  destruct NM as (NM & NO & MO).
  destruct (init_runs w ie (g_format ge) data fs n IO NI N1) as (f & d & r & HI & GF & FP & RP & CA).
  destruct (gen_runs w ge (i_params ie) data (put_file fs n f) n f d m r GO FG (put_same _ _ _) FP RP CA NG) as (g & dp & r' & s & l & HG & EF & GP & GR & GS & SC & RL).
  - rewrite put_other by congruence. exact N2.
  - intros ts t T I. destruct IO as (_ & _ & _ & _ & (its & IT & _ & IB) & _). destruct GF as (_ & its' & IT' & _ & GB). rewrite IT in IT'. injection IT' as <-.
    pose proof (TY _ _ IT T t I) as J. destruct (GB t J) as (dt & B & G). destruct (IB t J) as (_ & B' & _). congruence.
  - assert (D : forall name, disk w name = true) by (destruct IO as (_ & _ & _ & _ & _ & _ & D & _); exact D).
    set (fs2 := put_file (put_file fs n f) m g) in *.
    assert (HM : exists h, merge_soft w me out [m] fs2 = Exit SUCCESS (put_file fs2 out h) /\ f_events h = Some (Chain [m])).
    { unfold merge_soft. erewrite merge_pars_one; [|apply put_same|exact GP|rewrite MF; exact GR]. cbn [merge_integs]. unfold fs2 at 1. rewrite put_same, GS, RL. cbv zeta.
      unfold fs2 at 1. rewrite put_other by congruence. rewrite put_other by congruence. rewrite N3, CR. cbn [negb]. unfold write_param_dir.
      destruct (write_params_ok (disk w) r' D []) as (d' & ->). unfold step. change (SUCCESS =? SUCCESS)%Z with true. cbv iota. unfold write_stats. cbn [fst snd].
      assert (WO : forall l0 d0, exists d1, write_objs w l0 d0 = (SUCCESS, d1)) by (induction l0 as [|[n1 o1] l0 IH]; intros d0; cbn [write_objs]; [eauto|rewrite D; apply IH]).
      destruct (WO (write_integs (m_total me l) l) []) as (d1 & ->). change (SUCCESS =? SUCCESS)%Z with true. cbv iota. rewrite D. cbn [negb]. eexists. split; reflexivity. }
    destruct HM as (h & HM & HE). exists (put_file fs n f), fs2, (put_file fs2 out h), f, g, h. split; [exact HI|]. split; [exact HG|]. split; [exact HM|].
    split; [rewrite put_other by congruence; unfold fs2; rewrite put_other by congruence; apply put_same|]. split; [rewrite put_other by congruence; apply put_same|].
    split; [apply put_same|]. auto.
Qed.
(** A file that is there is never created again. *)
Lemma init_exists w e fs n f c fs' : i_name e = Some n -> fs n = Some f -> initialize w e fs = Exit c fs' -> c <> SUCCESS /\ fs' = fs.
Proof.
  unfold initialize. intros NM N H. destruct (i_opened e); cbn [negb] in H; [|ex; split; [discriminate|reflexivity]]. destruct (i_parsed e); cbn [negb] in H; [|ex; split; [discriminate|reflexivity]].
  apply step_exit in H. destruct H as [[_ H]|(X & -> & ->)]; [|auto]. rewrite NM, N in H. ex. split; [discriminate|reflexivity].
Qed.
Definition no_events (e : gen_env) : gen_env :=
  GenEnv (g_opened e) (g_parsed e) (g_sf e) (g_types e) (g_foam e) (g_format e) (g_seeds e) (g_compatible e) (g_load e) (g_name e) (g_setup e) 0 (g_mc_coords e)
    (g_complete e) (g_strict e) (g_params e) (g_row e) (g_stats e).
Lemma load_all_no_events e ts f : load_all (no_events e) ts f = load_all e ts f.
Proof. induction ts as [|t ts IH]; cbn [load_all]; [reflexivity|]. destruct (get_gen (f_gens f) (short_name t)); [|reflexivity]. cbn [no_events g_load]. destruct (g_load e t t0); [exact IH|reflexivity]. Qed.
Lemma gen_retry w e fs fs2 : generate w e fs = Exit SUCCESS fs2 ->
  exists fs1, generate w (no_events e) fs = Exit ERROR_PARAMS_INVALID fs1 /\ generate w e fs1 = Exit ERROR_FILE_NOT_CREATED fs1.
Proof.
  unfold generate. intros H. cbn [no_events g_opened g_parsed g_sf g_types g_foam g_format g_seeds g_compatible g_name g_setup g_num_events g_mc_coords g_complete g_strict g_params g_stats].
  destruct (g_opened e); cbn [negb] in *; [|discriminate]. destruct (g_parsed e); cbn [negb] in *; [|discriminate].
  apply step_exit in H. destruct H as [[-> H]|(N & E & _)]; [|congruence]. unfold step at 1. setoid_rewrite Z.eqb_refl. destruct (g_types e) as [[|t ts]|]; [discriminate| |discriminate].
  destruct (g_foam e) as [fn|]; [|discriminate]. destruct (fs fn) as [foam|] eqn:FF; [|discriminate]. destruct (f_params foam) as [d|] eqn:FP; [|discriminate].
  destruct (read_params (g_format e) d) as [ps| |] eqn:RP; [|discriminate|discriminate]. destruct (g_seeds e) as [k|]; [|discriminate].
  destruct (Nat.eqb k 1); cbn [negb] in *; [|discriminate]. destruct (g_compatible e ps) eqn:GC; cbn [negb] in *; [|discriminate].
  apply step_exit in H. rewrite load_all_no_events. destruct H as [[LA H]|(N & E & _)]; [|congruence]. rewrite LA. unfold step at 1. setoid_rewrite Z.eqb_refl.
  destruct (g_name e) as [n|]; [|discriminate]. destruct (fs n) eqn:N; [discriminate|].
  destruct (creatable w n); cbn [negb] in *; [|discriminate]. cbv zeta in *.
  apply step_exit in H. destruct H as [[-> H]|(N' & E & _)]; [|congruence]. unfold step at 1. setoid_rewrite Z.eqb_refl. cbn [Z.leb Z.compare].
  eexists. split; [reflexivity|]. unfold step at 1. rewrite Z.eqb_refl. rewrite put_other by congruence. rewrite FF, FP, RP, GC. cbn [negb]. unfold step at 1. rewrite LA, Z.eqb_refl. rewrite put_same. reflexivity.
Qed.
(** * The command line as a whole *)
Lemma dispatch_iff prog arg rest :
  (forall f, dispatch (prog :: arg :: rest) = AInspect f <-> rest = [f] /\ (spelled "inspect" arg \/ arg = "-i")) /\
  (forall f, dispatch (prog :: arg :: rest) = AInitialize f <-> rest = [f] /\ spelled "initialize" arg) /\
  (forall f, dispatch (prog :: arg :: rest) = AGenerate f <-> rest = [f] /\ (spelled "generate" arg \/ arg = "-g")) /\
  (forall out l, dispatch (prog :: arg :: rest) = AMergeSoft out l <-> rest = out :: l /\ l <> [] /\ spelled "merge-soft" arg) /\
  (forall out l, dispatch (prog :: arg :: rest) = AMergeHard out l <-> rest = out :: l /\ l <> [] /\ spelled "merge-hard" arg) /\
  (dispatch (prog :: arg :: rest) = AVersion <-> spelled "version" arg \/ arg = "-v") /\
  (dispatch (prog :: arg :: rest) = AHelp <-> rest = [] /\ (spelled "help" arg \/ arg = "-?")) /\
  dispatch (prog :: arg :: rest) <> AHint.
Proof.
  destruct (strip_cases arg) as (s & S & _). rewrite (dispatch_chosen prog arg rest s S).
  assert (A : forall name, (forall s', name <> String "-" s') -> (spelled name arg <-> s = name)) by (intros name H; symmetry; apply strip_name; assumption).
  assert (B : forall c, c <> "-"%char -> (arg = String "-" (String c "") <-> s = String "-" (String c ""))) by (intros c H; symmetry; apply strip_short; assumption).
  split; [intros f; rewrite chosen_inspect, (A "inspect"), (B "i"%char) by (try intro; discriminate); tauto|].
  split; [intros f; rewrite chosen_initialize, (A "initialize") by (try intro; discriminate); tauto|].
  split; [intros f; rewrite chosen_generate, (A "generate"), (B "g"%char) by (try intro; discriminate); tauto|].
  split; [intros out l; rewrite chosen_soft, (A "merge-soft") by (try intro; discriminate); tauto|].
  split; [intros out l; rewrite chosen_hard, (A "merge-hard") by (try intro; discriminate); tauto|].
  split; [rewrite chosen_version, (A "version"), (B "v"%char) by (try intro; discriminate); tauto|].
  split; [rewrite chosen_help, (A "help"), (B "?"%char) by (try intro; discriminate); tauto|]. apply chosen_hint.
Qed.
Lemma main_otherwise e prog arg rest fs :
  (forall name, In name ["help"; "version"; "inspect"; "initialize"; "generate"; "merge-soft"; "merge-hard"] -> ~ spelled name arg) ->
  ~ In arg ["-?"; "-v"; "-i"; "-g"] -> main e (prog :: arg :: rest) fs = Exit ERROR_ARG_PARSE fs.
Proof.
  intros H N. unfold main. destruct (strip_cases arg) as (s & S & _). rewrite (dispatch_chosen prog arg rest s S).
  assert (K : ~ In s known).
  { intros K. unfold known in K. cbn [In] in K. cbn [In] in H, N.
    assert (A : forall name, (forall s', name <> String "-" s') -> s = name -> spelled name arg) by (intros name X; exact (proj1 (strip_name name arg s X S))).
    assert (B : forall c, c <> "-"%char -> s = String "-" (String c "") -> arg = String "-" (String c "")) by (intros c X; exact (proj1 (strip_short arg s c X S))).
    repeat (destruct K as [K|K]; [symmetry in K; first [apply B in K; [apply N; rewrite K; tauto|discriminate]|apply A in K; [eapply H; [|exact K]; tauto|intro; discriminate]]|]). exact K. }
  replace (chosen s rest) with ABadArguments; [reflexivity|]. symmetry. unfold chosen.
  repeat match goal with |- context [in_dec string_dec s ?l] => destruct (in_dec string_dec s l) as [I|I]; [exfalso; apply K; unfold known; cbn [In] in *; tauto|clear I] end. reflexivity.
Qed.
Lemma exit_statuses : NoDup (map exit_status codes) /\ (forall c, In c codes -> (0 <= exit_status c < 256)%Z) /\ (forall c, In c codes -> exit_status c = 0%Z <-> c = SUCCESS).
Proof.
  split; [vm_compute; repeat constructor; cbn; intuition discriminate|]. split; [intros c _; apply Z.mod_pos_bound; lia|].
  intros c I. unfold codes in I. repeat (destruct I as [<-|I]; [vm_compute; split; intros; congruence|]). destruct I.
Qed.
