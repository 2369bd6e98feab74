(** Proofs about terminal.cpp. *)
From Coq Require Import Ascii List Bool ZArith Arith Lia.
From Verif Require Import TermModel TermSpec.
Import ListNotations.

(** * Words *)
Fixpoint wf (cur s : text) : list text :=
  match s with
  | [] => match cur with [] => [] | _ => [cur] end
  | c :: r => if is_blank c then (match cur with [] => wf [] r | _ => cur :: wf [] r end) else wf (cur ++ [c]) r
  end.
Lemma is_blank_true c : is_blank c = true <-> c = " "%char.
Proof. unfold is_blank, blank. apply Ascii.eqb_eq. Qed.
Lemma is_blank_false c : is_blank c = false <-> c <> " "%char.
Proof. unfold is_blank, blank. apply Ascii.eqb_neq. Qed.
Lemma no_space_cons c w : no_space (c :: w) <-> is_blank c = false /\ no_space w.
Proof.
  unfold no_space. rewrite is_blank_false. cbn. split.
  - intros H. split; [intros ->; apply H; now left | intros I; apply H; now right].
  - intros [H1 H2] [H|H]; congruence.
Qed.
Lemma wf_word w : forall cur s, no_space w -> wf cur (w ++ s) = wf (cur ++ w) s.
Proof.
  induction w as [|c w IH]; intros cur s H; [now rewrite app_nil_r|].
  apply no_space_cons in H as [Hc Hw]. cbn. rewrite Hc, IH by exact Hw. now rewrite <- app_assoc.
Qed.
Lemma wf_word0 w s : no_space w -> wf [] (w ++ s) = wf w s.
Proof. intros H. rewrite wf_word by exact H. reflexivity. Qed.
Lemma wf_of_words s ws : is_words s ws -> wf [] s = ws.
Proof.
  induction 1 as [| s ws H IH | w Hw Hn | w s ws Hw Hn H IH].
  - reflexivity.
  - cbn. exact IH.
  - rewrite <- (app_nil_r w) at 1. rewrite wf_word0 by exact Hn. destruct w; [congruence|reflexivity].
  - rewrite wf_word0 by exact Hn. destruct w as [|c w]; [congruence|].
    cbn [wf]. replace (is_blank " ") with true by reflexivity. now rewrite IH.
Qed.
Lemma words_of_wf s : forall cur, no_space cur -> is_words (cur ++ s) (wf cur s).
Proof.
  induction s as [|c s IH]; intros cur Hc.
  - rewrite app_nil_r. destruct cur; cbn; constructor; [discriminate|exact Hc].
  - cbn [wf]. destruct (is_blank c) eqn:E.
    + apply is_blank_true in E. subst c. assert (I := IH [] ltac:(intros [])). cbn [app] in I.
      destruct cur as [|d cur]; [apply words_gap; exact I | apply words_cons; [discriminate|exact Hc|exact I]].
    + replace (cur ++ c :: s) with ((cur ++ [c]) ++ s) by now rewrite <- app_assoc.
      apply IH. intros I. apply in_app_or in I as [I|[I|[]]]; [now apply Hc|].
      apply is_blank_false in E. congruence.
Qed.
Lemma words_exist s : is_words s (wf [] s).
Proof. exact (words_of_wf s [] ltac:(intros [])). Qed.
Lemma words_unique s ws ws' : is_words s ws -> is_words s ws' -> ws = ws'.
Proof. intros H H'. apply wf_of_words in H, H'. congruence. Qed.
Lemma wf_skip s : wf [] (skip_blanks s) = wf [] s.
Proof. induction s as [|c s IH]; [reflexivity|]. cbn. destruct (is_blank c) eqn:E; [exact IH | cbn; now rewrite E]. Qed.

(** * Pieces of the text *)
Definition starts_word (s : text) : Prop := match s with [] => True | c :: _ => is_blank c = false end.
Lemma skip_starts s : starts_word (skip_blanks s).
Proof. induction s as [|c s IH]; [exact I|]. cbn. destruct (is_blank c) eqn:E; [exact IH | exact E]. Qed.
Lemma skip_len s : length (skip_blanks s) <= length s.
Proof. induction s as [|c s IH]; [reflexivity|]. cbn. destruct (is_blank c); cbn; lia. Qed.
Lemma to_blank_split s : exists t, s = to_blank s ++ t /\ (t = [] \/ exists r, t = " "%char :: r).
Proof.
  induction s as [|c s [t [E T]]]; [exists []; split; [reflexivity|now left]|].
  cbn. destruct (is_blank c) eqn:B.
  - apply is_blank_true in B. subst c. exists (" "%char :: s). split; [reflexivity|right; now exists s].
  - exists t. split; [cbn; now rewrite <- E | exact T].
Qed.
Lemma to_blank_no s : no_space (to_blank s).
Proof.
  induction s as [|c s IH]; [intros []|]. cbn. destruct (is_blank c) eqn:B; [intros []|].
  apply no_space_cons. now split.
Qed.
Lemma to_blank_pos c s : is_blank c = false -> 1 <= length (to_blank (c :: s)).
Proof. intros H. cbn. rewrite H. cbn. lia. Qed.
Lemma skipn_word (s t w : text) : s = w ++ t -> skipn (length w) s = t.
Proof. intros ->. rewrite skipn_app, skipn_all, Nat.sub_diag. reflexivity. Qed.
Lemma wf_tail (w t : text) : w <> [] -> t = [] \/ (exists r, t = " "%char :: r) -> wf w t = w :: wf [] t.
Proof.
  intros Hw [->|[r ->]]; destruct w as [|c w]; try congruence; reflexivity.
Qed.
Lemma wf_first s : starts_word s -> s <> [] ->
  wf [] s = to_blank s :: wf [] (skip_blanks (skipn (length (to_blank s)) s)).
Proof.
  intros H N. destruct (to_blank_split s) as [t [E T]].
  rewrite (skipn_word s t (to_blank s) E), wf_skip. rewrite E at 1.
  rewrite wf_word0 by apply to_blank_no. apply wf_tail; [|exact T].
  destruct s as [|c s]; [congruence|]. cbn in H |- *. rewrite H. discriminate.
Qed.

(** * Lines *)
Lemma joined_snoc g w : g <> [] -> joined (g ++ [w]) = joined g ++ " "%char :: w.
Proof.
  induction g as [|a g IH]; [congruence|]. intros _. destruct g as [|b g]; [reflexivity|].
  change ((a :: b :: g) ++ [w]) with (a :: b :: (g ++ [w])).
  change (joined (a :: b :: g ++ [w])) with (a ++ " "%char :: joined ((b :: g) ++ [w])).
  rewrite IH by discriminate. change (joined (a :: b :: g)) with (a ++ " "%char :: joined (b :: g)).
  rewrite <- app_assoc. reflexivity.
Qed.
Lemma greedy_last width gs g g' : g <> [] -> greedy width (gs ++ [g]) -> greedy width (gs ++ [g ++ g']).
Proof.
  intros N. induction gs as [|a gs IH]; [intros _; exact I|].
  destruct gs as [|b gs].
  - cbn. intros [(w & ws & -> & L) _]. split; [|exact I]. exists w, (ws ++ g'). split; [reflexivity|exact L].
  - intros H. change (greedy width (a :: (b :: gs ++ [g ++ g']))). cbn [app] in *.
    cbn [greedy] in *. destruct H as [H1 H2]. split; [exact H1|]. apply IH. exact H2.
Qed.
Lemma greedy_new width gs g w : width < length (joined g) + 1 + length w ->
  greedy width (gs ++ [g]) -> greedy width ((gs ++ [g]) ++ [[w]]).
Proof.
  intros L. induction gs as [|a gs IH].
  - intros _. cbn. split; [|exact I]. exists w, []. now split.
  - intros H. destruct gs as [|b gs].
    + cbn in *. destruct H as [H _]. split; [exact H|]. split; [|exact I]. exists w, []. now split.
    + cbn [app] in *. destruct H as [H1 H2]. split; [exact H1|]. apply IH. exact H2.
Qed.
Lemma joined_pos g : g <> [] -> Forall (fun w => w <> []) g -> length (joined g) <> 0.
Proof.
  destruct g as [|w g]; [congruence|]. intros _ H. apply Forall_inv in H.
  destruct w as [|c w]; [congruence|]. destruct g; cbn; discriminate.
Qed.

(** The loop when every word fits. *)
Lemma loop_fit width : forall fuel rest gs g,
  length rest <= fuel -> starts_word rest ->
  Forall (fun w => length w <= width) (wf [] rest) -> Forall (fun w => w <> []) g ->
  (g = [] -> gs = []) -> greedy width (gs ++ [g]) -> Forall (fun l => length (joined l) <= width) (gs ++ [g]) ->
  exists groups, split_loop fuel width rest (rev (map joined gs)) (joined g) (length (joined g)) = Some (map joined groups) /\
    concat groups = concat gs ++ g ++ wf [] rest /\ greedy width groups /\
    Forall (fun l => length (joined l) <= width) groups.
Proof.
  induction fuel as [|fuel IH]; intros rest gs g Hf Hs Hw Hg Hgs Hgr Hle.
  - destruct rest; [|cbn in Hf; lia]. exists (gs ++ [g]). cbn.
    rewrite rev_involutive, map_app, concat_app. cbn. rewrite !app_nil_r. auto.
  - destruct rest as [|c r] eqn:ER.
    + exists (gs ++ [g]). cbn. rewrite rev_involutive, map_app, concat_app. cbn. rewrite !app_nil_r. auto.
    + rewrite <- ER in *. assert (Nr : rest <> []) by (rewrite ER; discriminate).
      assert (Hstep : split_loop (S fuel) width rest (rev (map joined gs)) (joined g) (length (joined g)) =
        let '(rest', done, cur, lw) := split_step width rest (rev (map joined gs)) (joined g) (length (joined g)) in
        split_loop fuel width rest' done cur lw) by (rewrite ER; reflexivity).
      rewrite Hstep. clear Hstep.
      rewrite (wf_first rest Hs Nr) in *.
      pose proof (Forall_inv Hw) as Hw1. pose proof (Forall_inv_tail Hw) as Hw2. cbv beta in Hw1.
      set (word := to_blank rest) in *. set (rest' := skip_blanks (skipn (length word) rest)) in *.
      assert (Pw : 1 <= length word) by (unfold word; rewrite ER in *; apply to_blank_pos; exact Hs).
      assert (Hr' : length rest' <= fuel).
      { unfold rest'. pose proof (skip_len (skipn (length word) rest)). rewrite skipn_length in *.
        assert (1 <= length rest) by (rewrite ER; cbn; lia). lia. }
      assert (Hs' : starts_word rest') by apply skip_starts.
      assert (Wn : word <> []) by (intros E; rewrite E in Pw; cbn in Pw; lia).
      unfold split_step. fold word. destruct g as [|a g0] eqn:EG.
      * (* an empty line *)
        specialize (Hgs eq_refl). subst gs. cbn [joined length Nat.eqb].
        assert (L : Nat.ltb width (0 + (length word + 0)) = false) by (apply Nat.ltb_ge; lia).
        rewrite L. cbn [app]. fold rest'.
        replace (0 + (length word + 0)) with (length (joined [word])) by (cbn [joined]; lia).
        change word with (joined [word]) at 1.
        destruct (IH rest' [] [word] Hr' Hs' Hw2) as (groups & E1 & E2 & E3 & E4).
        -- constructor; [exact Wn|constructor].
        -- discriminate.
        -- exact I.
        -- constructor; [exact Hw1|constructor].
        -- exists groups. split; [exact E1|]. split; [|now split]. rewrite E2. reflexivity.
      * rewrite <- EG in *. assert (Ng : g <> []) by (rewrite EG; discriminate).
        pose proof (joined_pos g Ng Hg) as Pj. destruct (Nat.eqb_spec (length (joined g)) 0) as [Z|_]; [congruence|].
        destruct (Nat.ltb_spec width (length (joined g) + (length word + 1))) as [L|L].
        -- (* the word goes to the next line *)
           cbn [app]. fold rest'.
           replace (0 + (length word + 1 - 1)) with (length (joined [word])) by (cbn [joined]; lia).
           change word with (joined [word]) at 1.
           destruct (IH rest' (gs ++ [g]) [word] Hr' Hs' Hw2) as (groups & E1 & E2 & E3 & E4).
           ++ constructor; [exact Wn|constructor].
           ++ discriminate.
           ++ apply greedy_new; [lia|exact Hgr].
           ++ apply Forall_app. split; [exact Hle|]. constructor; [exact Hw1|constructor].
           ++ exists groups. split; [|split; [|now split]].
              ** rewrite <- E1. f_equal. rewrite map_app, rev_app_distr. reflexivity.
              ** rewrite E2, concat_app. cbn [concat]. rewrite app_nil_r, <- !app_assoc. reflexivity.
        -- (* the word is added to the line *)
           fold rest'. unfold blank. rewrite <- (joined_snoc g word Ng).
           replace (length (joined g) + (length word + 1)) with (length (joined (g ++ [word])))
             by (rewrite joined_snoc by exact Ng; rewrite app_length; cbn; lia).
           destruct (IH rest' gs (g ++ [word]) Hr' Hs' Hw2) as (groups & E1 & E2 & E3 & E4).
           ++ apply Forall_app. split; [exact Hg|]. constructor; [exact Wn|constructor].
           ++ intros E. destruct g; discriminate.
           ++ apply greedy_last; [exact Ng|exact Hgr].
           ++ apply Forall_app in Hle as [Hl1 _]. apply Forall_app. split; [exact Hl1|]. constructor; [|constructor].
              rewrite joined_snoc by exact Ng. rewrite app_length. cbn. lia.
           ++ exists groups. split; [exact E1|]. split; [|now split]. rewrite E2, <- !app_assoc. reflexivity.
Qed.

Lemma split_fit input width ws : is_words input ws -> (forall w, In w ws -> length w <= width) ->
  exists groups, split_lines input width = Some (map joined groups) /\ concat groups = ws /\ greedy width groups /\
    forall l, In l groups -> length (joined l) <= width.
Proof.
  intros H Hw. apply wf_of_words in H.
  destruct (loop_fit width (length input + 2) (skip_blanks input) [] []) as (groups & E1 & E2 & E3 & E4).
  - pose proof (skip_len input). lia.
  - apply skip_starts.
  - rewrite wf_skip, H. apply Forall_forall. exact Hw.
  - constructor.
  - reflexivity.
  - exact I.
  - constructor; [cbn; lia|constructor].
  - exists groups. split; [exact E1|]. split; [rewrite E2, wf_skip; exact H|]. split; [exact E3|].
    now apply Forall_forall.
Qed.

(** * Any text *)
Lemma ink_app a b : ink (a ++ b) = ink a ++ ink b.
Proof. apply filter_app. Qed.
Lemma ink_skip s : ink (skip_blanks s) = ink s.
Proof.
  induction s as [|c s IH]; [reflexivity|]. cbn [skip_blanks]. destruct (is_blank c) eqn:E; [|reflexivity].
  rewrite IH. apply is_blank_true in E. subst c. reflexivity.
Qed.
Lemma ink_blank s : ink (blank :: s) = ink s. Proof. reflexivity. Qed.
Lemma ink_cut n (s : text) : ink (firstn n s) ++ ink (skipn n s) = ink s.
Proof. rewrite <- ink_app, firstn_skipn. reflexivity. Qed.

Lemma loop_any width m : forall fuel rest done cur lw,
  length rest + (if Nat.eqb lw 0 && Nat.eqb width 0 then 1 else 0) <= fuel -> starts_word rest ->
  Forall (fun w => length w <= m) (wf [] rest) ->
  (lw = 0 -> cur = []) -> length cur <= Nat.max width m -> (length cur <= lw) ->
  Forall (fun l => length l <= Nat.max width m) done ->
  exists lines, split_loop fuel width rest done cur lw = Some lines /\
    ink (concat lines) = ink (concat (rev done)) ++ ink cur ++ ink rest /\
    Forall (fun l => length l <= Nat.max width m) lines.
Proof.
  assert (Base : forall fuel done (cur : text) lw, length cur <= Nat.max width m ->
    Forall (fun l => length l <= Nat.max width m) done ->
    exists lines, split_loop fuel width [] done cur lw = Some lines /\
    ink (concat lines) = ink (concat (rev done)) ++ ink cur ++ ink [] /\
    Forall (fun l => length l <= Nat.max width m) lines).
  { intros fuel done cur lw Hc Hd. exists (rev (cur :: done)). split; [destruct fuel; reflexivity|]. split.
    - cbn [rev]. rewrite concat_app, ink_app. cbn. rewrite !app_nil_r. reflexivity.
    - apply Forall_rev. constructor; assumption. }
  induction fuel as [|fuel IH]; intros rest done cur lw Hf Hs Hw H0 Hc Hcl Hd.
  - destruct rest; [apply Base; assumption|cbn in Hf; lia].
  - destruct rest as [|c r] eqn:ER; [apply Base; assumption|].
    rewrite <- ER in *. assert (Nr : rest <> []) by (rewrite ER; discriminate).
    assert (Hstep : split_loop (S fuel) width rest done cur lw =
      let '(rest', done, cur, lw) := split_step width rest done cur lw in split_loop fuel width rest' done cur lw)
      by (rewrite ER; reflexivity).
    rewrite Hstep. clear Hstep.
    pose proof Hw as Hw'. rewrite (wf_first rest Hs Nr) in Hw'.
    pose proof (Forall_inv Hw') as Hw1. pose proof (Forall_inv_tail Hw') as Hw2. cbv beta in Hw1. clear Hw'.
    destruct (to_blank_split rest) as [t [Et Tt]].
    unfold split_step. set (word := to_blank rest) in *.
    assert (Pw : 1 <= length word) by (unfold word; rewrite ER in *; apply to_blank_pos; exact Hs).
    assert (Lr : length rest = length word + length t) by (rewrite Et at 1; apply app_length).
    assert (Ir : ink rest = ink word ++ ink (skip_blanks (skipn (length word) rest))).
    { rewrite (skipn_word rest t word Et), ink_skip, <- ink_app, <- Et. reflexivity. }
    assert (Sr : length (skip_blanks (skipn (length word) rest)) <= length t).
    { rewrite (skipn_word rest t word Et). apply skip_len. }
    destruct (Nat.eqb_spec lw 0) as [->|Nl].
    + specialize (H0 eq_refl). subst cur. cbn [andb] in Hf.
      destruct (Nat.ltb_spec width (0 + (length word + 0))) as [L|L].
      * (* truncated *)
        cbv beta iota zeta.
        assert (F : firstn width rest = firstn width word).
        { rewrite Et. rewrite firstn_app. replace (width - length word) with 0 by lia. cbn. apply app_nil_r. }
        assert (FL : length (firstn width rest) = width) by (rewrite firstn_length; lia).
        rewrite FL. set (rest' := skip_blanks (skipn width rest)).
        assert (S' : length rest' <= length rest - width).
        { unfold rest'. pose proof (skip_len (skipn width rest)). rewrite skipn_length in *. lia. }
        destruct (IH rest' done (firstn width rest) (0 + (length word + 0))) as (lines & E1 & E2 & E3).
        -- destruct (Nat.eqb_spec (0 + (length word + 0)) 0); [lia|]. cbn [andb].
           destruct (Nat.eqb_spec width 0); lia.
        -- apply skip_starts.
        -- unfold rest'. rewrite wf_skip.
           assert (D : skipn width rest = skipn width word ++ t).
           { rewrite Et at 1. rewrite skipn_app. replace (width - length word) with 0 by lia. reflexivity. }
           assert (Nw : no_space (skipn width word)).
           { intros I. apply (to_blank_no rest). fold word. rewrite <- (firstn_skipn width word). apply in_or_app. now right. }
           rewrite D, wf_word0 by exact Nw.
           rewrite wf_tail; [|intros E; apply (f_equal (@length _)) in E; rewrite skipn_length in E; cbn in E; lia|exact Tt].
           constructor; [rewrite skipn_length; lia|]. rewrite (skipn_word rest t word Et), wf_skip in Hw2. exact Hw2.
        -- lia.
        -- lia.
        -- lia.
        -- exact Hd.
        -- exists lines. split; [exact E1|]. split; [|exact E3]. rewrite E2. unfold rest'. rewrite ink_skip.
           cbn [ink filter app]. rewrite ink_cut. reflexivity.
      * cbv beta iota zeta. cbn [app].
        destruct (IH (skip_blanks (skipn (length word) rest)) done word (0 + (length word + 0))) as (lines & E1 & E2 & E3).
        -- destruct (Nat.eqb_spec (0 + (length word + 0)) 0); [lia|]. cbn [andb]. lia.
        -- apply skip_starts.
        -- exact Hw2.
        -- lia.
        -- lia.
        -- lia.
        -- exact Hd.
        -- exists lines. split; [exact E1|]. split; [|exact E3]. rewrite E2, Ir. reflexivity.
    + cbn [andb] in Hf.
      destruct (Nat.ltb_spec width (lw + (length word + 1))) as [L|L]; cbv beta iota zeta; cbn [app].
      * destruct (IH (skip_blanks (skipn (length word) rest)) (cur :: done) word (0 + (length word + 1 - 1))) as (lines & E1 & E2 & E3).
        -- destruct (Nat.eqb_spec (0 + (length word + 1 - 1)) 0); [lia|]. cbn [andb]. lia.
        -- apply skip_starts.
        -- exact Hw2.
        -- lia.
        -- lia.
        -- lia.
        -- constructor; [exact Hc|exact Hd].
        -- exists lines. split; [exact E1|]. split; [|exact E3]. rewrite E2, Ir. cbn [rev].
           rewrite concat_app, ink_app. cbn [concat]. rewrite app_nil_r, <- !app_assoc. reflexivity.
      * destruct (IH (skip_blanks (skipn (length word) rest)) done (cur ++ blank :: word) (lw + (length word + 1))) as (lines & E1 & E2 & E3).
        -- destruct (Nat.eqb_spec (lw + (length word + 1)) 0); [lia|]. cbn [andb]. lia.
        -- apply skip_starts.
        -- exact Hw2.
        -- lia.
        -- rewrite app_length. cbn [length]. lia.
        -- rewrite app_length. cbn [length]. lia.
        -- exact Hd.
        -- exists lines. split; [exact E1|]. split; [|exact E3]. rewrite E2, Ir, ink_app, ink_blank, <- !app_assoc. reflexivity.
Qed.

Lemma split_any input width m : (forall ws w, is_words input ws -> In w ws -> length w <= m) ->
  exists lines, split_lines input width = Some lines /\ ink (concat lines) = ink input /\
    forall l, In l lines -> length l <= Nat.max width m.
Proof.
  intros H.
  destruct (loop_any width m (length input + 2) (skip_blanks input) [] [] 0) as (lines & E1 & E2 & E3).
  - pose proof (skip_len input). destruct (Nat.eqb 0 0 && Nat.eqb width 0); lia.
  - apply skip_starts.
  - rewrite wf_skip. apply Forall_forall. intros w I. exact (H _ w (words_exist input) I).
  - reflexivity.
  - cbn. lia.
  - cbn. lia.
  - constructor.
  - exists lines. split; [exact E1|]. split; [rewrite E2; cbn; apply ink_skip|]. now apply Forall_forall.
Qed.

(** * Tables *)
Local Open Scope Z_scope.
Definition fits (width : nat) (e : text) : Prop := forall ws w, is_words e ws -> In w ws -> (length w <= width)%nat.
Lemma u32_id x : 0 <= x < 2 ^ 32 -> u32 x = x.
Proof. intros H. unfold u32. apply Z.mod_small. exact H. Qed.

Lemma wrap_row_fit widths : forall entries, Forall2 fits widths entries ->
  exists cells, wrap_row widths entries = Some cells /\ length cells = length widths /\
    Forall2 (fun w c => forall l, In l c -> (length l <= w)%nat) widths cells.
Proof.
  induction widths as [|w ws IH]; intros entries H; inversion H as [|? e ? es He Hes]; subst; clear H.
  - exists []. repeat split. constructor.
  - destruct (IH es Hes) as (cells & E & L & F).
    destruct (split_fit e w (wf [] e) (words_exist e)) as (groups & G1 & G2 & G3 & G4).
    { intros v Iv. exact (He _ v (words_exist e) Iv). }
    exists (map joined groups :: cells). cbn. rewrite G1, E. split; [reflexivity|]. split; [cbn; now rewrite L|].
    constructor; [|exact F]. intros l Il. apply in_map_iff in Il as (g & <- & Ig). now apply G4.
Qed.
Fixpoint total (ws : list nat) : Z := match ws with [] => 0 | w :: r => Z.of_nat w + total r end.
Lemma line_columns spacing sub : 0 <= spacing -> forall widths cells,
  Forall2 (fun w c => forall l, In l c -> (length l <= w)%nat) widths cells ->
  Forall (fun w => Z.of_nat w + spacing < 2 ^ 32) widths -> widths <> [] ->
  columns (table_line widths spacing cells sub) = total widths + spacing * (Z.of_nat (length widths) - 1).
Proof.
  intros Hs. induction widths as [|w ws IH]; intros cells HF HB N; [congruence|].
  inversion HF as [|? c ? cs Hc Hcs]; subst; clear HF. pose proof (Forall_inv HB) as Hw. apply Forall_inv_tail in HB.
  cbv beta in Hw. cbn [table_line columns total].
  assert (Ln : (length (nth sub c []) <= w)%nat).
  { destruct (nth_in_or_default sub c []) as [I|E]; [now apply Hc | rewrite E; cbn; lia]. }
  unfold cell_pad, len. unfold text in *. destruct ws as [|w' ws].
  - inversion Hcs. subst. cbn [table_line columns total length]. rewrite u32_id by lia. lia.
  - rewrite u32_id by lia. rewrite (IH cs Hcs HB ltac:(discriminate)).
    change (length (w :: w' :: ws)) with (S (length (w' :: ws))). lia.
Qed.
Lemma row_columns widths spacing entries : 0 <= spacing -> Forall2 fits widths entries ->
  Forall (fun w => Z.of_nat w + spacing < 2 ^ 32) widths -> widths <> [] ->
  exists lines, row_lines widths spacing entries = Some lines /\
    Forall (fun l => columns l = total widths + spacing * (Z.of_nat (length widths) - 1)) lines.
Proof.
  intros Hs HF HB N. destruct (wrap_row_fit widths entries HF) as (cells & E & L & F).
  unfold row_lines. rewrite E. eexists. split; [reflexivity|]. apply Forall_forall. intros l I.
  apply in_map_iff in I as (sub & <- & _). now apply line_columns.
Qed.
Lemma Forall2_len {A B} (P : A -> B -> Prop) a b : Forall2 P a b -> length a = length b.
Proof. induction 1; cbn; congruence. Qed.
(** The rows of a table laid out one after the other. *)
Lemma rows_columns widths spacing : 0 <= spacing -> Forall (fun w => Z.of_nat w + spacing < 2 ^ 32) widths -> widths <> [] ->
  forall rows, Forall (Forall2 fits widths) rows ->
  exists lines, table_rows (length rows) widths spacing (concat rows) = Some lines /\
    Forall (fun l => columns l = total widths + spacing * (Z.of_nat (length widths) - 1)) lines.
Proof.
  intros Hs HB N. induction rows as [|r rows IH]; intros H.
  - exists []. split; [reflexivity|constructor].
  - pose proof (Forall_inv H) as Hr. apply Forall_inv_tail in H. destruct (IH H) as (b & Eb & Fb).
    destruct (row_columns widths spacing r Hs Hr HB N) as (a & Ea & Fa).
    pose proof (Forall2_len _ _ _ Hr) as Lr.
    exists (a ++ b). split; [|apply Forall_app; now split]. cbn [length table_rows concat].
    rewrite Lr, firstn_app, Nat.sub_diag, firstn_all, firstn_O, app_nil_r.
    rewrite skipn_app, Nat.sub_diag, skipn_all, skipn_O. cbn [app].
    rewrite Ea, Eb. reflexivity.
Qed.
Lemma concat_rows_length {A} n (rows : list (list A)) : Forall (fun r => length r = n) rows ->
  length (concat rows) = (length rows * n)%nat.
Proof. induction 1 as [|r rows H F IH]; [reflexivity|]. cbn. rewrite app_length, IH. lia. Qed.
Lemma table_columns widths spacing rows : 0 <= spacing -> Forall (fun w => Z.of_nat w + spacing < 2 ^ 32) widths ->
  widths <> [] -> Forall (Forall2 fits widths) rows ->
  exists lines, write_table (concat rows) widths spacing = Some (Some lines) /\
    Forall (fun l => columns l = total widths + spacing * (Z.of_nat (length widths) - 1)) lines.
Proof.
  intros Hs HB N H. destruct (rows_columns widths spacing Hs HB N rows H) as (lines & E & F).
  exists lines. split; [|exact F]. unfold write_table.
  assert (Nl : length widths <> 0%nat) by (destruct widths; [congruence|discriminate]).
  rewrite (concat_rows_length (length widths)).
  - rewrite Nat.div_mul, Nat.mod_mul by exact Nl. destruct (Nat.eqb_spec (length widths) 0); [contradiction|].
    cbn [orb negb Nat.eqb]. rewrite E. reflexivity.
  - revert H. apply Forall_impl. intros r Hr. symmetry. exact (Forall2_len _ _ _ Hr).
Qed.
Lemma table_shape entries widths spacing :
  write_table entries widths spacing = Some None <-> widths = [] \/ (length entries mod length widths <> 0)%nat.
Proof.
  unfold write_table. destruct (Nat.eqb_spec (length widths) 0) as [E|E].
  - cbn. split; [|reflexivity]. intros _. left. destruct widths; [reflexivity|discriminate].
  - cbn [orb]. destruct (Nat.eqb_spec (length entries mod length widths) 0) as [M|M]; cbn [negb].
    + split.
      * destruct (table_rows _ _ _ _); cbn; discriminate.
      * intros [H|H]; [subst widths; cbn in E; congruence | contradiction].
    + split; [intros _; now right | reflexivity].
Qed.
(** A cell that does not fit asks for about four thousand million spaces. *)
Lemma overfull_pad w spacing last next : 0 <= spacing -> Z.of_nat w + spacing < len next < 2 ^ 31 ->
  2 ^ 31 < cell_pad (Z.of_nat w) spacing last next.
Proof.
  intros Hs H. unfold cell_pad, u32.
  set (d := Z.of_nat w - len next + (if last then 0 else spacing)).
  assert (- 2 ^ 31 < d < 0) by (unfold d; destruct last; lia).
  replace d with ((d + 2 ^ 32) + (-1) * 2 ^ 32) by lia. rewrite Z.mod_add by lia.
  rewrite Z.mod_small; lia.
Qed.

(** * Progress bar *)
Lemma some_inj {A} (a b : A) : Some a = Some b -> a = b. Proof. congruence. Qed.
Lemma setw3_len p : len (setw3 p ++ ["%"%char]) = 4. Proof. reflexivity. Qed.
Lemma bar_none percent width : progress_bar percent width = None <-> width <= 7.
Proof.
  unfold progress_bar. set (q := if 100 <? percent then 100 else percent).
  rewrite setw3_len. destruct (Z.leb_spec width (4 + 2 + 1)); split; try lia; try discriminate; auto.
Qed.
Lemma bar_width percent width s : width < 2 ^ 32 -> progress_bar percent width = Some s -> len s = width.
Proof.
  intros Hw. unfold progress_bar. set (q := if 100 <? percent then 100 else percent).
  rewrite setw3_len. destruct (Z.leb_spec width (4 + 2 + 1)) as [|L]; [discriminate|]. intros E. apply some_inj in E. rewrite <- E. clear E.
  rewrite u32_id by lia. unfold len. cbn [app length]. rewrite !app_length, map_length, seq_length. change (length (setw3 q)) with 3%nat. cbn [length]. change (length (setw3 q ++ ["%"%char])) with 4%nat. lia.
Qed.
Lemma count_app c a b : occurrences c (a ++ b) = occurrences c a + occurrences c b.
Proof. unfold occurrences. rewrite count_occ_app. lia. Qed.
Lemma count_bar filled n : forall s, 0 <= filled ->
  occurrences "="%char (map (fun i => if Z.of_nat i <? filled then "="%char else blank) (seq s n)) =
  Z.max 0 (Z.min filled (Z.of_nat (s + n)) - Z.of_nat s).
Proof.
  induction n as [|n IH]; intros s Hf.
  - replace (occurrences _ _) with 0 by reflexivity. lia.
  - cbn [seq map]. change (?a :: ?b) with ([a] ++ b). rewrite count_app, IH by exact Hf.
    destruct (Z.ltb_spec (Z.of_nat s) filled).
    + replace (occurrences "=" ["="%char]) with 1 by reflexivity. lia.
    + replace (occurrences "=" [blank]) with 0 by reflexivity. lia.
Qed.
Lemma digit_not_eq d : 0 <= d < 10 -> digit d <> "="%char.
Proof.
  intros H. assert (d = 0 \/ d = 1 \/ d = 2 \/ d = 3 \/ d = 4 \/ d = 5 \/ d = 6 \/ d = 7 \/ d = 8 \/ d = 9) as D by lia.
  destruct D as [->|[->|[->|[->|[->|[->|[->|[->|[->| ->]]]]]]]]]; discriminate.
Qed.
Lemma setw3_count p : 0 <= p <= 100 -> occurrences "="%char (setw3 p ++ ["%"%char]) = 0.
Proof.
  intros H.
  assert (forall c s, c <> "="%char -> occurrences "="%char (c :: s) = occurrences "="%char s) as K.
  { intros c s N. unfold occurrences. cbn. destruct (ascii_dec c "="); [congruence|reflexivity]. }
  assert (D1 : digit (p mod 10) <> "="%char) by (apply digit_not_eq; apply Z.mod_pos_bound; lia).
  assert (D2 : digit (p / 10 mod 10) <> "="%char) by (apply digit_not_eq; apply Z.mod_pos_bound; lia).
  assert (D3 : digit (p / 100) <> "="%char).
  { apply digit_not_eq. split; [apply Z.div_pos; lia|]. apply Z.div_lt_upper_bound; lia. }
  unfold setw3. cbn [app].
  destruct (100 <=? p), (10 <=? p); rewrite !K; try assumption; try discriminate; reflexivity.
Qed.
Lemma bar_count percent width s : 0 <= percent -> 7 < width < 2 ^ 32 -> (width - 7) * 100 < 2 ^ 32 ->
  progress_bar percent width = Some s -> occurrences "="%char s = (width - 7) * Z.min percent 100 / 100.
Proof.
  intros Hp Hw Hb. unfold progress_bar. set (q := if 100 <? percent then 100 else percent).
  assert (Hq : q = Z.min percent 100) by (unfold q; destruct (Z.ltb_spec 100 percent); lia).
  assert (Q : 0 <= q <= 100) by lia.
  rewrite setw3_len. destruct (Z.leb_spec width (4 + 2 + 1)) as [|L]; [discriminate|]. intros E. apply some_inj in E. rewrite <- E. clear E.
  rewrite (u32_id (width - (4 + 2 + 1))) by lia. replace (width - (4 + 2 + 1)) with (width - 7) by lia.
  set (bw := width - 7) in *.
  assert (B : 0 <= bw * q < 2 ^ 32) by (split; [apply Z.mul_nonneg_nonneg; lia|]; apply Z.le_lt_trans with (bw * 100); [apply Z.mul_le_mono_nonneg_l; lia|lia]).
  change ("["%char :: ?r) with (["["%char] ++ r).
  pose proof (setw3_count q Q) as Hps. set (ps := setw3 q ++ ["%"%char]) in *. clearbody ps.
  rewrite !count_app, Hps.
  unfold bar_filled. rewrite u32_id by exact B.
  assert (F0 : 0 <= bw * q / 100) by (apply Z.div_pos; lia).
  assert (F1 : bw * q / 100 <= bw) by (apply Z.div_le_upper_bound; [lia|]; rewrite (Z.mul_comm 100); apply Z.mul_le_mono_nonneg_l; lia).
  rewrite count_bar by exact F0.
  replace (occurrences "=" ["["%char]) with 0 by reflexivity.
  replace (occurrences "=" ["]"%char]) with 0 by reflexivity.
  replace (occurrences "=" [blank]) with 0 by reflexivity. rewrite <- Hq.
  set (F := bw * q / 100) in *. clearbody F. assert (0 < bw) by (unfold bw; lia). clearbody bw q. clear - F0 F1 H. replace (occurrences "=" []) with 0 by reflexivity. lia.
Qed.
Lemma bar_full percent width s : 0 <= percent -> 7 < width < 2 ^ 32 -> (width - 7) * 100 < 2 ^ 32 ->
  progress_bar percent width = Some s -> (occurrences "="%char s = width - 7 <-> 100 <= percent).
Proof.
  intros Hp Hw Hb E. rewrite (bar_count percent width s Hp Hw Hb E). split; intros H.
  - destruct (Z_lt_ge_dec percent 100) as [L|G]; [|lia]. exfalso.
    rewrite Z.min_l in H by lia.
    assert ((width - 7) * percent / 100 < width - 7); [|lia].
    apply Z.div_lt_upper_bound; [lia|]. rewrite (Z.mul_comm 100). apply Z.mul_lt_mono_pos_l; lia.
  - rewrite Z.min_r by lia. apply Z.div_mul. lia.
Qed.
Lemma bar_mono p p' width s s' : 0 <= p <= p' -> 7 < width < 2 ^ 32 -> (width - 7) * 100 < 2 ^ 32 ->
  progress_bar p width = Some s -> progress_bar p' width = Some s' ->
  occurrences "="%char s <= occurrences "="%char s'.
Proof.
  intros Hp Hw Hb E E'. rewrite (bar_count p width s ltac:(lia) Hw Hb E), (bar_count p' width s' ltac:(lia) Hw Hb E').
  apply Z.div_le_mono; [lia|]. apply Z.mul_le_mono_nonneg_l; lia.
Qed.
Definition three_columnsb (s : text) (p : Z) : bool :=
  match s with
  | [a; b; c] => is_column a && is_column b && is_column c &&
      (p =? 100 * column_value a + 10 * column_value b + column_value c) &&
      Bool.eqb (Ascii.eqb a " ") (p <? 100) && Bool.eqb (Ascii.eqb b " ") (p <? 10) && negb (Ascii.eqb c " ")
  | _ => false
  end.
Lemma three_columnsb_ok s p : three_columnsb s p = true -> three_columns s p.
Proof.
  unfold three_columnsb. destruct s as [|a [|b [|c [|d s]]]]; try discriminate.
  rewrite !andb_true_iff. intros [[[[[[Ha Hb] Hc] Hp] H1] H2] H3]. exists a, b, c.
  apply Z.eqb_eq in Hp. apply Bool.eqb_prop in H1, H2. apply negb_true_iff in H3.
  split; [reflexivity|]. split; [exact Ha|]. split; [exact Hb|]. split; [exact Hc|]. split; [exact Hp|].
  split; [|split].
  - rewrite <- Ascii.eqb_eq, H1. apply Z.ltb_lt.
  - rewrite <- Ascii.eqb_eq, H2. apply Z.ltb_lt.
  - now apply Ascii.eqb_neq.
Qed.
(** All the percentages there are. *)
Lemma setw3_columns p : 0 <= p <= 100 -> three_columns (setw3 p) p.
Proof.
  intros H. apply three_columnsb_ok.
  assert (A : forallb (fun n => three_columnsb (setw3 (Z.of_nat n)) (Z.of_nat n)) (seq 0 101) = true) by (vm_compute; reflexivity).
  rewrite forallb_forall in A. specialize (A (Z.to_nat p)). rewrite Z2Nat.id in A by lia. apply A.
  apply in_seq. lia.
Qed.
Lemma bar_cells f n : forall s, (s + f <= n)%nat ->
  map (fun i => if Z.of_nat i <? Z.of_nat (s + f) then "="%char else blank) (seq s (n - s)) =
  repeat "="%char f ++ repeat blank (n - s - f).
Proof.
  induction f as [|f IH]; intros s H.
  - cbn [repeat app]. rewrite Nat.sub_0_r. replace (s + 0)%nat with s by lia. clear H.
    assert (K : forall k t, (s <= t)%nat -> map (fun i => if Z.of_nat i <? Z.of_nat s then "="%char else blank) (seq t k) = repeat blank k).
    { induction k as [|k IK]; intros t Ht; [reflexivity|]. cbn [seq map repeat].
      destruct (Z.ltb_spec (Z.of_nat t) (Z.of_nat s)); [lia|]. rewrite IK by lia. reflexivity. }
    apply K. lia.
  - replace (n - s)%nat with (S (n - S s)) by lia. cbn [seq map repeat app].
    destruct (Z.ltb_spec (Z.of_nat s) (Z.of_nat (s + S f))); [|lia].
    replace (s + S f)%nat with (S s + f)%nat by lia. rewrite IH by lia. repeat f_equal. 
Qed.
Lemma bar_text percent width s : 0 <= percent -> 7 < width -> (width - 7) * 100 < 2 ^ 32 ->
  progress_bar percent width = Some s ->
  exists f e d, Z.of_nat (f + e) = width - 7 /\ Z.of_nat f = (width - 7) * Z.min percent 100 / 100 /\
    three_columns d (Z.min percent 100) /\
    s = "["%char :: repeat "="%char f ++ repeat " "%char e ++ ["]"%char; " "%char] ++ d ++ ["%"%char].
Proof.
  intros Hp Hw Hb. unfold progress_bar. set (q := if 100 <? percent then 100 else percent).
  assert (Hq : q = Z.min percent 100) by (unfold q; destruct (Z.ltb_spec 100 percent); lia).
  assert (Q : 0 <= q <= 100) by lia. clearbody q. rewrite <- Hq.
  rewrite setw3_len. destruct (Z.leb_spec width (4 + 2 + 1)) as [|L]; [discriminate|].
  intros E. apply some_inj in E. rewrite <- E. clear E.
  rewrite (u32_id (width - (4 + 2 + 1))) by lia. replace (width - (4 + 2 + 1)) with (width - 7) by lia.
  set (bw := width - 7) in *. assert (P : 0 < bw) by (unfold bw; lia). clearbody bw.
  assert (B : 0 <= bw * q < 2 ^ 32) by (split; [apply Z.mul_nonneg_nonneg; lia|]; apply Z.le_lt_trans with (bw * 100); [apply Z.mul_le_mono_nonneg_l; lia|lia]).
  unfold bar_filled. rewrite u32_id by exact B.
  assert (F0 : 0 <= bw * q / 100) by (apply Z.div_pos; lia).
  assert (F1 : bw * q / 100 <= bw) by (apply Z.div_le_upper_bound; [lia|]; rewrite (Z.mul_comm 100); apply Z.mul_le_mono_nonneg_l; lia).
  set (F := bw * q / 100) in *. clearbody F.
  exists (Z.to_nat F), (Z.to_nat bw - Z.to_nat F)%nat, (setw3 q). split; [lia|]. split; [lia|].
  split; [apply setw3_columns; exact Q|].
  pose proof (bar_cells (Z.to_nat F) (Z.to_nat bw) 0 ltac:(lia)) as C.
  rewrite Nat.sub_0_r in C. cbn [Nat.add] in C. rewrite Z2Nat.id in C by exact F0. rewrite C.
  unfold blank. cbn [app]. rewrite <- !app_assoc. reflexivity.
Qed.
