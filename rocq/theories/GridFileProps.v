(** C97: finding and loading grid files. *)
From Coq Require Import String Ascii Reals ZArith List Bool Lia Lra Permutation.
From Flocq Require Import Core.
From Verif Require Import ExtModel TextModel TextNum ParamTextSpec TextProofs GridModel GridSpec ReadGridModel ReadGridSpec ReadGridProps GridFileModel GridFileSpec GridFileProofs GridFileLines.
Import ListNotations.
Local Open Scope list_scope.

(** The file read is the first one that exists; not found is reported exactly when none does. *)
Theorem C97_first_place fs datadir name t :
  (find_file fs datadir name = Some t <->
    exists before p after, places datadir name = before ++ p :: after /\ fs p = Some t /\ Forall (fun q => fs q = None) before) /\
  (forall N K, load_grids fs datadir name N K = NotFound <-> Forall (fun q => fs q = None) (places datadir name)).
Proof.
  split; [exact (find_spec fs datadir name t)|]. intros N K. rewrite <- find_none. unfold load_grids. destruct (find_file fs datadir name) as [u|]; [|tauto].
  split; [|discriminate]. destruct (load_rows (N + K) u); discriminate.
Qed.
(** Reading a number off a text takes the longest number at its beginning. *)
Theorem C97_number t x r : scan_double t = (Some x, r) <-> number_then t x r.
Proof. exact (scan_iff t x r). Qed.
(** The rows are loaded exactly when each line begins with that many numbers, and they are these numbers. *)
Theorem C97_rows n t rows : load_rows n t = Rows rows <-> exists ls, lines_of t ls /\ Forall2 (row_of n) ls rows.
Proof. exact (load_rows_iff n t rows). Qed.
(** Otherwise the first line that does not is refused; if a number is missing at its end (and not just misspelt) numbers never written are copied first. *)
Theorem C97_refused n t :
  (load_rows n t = ParseError <-> exists ls l ls' rs, lines_of t (ls ++ l :: ls') /\ Forall2 (row_of n) ls rs /\ unreadable n l) /\
  (load_rows n t = Indeterminate <-> exists ls l ls' rs, lines_of t (ls ++ l :: ls') /\ Forall2 (row_of n) ls rs /\ (forall v, ~ row_of n l v) /\ ~ unreadable n l).
Proof. exact (refused_iff n t). Qed.
(** A file whose lines run through a grid is loaded as that grid. *)
Theorem C97_grid fs datadir name t ls axes ord m K rows :
  find_file fs datadir name = Some t -> lines_of t ls -> Forall2 (row_of (length axes + K)) ls rows ->
  Forall proper axes -> Permutation ord (seq 0 (length axes)) -> enumerates rows axes ord m -> 1 <= m ->
  exists gs, load_grids fs datadir name (length axes) K = FromRows (Ok gs) /\ length gs = K /\
    forall k g, nth_error gs k = Some g -> fst g = map dim_of axes /\ length (snd g) = size_of (map ax_count axes) /\
      forall is, in_grid (map ax_count axes) is ->
        exists p v, nth_error rows ((m - 1) * size_of (map ax_count axes) + flat (permute ord (map ax_count axes)) (permute ord is)) = Some p /\
          nth_error p (length axes + k) = Some v /\ nth_error (snd g) (flat (map ax_count axes) is) = Some v.
Proof.
  intros FF L R P O E M. assert (T : table (length axes) K rows). { unfold table. clear - R. induction R as [|l v ls rs H _ IH]; constructor; auto. eapply row_len; eauto. }
  destruct (C34_recover axes ord m K rows (RN (/ 10 ^ 6)) P O T E M) as (gs & H & G). exists gs. split; [|exact G]. unfold load_grids. rewrite FF.
  rewrite (proj2 (load_rows_iff _ _ _) (ex_intro _ ls (conj L R))), H. reflexivity.
Qed.
(** Violated: further columns go unnoticed, for every file and any number of them. *)
Theorem C97_columns_refuted n k t rows : load_rows (n + k) t = Rows rows -> load_rows n t = Rows (map (firstn n) rows).
Proof. exact (fewer_columns n k t rows). Qed.
(** Violated: on a blank line numbers never written are copied before it is refused; here the first line. *)
Theorem C97_short_line_refuted n a t : all_blank a -> line a -> load_rows (S n) (a ++ newline :: t) = Indeterminate.
Proof. exact (blank_first n a t). Qed.

(** A file in the notation of the data files. *)
Definition ex_lines : list text := [str "0. 10"; str "1.E0  -2.5e1 # end"].
Lemma small_exact n : (Z.abs n <= 100)%Z -> nearest_double (IZR n) = IZR n /\ finite_double (IZR n).
Proof.
  intros H. assert (E : nearest_double (IZR n) = IZR n).
  { apply RN_id. replace (IZR n) with (F2R (Float radix2 n 0)) by (unfold F2R; cbn; ring). apply generic_format_FLT. exists (Float radix2 n 0); [reflexivity|cbn; lia|cbn; lia]. }
  split; [exact E|]. unfold finite_double. rewrite E, <- abs_IZR. apply Rle_lt_trans with 100%R; [apply (IZR_le _ 100); exact H|].
  apply Rlt_le_trans with (bpow radix2 7); [change (bpow radix2 7) with 128%R; lra|]. rewrite <- ?(bpow_powerRZ radix2). apply (bpow_le radix2). lia.
Qed.
Lemma next_no (P : ascii -> Prop) c t : ~ P c -> not_next P (c :: t). Proof. intros H c' t' [= <- _]. exact H. Qed.
Lemma next_nil P : not_next P []. Proof. intros c t H. discriminate H. Qed.
Ltac nodigit := match goal with |- not_next _ ?t => let t' := eval cbv in t in change t with t' end; first [apply next_nil | apply next_no; let H := fresh in intros H; unfold digit_char in H; cbn in H; intuition discriminate].
Ltac digits_ok := repeat (constructor; [cbn; tauto|]); constructor.
Ltac value := repeat match goal with |- context [denotes ?t] => let z := eval vm_compute in (denotes t) in change (denotes t) with z end; cbn; lra.
Example C97_example : load_rows 2 (ended ex_lines) = Rows [[Fin 0; Fin 10]; [Fin 1; Fin (-25)]] /\ load_rows 3 (ended ex_lines) = Indeterminate.
Proof.
  assert (W : forall a n t x u vs r z, all_blank a -> number_then t x u -> x = IZR z -> (Z.abs z <= 100)%Z -> row_then n u vs r -> row_then (S n) (a ++ t) (Fin (IZR z) :: vs) r).
  { intros a n t x u vs r z A N -> Z R. destruct (small_exact z Z) as [E F]. rewrite <- E at 1. econstructor; eauto. }
  assert (R1 : forall n vs r, row_then n [] vs r -> row_then (S (S n)) (str "0. 10") (Fin 0 :: Fin 10 :: vs) r).
  { intros n vs r H. apply (W [] _ (str "0. 10") 0%R (str " 10") _ _ 0%Z); [constructor| |lra|lia|].
    - replace 0%R with (IZR (1 * denotes (str "0" ++ [])) * powerRZ 10 (- Z.of_nat 0))%R by value.
      apply (number_plain [] 1 (str "0.") _ 0 true); [constructor|apply (mantissa_point (str "0") []); [digits_ok|constructor|discriminate]|nodigit|nodigit|discriminate].
    - apply (W (str " ") _ (str "10") 10%R [] _ _ 10%Z); [constructor; [apply is_space_spec; reflexivity|constructor]| |lra|lia|exact H].
      replace 10%R with (IZR (1 * denotes (str "10")) * powerRZ 10 (- Z.of_nat 0))%R by value.
      apply (number_plain [] 1 (str "10") _ 0 false []); [constructor|constructor; split; [discriminate|digits_ok]|nodigit|nodigit|intros _; nodigit]. }
  split.
  - apply load_rows_iff. exists ex_lines. split.
    + split; [|left; reflexivity]. constructor; [|constructor; [|constructor]]; intros H; cbn in H; decompose [or] H; (discriminate || contradiction).
    + constructor; [exists []; apply R1; constructor|]. constructor; [|constructor]. exists (str " # end").
      apply (W [] _ (str "1.E0  -2.5e1 # end") 1%R (str "  -2.5e1 # end") _ _ 1%Z); [constructor| |lra|lia|].
      * replace 1%R with (IZR (1 * denotes (str "1" ++ [])) * powerRZ 10 (1 * denotes (str "0") - Z.of_nat 0))%R by value.
        apply (number_exp [] 1 (str "1.") _ 0 true "E" [] 1 (str "0")); [constructor|apply (mantissa_point (str "1") []); [digits_ok|constructor|discriminate]|right; reflexivity|constructor|split; [discriminate|digits_ok]|nodigit].
      * apply (W (str "  ") _ (str "-2.5e1 # end") (-25)%R (str " # end") _ _ (-25)%Z); [repeat constructor; apply is_space_spec; reflexivity| |lra|lia|constructor].
        replace (-25)%R with (IZR (-1 * denotes (str "2" ++ str "5")) * powerRZ 10 (1 * denotes (str "1") - Z.of_nat 1))%R by value.
        apply (number_exp (str "-") (-1) (str "2.5") _ 1 true "e" [] 1 (str "1")); [constructor|apply (mantissa_point (str "2") (str "5")); [digits_ok|digits_ok|discriminate]|left; reflexivity|constructor|split; [discriminate|digits_ok]|nodigit].
  - destruct (load_rows_fate 3 (ended ex_lines)) as (ls & L & FT). apply refused_iff. exists [], (str "0. 10"), [str "1.E0  -2.5e1 # end"], [].
    assert (NO : forall v, ~ row_of 3 (str "0. 10") v).
    { intros v (r & H). assert (H2 : row_of 2 (str "0. 10") (firstn 2 v)) by (apply (row_fewer 2 1) in H; exact H).
      destruct (row_fwd _ _ _ _ H (open (str "0. 10")) (or_introl eq_refl)) as (s & E & S). destruct (row_fwd _ _ _ _ (R1 0 [] [] (row_end [])) (open (str "0. 10")) (or_introl eq_refl)) as (s2 & E2 & S2).
      assert (G : forall n s, get_row (n + 1) s = let (vs, s') := get_row n s in let (v, s'') := get_num s' in (vs ++ [v], s'')).
      { clear. induction n as [|n IH]; intros s; [cbn; destruct (get_num s); reflexivity|]. cbn [Nat.add get_row]. destruct (get_num s). rewrite IH. destruct (get_row n s0). destruct (get_num s1). reflexivity. }
      change 3 with (2 + 1) in E. rewrite G, E2 in E. destruct (sentry_text _ _ S2) as [(_ & SE)|(a & c & u & T & _)]; [|destruct a; discriminate]. unfold get_num in E. rewrite SE in E. injection E as _ <-. destruct S as [S|S]; discriminate. }
    split; [split; [|left; reflexivity]; constructor; [|constructor; [|constructor]]; intros H; cbn in H; decompose [or] H; (discriminate || contradiction)|].
    split; [constructor|]. split; [exact NO|]. intros (m & vs & r & E & R & NB & _). injection E as <-.
    destruct (row_fwd _ _ _ _ R (open (str "0. 10")) (or_introl eq_refl)) as (s & E & S). destruct (row_fwd _ _ _ _ (R1 0 [] [] (row_end [])) (open (str "0. 10")) (or_introl eq_refl)) as (s2 & E2 & S2).
    assert (X : s = s2) by congruence. subst s2. assert (r = []) as ->. { destruct S as [->| ->], S2 as [S2|S2]; unfold open in S2; injection S2; intros; assumption. } apply NB. constructor.
Qed.
Print Assumptions C97_first_place. Print Assumptions C97_number. Print Assumptions C97_rows. Print Assumptions C97_refused. Print Assumptions C97_grid.
Print Assumptions C97_columns_refuted. Print Assumptions C97_short_line_refuted. Print Assumptions C97_example.
