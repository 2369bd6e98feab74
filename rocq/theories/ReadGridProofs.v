(** Proofs about reading grids: what an accepted table is, and where its values go. *)
From Coq Require Import Reals ZArith Bool List Lia Lra Permutation.
From Verif Require Import ExtModel BoundModel BoundSpec BoundProofs CutProofs GridModel GridSpec GridProofs ReadGridModel ReadGridSpec.
Import ListNotations.
Local Open Scope nat_scope.
Set Bullet Behavior "Strict Subproofs".

Lemma rbind_ok {A B} (x : rd A) (f : A -> rd B) b : rbind x f = Ok b -> exists a, x = Ok a /\ f a = Ok b.
Proof. destruct x; cbn; intros H; try discriminate. eauto. Qed.
Lemma eeqb_eq a b : eeqb a b = true -> a = b.
Proof. destruct a, b; cbn; try discriminate; auto. unfold reqb. destruct (Req_EM_T r r0); congruence. Qed.
Lemma eneqb_eq a b : eneqb a b = false -> a = b.
Proof. unfold eneqb. intros H. apply eeqb_eq. destruct (eeqb a b); auto. Qed.

(** * One dimension *)
Section Table.
Variables (rows : list row) (N K : nat).
Hypothesis WF : table N K rows.
Lemma entry_in r c : r < length rows -> c < N + K -> exists v, entry rows r c = Ok v.
Proof.
  intros R C. unfold entry. destruct (nth_error rows r) as [p|] eqn:E; [|apply nth_error_None in E; lia]. cbn.
  apply nth_error_In in E. unfold table in WF. rewrite Forall_forall in WF. specialize (WF p E).
  destruct (nth_error p c) eqn:E'; [cbn; eauto|apply nth_error_None in E'; lia].
Qed.
Lemma entry_lt r c v : entry rows r c = Ok v -> r < length rows.
Proof. unfold entry. destruct (nth_error rows r) eqn:E; cbn; [|discriminate]. intros _. apply nth_error_Some. congruence. Qed.
Lemma find_col_ok ct filled step rem c : find_col rows ct filled step rem = Ok c -> step <= c < step + rem /\ ~ In c filled /\ ct < length rows.
Proof.
  revert step. induction rem as [|rem IH]; cbn; intros step H; [discriminate|].
  assert (G : forall s, s = S step -> find_col rows ct filled s rem = Ok c -> step <= c < step + S rem /\ ~ In c filled /\ ct < length rows).
  { intros s -> Q. specialize (IH _ Q). intuition lia. }
  destruct (existsb (Nat.eqb step) filled) eqn:E; [eapply G; eauto|].
  apply rbind_ok in H as (a & EA & H). apply rbind_ok in H as (b & EB & H). destruct (eeqb a b); [eapply G; eauto|].
  apply rbind_ok in H as (s & ES & H). destruct s; [|eapply G; eauto]. injection H as <-. apply entry_lt in EB. split; [lia|split; auto].
  intros I. assert (existsb (Nat.eqb step) filled = true); [|congruence]. apply existsb_exists. exists step. rewrite Nat.eqb_refl. auto.
Qed.
Lemma planes_from_le ct c first g rem ps : planes_from rows ct c first g rem = Ok ps -> length ps <= rem.
Proof.
  revert g ps. induction rem as [|rem IH]; cbn; intros g ps H; [injection H as <-; cbn; lia|].
  apply rbind_ok in H as (v & E & H). destruct (eneqb v first); [|injection H as <-; cbn; lia].
  apply rbind_ok in H as (qs & E' & H). injection H as <-. cbn. apply IH in E'. lia.
Qed.
Lemma planes_le ct c n ps : planes rows ct c n = Ok ps -> length ps <= n.
Proof.
  destruct n; cbn; intros H; [injection H as <-; cbn; lia|]. apply rbind_ok in H as (v & E & H). apply rbind_ok in H as (qs & E' & H).
  injection H as <-. cbn. apply planes_from_le in E'. lia.
Qed.
Lemma check_rows_ok ct c ps r n u : check_rows rows ct c ps r n = Ok u ->
  forall s, r <= s < r + n -> exists v, entry rows s c = Ok v /\ nth_error ps ((s / ct) mod length ps) = Some v /\ v <> NaN.
Proof.
  revert r. induction n as [|n IH]; cbn [check_rows]; intros r H s Hs; [lia|].
  apply rbind_ok in H as (v & E & H). apply rbind_ok in H as (w & E' & H). destruct (eneqb v w) eqn:Q; [discriminate|]. assert (v <> NaN) by (intros ->; discriminate). apply eneqb_eq in Q. subst w.
  destruct (Nat.eq_dec s r) as [ -> |NE]; [|apply (IH _ H); lia]. exists v. split; auto. split; auto. destruct (nth_error ps _); cbn in E'; congruence.
Qed.
Lemma check_spacing_ok tol lo sp ps pl u : check_spacing tol lo sp ps pl = Ok u ->
  forall i v, nth_error ps i = Some v -> egtb (eabs (esub v (eadd lo (emul (Fin (INR (pl + i))) sp)))) (eabs (emul tol sp)) = false.
Proof.
  revert pl. induction ps as [|p ps IH]; cbn [check_spacing]; intros pl H i v E; [destruct i; discriminate|].
  destruct (egtb _ _) eqn:Q; [discriminate|]. destruct i; [injection E as <-; rewrite Nat.add_0_r; exact Q|]. cbn in E. specialize (IH _ H i v E). replace (pl + S i) with (S pl + i) by lia. exact IH.
Qed.
Record good (tol : ext) (ct : nat) (f : found) : Prop := Good {
  g_col : fd_col f < N;
  g_count : 2 <= fd_count f;
  g_fit : ct * fd_count f <= length rows;
  g_div : (length rows / ct) * ct = length rows;
  g_rows : forall r, r < length rows -> exists v, entry rows r (fd_col f) = Ok v /\ nth_error (fd_planes f) ((r / ct) mod fd_count f) = Some v /\ v <> NaN;
  g_bounds : exists lo hi, fd_lower f = Fin lo /\ fd_upper f = Fin hi /\ (lo < hi)%R;
  g_spacing : forall i v, nth_error (fd_planes f) i = Some v ->
    egtb (eabs (esub v (eadd (fd_lower f) (emul (Fin (INR i)) (ediv (esub (fd_upper f) (fd_lower f)) (Fin (INR (fd_count f - 1))))))))
      (eabs (emul tol (ediv (esub (fd_upper f) (fd_lower f)) (Fin (INR (fd_count f - 1)))))) = false }.
Lemma read_dim_ok tol ct filled f : 0 < ct -> read_dim rows N tol ct filled = Ok f -> good tol ct f /\ ~ In (fd_col f) filled.
Proof.
  intros P. unfold read_dim. intros H. destruct (length rows / ct * ct =? length rows) eqn:D; [|discriminate]. apply Nat.eqb_eq in D. cbn [negb] in H.
  apply rbind_ok in H as (c & EC & H). apply rbind_ok in H as (ps & EP & H). destruct (length ps <=? 1) eqn:L; [discriminate|]. apply Nat.leb_gt in L.
  apply rbind_ok in H as (u & EU & H). cbv zeta in H. destruct (eisfinite (fd_lower (Found c ps))) eqn:FL; [|discriminate]. destruct (eisfinite (fd_upper (Found c ps))) eqn:FU; [|discriminate].
  cbn [negb orb] in H. destruct (egeb _ _) eqn:GE; [discriminate|]. apply rbind_ok in H as (u' & ES & H). injection H as <-.
  apply find_col_ok in EC as (C1 & C2 & C3). apply planes_le in EP. split; [|exact C2]. split; cbn [fd_col]; auto.
  - lia.
  - unfold fd_count. cbn [fd_planes]. nia.
  - intros r R. apply (check_rows_ok _ _ _ _ _ _ EU). lia.
  - destruct (fd_lower _) as [lo| | |], (fd_upper _) as [hi| | |]; try discriminate. exists lo, hi. split; [auto|split; [auto|]]. cbn in GE. apply rleb_false in GE. exact GE.
  - intros i v E. exact (check_spacing_ok _ _ _ _ _ _ ES i v E).
Qed.

(** * All dimensions *)
Fixpoint layout (tol : ext) (ct : nat) (fs : list found) : Prop :=
  match fs with [] => True | f :: fs => good tol ct f /\ layout tol (ct * fd_count f) fs end.
Lemma layout_app tol ct fs f : layout tol ct fs -> good tol (ct * size_of (map fd_count fs)) f -> layout tol ct (fs ++ [f]).
Proof.
  revert ct. induction fs as [|g fs IH]; cbn; intros ct L G; [rewrite Nat.mul_1_r in G; auto|]. destruct L as [G' L]. split; auto. apply IH; auto.
  unfold size_of. rewrite <- Nat.mul_assoc. exact G.
Qed.
Lemma size_app cs ds : size_of (cs ++ ds) = size_of cs * size_of ds.
Proof. unfold size_of. induction cs as [|c cs IH]; cbn; [lia|]. rewrite IH. lia. Qed.
Lemma size_one c : size_of [c] = c.
Proof. unfold size_of. cbn. lia. Qed.
Lemma read_dims_ok tol rem ct fs ct' fs' : read_dims rows N tol rem ct fs = Ok (ct', fs') ->
  0 < length rows -> layout tol 1 fs -> NoDup (map fd_col fs) -> ct = size_of (map fd_count fs) -> ct <= length rows -> 0 < ct ->
  layout tol 1 fs' /\ NoDup (map fd_col fs') /\ ct' = size_of (map fd_count fs') /\ ct' <= length rows /\ length fs' = length fs + rem.
Proof.
  intros H NE. revert ct fs H. induction rem as [|rem IH]; cbn [read_dims]; intros ct fs H L D E LE P.
  - injection H as <- <-. intuition lia.
  - apply rbind_ok in H as (f & EF & H). apply read_dim_ok in EF as [G NI]; auto. assert (2 <= fd_count f) by apply G.
    apply IH in H.
    + rewrite app_length in H. cbn in H. intuition lia.
    + apply layout_app; auto. rewrite Nat.mul_1_l, <- E. exact G.
    + rewrite map_app. cbn. apply (Permutation_NoDup (l := fd_col f :: map fd_col fs)); [apply Permutation_cons_append|constructor; auto].
    + rewrite map_app, size_app. cbn [map]. rewrite size_one, <- E. reflexivity.
    + apply G.
    + nia.
Qed.
End Table.

(** * Position of a row *)
Fixpoint digits (fs : list found) (r ct : nat) : list (nat * nat) :=
  match fs with [] => [] | f :: fs => (fd_col f, (r / ct) mod fd_count f) :: digits fs r (ct * fd_count f) end.
Definition look (c : nat) (l : list (nat * nat)) : nat := match find (fun p => fst p =? c) l with Some p => snd p | None => 0 end.
Definition sum (l : list nat) : nat := fold_right Nat.add 0 l.
Definition multi (fs : list found) (N r : nat) : list nat := map (fun c => look c (digits fs r 1)) (seq 0 N).
Lemma digits_cols fs r ct : map fst (digits fs r ct) = map fd_col fs.
Proof. revert ct. induction fs; cbn; intros; f_equal; auto. Qed.
Lemma look_in l c d : NoDup (map fst l) -> In (c, d) l -> look c l = d.
Proof.
  unfold look. induction l as [|[c' d'] l IH]; cbn; intros ND I; [contradiction|]. inversion ND; subst. destruct I as [E|I].
  - injection E as -> ->. rewrite Nat.eqb_refl. reflexivity.
  - destruct (c' =? c) eqn:Q; [|auto]. apply Nat.eqb_eq in Q. subst. exfalso. apply H1. apply in_map_iff. exists (c, d). auto.
Qed.
Lemma sum_perm l l' : Permutation l l' -> sum l = sum l'.
Proof. unfold sum. induction 1; cbn in *; lia. Qed.
Lemma size_perm l l' : Permutation l l' -> size_of l = size_of l'.
Proof. unfold size_of. induction 1; cbn in *; nia. Qed.
Lemma new_row_sum st fs r ct : Forall (fun f => fd_col f < length st) fs ->
  new_row st fs r ct = Ok (sum (map (fun p => snd p * nth (fst p) st 0) (digits fs r ct))).
Proof.
  intros H. revert ct. induction H as [|f fs C _ IH]; cbn [new_row digits map sum fold_right]; intros ct; [reflexivity|].
  destruct (nth_error st (fd_col f)) as [s|] eqn:E; [|apply nth_error_None in E; lia]. cbn. rewrite IH. cbn. rewrite (nth_error_nth st (fd_col f) 0 E). reflexivity.
Qed.
Fixpoint dot (is st : list nat) : nat := match is, st with i :: is, s :: st => i * s + dot is st | _, _ => 0 end.
Lemma flat_dot cs is : Forall (fun c => 0 < c) cs -> flat cs is = dot is (strides (size_of cs) cs).
Proof.
  intros H. revert is. induction H as [|c cs P _ IH]; intros [|i is]; cbn [flat strides dot]; auto.
  assert (E : size_of (c :: cs) / c = size_of cs) by (cbn; fold (size_of cs); rewrite Nat.mul_comm; apply Nat.div_mul; lia). rewrite E, <- IH. reflexivity.
Qed.
Lemma strides_length ct cs : length (strides ct cs) = length cs.
Proof. revert ct. induction cs; cbn; auto. Qed.
Lemma dot_seq g st s : dot (map g (seq s (length st))) st = sum (map (fun c => g c * nth (c - s) st 0) (seq s (length st))).
Proof.
  revert s. induction st as [|t st IH]; cbn [length seq map dot sum fold_right]; intros s; [reflexivity|]. rewrite Nat.sub_diag. cbn [nth]. f_equal. rewrite IH.
  unfold sum. f_equal. apply map_ext_in. intros c I. apply in_seq in I. replace (c - s) with (S (c - S s)) by lia. reflexivity.
Qed.
Lemma cols_perm fs N : NoDup (map fd_col fs) -> length fs = N -> Forall (fun f => fd_col f < N) fs -> Permutation (map fd_col fs) (seq 0 N).
Proof.
  intros D L F. apply NoDup_Permutation_bis; auto; [rewrite map_length, seq_length; lia|]. intros c I. apply in_map_iff in I as (f & <- & I). rewrite Forall_forall in F. apply in_seq. specialize (F f I). lia.
Qed.
Lemma new_row_flat counts fs N r : NoDup (map fd_col fs) -> length fs = N -> Forall (fun f => fd_col f < N) fs -> length counts = N -> Forall (fun c => 0 < c) counts ->
  new_row (strides (size_of counts) counts) fs r 1 = Ok (flat counts (multi fs N r)).
Proof.
  intros D L F LC P. set (st := strides (size_of counts) counts). assert (LS : length st = N) by (unfold st; rewrite strides_length; auto).
  rewrite new_row_sum by (rewrite LS; auto). f_equal. rewrite flat_dot by auto. fold st. unfold multi. pose proof (dot_seq (fun c => look c (digits fs r 1)) st 0) as DS. rewrite LS in DS. rewrite DS.
  rewrite <- (sum_perm _ _ (Permutation_map (fun c => look c (digits fs r 1) * nth (c - 0) st 0) (cols_perm fs N D L F))). rewrite <- (digits_cols fs r 1), map_map. f_equal.
  apply map_ext_in. intros [c d] I. cbn [fst snd]. rewrite Nat.sub_0_r. f_equal. symmetry. apply look_in; auto. rewrite digits_cols. exact D.
Qed.
(** Dimensions by column *)
Lemma find_col_in fs f : NoDup (map fd_col fs) -> In f fs -> find (fun g => fd_col g =? fd_col f) fs = Some f.
Proof.
  induction fs as [|g fs IH]; cbn; intros D I; [contradiction|]. inversion D; subst. destruct I as [ -> |I]; [rewrite Nat.eqb_refl; auto|].
  destruct (fd_col g =? fd_col f) eqn:Q; [|auto]. apply Nat.eqb_eq in Q. exfalso. apply H1. rewrite Q. apply in_map. exact I.
Qed.
Lemma rmap_ok {A B} (f : A -> rd B) (g : A -> B) l : (forall a, In a l -> f a = Ok (g a)) -> rmap f l = Ok (map g l).
Proof. induction l as [|a l IH]; cbn; intros H; [reflexivity|]. rewrite (H a) by auto. cbn. rewrite IH by auto. reflexivity. Qed.
Lemma rmap_Forall2 {A B} (f : A -> rd B) l bs : rmap f l = Ok bs -> Forall2 (fun a b => f a = Ok b) l bs.
Proof.
  revert bs. induction l as [|a l IH]; cbn; intros bs H; [injection H as <-; constructor|]. apply rbind_ok in H as (b & E & H). apply rbind_ok in H as (cs & E' & H). injection H as <-. constructor; auto.
Qed.
Lemma Forall2_len {A B} (P : A -> B -> Prop) l m : Forall2 P l m -> length l = length m.
Proof. induction 1; cbn; auto. Qed.
Lemma Forall2_nth {A B} (P : A -> B -> Prop) l m n a b : Forall2 P l m -> nth_error l n = Some a -> nth_error m n = Some b -> P a b.
Proof. intros H. revert n. induction H; intros [|n] E E'; try discriminate; cbn in *; [congruence|eauto]. Qed.
Lemma of_col_in fs c f : of_col fs c = Ok f -> In f fs /\ fd_col f = c.
Proof. unfold of_col. destruct (find _ fs) eqn:E; cbn; [|discriminate]. intros H. injection H as <-. apply find_some in E as [I Q]. apply Nat.eqb_eq in Q. auto. Qed.
Lemma dims_of fs N : NoDup (map fd_col fs) -> length fs = N -> Forall (fun f => fd_col f < N) fs ->
  exists dims, rmap (of_col fs) (seq 0 N) = Ok dims /\ map fd_col dims = seq 0 N /\ Permutation dims fs.
Proof.
  intros D L F. pose proof (cols_perm fs N D L F) as P.
  assert (forall cs, (forall c, In c cs -> In c (map fd_col fs)) -> exists dims, rmap (of_col fs) cs = Ok dims /\ map fd_col dims = cs) as G.
  { induction cs as [|c cs IH]; intros H; [exists []; auto|]. destruct IH as (ds & E & E'); [intros; apply H; cbn; auto|].
    specialize (H c (or_introl eq_refl)). apply in_map_iff in H as (f & <- & I). exists (f :: ds). cbn. unfold of_col. rewrite (find_col_in fs f D I). cbn. fold (of_col fs). rewrite E. cbn. rewrite E'. auto. }
  destruct (G (seq 0 N)) as (ds & E & E'); [intros c I; apply (Permutation_in _ (Permutation_sym P)); exact I|]. exists ds. split; auto. split; auto.
  assert (ND : NoDup ds) by (apply NoDup_map_inv with nat fd_col; rewrite E'; apply seq_NoDup).
  apply NoDup_Permutation_bis; auto.
  - rewrite L, <- (seq_length N 0), <- E', map_length. auto.
  - intros f I. apply rmap_Forall2 in E. clear - E I. induction E as [|c g cs gs Q _ IH]; [contradiction|]. destruct I as [ -> |I]; [apply (of_col_in fs c f Q)|auto].
Qed.
Lemma look_good rows N tol ct fs f : layout rows N tol ct fs -> NoDup (map fd_col fs) -> In f fs ->
  exists P, good rows N tol P f /\ forall r, look (fd_col f) (digits fs r ct) = (r / P) mod fd_count f.
Proof.
  intros L D I. assert (H : exists P, good rows N tol P f /\ forall r, In (fd_col f, (r / P) mod fd_count f) (digits fs r ct)).
  { clear D. revert ct L I. induction fs as [|g fs IH]; cbn; intros ct L I; [contradiction|]. destruct L as [G L]. destruct I as [ -> |I]; [exists ct; auto|].
    destruct (IH _ L I) as (P & G' & H). exists P. auto. }
  destruct H as (P & G & H). exists P. split; auto. intros r. apply look_in; auto. rewrite digits_cols. auto.
Qed.
Lemma layout_all rows N tol ct fs : layout rows N tol ct fs -> Forall (fun f => fd_col f < N /\ 2 <= fd_count f) fs.
Proof. revert ct. induction fs as [|f fs IH]; cbn; intros ct H; constructor; [destruct H as [[] _]; auto|apply (IH (ct * fd_count f)); tauto]. Qed.
Lemma digits_mod fs r s ct : 0 < ct -> Forall (fun f => 0 < fd_count f) fs -> digits fs r ct = digits fs s ct ->
  (r / ct) mod size_of (map fd_count fs) = (s / ct) mod size_of (map fd_count fs).
Proof.
  intros P F. revert ct P. induction F as [|f fs C F IH]; cbn [digits map]; intros ct P E; [change (size_of []) with 1; rewrite !Nat.mod_1_r; reflexivity|].
  injection E as E E'. apply IH in E'; [|nia]. rewrite <- !Nat.div_div in E' by lia.
  assert (0 < size_of (map fd_count fs)). { clear - F. induction F; cbn; [lia|]. unfold size_of in IHF. nia. }
  change (size_of (fd_count f :: map fd_count fs)) with (fd_count f * size_of (map fd_count fs)). rewrite !Nat.mod_mul_r by lia. congruence.
Qed.
Lemma seq_error n c : c < n -> nth_error (seq 0 n) c = Some c.
Proof. intros H. rewrite (nth_error_nth' _ 0) by (rewrite seq_length; auto). rewrite seq_nth by auto. reflexivity. Qed.
Lemma multi_inj rows N tol fs r s : layout rows N tol 1 fs -> NoDup (map fd_col fs) -> length fs = N -> multi fs N r = multi fs N s ->
  r mod size_of (map fd_count fs) = s mod size_of (map fd_count fs).
Proof.
  intros L D LN E. pose proof (layout_all _ _ _ _ _ L) as A. rewrite <- (Nat.div_1_r r) at 1. rewrite <- (Nat.div_1_r s). apply digits_mod; [lia|revert A; apply Forall_impl; intros; lia|].
  assert (H : forall c, c < N -> look c (digits fs r 1) = look c (digits fs s 1)).
  { intros c Hc. unfold multi in E. pose proof (f_equal (fun l => nth_error l c) E) as Q. cbn beta in Q.
    rewrite !(map_nth_error _ c (seq 0 N) (seq_error N c Hc)) in Q. congruence. }
  assert (G : forall l l' : list (nat * nat), map fst l = map fst l' -> NoDup (map fst l) -> (forall c, In c (map fst l) -> look c l = look c l') -> l = l').
  { induction l as [|[c d] l IH]; intros [|[c' d'] l'] EQ ND HL; try discriminate; auto. injection EQ as -> EQ. cbn in ND. inversion ND as [|? ? NI ND']; subst.
    pose proof (HL c' (or_introl eq_refl)) as Q. unfold look in Q. cbn in Q. rewrite Nat.eqb_refl in Q. cbn in Q. subst d'. f_equal. apply IH; auto.
    intros c I. specialize (HL c (or_intror I)). unfold look in HL. cbn in HL. destruct (c' =? c) eqn:Q; [apply Nat.eqb_eq in Q; subst; contradiction|exact HL]. }
  apply G; [rewrite !digits_cols; auto|rewrite digits_cols; auto|]. intros c I. rewrite digits_cols in I. apply H. apply in_map_iff in I as (f & <- & I). rewrite Forall_forall in A. apply A. auto.
Qed.

(** * Storing the values *)
Lemma store_ok {A} (l : list A) i v : i < length l -> exists l', store l i v = Ok l' /\ length l' = length l /\ nth_error l' i = Some v /\ forall j, j <> i -> nth_error l' j = nth_error l j.
Proof.
  revert i. induction l as [|a l IH]; cbn; intros i H; [lia|]. destruct i; [exists (v :: l); repeat split; auto; intros [|j] J; auto; lia|].
  destruct (IH i) as (l' & -> & B & C & D); [lia|]. exists (a :: l'). cbn. repeat split; auto. intros [|j] J; auto. apply D. lia.
Qed.
Lemma reorder_ok rows N K c st fs pos L : table N K rows -> c < N + K -> (forall r, r < length rows -> new_row st fs r 1 = Ok (pos r) /\ pos r < L) ->
  forall n r acc, length acc = L -> r + n <= length rows -> exists out, reorder rows c st fs r n acc = Ok out /\ length out = L /\
  (forall s, r <= s < r + n -> (forall t, s < t < r + n -> pos t <> pos s) -> of_opt (nth_error out (pos s)) = entry rows s c) /\
  (forall i, (forall t, r <= t < r + n -> pos t <> i) -> nth_error out i = nth_error acc i).
Proof.
  intros WF HC HP. induction n as [|n IH]; intros r acc LA LR.
  - exists acc. cbn. split; auto. split; auto. split; [intros; lia|auto].
  - cbn [reorder]. destruct (HP r) as [NR PL]; [lia|]. destruct (entry_in rows N K WF r c) as [v EV]; [lia|auto|]. rewrite NR, EV. cbn.
    destruct (store_ok acc (pos r) v) as (acc' & ES & LA' & S1 & S2); [lia|]. rewrite ES. cbn. destruct (IH (S r) acc') as (out & EO & LO & O1 & O2); [lia|lia|]. exists out.
    split; auto. split; auto. split.
    + intros s Hs Hl. destruct (Nat.eq_dec s r) as [ -> |NE].
      * rewrite (O2 (pos r)), S1; [symmetry; exact EV|]. intros t Ht. apply Hl. lia.
      * apply O1; [lia|]. intros t Ht. apply Hl. lia.
    + intros i Hi. rewrite O2 by (intros t Ht; apply Hi; lia). apply S2. intros ->. apply (Hi r); auto. lia.
Qed.
Lemma last_rows n ct r s : 0 < ct -> r mod ct = s mod ct -> r < n -> s < n -> n <= r + ct -> n <= s + ct -> r = s.
Proof. intros P E R S R' S'. pose proof (Nat.div_mod_eq r ct). pose proof (Nat.div_mod_eq s ct). destruct (Nat.lt_trichotomy (r / ct) (s / ct)) as [|[|]]; nia. Qed.

(** The outcome of the second half of [read_grids]. *)
Lemma core rows N K tol ct fs : table N K rows -> 0 < length rows -> read_dims rows N tol N 1 [] = Ok (ct, fs) ->
  exists dims, rmap (of_col fs) (seq 0 N) = Ok dims /\ length dims = N /\ Permutation dims fs /\
    (forall c f, nth_error dims c = Some f -> exists P, fd_col f = c /\ good rows N tol P f) /\ ct = size_of (map fd_count dims) /\ ct <= length rows /\ 0 < ct /\
  exists pos : nat -> list nat,
    (forall r, r < length rows -> in_grid (map fd_count dims) (pos r) /\
      forall c f i, nth_error dims c = Some f -> nth_error (pos r) c = Some i -> exists v, entry rows r c = Ok v /\ nth_error (fd_planes f) i = Some v /\ v <> NaN) /\
    (forall is, in_grid (map fd_count dims) is -> exists r, r < length rows /\ length rows <= r + ct /\ pos r = is) /\
    (forall c, c < N + K -> exists data, reorder rows c (strides ct (map fd_count dims)) fs 0 (length rows) (repeat (Fin 0) (length rows)) = Ok data /\ length data = length rows /\
      forall r, r < length rows -> length rows <= r + ct -> of_opt (nth_error data (flat (map fd_count dims) (pos r))) = entry rows r c).
Proof.
  intros WF NE H. apply (read_dims_ok rows N tol) in H; auto; try (cbn; lia || constructor). destruct H as (L & D & ECT & LE & LN). cbn in LN.
  pose proof (layout_all _ _ _ _ _ L) as A. assert (F : Forall (fun f => fd_col f < N) fs) by (revert A; apply Forall_impl; intros; lia).
  destruct (dims_of fs N D LN F) as (dims & ED & EC & PD). exists dims. split; auto.
  assert (LD : length dims = N) by (rewrite <- (map_length fd_col), EC, seq_length; auto). split; auto. split; auto.
  assert (A' : Forall (fun f => fd_col f < N /\ 2 <= fd_count f) dims) by (apply (Permutation_Forall (Permutation_sym PD)); auto).
  assert (PC : Forall (fun c => 0 < c) (map fd_count dims)) by (apply Forall_map; revert A'; apply Forall_impl; intros; lia).
  assert (ECT' : ct = size_of (map fd_count dims)) by (rewrite ECT; symmetry; apply size_perm, Permutation_map, PD).
  assert (P0 : 0 < ct). { rewrite ECT'. clear - PC. induction PC; cbn; [lia|]. unfold size_of in IHPC. nia. }
  assert (COL : forall c f, nth_error dims c = Some f -> fd_col f = c).
  { intros c f E. assert (Q : nth_error (map fd_col dims) c = Some (fd_col f)) by (apply map_nth_error; auto). rewrite EC in Q. assert (c < N) by (rewrite <- LD; apply nth_error_Some; congruence).
    rewrite (nth_error_nth' _ 0) in Q by (rewrite seq_length; auto). rewrite seq_nth in Q by auto. injection Q as <-. reflexivity. }
  assert (IN : forall c f, nth_error dims c = Some f -> In f fs) by (intros c f E; apply (Permutation_in _ PD), (nth_error_In _ _ E)).
  split. { intros c f E. destruct (look_good rows N tol 1 fs f L D (IN c f E)) as (P & G & _). exists P. split; eauto. }
  split; auto. split; auto. split; auto. exists (multi fs N).
  assert (IG : forall r, in_grid (map fd_count dims) (multi fs N r)).
  { intros r. assert (Q : Forall (fun f => look (fd_col f) (digits fs r 1) < fd_count f) dims).
    { apply Forall_forall. intros f I. apply (Permutation_in _ PD) in I. destruct (look_good rows N tol 1 fs f L D I) as (P & G & E). rewrite E. apply Nat.mod_upper_bound. destruct G. lia. }
    unfold in_grid, multi. rewrite <- EC. clear - Q. induction Q; cbn; constructor; auto. }
  assert (NR : forall r, new_row (strides ct (map fd_count dims)) fs r 1 = Ok (flat (map fd_count dims) (multi fs N r))).
  { intros r. rewrite ECT'. apply new_row_flat; auto. rewrite map_length. auto. }
  assert (INJ : forall r s, r < length rows -> s < length rows -> length rows <= r + ct -> length rows <= s + ct -> flat (map fd_count dims) (multi fs N r) = flat (map fd_count dims) (multi fs N s) -> r = s).
  { intros r s R S R' S' E. apply flat_inj in E; auto. apply (multi_inj rows N tol) in E; auto. rewrite <- ECT in E. apply (last_rows (length rows) ct); auto. }
  split; [|split].
  - intros r R. split; auto. intros c f i E E'. destruct (look_good rows N tol 1 fs f L D (IN c f E)) as (P & G & Q). destruct (g_rows _ _ _ _ _ G r R) as (v & E1 & E2 & E3).
    exists v. rewrite <- (COL c f E). split; auto. split; auto. rewrite <- Q in E2. rewrite <- E2. f_equal. unfold multi in E'. rewrite (COL c f E).
    assert (c < N) by (rewrite <- LD; apply nth_error_Some; congruence). rewrite (map_nth_error _ c (seq 0 N) (d := c)) in E'; [congruence|]. rewrite (nth_error_nth' _ 0) by (rewrite seq_length; auto). rewrite seq_nth by auto. reflexivity.
  - intros is I. set (h := fun r => flat (map fd_count dims) (multi fs N r)).
    assert (ND : NoDup (map h (seq (length rows - ct) ct))).
    { assert (G : forall l, NoDup l -> (forall r, In r l -> r < length rows /\ length rows <= r + ct) -> NoDup (map h l)).
      { induction l as [|r l IHl]; cbn; intros N1 H1; constructor; inversion N1; subst; auto. intros Q. apply in_map_iff in Q as (s & Q & I'). destruct (H1 r) as [? ?]; auto. destruct (H1 s) as [? ?]; auto. apply INJ in Q; auto. congruence. }
      apply G; [apply seq_NoDup|]. intros r Q. apply in_seq in Q. lia. }
    assert (PM : Permutation (map h (seq (length rows - ct) ct)) (seq 0 ct)).
    { apply NoDup_Permutation_bis; auto; [rewrite map_length, !seq_length; auto|]. intros x Q. apply in_map_iff in Q as (r & <- & Q). apply in_seq. split; [lia|]. unfold h. rewrite ECT'. apply flat_lt, IG. }
    assert (Q : In (flat (map fd_count dims) is) (map h (seq (length rows - ct) ct))) by (apply (Permutation_in _ (Permutation_sym PM)), in_seq; split; [lia|]; cbn; rewrite ECT'; apply flat_lt; auto).
    apply in_map_iff in Q as (r & Q & Q'). apply in_seq in Q'. exists r. split; [lia|]. split; [lia|]. apply flat_inj in Q; auto.
  - intros c C. destruct (reorder_ok rows N K c (strides ct (map fd_count dims)) fs (fun r => flat (map fd_count dims) (multi fs N r)) (length rows) WF C) with (n := length rows) (r := 0) (acc := repeat (Fin 0) (length rows)) as (out & E & LO & O1 & _).
    + intros r R. split; auto. apply Nat.lt_le_trans with ct; auto. rewrite ECT'. apply flat_lt, IG.
    + apply repeat_length.
    + lia.
    + exists out. split; auto. split; auto. intros r R R'. apply O1; [lia|]. intros t T ET. assert (t = r); [|lia]. apply INJ; auto; lia.
Qed.

(** What is accepted is a grid, up to the tolerance; the values of the last rows are found at their nodes. *)
Lemma first_error {A} (l : list A) n i : i < n -> nth_error (firstn n l) i = nth_error l i.
Proof. revert l i. induction n as [|n IH]; intros [|a l] i H; cbn; auto; try lia. destruct i; cbn; auto. apply IH. lia. Qed.
Lemma sound N K tol rows gs : table N K rows -> read_grids N K (Fin tol) rows = Ok gs ->
  exists dims, length dims = N /\ length gs = K /\ size_of (counts_of dims) <= length rows /\
    Forall (fun d => exists lo hi, d_lower d = Fin lo /\ d_upper d = Fin hi /\ (lo < hi)%R /\ 2 <= d_count d) dims /\
    (forall g, In g gs -> fst g = dims /\ length (snd g) = size_of (counts_of dims)) /\
  exists pos : nat -> list nat,
    (forall r, r < length rows -> in_grid (counts_of dims) (pos r) /\
      forall c d i, nth_error dims c = Some d -> nth_error (pos r) c = Some i -> exists x, entry rows r c = Ok x /\ at_node tol d i x) /\
    (forall is, in_grid (counts_of dims) is -> exists r, r < length rows /\ length rows <= r + size_of (counts_of dims) /\ pos r = is) /\
    (forall r k g, r < length rows -> length rows <= r + size_of (counts_of dims) -> nth_error gs k = Some g ->
      of_opt (nth_error (snd g) (flat (counts_of dims) (pos r))) = entry rows r (N + k)).
Proof.
  intros WF H. unfold read_grids in H. destruct (length rows <? 2 ^ N) eqn:Q; [discriminate|]. apply Nat.ltb_ge in Q. assert (2 ^ N <> 0) by (apply Nat.pow_nonzero; lia).
  apply rbind_ok in H as ([ct fs] & ER & H). destruct (core rows N K (Fin tol) ct fs WF ltac:(lia) ER) as (dims & ED & LD & PD & GD & EC & LE & P0 & pos & H1 & H2 & H3).
  rewrite ED in H. cbn [rbind] in H. set (ds := map dim_found dims). assert (EQ : counts_of ds = map fd_count dims) by (unfold counts_of, ds; rewrite map_map; reflexivity).
  apply rmap_Forall2 in H. pose proof (Forall2_len _ _ _ H) as LK. rewrite seq_length in LK. symmetry in LK. exists ds. rewrite EQ, <- EC.
  assert (G : forall k g, nth_error gs k = Some g -> k < K /\ exists data, reorder rows (N + k) (strides ct (map fd_count dims)) fs 0 (length rows) (repeat (Fin 0) (length rows)) = Ok data /\ g = (ds, firstn ct data)).
  { intros k g E. assert (H4 : k < K) by (rewrite <- LK; apply nth_error_Some; congruence). split; auto.
    pose proof (seq_error K k H4) as EK. pose proof (Forall2_nth _ _ _ _ _ _ H EK E) as R. apply rbind_ok in R as (data & E1 & E2). exists data. split; auto. injection E2 as <-. reflexivity. }
  split; [unfold ds; rewrite map_length; auto|]. split; [exact LK|]. split; [exact LE|]. split.
  { apply Forall_forall. intros d I. apply in_map_iff in I as (f & <- & I). apply In_nth_error in I as [c E]. destruct (GD c f E) as (P & _ & G'). destruct G' as [_ GC _ _ _ (lo & hi & E1 & E2 & LT) _]. exists lo, hi. cbn. auto. }
  split.
  { intros g I. apply In_nth_error in I as [k E]. destruct (G k g E) as (KK & data & E1 & ->). cbn. split; auto. destruct (H3 (N + k) ltac:(lia)) as (data' & E2 & LL & _). assert (data' = data) by congruence. subst. rewrite firstn_length. lia. }
  exists pos. split; [|split].
  - intros r R. destruct (H1 r R) as [I H1']. split; auto. intros c d i E E'. unfold ds in E. destruct (nth_error dims c) as [f|] eqn:EF.
    2:{ apply nth_error_None in EF. assert (nth_error (map dim_found dims) c = None) by (apply nth_error_None; rewrite map_length; auto). congruence. }
    rewrite (map_nth_error _ _ _ EF) in E. injection E as <-. destruct (H1' c f i EF E') as (v & V1 & V2 & V3). exists v. split; auto.
    destruct (GD c f EF) as (P & _ & [_ GC _ _ _ (lo & hi & E1 & E2 & LT) GS]). specialize (GS i v V2). rewrite E1, E2 in GS. cbn in GS.
    assert (NZ : (INR (fd_count f - 1) <> 0)%R) by (apply not_0_INR; lia). unfold reqb in GS. destruct (Req_EM_T (INR (fd_count f - 1)) 0) as [|_]; [contradiction|]. cbn in GS.
    destruct v as [v| | |]; cbn in GS; try discriminate.
    + exists lo, hi, v. cbn. repeat split; auto. apply rltb_false in GS. unfold node, spacing. cbn. replace (v - (lo + INR i * ((hi - lo) / INR (fd_count f - 1))))%R with (v + - (lo + INR i * ((hi + - lo) / INR (fd_count f - 1))))%R by (unfold Rminus; reflexivity). exact GS.
    + congruence.
  - exact H2.
  - intros r k g R R' E. destruct (G k g E) as (KK & data & E1 & ->). cbn [snd]. destruct (H3 (N + k) ltac:(lia)) as (data' & E2 & LL & HV). assert (data' = data) by congruence. subst data'.
    rewrite <- (HV r R R'). f_equal. apply first_error. rewrite EC. apply flat_lt, H1. exact R.
Qed.
