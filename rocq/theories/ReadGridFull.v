(** A table that runs through a grid is accepted and recovered. *)
From Coq Require Import Reals ZArith Bool List Lia Lra Permutation.
From Verif Require Import ExtModel BoundModel BoundSpec BoundProofs CutProofs GridModel GridSpec GridProofs ReadGridModel ReadGridSpec ReadGridProofs.
Import ListNotations.
Local Open Scope nat_scope.
Set Bullet Behavior "Strict Subproofs".

Lemma size_pos cs : Forall (fun c => 0 < c) cs -> 0 < size_of cs.
Proof. induction 1; cbn; [lia|]. unfold size_of in *. nia. Qed.
Lemma digit cpre c cpost jpre j jpost k : length cpre = length jpre -> in_grid (cpre ++ c :: cpost) (jpre ++ j :: jpost) ->
  ((k * size_of (cpre ++ c :: cpost) + flat (cpre ++ c :: cpost) (jpre ++ j :: jpost)) / size_of cpost) mod c = j.
Proof.
  revert jpre k. induction cpre as [|c0 cpre IH]; intros [|j0 jpre] k L G; try discriminate; cbn [app] in *.
  - inversion G as [|? ? ? ? H0 H1]; subst. cbn [flat]. fold (size_of cpost). change (size_of (c :: cpost)) with (c * size_of cpost). pose proof (flat_lt _ _ H1) as FL. set (S := size_of cpost) in *.
    replace (k * (c * S) + (j * S + flat cpost jpost)) with (flat cpost jpost + (k * c + j) * S) by lia. rewrite Nat.div_add by lia. rewrite (Nat.div_small _ _ FL). cbn [Nat.add].
    rewrite Nat.add_comm, Nat.mod_add by lia. apply Nat.mod_small. auto.
  - inversion G as [|? ? ? ? H0 H1]; subst. cbn [flat]. fold (size_of (cpre ++ c :: cpost)). change (size_of (c0 :: cpre ++ c :: cpost)) with (c0 * size_of (cpre ++ c :: cpost)).
    etransitivity; [|exact (IH jpre (k * c0 + j0) ltac:(cbn in L; lia) H1)]. f_equal. f_equal. ring.
Qed.
Lemma permute_map ord f : permute ord (map f (seq 0 (length ord))) = map (fun c => nth c (map f (seq 0 (length ord))) 0) ord.
Proof. reflexivity. Qed.
Lemma permute_app o p l : permute (o ++ p) l = permute o l ++ permute p l.
Proof. apply map_app. Qed.
Lemma permute_seq l : permute (seq 0 (length l)) l = l.
Proof.
  unfold permute. assert (G : forall s (f : nat -> nat), (forall i, i < length l -> f (s + i) = nth i l 0) -> map f (seq s (length l)) = l); [|apply G; auto].
  induction l as [|a l IH]; cbn; intros s f H; [reflexivity|]. f_equal; [rewrite <- (Nat.add_0_r s); apply (H 0); lia|]. apply IH. intros i I. rewrite <- (H (S i)) by lia. f_equal. lia.
Qed.

Lemma check_rows_intro rows ct c ps r n : (forall s, r <= s < r + n -> exists v, entry rows s c = Ok v /\ nth_error ps ((s / ct) mod length ps) = Some v /\ eeqb v v = true) -> check_rows rows ct c ps r n = Ok tt.
Proof.
  revert r. induction n as [|n IH]; cbn [check_rows]; intros r H; [reflexivity|]. destruct (H r) as (v & E & E' & Q); [lia|]. rewrite E. cbn [rbind]. rewrite E'. cbn [rbind of_opt]. unfold eneqb. rewrite Q. cbn. apply IH. intros s Hs. apply H. lia.
Qed.
Lemma same_from_intro rows c v r n : eeqb v v = true -> (forall s, r <= s < r + n -> entry rows s c = Ok v) -> same_from rows c v r n = Ok true.
Proof. intros Q. revert r. induction n as [|n IH]; cbn; intros r H; [reflexivity|]. rewrite H by lia. cbn. unfold eneqb. rewrite Q. cbn. apply IH. intros. apply H. lia. Qed.
Lemma find_col_intro rows ct filled c step rem : step <= c < step + rem -> ~ In c filled ->
  (forall d, step <= d < c -> ~ In d filled -> exists v, entry rows 0 d = Ok v /\ entry rows ct d = Ok v /\ eeqb v v = true) ->
  (exists a b, entry rows 0 c = Ok a /\ entry rows ct c = Ok b /\ eeqb a b = false /\ eeqb a a = true /\ forall r, r < ct -> entry rows r c = Ok a) ->
  find_col rows ct filled step rem = Ok c.
Proof.
  intros Hc NI HO (a & b & EA & EB & NE & QA & HS). revert step Hc HO. induction rem as [|rem IH]; cbn [find_col]; intros step Hc HO; [lia|].
  destruct (Nat.eq_dec step c) as [ -> |N].
  - destruct (existsb (Nat.eqb c) filled) eqn:Q. { apply existsb_exists in Q as (x & I & Q). apply Nat.eqb_eq in Q. subst. contradiction. }
    rewrite EA, EB. cbn [rbind]. rewrite NE. rewrite (same_from_intro rows c a 0 ct QA) by (intros; apply HS; lia). reflexivity.
  - assert (G : find_col rows ct filled (S step) rem = Ok c) by (apply IH; [lia|intros; apply HO; auto; lia]).
    destruct (existsb (Nat.eqb step) filled) eqn:Q; auto. destruct (HO step) as (v & E1 & E2 & E3); [lia| |].
    + intros I. assert (existsb (Nat.eqb step) filled = true); [|congruence]. apply existsb_exists. exists step. rewrite Nat.eqb_refl. auto.
    + rewrite E1, E2. cbn [rbind]. rewrite E3. exact G.
Qed.

Section Full.
Variables (axes : list axis) (ord : list nat) (m K : nat) (rows : list row) (tol : R).
Let N := length axes.
Let counts := map ax_count axes.
Hypotheses (HP : Forall proper axes) (HO : Permutation ord (seq 0 N)) (WF : table N K rows) (HE : enumerates rows axes ord m) (Hm : 1 <= m).
Let ax c := nth c axes (Axis 2 0 1).
Let cs c := nth c counts 0.
Lemma ord_lt c : In c ord -> c < N.
Proof. intros I. apply (Permutation_in _ HO), in_seq in I. lia. Qed.
Lemma ax_in c : c < N -> nth_error axes c = Some (ax c).
Proof. intros H. apply nth_error_nth'. auto. Qed.
Lemma ax_proper c : c < N -> proper (ax c).
Proof. intros H. rewrite Forall_forall in HP. apply HP. apply (nth_error_In _ c), ax_in, H. Qed.
Lemma cs_ax c : c < N -> cs c = ax_count (ax c).
Proof. intros H. unfold cs, counts. apply nth_error_nth. apply map_nth_error, ax_in, H. Qed.
Lemma ord_nodup : NoDup ord.
Proof. apply (Permutation_NoDup (Permutation_sym HO)), seq_NoDup. Qed.
Lemma ord_len : length ord = N.
Proof. rewrite (Permutation_length HO). apply seq_length. Qed.
Lemma size_ord : size_of (permute ord counts) = size_of counts.
Proof. apply size_perm. replace counts with (permute (seq 0 N) counts) at 2 by (replace N with (length counts) by (unfold counts; apply map_length); apply permute_seq). apply Permutation_map, HO. Qed.
Lemma some_pos o : (forall c, In c o -> c < N) -> Forall (fun c => 0 < c) (permute o counts).
Proof. intros H. apply Forall_map, Forall_forall. intros c I. specialize (H c I). fold (cs c). rewrite cs_ax by auto. destruct (ax_proper c H). lia. Qed.
Lemma size_counts : 0 < size_of counts.
Proof. rewrite <- size_ord. apply size_pos, some_pos, ord_lt. Qed.

Lemma flat_point r : r < length rows -> exists is, in_grid counts is /\ r = r / size_of counts * size_of counts + flat (permute ord counts) (permute ord is) /\
  exists p, nth_error rows r = Some p /\ firstn N p = map Fin (nodes axes is).
Proof.
  intros R. destruct HE as [L H]. fold counts in L, H. pose proof size_counts as P.
  destruct (flat_onto (permute ord counts) (r mod size_of counts)) as (js & G & E); [rewrite size_ord; apply Nat.mod_upper_bound; lia|].
  set (is := map (fun c => look c (combine ord js)) (seq 0 N)).
  assert (LJ : length js = length ord). { apply Forall2_len in G. unfold permute in G. rewrite map_length in G. auto. }
  assert (LK : forall c d, In (c, d) (combine ord js) -> look c (combine ord js) = d).
  { intros c d I. apply look_in; auto. assert (Q : map fst (combine ord js) = ord) by (clear - LJ; revert js LJ; induction ord; intros [|j js] LJ; cbn; try discriminate; auto; f_equal; auto). rewrite Q. apply ord_nodup. }
  assert (NTH : forall c, c < N -> nth c is 0 = look c (combine ord js)). { intros c C. apply nth_error_nth. unfold is. apply (map_nth_error (fun c => look c (combine ord js))), seq_error, C. }
  assert (PI : permute ord is = js).
  { unfold permute. rewrite (map_ext_in _ (fun c => look c (combine ord js))) by (intros c I; apply NTH, ord_lt, I). clear - LK LJ.
    assert (Q : forall o j, length j = length o -> (forall c d, In (c, d) (combine o j) -> look c (combine ord js) = d) -> map (fun c => look c (combine ord js)) o = j); [|apply Q; auto].
    induction o as [|c o IH]; intros [|d j] L Q; try discriminate; auto. cbn. f_equal; [apply Q; cbn; auto|apply IH; auto; intros; apply Q; cbn; auto]. }
  assert (G' : in_grid counts is).
  { unfold in_grid. replace counts with (map cs (seq 0 N)) by (unfold cs; replace N with (length counts) by (unfold counts; apply map_length); apply permute_seq). unfold is.
    assert (Q : forall c, In c (seq 0 N) -> look c (combine ord js) < cs c).
    { intros c I. apply (Permutation_in _ (Permutation_sym HO)) in I. assert (Q : forall o j, Forall2 (fun c i => i < c) (permute o counts) j -> In c o -> exists d, In (c, d) (combine o j) /\ d < cs c).
      { clear - cs. induction o as [|a o IH]; intros j F J; [contradiction|]. inversion F as [|? d ? j' F0 F1]; subst. destruct J as [ -> |J]; [exists d; cbn; auto|]. destruct (IH _ F1 J) as (e & E1 & E2). exists e. cbn. auto. }
      destruct (Q ord js G I) as (d & D1 & D2). rewrite (LK _ _ D1). exact D2. }
    clear - Q. revert Q. generalize (seq 0 N). induction l; cbn; intros Q; constructor; auto. }
  exists is. split; auto. rewrite PI, E. split; [rewrite (Nat.div_mod_eq r (size_of counts)) at 1; lia|].
  destruct (H (r / size_of counts) is) as (p & E1 & E2); auto. { apply Nat.div_lt_upper_bound; lia. }
  rewrite PI, E in E1. exists p. split; auto. rewrite (Nat.div_mod_eq r (size_of counts)) at 1. rewrite Nat.mul_comm. exact E1.
Qed.
Lemma entry_node r c pre post : r < length rows -> ord = pre ++ c :: post ->
  entry rows r c = Ok (Fin (node (ax c) ((r / size_of (permute post counts)) mod cs c))).
Proof.
  intros R EO. assert (C : c < N) by (apply ord_lt; rewrite EO; apply in_elt).
  destruct (flat_point r R) as (is & G & ER & p & EP & EF). assert (LI : length is = N) by (apply Forall2_len in G; unfold counts in G; rewrite map_length in G; auto).
  unfold entry. rewrite EP. cbn [of_opt rbind].
  assert (EC : nth_error p c = nth_error (firstn N p) c) by (symmetry; apply first_error; auto). rewrite EC, EF. unfold nodes.
  assert (NC : nth_error (combine axes is) c = Some (ax c, nth c is 0)).
  { assert (Q : forall (l : list axis) (i : list nat) n a d, nth_error l n = Some a -> nth_error i n = Some d -> nth_error (combine l i) n = Some (a, d)).
    { induction l as [|x l IH]; intros [|y i] [|n] a d E E'; try discriminate; cbn in *; [congruence|auto]. }
    apply Q; [apply ax_in, C|apply nth_error_nth'; lia]. }
  rewrite (map_nth_error Fin _ _ (map_nth_error (fun p => node (fst p) (snd p)) _ _ NC)). cbn [of_opt fst snd]. do 3 f_equal.
  rewrite ER, EO, !permute_app. cbn [permute map]. fold (permute post counts) (permute post is) (cs c). fold counts. rewrite <- size_ord, EO, permute_app. cbn [permute map]. fold (permute post counts) (cs c).
  symmetry. apply digit.
  - unfold permute. rewrite !map_length. reflexivity.
  - assert (Q : forall o, (forall c, In c o -> c < N) -> in_grid (permute o counts) (permute o is)).
    { induction o as [|d o IH]; intros HH; cbn; constructor; [|apply IH; intros; apply HH; cbn; auto]. assert (D : d < N) by (apply HH; cbn; auto).
      apply (Forall2_nth (fun c i => i < c) counts is d); auto; apply nth_error_nth'; [unfold counts; rewrite map_length; auto|lia]. }
    specialize (Q ord ord_lt). rewrite EO, !permute_app in Q. exact Q.
Qed.
(** The dimension found for a column *)
Definition F c := Found c (map (fun k => Fin (node (ax c) k)) (seq 0 (cs c))).
Lemma F_count c : fd_count (F c) = cs c.
Proof. unfold fd_count, F. cbn. rewrite map_length, seq_length. reflexivity. Qed.
Lemma F_plane c k : k < cs c -> nth_error (fd_planes (F c)) k = Some (Fin (node (ax c) k)).
Proof. intros H. cbn. apply (map_nth_error (fun k => Fin (node (ax c) k))), seq_error, H. Qed.
Lemma node_inj a i j : proper a -> node a i = node a j -> i = j.
Proof. intros P E. pose proof (spacing_pos a P). unfold node in E. apply INR_eq. apply Rmult_eq_reg_r with (spacing a); lra. Qed.
Lemma fin_refl x : eeqb (Fin x) (Fin x) = true.
Proof. cbn. unfold reqb. destruct (Req_EM_T x x); congruence. Qed.
Lemma fin_neq x y : x <> y -> eeqb (Fin x) (Fin y) = false.
Proof. cbn. unfold reqb. destruct (Req_EM_T x y); congruence. Qed.
Lemma planes_full c pre post g rem : ord = pre ++ c :: post -> 1 <= g <= cs c -> cs c <= g + rem -> (g + rem) * size_of (permute post counts) <= length rows ->
  planes_from rows (size_of (permute post counts)) c (Fin (node (ax c) 0)) g rem = Ok (map (fun k => Fin (node (ax c) k)) (seq g (cs c - g))).
Proof.
  intros EO. assert (C : c < N) by (apply ord_lt; rewrite EO; apply in_elt). pose proof (ax_proper c C) as PX.
  assert (P : 0 < size_of (permute post counts)) by (apply size_pos, some_pos; intros d I; apply ord_lt; rewrite EO; apply in_or_app; cbn; auto). set (ct := size_of (permute post counts)) in *.
  revert g. induction rem as [|rem IH]; intros g G1 G2 G3; cbn [planes_from].
  - replace (cs c - g) with 0 by lia. reflexivity.
  - rewrite (entry_node (g * ct) c pre post) by (auto; nia). cbn [rbind]. fold ct. rewrite Nat.div_mul by lia. unfold eneqb. destruct (Nat.eq_dec g (cs c)) as [EG|NG].
    + rewrite <- EG at 1. rewrite Nat.mod_same by lia. rewrite fin_refl. cbn. rewrite EG, Nat.sub_diag. reflexivity.
    + rewrite Nat.mod_small by lia. rewrite fin_neq by (intros Q; apply node_inj in Q; auto; lia). cbn [negb]. rewrite IH by lia. cbn [rbind].
      replace (cs c - g) with (S (cs c - S g)) by lia. reflexivity.
Qed.
Lemma hd_last c : c < N -> fd_lower (F c) = Fin (ax_lower (ax c)) /\ fd_upper (F c) = Fin (ax_upper (ax c)).
Proof.
  intros C. pose proof (ax_proper c C) as PX. pose proof (cs_ax c C) as EC. destruct PX as [P2 PL]. unfold fd_lower, fd_upper, F. cbn [fd_planes]. split.
  - replace (cs c) with (S (cs c - 1)) by lia. cbn. f_equal. unfold node. cbn. ring.
  - replace (cs c) with ((cs c - 1) + 1) by lia. rewrite seq_app, map_app. cbn [seq map]. rewrite last_last. f_equal. rewrite EC. cbn [Nat.add]. apply node_last. split; auto.
Qed.
Lemma read_full pre c post : ord = pre ++ c :: post -> read_dim rows N (Fin tol) (size_of (permute post counts)) (rev post) = Ok (F c).
Proof.
  intros EO. assert (C : c < N) by (apply ord_lt; rewrite EO; apply in_elt). pose proof (ax_proper c C) as PX. pose proof (cs_ax c C) as EC.
  assert (C2 : 2 <= cs c) by (rewrite EC; apply PX).
  assert (P : 0 < size_of (permute post counts)) by (apply size_pos, some_pos; intros d I; apply ord_lt; rewrite EO; apply in_or_app; cbn; auto).
  assert (P' : 0 < size_of (permute pre counts)) by (apply size_pos, some_pos; intros d I; apply ord_lt; rewrite EO; apply in_or_app; cbn; auto).
  assert (LR : length rows = (m * size_of (permute pre counts) * cs c) * size_of (permute post counts)).
  { destruct HE as [-> _]. fold counts. rewrite <- size_ord, EO, permute_app, size_app. cbn [permute map]. fold (permute post counts) (cs c). change (size_of (cs c :: permute post counts)) with (cs c * size_of (permute post counts)). ring. }
  pose proof (fun r H => entry_node r c pre post H EO) as EN.
  set (ct := size_of (permute post counts)) in *. set (q := m * size_of (permute pre counts)) in *. assert (Q1 : 1 <= q) by (unfold q; nia).
  assert (Q2 : cs c <= q * cs c) by (clear - Q1; nia).
  assert (CTR : ct < length rows) by (rewrite LR; clear - P Q2 C2; nia).
  unfold read_dim. assert (ES : length rows / ct = q * cs c) by (rewrite LR; apply Nat.div_mul; lia). rewrite ES. cbv zeta. rewrite LR, Nat.eqb_refl. cbn [negb]. rewrite <- LR.
  rewrite (find_col_intro rows ct (rev post) c 0 N).
  2:{ lia. }
  2:{ intros I. apply in_rev in I. pose proof ord_nodup as ND. rewrite EO in ND. apply NoDup_remove_2 in ND. apply ND, in_or_app. auto. }
  2:{ intros d D NI. assert (I : In d ord) by (apply (Permutation_in _ (Permutation_sym HO)), in_seq; lia). rewrite EO in I. apply in_app_or in I as [I|[I|I]]; [|lia|exfalso; apply NI; rewrite <- in_rev; exact I].
      apply in_split in I as (p1 & p2 & EP). assert (EO' : ord = p1 ++ d :: (p2 ++ c :: post)) by (rewrite EO, EP, <- app_assoc; reflexivity).
      rewrite (entry_node 0 d p1 _ ltac:(lia) EO'), (entry_node ct d p1 _ CTR EO').
      assert (P2 : 0 < size_of (permute p2 counts)) by (apply size_pos, some_pos; intros e I; apply ord_lt; rewrite EO'; apply in_or_app; right; right; apply in_or_app; auto).
      rewrite permute_app, size_app. cbn [permute map]. fold (permute post counts) (cs c). change (size_of (cs c :: permute post counts)) with (cs c * ct).
      rewrite !Nat.div_small by nia. eexists. split; [reflexivity|split; [reflexivity|apply fin_refl]]. }
  2:{ exists (Fin (node (ax c) 0)), (Fin (node (ax c) 1)). split; [|split; [|split; [|split]]].
      - rewrite EN by lia. rewrite Nat.div_0_l, Nat.mod_0_l by lia. reflexivity.
      - rewrite EN by lia. rewrite Nat.div_same by lia. rewrite Nat.mod_small by lia. reflexivity.
      - apply fin_neq. intros Q. apply node_inj in Q; auto. discriminate.
      - apply fin_refl.
      - intros r R. rewrite EN by lia. rewrite Nat.div_small by auto. rewrite Nat.mod_0_l by lia. reflexivity. }
  cbn [rbind].
  assert (EPL : planes rows ct c (q * cs c) = Ok (fd_planes (F c))).
  { unfold planes. destruct (q * cs c) as [|n] eqn:EQ; [nia|]. rewrite EN by lia. rewrite Nat.div_0_l, Nat.mod_0_l by lia. cbn [rbind].
    unfold ct. rewrite (planes_full c pre post 1 n EO) by (fold ct; nia). cbn [rbind]. unfold F. cbn [fd_planes]. replace (cs c) with (S (cs c - 1)) at 2 by lia. reflexivity. }
  rewrite EPL. cbn [rbind]. fold (fd_count (F c)). rewrite F_count. replace (cs c <=? 1) with false by (symmetry; apply Nat.leb_gt; lia).
  rewrite check_rows_intro.
  2:{ intros r R. fold (fd_count (F c)). rewrite F_count, EN by lia. eexists. split; [reflexivity|]. split; [apply F_plane, Nat.mod_upper_bound; lia|apply fin_refl]. }
  cbn [rbind]. change (Found c (fd_planes (F c))) with (F c). destruct (hd_last c C) as [-> ->]. destruct PX as [_ LT]. cbn [eisfinite negb orb].
  unfold egeb, eleb. replace (rleb (ax_upper (ax c)) (ax_lower (ax c))) with false by (symmetry; apply rleb_false; exact LT).
  cbn [esub eadd eneg ediv]. assert (NZ : INR (cs c - 1) <> 0%R) by (apply not_0_INR; lia). unfold reqb. destruct (Req_EM_T (INR (cs c - 1)) 0) as [|_]; [contradiction|].
  fold (ax_upper (ax c) - ax_lower (ax c))%R. replace ((ax_upper (ax c) - ax_lower (ax c)) / INR (cs c - 1))%R with (spacing (ax c)) by (unfold spacing; rewrite EC; reflexivity).
  assert (CS : forall n s, check_spacing (Fin tol) (Fin (ax_lower (ax c))) (Fin (spacing (ax c))) (map (fun k => Fin (node (ax c) k)) (seq s n)) s = Ok tt).
  { induction n as [|n IH]; intros s; cbn [seq map check_spacing]; [reflexivity|]. cbn [emul eadd esub eneg eabs]. unfold egtb. cbn [eltb].
    replace (node (ax c) s + - (ax_lower (ax c) + INR s * spacing (ax c)))%R with 0%R by (unfold node; ring). rewrite Rabs_R0.
    replace (rltb (Rabs (tol * spacing (ax c))) 0) with false by (symmetry; apply rltb_false; apply Rabs_pos). apply IH. }
  unfold F at 1. cbn [fd_planes]. rewrite CS. reflexivity.
Qed.
Lemma dims_full pre post : ord = pre ++ post -> read_dims rows N (Fin tol) (length pre) (size_of (permute post counts)) (rev (map F post)) = Ok (size_of counts, rev (map F ord)).
Proof.
  revert post. induction pre as [|c pre IH] using rev_ind; intros post EO.
  - cbn in *. rewrite <- EO, size_ord. reflexivity.
  - rewrite app_length, Nat.add_comm. cbn [length Nat.add read_dims]. rewrite <- app_assoc in EO. cbn in EO.
    assert (EM : map fd_col (rev (map F post)) = rev post) by (rewrite map_rev, map_map; cbn; rewrite map_id; reflexivity). rewrite EM, (read_full pre c post EO). cbn [rbind]. rewrite F_count.
    rewrite <- (IH (c :: post) EO). cbn [permute map rev]. fold (permute post counts) (cs c). change (size_of (cs c :: permute post counts)) with (cs c * size_of (permute post counts)). rewrite Nat.mul_comm. reflexivity.
Qed.
End Full.

Lemma size_pow axes : Forall proper axes -> 2 ^ length axes <= size_of (map ax_count axes).
Proof. induction 1 as [|a l [P _] _ IH]; cbn; [lia|]. unfold size_of in IH. nia. Qed.
Lemma rmap_map {A B} (f : A -> rd B) (g : A -> B) l : (forall a, In a l -> f a = Ok (g a)) -> rmap f l = Ok (map g l).
Proof. exact (rmap_ok f g l). Qed.
Lemma recover axes ord m K rows tol : Forall proper axes -> Permutation ord (seq 0 (length axes)) -> table (length axes) K rows -> enumerates rows axes ord m -> 1 <= m ->
  exists gs, read_grids (length axes) K (Fin tol) rows = Ok gs /\ length gs = K /\
    forall k g, nth_error gs k = Some g -> fst g = map dim_of axes /\ length (snd g) = size_of (map ax_count axes) /\
      forall is, in_grid (map ax_count axes) is ->
        exists p v, nth_error rows ((m - 1) * size_of (map ax_count axes) + flat (permute ord (map ax_count axes)) (permute ord is)) = Some p /\
          nth_error p (length axes + k) = Some v /\ nth_error (snd g) (flat (map ax_count axes) is) = Some v.
Proof.
  intros HP HO WF HE Hm. set (N := length axes) in *. set (counts := map ax_count axes) in *.
  pose proof (dims_full axes ord m rows tol HP HO HE Hm ord [] ltac:(rewrite app_nil_r; reflexivity)) as RD.
  rewrite (Permutation_length HO), seq_length in RD. cbn [permute map rev] in RD. change (size_of []) with 1 in RD. fold N counts in RD.
  pose proof (size_pow axes HP) as SP. fold N counts in SP. assert (2 ^ N <> 0) by (apply Nat.pow_nonzero; lia). assert (LR : length rows = m * size_of counts) by apply HE.
  assert (NE : 0 < length rows) by nia.
  destruct (core rows N K (Fin tol) _ _ WF NE RD) as (dims & ED & LD & PD & GD & EC & LE & P0 & pos & H1 & H2 & H3).
  set (FF := F axes) in *. assert (EDIMS : dims = map FF (seq 0 N)).
  { apply nth_ext with (d := FF 0) (d' := FF 0); [rewrite map_length, seq_length; auto|]. intros c C. rewrite LD in C. rewrite (map_nth FF), seq_nth by auto. cbn [Nat.add].
    assert (Q : nth_error dims c = Some (nth c dims (FF 0))) by (apply nth_error_nth'; lia). destruct (GD c _ Q) as (P & EQ & _).
    apply nth_error_In in Q. apply (Permutation_in _ PD), in_rev, in_map_iff in Q as (c' & Q & _). rewrite <- Q in *. cbn in EQ. subst c'. exact (eq_sym Q) || reflexivity. }
  assert (EFC : map fd_count dims = counts).
  { rewrite EDIMS, map_map. rewrite (map_ext (fun c => fd_count (FF c)) (fun c => nth c counts 0)) by (intros c; apply F_count). replace N with (length counts) by (unfold counts; apply map_length). apply permute_seq. }
  assert (EFD : map dim_found dims = map dim_of axes).
  { rewrite EDIMS, map_map. apply nth_ext with (d := dim_found (FF 0)) (d' := dim_of (Axis 2 0 1)); [rewrite !map_length, seq_length; auto|]. intros c C. rewrite map_length, seq_length in C.
    rewrite (map_nth (fun c => dim_found (FF c))), seq_nth by auto. rewrite (map_nth dim_of). cbn [Nat.add]. unfold dim_found, FF. destruct (hd_last axes m HP Hm c C) as [-> ->].
    rewrite F_count. unfold dim_of. f_equal. apply (cs_ax axes c C). }
  unfold read_grids. replace (length rows <? 2 ^ N) with false by (symmetry; apply Nat.ltb_ge; nia). rewrite RD. cbn [rbind]. rewrite ED. cbn [rbind]. rewrite EFC, EFD in *.
  assert (HD : forall k, k < K -> exists data, reorder rows (N + k) (strides (size_of counts) counts) (rev (map FF ord)) 0 (length rows) (repeat (Fin 0) (length rows)) = Ok data /\ length data = length rows /\
    forall r, r < length rows -> length rows <= r + size_of counts -> of_opt (nth_error data (flat counts (pos r))) = entry rows r (N + k)) by (intros k Hk; apply H3; lia).
  assert (EX : exists gs, rmap (fun k => rbind (reorder rows (N + k) (strides (size_of counts) counts) (rev (map FF ord)) 0 (length rows) (repeat (Fin 0) (length rows))) (fun data => Ok (map dim_of axes, firstn (size_of counts) data))) (seq 0 K) = Ok gs).
  { assert (Q : forall l, (forall k, In k l -> k < K) -> exists gs, rmap (fun k => rbind (reorder rows (N + k) (strides (size_of counts) counts) (rev (map FF ord)) 0 (length rows) (repeat (Fin 0) (length rows))) (fun data => Ok (map dim_of axes, firstn (size_of counts) data))) l = Ok gs).
    { induction l as [|k l IH]; intros HL; [exists []; reflexivity|]. destruct (HD k) as (data & E & _); [apply HL; cbn; auto|]. destruct IH as [gs Egs]; [intros; apply HL; cbn; auto|].
      cbn [rmap]. rewrite E. cbn [rbind]. rewrite Egs. cbn [rbind]. eauto. }
    apply Q. intros k I. apply in_seq in I. lia. }
  destruct EX as [gs EG]. exists gs. split; [exact EG|]. pose proof (rmap_Forall2 _ _ _ EG) as F2. pose proof (Forall2_len _ _ _ F2) as LG. rewrite seq_length in LG. split; auto.
  intros k g E. assert (Hk : k < K) by (rewrite LG; apply nth_error_Some; intros QN; unfold grid in *; rewrite QN in E; discriminate). pose proof (Forall2_nth _ _ _ _ _ _ F2 (seq_error K k Hk) E) as R. cbn beta in R.
  destruct (HD k Hk) as (data & ER & LDA & HV). rewrite ER in R. cbn [rbind] in R. injection R as <-. cbn [fst snd]. split; auto. split; [rewrite firstn_length; lia|].
  intros is I. set (r := (m - 1) * size_of counts + flat (permute ord counts) (permute ord is)).
  destruct HE as [_ HE']. destruct (HE' (m - 1) is ltac:(lia) I) as (p & EP & EF). fold counts in EP. fold r in EP. fold N in EF.
  assert (R : r < length rows) by (apply nth_error_Some; congruence).
  assert (R' : length rows <= r + size_of counts). { unfold r. rewrite LR. destruct m; [lia|]. nia. }
  assert (EPOS : pos r = is).
  { destruct (H1 r R) as [G HC]. apply nth_ext with (d := 0) (d' := 0); [apply Forall2_len in G; apply Forall2_len in I; congruence|]. intros c C.
    assert (LP : length (pos r) = N) by (apply Forall2_len in G; unfold counts in G; rewrite map_length in G; auto). rewrite LP in C.
    assert (LI : length is = N) by (apply Forall2_len in I; unfold counts in I; rewrite map_length in I; auto).
    assert (ND : nth_error dims c = Some (FF c)) by (rewrite EDIMS; apply map_nth_error, seq_error, C).
    assert (NP : nth_error (pos r) c = Some (nth c (pos r) 0)) by (apply nth_error_nth'; lia). destruct (HC c (FF c) _ ND NP) as (v & V1 & V2 & _).
    assert (NA : nth_error axes c = Some (nth c axes (Axis 2 0 1))) by (apply nth_error_nth'; auto).
    assert (IB : nth c (pos r) 0 < nth c counts 0) by (apply (Forall2_nth (fun c i => i < c) counts (pos r) c); auto; apply nth_error_nth'; unfold counts; rewrite map_length; auto).
    unfold FF in V2. rewrite F_plane in V2 by exact IB. injection V2 as V2.
    unfold entry in V1. rewrite EP in V1. cbn [of_opt rbind] in V1. assert (EC' : nth_error p c = nth_error (firstn N p) c) by (symmetry; apply first_error; auto). rewrite EC', EF in V1. unfold nodes in V1.
    assert (NC : nth_error (combine axes is) c = Some (nth c axes (Axis 2 0 1), nth c is 0)).
    { assert (Q : forall (l : list axis) (i : list nat) n a d, nth_error l n = Some a -> nth_error i n = Some d -> nth_error (combine l i) n = Some (a, d)).
      { induction l as [|x l IH]; intros [|y i] [|n] a d E1 E2; try discriminate; cbn in *; [congruence|auto]. }
      apply Q; auto. apply nth_error_nth'; lia. }
    rewrite (map_nth_error Fin _ _ (map_nth_error (fun p => node (fst p) (snd p)) _ _ NC)) in V1. cbn in V1. injection V1 as V1. subst v. injection V2 as V2. apply node_inj in V2; auto.
    apply (ax_proper axes HP c C). }
  specialize (HV r R R'). rewrite EPOS in HV. destruct (entry_in rows N K WF r (N + k) R ltac:(lia)) as [v EV]. rewrite EV in HV. exists p, v. split; auto. split.
  - unfold entry in EV. rewrite EP in EV. cbn in EV. destruct (nth_error p (N + k)); cbn in EV; congruence.
  - rewrite first_error by (apply flat_lt; auto). destruct (nth_error data (flat counts is)); cbn in HV; congruence.
Qed.
