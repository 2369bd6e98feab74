(** The integration wrapper: proofs. *)
From Coq Require Import Reals ZArith List Lia Lra Bool.
From Verif Require Import IntegModel IntegSpec.
Import ListNotations.
Local Open Scope R_scope.

Lemma remove_absent b l : ~ In b l -> remove Nat.eq_dec b l = l.
Proof. intros H. induction l as [|x l IH]; [reflexivity|]. cbn. destruct (Nat.eq_dec b x) as [->|N]; [destruct H; left; reflexivity|]. rewrite IH; [reflexivity|]. intros K. apply H. right. exact K. Qed.
Lemma regular_absent w : regular w -> ~ In (count w) (live w).
Proof. unfold regular. rewrite Forall_forall. intros R H. specialize (R _ H). lia. Qed.
Lemma with_block_tidy k w : regular w -> (forall w1, regular w1 -> fst (k w1) <> Aborts -> tidy w1 (snd (k w1)) /\ (count w1 <= count (snd (k w1)))%nat) ->
  fst (with_block k w) <> Aborts -> tidy w (snd (with_block k w)) /\ (count w <= count (snd (with_block k w)))%nat.
Proof.
  intros R K. unfold with_block, alloc. destruct (avail w (count w)); [|cbn; intros _; split; [split; reflexivity|lia]].
  set (w1 := World _ _ _ _). assert (R1 : regular w1). { constructor; [cbn; lia|]. eapply Forall_impl; [|exact R]. cbn. intros. lia. }
  specialize (K w1 R1). destruct (k w1) as (o, w2). cbn [fst snd] in *. intros N. destruct (K N) as ((L & B) & C).
  assert (F : tidy w (free (count w) w2)).
  { split; cbn [free live bad].
    - rewrite L. cbn [w1 live remove]. destruct (Nat.eq_dec (count w) (count w)) as [_|X]; [|destruct (X eq_refl)]. apply remove_absent, regular_absent, R.
    - rewrite B, L. cbn [w1 live bad existsb]. rewrite Nat.eqb_refl. apply orb_false_r. }
  destruct o; try (destruct (N eq_refl)); (split; [exact F|cbn [w1 count free] in *; lia]).
Qed.
Section Integ.
Context {G W : Type} (taus2 : G) (fresh : method -> nat -> W) (cubature : integrand -> list R -> list R -> Z -> R -> R -> outcome)
  (run : method -> integrand -> list R -> list R -> nat -> Z -> G -> W -> ran G W).
Notation integ := (integrate G W taus2 fresh cubature run).
Lemma integrate_tidy D f lower upper p w : regular w -> fst (integ D f lower upper p w) <> Aborts -> tidy w (snd (integ D f lower upper p w)).
Proof.
  intros R N. unfold integrate in *. destruct (p_method p); try (split; reflexivity); refine (proj1 (with_block_tidy _ w R _ N)); intros w1 R1; apply with_block_tidy; try exact R1; intros w2 _ _; (split; [split; reflexivity|cbn; lia]).
Qed.
(** The outcome with memory in plenty. *)
Definition plain (D : nat) (f : integrand) (lower upper : list R) (p : params) : outcome :=
  match p_method p with
  | CUBATURE => cubature f lower upper (p_evals p) 0 0
  | Other _ => Value 0 0
  | _ => body G W taus2 fresh run D f lower upper p
  end.
Lemma integrate_plain D f lower upper p w : fst (integ D f lower upper p w) = plain D f lower upper p \/
  monte_carlo (p_method p) /\ fst (integ D f lower upper p w) = BadAlloc /\ (avail w (count w) = false \/ avail w (S (count w)) = false).
Proof.
  unfold integrate, plain, monte_carlo. destruct (p_method p); auto; unfold with_block, alloc; (destruct (avail w (count w)) eqn:E; [|right; cbn; auto 6]); cbn [count avail]; (destruct (avail w (S (count w))) eqn:E2; [left; reflexivity|right; cbn; auto 6]).
Qed.
Lemma integrate_repeat D f lower upper p w1 w2 : let o1 := fst (integ D f lower upper p w1) in let o2 := fst (integ D f lower upper p w2) in o1 <> BadAlloc -> o2 <> BadAlloc -> o1 = o2.
Proof. cbn zeta. destruct (integrate_plain D f lower upper p w1) as [->|(_ & -> & _)]; [|intros X; destruct (X eq_refl)]. destruct (integrate_plain D f lower upper p w2) as [->|(_ & -> & _)]; [reflexivity|intros _ X; destruct (X eq_refl)]. Qed.
Lemma integrate_memory D f lower upper p w : (forall n, avail w n = true) -> fst (integ D f lower upper p w) = plain D f lower upper p.
Proof. intros A. destruct (integrate_plain D f lower upper p w) as [E|(_ & _ & [E|E])]; [exact E|rewrite A in E; discriminate..]. Qed.
Lemma integrate_reliable I n D f lower upper p w v e : proper I -> reliable cubature run I n D -> length lower = D -> length upper = D -> known (p_method p) -> (n <= p_evals p)%Z ->
  fst (integ D f lower upper p w) = Value v e -> Rabs (v - I D f lower upper) <= e.
Proof.
  intros PI (RC & RM) LL LU K N E. destruct (integrate_plain D f lower upper p w) as [H|(_ & H & _)]; [|congruence]. rewrite H in E. clear H.
  assert (A : I D (func_ptr D f) lower upper = I D f lower upper). { apply PI. intros x X. unfold func_ptr. rewrite firstn_all2 by lia. reflexivity. }
  assert (FIN : forall r, finish G W r = Value v e -> exists g s, r = Ran g s v e) by (intros [g s v' e'| |]; cbn; intros [=]; subst; eauto).
  unfold plain in E. destruct (p_method p) eqn:M; [eauto| | | |destruct K]; unfold body in E; rewrite M in E.
  3: destruct (run VEGAS _ _ _ _ (p_burn p) _ _) as [g s v1 e1| |]; try discriminate.
  all: apply FIN in E; destruct E as (g' & s' & E); rewrite <- A; eapply RM; [..|exact E]; unfold monte_carlo; auto.
Qed.
Lemma integrate_burn D f lower upper m evals b1 b2 w : m <> VEGAS -> integ D f lower upper (Params m evals b1) w = integ D f lower upper (Params m evals b2) w.
Proof. intros N. destruct m; try reflexivity. destruct (N eq_refl). Qed.
Lemma integrate_other D f lower upper p w v : p_method p = Other v -> integ D f lower upper p w = (Value 0 0, w).
Proof. intros H. unfold integrate. rewrite H. reflexivity. Qed.
(** The integrand is only ever given points of D coordinates, if the routines are. *)
Lemma integrate_points D f g lower upper p w : length lower = D -> (forall f g m c s t, on_points D f g -> run m f lower upper D c s t = run m g lower upper D c s t) -> (forall f g c, on_points D f g -> cubature f lower upper c 0 0 = cubature g lower upper c 0 0) ->
  on_points D f g -> integ D f lower upper p w = integ D g lower upper p w.
Proof.
  intros LL HR HC E. assert (F : on_points D (func_ptr D f) (func_ptr D g)) by (intros x X; unfold func_ptr; rewrite firstn_all2 by lia; apply E, X).
  assert (B : body G W taus2 fresh run D f lower upper p = body G W taus2 fresh run D g lower upper p).
  { unfold body. destruct (p_method p); rewrite ?(HR _ _ _ _ _ _ F); try reflexivity. destruct (run VEGAS (func_ptr D g) lower upper D (p_burn p) taus2 (fresh VEGAS D)); try reflexivity. rewrite (HR _ _ _ _ _ _ F). reflexivity. }
  unfold integrate. rewrite B, (HC _ _ _ E). reflexivity.
Qed.
End Integ.
