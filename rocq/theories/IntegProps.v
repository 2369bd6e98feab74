(** C103: the integration wrapper. *)
From Coq Require Import Reals ZArith List Lia Lra.
From Verif Require Import IntegModel IntegSpec IntegProofs.
Import ListNotations.
Local Open Scope R_scope.

Section Props.
Context {G W : Type} (taus2 : G) (fresh : method -> nat -> W) (cubature : integrand -> list R -> list R -> Z -> R -> R -> outcome)
  (run : method -> integrand -> list R -> list R -> nat -> Z -> G -> W -> ran G W).
Notation integ := (integrate G W taus2 fresh cubature run).
Notation integ_1 := (integrate_1 G W taus2 fresh cubature run).
(** If the routines can be trusted with [n] evaluations, so can the result of every method asked for [n] evaluations, with any burn-in. *)
Theorem C103_reliable I n D f lower upper p w v e : proper I -> reliable cubature run I n D -> length lower = D -> length upper = D -> known (p_method p) -> (n <= p_evals p)%Z ->
  fst (integ D f lower upper p w) = Value v e -> Rabs (v - I D f lower upper) <= e.
Proof. exact (integrate_reliable taus2 fresh cubature run I n D f lower upper p w v e). Qed.
Theorem C103_interval I n f a b p w v e : proper I -> reliable cubature run I n 1 -> known (p_method p) -> (n <= p_evals p)%Z ->
  fst (integ_1 f a b p w) = Value v e -> Rabs (v - I 1%nat (fun x => f (hd 0 x)) [a] [b]) <= e.
Proof.
  intros PI RE K N E. rewrite <- (PI 1%nat (fun x => match x with v :: _ => f v | [] => f 0 end) _ [a] [b]); [|intros [|x [|]]; cbn; auto; discriminate].
  exact (integrate_reliable taus2 fresh cubature run I n 1 _ [a] [b] p w v e PI RE eq_refl eq_refl K N E).
Qed.
(** The generator is a new one each time: unless memory runs out, a repeated call gives the same outcome. *)
Theorem C103_repeatable D f lower upper p w1 w2 : let o1 := fst (integ D f lower upper p w1) in let o2 := fst (integ D f lower upper p w2) in
  o1 <> BadAlloc -> o2 <> BadAlloc -> o1 = o2.
Proof. exact (integrate_repeat taus2 fresh cubature run D f lower upper p w1 w2). Qed.
(** Only the Monte-Carlo methods can run out of memory here, and only if an allocation fails. *)
Theorem C103_memory D f lower upper p w : fst (integ D f lower upper p w) = BadAlloc -> (forall o, cubature f lower upper (p_evals p) 0 0 = o -> o <> BadAlloc) ->
  monte_carlo (p_method p) /\ (avail w (count w) = false \/ avail w (S (count w)) = false).
Proof.
  intros E C. destruct (integrate_plain taus2 fresh cubature run D f lower upper p w) as [H|(M & _ & A)]; [|auto]. rewrite H in E. unfold plain in E.
  assert (F : forall r, finish G W r <> BadAlloc) by (intros []; discriminate). destruct (p_method p) eqn:M; try discriminate; [destruct (C _ eq_refl E)| | |]; unfold body in E; rewrite M in E; try destruct (F _ E).
  destruct (run VEGAS _ _ _ _ (p_burn p) _ _) as [g s v1 e1| |]; [destruct (F _ E)|discriminate..].
Qed.
(** Whatever happens, short of the end of the program, no memory is left over and none is released twice. *)
Theorem C103_tidy D f lower upper p w : regular w -> fst (integ D f lower upper p w) <> Aborts -> tidy w (snd (integ D f lower upper p w)).
Proof. exact (integrate_tidy taus2 fresh cubature run D f lower upper p w). Qed.
(** The burn-in only matters to VEGAS. *)
Theorem C103_burn D f lower upper m evals b1 b2 w : m <> VEGAS -> integ D f lower upper (Params m evals b1) w = integ D f lower upper (Params m evals b2) w.
Proof. exact (integrate_burn taus2 fresh cubature run D f lower upper m evals b1 b2 w). Qed.
(** Integrands that agree on points with D coordinates are not told apart, if the routines do not tell them apart. *)
Theorem C103_points D f g lower upper p w : length lower = D -> (forall f g m c s t, on_points D f g -> run m f lower upper D c s t = run m g lower upper D c s t) ->
  (forall f g c, on_points D f g -> cubature f lower upper c 0 0 = cubature g lower upper c 0 0) -> on_points D f g -> integ D f lower upper p w = integ D g lower upper p w.
Proof. exact (integrate_points taus2 fresh cubature run D f g lower upper p w). Qed.
(** A method outside the enumeration: zero, with no error, for every integrand. *)
Theorem C103_unknown D f lower upper p w v : p_method p = Other v -> integ D f lower upper p w = (Value 0 0, w).
Proof. exact (integrate_other taus2 fresh cubature run D f lower upper p w v). Qed.
End Props.
Print Assumptions C103_reliable. Print Assumptions C103_interval. Print Assumptions C103_repeatable. Print Assumptions C103_memory. Print Assumptions C103_tidy. Print Assumptions C103_burn. Print Assumptions C103_points. Print Assumptions C103_unknown.
(** A routine that returns the integrand at the lower corner, with an error that counts the evaluations the generator has served before. *)
Definition toy_I : integral := fun D f lower upper => match f (firstn D lower) with Some v => v | None => 0 end.
Definition toy_run (m : method) (f : integrand) (lower upper : list R) (D : nat) (c : Z) (g : Z) (s : unit) : ran Z unit :=
  match f (firstn D lower) with Some v => Ran (g + c)%Z tt v (IZR (Z.abs g)) | None => RanThrew end.
Definition toy_cubature (f : integrand) (lower upper : list R) (c : Z) (a b : R) : outcome := match f lower with Some v => Value v 0 | None => Threw end.
Notation toy := (integrate Z unit 0%Z (fun _ _ => tt) toy_cubature toy_run).
Example C103_example : let w := World [7%nat; 3%nat] 12 (fun _ => true) false in let w' := World [7%nat; 3%nat] 12 (fun n => negb (n =? 13)%nat) false in let f : integrand := fun x => Some (hd 0 x * 2) in
  regular w /\ (forall D, reliable toy_cubature toy_run toy_I 10 D) /\
  toy 2 f [3; 4] [5; 6] (Params VEGAS 10 5) w = (Value (3 * 2) 5, World [7%nat; 3%nat] 14 (fun _ => true) false) /\
  fst (toy 2 f [3; 4] [5; 6] (Params MISER 10 5) w) = Value (3 * 2) 0 /\
  fst (toy 2 (fun _ => None) [3; 4] [5; 6] (Params MC_PLAIN 10 5) w) = Threw /\
  (let r := toy 2 f [3; 4] [5; 6] (Params MISER 10 5) w' in fst r = BadAlloc /\ live (snd r) = [7%nat; 3%nat]).
Proof.
  cbn zeta. split; [repeat constructor; cbn; lia|]. split; [|repeat split; reflexivity]. intros D. split.
  - intros f lower upper c v e L _ _. unfold toy_cubature, toy_I. rewrite firstn_all2 by lia. destruct (f lower); intros [= <- <-]. replace (r - r) with 0 by ring. rewrite Rabs_R0. lra.
  - intros m f lower upper c g s g' s' v e _ L _ _. unfold toy_run, toy_I. destruct (f (firstn D lower)); intros [= _ _ <- <-]. replace (r - r) with 0 by ring. rewrite Rabs_R0. apply IZR_le. lia.
Qed.
Print Assumptions C103_example.
