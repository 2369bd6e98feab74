(** Words of slashed vectors: traces, with and without the fifth matrix, and contraction over an index. *)
From Coq Require Import Reals List Lia Lra Arith Ring.
From Verif Require Import VecModel KinSpec QedSpec QedAlg.
Import ListNotations.
Local Open Scope R_scope.

(** ** Words of slashed vectors, and traces *)
Section Words.
Variable L : Type.
Fixpoint ev (env : L -> vec4) (w : list L) : mat := match w with [] => mone | a :: t => mmul (slash (env a)) (ev env t) end.
Lemma ev_app env v w : ev env (v ++ w) = mmul (ev env v) (ev env w).
Proof. induction v as [|a v IH]; cbn [ev app]; [now rewrite mmul_1_l|rewrite IH; apply mmul_assoc]. Qed.
(** All ways of taking one letter out. *)
Fixpoint picks (w : list L) : list (L * list L) :=
  match w with [] => [] | b :: t => (b, t) :: map (fun p => (fst p, b :: snd p)) (picks t) end.
Fixpoint alt (f : L * list L -> R) (l : list (L * list L)) : R := match l with [] => 0 | x :: t => f x - alt f t end.
Fixpoint altm (f : L * list L -> mat) (l : list (L * list L)) : mat := match l with [] => mzero | x :: t => madd (f x) (mscal cm1 (altm f t)) end.
Fixpoint trw (g : L -> L -> R) (n : nat) (w : list L) : R :=
  match w, n with
  | [], _ => 4
  | _, O => 0
  | a :: t, S n' => alt (fun p => g a (fst p) * trw g n' (snd p)) (picks t)
  end.
Definition sgn (w : list L) : R := if Nat.even (length w) then 1 else -1.
Lemma altm_map f b l : altm f (map (fun p => (fst p, b :: snd p)) l) = altm (fun p => f (fst p, b :: snd p)) l.
Proof. induction l as [|x l IH]; cbn [map altm]; [reflexivity|now rewrite IH]. Qed.
Lemma altm_mul env h b l : altm (fun p => mscal (h (fst p)) (mmul (slash (env b)) (ev env (snd p)))) l = mmul (slash (env b)) (altm (fun p => mscal (h (fst p)) (ev env (snd p))) l).
Proof.
  induction l as [|x l IH]; cbn [altm]; [now rewrite mmul_0_r|].
  rewrite IH, mmul_add_r, !mmul_scal_r. reflexivity.
Qed.
Lemma sgn_cons b w : creal (sgn (b :: w)) = cmul cm1 (creal (sgn w)).
Proof.
  unfold sgn. cbn [length]. rewrite Nat.even_succ. rewrite <- Nat.negb_even. destruct (Nat.even (length w)); cbn [negb]; cxr.
Qed.
Lemma move_through env a w : mmul (slash (env a)) (ev env w)
  = madd (mscal (creal (sgn w)) (mmul (ev env w) (slash (env a)))) (altm (fun p => mscal (creal (2 * dot4 (env a) (env (fst p)))) (ev env (snd p))) (picks w)).
Proof.
  induction w as [|b w IH]; cbn [ev picks altm].
  - unfold sgn. cbn [length Nat.even]. fold c1. rewrite mscal_1, madd_0_r, mmul_1_l, mmul_1_r. reflexivity.
  - rewrite mmul_assoc, slash_anti, mmul_add_l, !mmul_scal_l, mmul_1_l, <- mmul_assoc, IH, mmul_add_r, mscal_add.
    rewrite altm_map. cbn [fst snd ev]. rewrite (altm_mul env (fun x => creal (2 * dot4 (env a) (env x))) b).
    rewrite mmul_scal_r, mscal_mscal, sgn_cons, <- !mmul_assoc.
    rewrite !madd_assoc. f_equal. rewrite madd_comm. f_equal.
Qed.
Lemma tr_altm f l : tr (altm f l) = fold_right (fun x s => cadd (tr (f x)) (cmul cm1 s)) c0 l.
Proof. induction l as [|x l IH]; cbn [altm fold_right]; [apply tr_zero|]. rewrite tr_add, tr_scal, IH. reflexivity. Qed.
Lemma picks_len w p : In p (picks w) -> length w = S (length (snd p)).
Proof.
  revert p. induction w as [|b w IH]; cbn [picks In length]; [tauto|]. intros p [<-|H]; [reflexivity|].
  apply in_map_iff in H. destruct H as (x & <- & H). cbn [snd length]. f_equal. now apply IH.
Qed.
Lemma tr_word_even env n w : (length w <= n)%nat -> Nat.even (length w) = true -> tr (ev env w) = creal (trw (fun a b => dot4 (env a) (env b)) n w).
Proof.
  revert w. induction n as [|n IH]; intros w Hn He.
  - destruct w; [|cbn in Hn; lia]. cbn [ev trw]. apply tr_one.
  - destruct w as [|a w]; [cbn [ev trw]; apply tr_one|]. cbn [ev trw].
    assert (Ho : Nat.even (length w) = false).
    { cbn [length] in He. rewrite Nat.even_succ in He. rewrite <- Nat.negb_odd, He. reflexivity. }
    pose proof (f_equal tr (move_through env a w)) as H. rewrite tr_add, tr_scal in H. unfold sgn in H. rewrite Ho in H.
    rewrite (tr_comm (ev env w)) in H.
    rewrite tr_altm in H.
    assert (G : forall l, (forall p, In p l -> length w = S (length (snd p))) ->
      fold_right (fun x s => cadd (tr (mscal (creal (2 * dot4 (env a) (env (fst x)))) (ev env (snd x)))) (cmul cm1 s)) c0 l
      = creal (2 * alt (fun p => dot4 (env a) (env (fst p)) * trw (fun a b => dot4 (env a) (env b)) n (snd p)) l)).
    { induction l as [|x l IHl]; intros Hl; cbn [fold_right alt]; [cxr|].
      rewrite IHl by (intros; apply Hl; now right). rewrite tr_scal.
      assert (E := Hl x (or_introl eq_refl)).
      rewrite IH; [cxr| cbn [length] in Hn; lia|]. rewrite E, Nat.even_succ in Ho. rewrite <- Nat.negb_odd, Ho. reflexivity. }
    rewrite G in H by apply picks_len.
    set (T := tr (mmul (slash (env a)) (ev env w))) in *. set (A := alt _ _) in *.
    pose proof (f_equal re H) as Hr. pose proof (f_equal im H) as Hi. cbn [re im cadd cmul creal] in Hr, Hi.
    apply cx_eq; cbn [re im creal]; lra.
Qed.
Lemma g5_word env w : mmul gam5 (ev env w) = mscal (creal (sgn w)) (mmul (ev env w) gam5).
Proof.
  induction w as [|b w IH]; cbn [ev].
  - unfold sgn. cbn [length Nat.even]. fold c1. now rewrite mscal_1, mmul_1_l, mmul_1_r.
  - rewrite mmul_assoc. replace (mmul gam5 (slash (env b))) with (mscal cm1 (mmul (slash (env b)) gam5)).
    2:{ rewrite slash_g5, mscal_mscal. replace (cmul cm1 cm1) with c1 by cxr. apply mscal_1. }
    rewrite mmul_scal_l, <- !mmul_assoc, IH, mmul_scal_r, mscal_mscal, sgn_cons. reflexivity.
Qed.
Lemma tr_word_odd env w : Nat.even (length w) = false -> tr (ev env w) = c0.
Proof.
  intros H. pose proof (g5_word env w) as G. unfold sgn in G. rewrite H in G.
  apply (f_equal (mmul gam5)) in G. rewrite mmul_assoc, g5_sq, mmul_1_l, mmul_scal_r in G.
  apply (f_equal tr) in G. rewrite tr_scal, tr_comm, <- mmul_assoc, g5_sq, mmul_1_r in G.
  pose proof (f_equal re G) as Hr. pose proof (f_equal im G) as Hi. cbn [re im cadd cmul creal] in Hr, Hi.
  apply cx_eq; cbn [re im c0 creal]; lra.
Qed.
Lemma tr5_word_odd env w : Nat.even (length w) = false -> tr (mmul gam5 (ev env w)) = c0.
Proof.
  intros H. pose proof (g5_word env w) as G. unfold sgn in G. rewrite H in G. apply (f_equal tr) in G.
  rewrite tr_scal, (tr_comm _ gam5) in G.
  pose proof (f_equal re G) as Hr. pose proof (f_equal im G) as Hi. cbn [re im cadd cmul creal] in Hr, Hi.
  apply cx_eq; cbn [re im c0 creal]; lra.
Qed.
(** With the fifth matrix. *)
Definition tr5w (d : L -> L -> L -> L -> R) (gd : L -> L -> L -> L -> L -> L -> R) (w : list L) : R :=
  match w with
  | [a; b; c; e] => 4 * d a b c e
  | [a; b; c; p; q; r] => 4 * (gd a b c p q r - gd a c b p q r + gd b c a p q r + gd p q a b c r - gd p r a b c q + gd q r a b c p)
  | _ => 0
  end.
Lemma tr_slash2 a b : tr (mmul (slash a) (slash b)) = creal (4 * dot4 a b).
Proof. concs. Qed.
Lemma tr5_slash2 a b : tr (mmul gam5 (mmul (slash a) (slash b))) = c0.
Proof. concs. Qed.
Lemma tr5_one : tr gam5 = c0.
Proof. rewrite g5_explicit. onel. Qed.
Ltac drow := unfold det_rows, tri, dot3, cross3, r4, dot4, add4, sub4, scale4; cbn [t4 x4 y4 z4 x3 y3 z3]; ring.
Lemma det_tri a b c p q r : det_rows (tri a b c) p q r = dot4 a b * det_rows c p q r - dot4 a c * det_rows b p q r + dot4 b c * det_rows a p q r.
Proof.
  unfold tri. generalize (dot4 a b) (dot4 a c) (dot4 b c). intros x y z. drow.
Qed.
Lemma det_cyc a b c d : det_rows d a b c = - det_rows a b c d.
Proof. drow. Qed.
Lemma tr5_slash4 a b c d : tr (mmul gam5 (mmul (slash a) (mmul (slash b) (mmul (slash c) (slash d))))) = Cx 0 (4 * det_rows a b c d).
Proof.
  rewrite (mmul_assoc (slash b)), (mmul_assoc (slash a)), slash3, mmul_add_l, mmul_add_r, tr_add, tr5_slash2.
  rewrite mmul_scal_l, mmul_scal_r, tr_scal, <- mmul_assoc, (mmul_assoc gam5), g5_sq, mmul_1_l, tr_slash2.
  replace (dot4 (axial a b c) d) with (- det_rows a b c d).
  2:{ rewrite <- det_cyc, <- axial_dot. unfold dot4. ring. }
  cxr.
Qed.
Lemma tr5_slash6 a b c p q r : tr (mmul gam5 (mmul (slash a) (mmul (slash b) (mmul (slash c) (mmul (slash p) (mmul (slash q) (slash r)))))))
  = Cx 0 (4 * (dot4 a b * det_rows c p q r - dot4 a c * det_rows b p q r + dot4 b c * det_rows a p q r
               + dot4 p q * det_rows a b c r - dot4 p r * det_rows a b c q + dot4 q r * det_rows a b c p)).
Proof.
  rewrite (slash3 p q r), (mmul_assoc (slash b)), (mmul_assoc (slash a)), slash3.
  set (t := tri a b c). set (x := axial a b c). set (t' := tri p q r). set (x' := axial p q r).
  assert (E1 : tr (mmul gam5 (mmul (slash t) (mmul gam5 (slash x')))) = creal (- (4 * dot4 t x'))).
  { rewrite (mmul_assoc (slash t) gam5), slash_g5, mmul_scal_l, mmul_scal_r, tr_scal, <- (mmul_assoc gam5 (slash t)), (mmul_assoc gam5 gam5), g5_sq, mmul_1_l, tr_slash2. cxr. }
  assert (E2 : tr (mmul gam5 (mmul (mmul gam5 (slash x)) (slash t'))) = creal (4 * dot4 x t')).
  { rewrite <- (mmul_assoc gam5 (slash x)), (mmul_assoc gam5 gam5), g5_sq, mmul_1_l, tr_slash2. reflexivity. }
  assert (E3 : tr (mmul gam5 (mmul (mmul gam5 (slash x)) (mmul gam5 (slash x')))) = c0).
  { rewrite <- (mmul_assoc gam5 (slash x)), (mmul_assoc gam5 gam5), g5_sq, mmul_1_l.
    rewrite (mmul_assoc (slash x)), slash_g5, mmul_scal_l, tr_scal, <- mmul_assoc, tr5_slash2. cxr. }
  rewrite mmul_add_l, !mmul_add_r, !tr_add, tr5_slash2, !mmul_scal_l, !mmul_scal_r, !tr_scal.
  rewrite E1, E2, E3.
  replace (dot4 t x') with (det_rows t p q r) by (symmetry; apply axial_dot).
  replace (dot4 x t') with (det_rows t' a b c) by (rewrite <- axial_dot; unfold dot4; fold x; ring).
  unfold t, t'. rewrite !det_tri. rewrite !(det_cyc a b c). cxr.
Qed.
Lemma tr5_word env w : (Nat.even (length w) = true -> length w <= 6)%nat ->
  tr (mmul gam5 (ev env w)) = Cx 0 (tr5w (fun a b c e => det_rows (env a) (env b) (env c) (env e))
    (fun a b c e f g => dot4 (env a) (env b) * det_rows (env c) (env e) (env f) (env g)) w).
Proof.
  intros H. destruct (Nat.even (length w)) eqn:E.
  - specialize (H eq_refl). destruct w as [|a [|b [|c [|e [|p [|q [|r w]]]]]]]; cbn [length Nat.even] in *; try discriminate; try lia; cbn [ev tr5w]; rewrite ?mmul_1_r.
    + apply tr5_one. + apply tr5_slash2. + apply tr5_slash4. + apply tr5_slash6.
  - rewrite tr5_word_odd by exact E.
    destruct w as [|a [|b [|c [|e [|p [|q [|r w]]]]]]]; cbn [length Nat.even] in *; try discriminate; reflexivity.
Qed.

(** ** Linear combinations of words *)
Definition poly := list (R * list L).
Definition evp env (p : poly) : mat := fold_right (fun t s => madd (mscal (creal (fst t)) (ev env (snd t))) s) mzero p.
Definition psc (c : R) (p : poly) : poly := map (fun t => (c * fst t, snd t)) p.
Definition pmul (p q : poly) : poly := flat_map (fun t => map (fun u => (fst t * fst u, snd t ++ snd u)) q) p.
Definition trp (f : list L -> R) (p : poly) : R := fold_right (fun t s => fst t * f (snd t) + s) 0 p.
Lemma evp_cons env t p : evp env (t :: p) = madd (mscal (creal (fst t)) (ev env (snd t))) (evp env p).
Proof. reflexivity. Qed.
Lemma evp_app env p q : evp env (p ++ q) = madd (evp env p) (evp env q).
Proof. induction p as [|t p IH]; cbn [app]; [now rewrite madd_0_l|]. now rewrite !evp_cons, IH, madd_assoc. Qed.
Lemma creal_mul a b : creal (a * b) = cmul (creal a) (creal b). Proof. cxr. Qed.
Lemma evp_psc env c p : evp env (psc c p) = mscal (creal c) (evp env p).
Proof.
  induction p as [|t p IH]; [symmetry; apply mscal_zero|]. cbn [psc map]. rewrite !evp_cons. fold (psc c p).
  rewrite IH, mscal_add, mscal_mscal, <- creal_mul. reflexivity.
Qed.
Lemma evp_pmul env p q : evp env (pmul p q) = mmul (evp env p) (evp env q).
Proof.
  induction p as [|t p IH]; [symmetry; apply mmul_0_l|]. cbn [pmul flat_map]. fold (pmul p q). rewrite evp_app, IH, evp_cons, mmul_add_l. f_equal.
  clear. induction q as [|u q IH]; cbn [map]; [symmetry; apply mmul_0_r|].
  rewrite !evp_cons, IH, mmul_add_r. f_equal. cbn [fst snd]. rewrite ev_app, creal_mul, <- mscal_mscal, mmul_scal_l, mmul_scal_r. reflexivity.
Qed.
Lemma tr_evp env n p : forallb (fun t => length (snd t) <=? n)%nat p = true ->
  tr (evp env p) = creal (trp (fun w => if Nat.even (length w) then trw (fun a b => dot4 (env a) (env b)) n w else 0) p).
Proof.
  induction p as [|t p IH]; cbn [forallb]; [intros _; apply tr_zero|]. intros H. apply andb_prop in H. destruct H as [H1 H2]. apply Nat.leb_le in H1.
  rewrite evp_cons, tr_add, tr_scal, IH by exact H2. cbn [trp fold_right]. match goal with |- context [fold_right ?f 0 p] => set (A := fold_right f 0 p); change (trp _ p) with A end. cbv beta.
  destruct (Nat.even (length (snd t))) eqn:E; [rewrite (tr_word_even env n) by assumption|rewrite tr_word_odd by assumption]; cxr.
Qed.
Lemma tr5_evp env p : forallb (fun t => if Nat.even (length (snd t)) then length (snd t) <=? 6 else true)%nat p = true ->
  tr (mmul gam5 (evp env p)) = Cx 0 (trp (tr5w (fun a b c e => det_rows (env a) (env b) (env c) (env e))
    (fun a b c e f g => dot4 (env a) (env b) * det_rows (env c) (env e) (env f) (env g))) p).
Proof.
  induction p as [|t p IH]; cbn [forallb]; [intros _; cbn [evp fold_right trp]; rewrite mmul_0_r; apply tr_zero|].
  intros H. apply andb_prop in H. destruct H as [H1 H2].
  rewrite evp_cons, mmul_add_r, mmul_scal_r, tr_add, tr_scal, IH by exact H2. rewrite tr5_word.
  - cbn [trp fold_right]. match goal with |- context [fold_right ?f 0 p] => set (A := fold_right f 0 p); change (trp _ p) with A end. cbv beta. cxr.
  - intros E. rewrite E in H1. apply Nat.leb_le. exact H1.
Qed.

(** ** Contraction over an index *)
Definition ksum (f : vec4 -> mat) : mat := fold_right (fun t s => madd (mscal (creal (fst t)) (f (snd t))) s) mzero metric.
Lemma ksum_4 f : ksum f = madd (mscal (creal 1) (f VEC4_T)) (madd (mscal (creal (-1)) (f VEC4_X)) (madd (mscal (creal (-1)) (f VEC4_Y)) (mscal (creal (-1)) (f VEC4_Z)))).
Proof. unfold ksum, metric. cbn [fold_right fst snd]. now rewrite madd_0_r. Qed.
Lemma ksum_ext f g : (forall e, f e = g e) -> ksum f = ksum g.
Proof. intros H. rewrite !ksum_4, !H. reflexivity. Qed.
Lemma ksum_add f g : ksum (fun e => madd (f e) (g e)) = madd (ksum f) (ksum g).
Proof.
  rewrite !ksum_4, !mscal_add. generalize (mscal (creal 1) (f VEC4_T)) (mscal (creal 1) (g VEC4_T)) (mscal (creal (-1)) (f VEC4_X)) (mscal (creal (-1)) (g VEC4_X))
    (mscal (creal (-1)) (f VEC4_Y)) (mscal (creal (-1)) (g VEC4_Y)) (mscal (creal (-1)) (f VEC4_Z)) (mscal (creal (-1)) (g VEC4_Z)). intros a b c d p q r s.
  assert (S : forall a b c d, madd (madd a b) (madd c d) = madd (madd a c) (madd b d)).
  { intros. rewrite <- !madd_assoc. f_equal. rewrite !madd_assoc. f_equal. apply madd_comm. }
  rewrite (S p q r s), (S c d), (S a b). reflexivity.
Qed.
Lemma ksum_scal c f : ksum (fun e => mscal c (f e)) = mscal c (ksum f).
Proof.
  assert (S : forall x a, mscal x (mscal c a) = mscal c (mscal x a)) by (intros; rewrite !mscal_mscal; f_equal; ring).
  rewrite !ksum_4, !mscal_add, !S. reflexivity.
Qed.
Lemma ksum_mul_l a f : ksum (fun e => mmul a (f e)) = mmul a (ksum f).
Proof. rewrite !ksum_4, !mmul_add_r, !mmul_scal_r. reflexivity. Qed.
Lemma ksum_mul_r a f : ksum (fun e => mmul (f e) a) = mmul (ksum f) a.
Proof. rewrite !ksum_4, !mmul_add_l, !mmul_scal_l. reflexivity. Qed.
Lemma ksum_vec a : ksum (fun e => mscal (creal (dot4 e a)) (slash e)) = slash a.
Proof.
  rewrite ksum_4, !mscal_mscal, <- !creal_mul, <- !slash_scale, <- !slash_add. f_equal. destruct a as [w0 w1 w2 w3].
  unfold add4, scale4, dot4, VEC4_T, VEC4_X, VEC4_Y, VEC4_Z. cbn [t4 x4 y4 z4]. f_equal; ring.
Qed.
Lemma ksum_one : ksum (fun e => mmul (slash e) (slash e)) = mscal (creal 4) mone.
Proof.
  rewrite (ksum_ext _ (fun e => mscal (creal (dot4 e e)) mone)) by (intros; apply slash_sq).
  rewrite ksum_4, !mscal_mscal, <- !creal_mul, <- !mscal_add_l. f_equal. unfold dot4, VEC4_T, VEC4_X, VEC4_Y, VEC4_Z. cbn [t4 x4 y4 z4]. cxr.
Qed.
Lemma ksum_step a m : ksum (fun e => mmul (slash e) (mmul (mmul (slash a) m) (slash e)))
  = madd (mscal (creal 2) (mmul m (slash a))) (mscal cm1 (mmul (slash a) (ksum (fun e => mmul (slash e) (mmul m (slash e)))))).
Proof.
  rewrite (ksum_ext _ (fun e => madd (mmul (mscal (creal 2) m) (mscal (creal (dot4 e a)) (slash e))) (mscal cm1 (mmul (slash a) (mmul (slash e) (mmul m (slash e))))))).
  2:{ intros e. rewrite <- !mmul_assoc, (mmul_assoc (slash e)), slash_anti, mmul_add_l, !mmul_scal_l, mmul_1_l. f_equal.
      - rewrite mmul_scal_r, mscal_mscal. f_equal. rewrite creal_mul. reflexivity.
      - rewrite <- !mmul_assoc. reflexivity. }
  rewrite ksum_add, ksum_mul_l, ksum_scal, ksum_mul_l, ksum_vec, mmul_scal_l. reflexivity.
Qed.
Fixpoint kw (w : list L) : poly :=
  match w with [] => [(4, [])] | a :: t => (2, t ++ [a]) :: map (fun u => (- fst u, a :: snd u)) (kw t) end.
Lemma evp_map_cons env a p : evp env (map (fun u => (- fst u, a :: snd u)) p) = mscal cm1 (mmul (slash (env a)) (evp env p)).
Proof.
  induction p as [|t p IH]; cbn [map]; [cbn [evp fold_right]; now rewrite mmul_0_r, mscal_zero|].
  rewrite !evp_cons, IH, mmul_add_r, mscal_add. f_equal. cbn [fst snd ev]. rewrite mmul_scal_r, mscal_mscal. f_equal. cxr.
Qed.
Lemma ksum_word env w : ksum (fun e => mmul (slash e) (mmul (ev env w) (slash e))) = evp env (kw w).
Proof.
  induction w as [|a w IH]; cbn [ev kw].
  - rewrite (ksum_ext _ (fun e => mmul (slash e) (slash e))) by (intros; now rewrite mmul_1_l). rewrite ksum_one. cbn [evp fold_right fst snd ev]. now rewrite madd_0_r.
  - rewrite ksum_step, IH, evp_cons, evp_map_cons. cbn [fst snd]. rewrite ev_app. cbn [ev]. now rewrite mmul_1_r.
Qed.
Variable eqb : L -> L -> bool.
Hypothesis eqb_ok : forall a b, eqb a b = true <-> a = b.
Definition upd (env : L -> vec4) (A : L) (e : vec4) : L -> vec4 := fun x => if eqb x A then e else env x.
Fixpoint cut (A : L) (w : list L) : option (list L * list L) :=
  match w with
  | [] => None
  | b :: t => if eqb b A then Some ([], t) else match cut A t with Some (x, y) => Some (b :: x, y) | None => None end
  end.
Lemma cut_some A w x y : cut A w = Some (x, y) -> w = x ++ A :: y /\ cut A x = None.
Proof.
  revert x y. induction w as [|b w IH]; cbn [cut]; [discriminate|]. intros x y. destruct (eqb b A) eqn:E.
  - injection 1 as <- <-. apply eqb_ok in E. subst. split; reflexivity.
  - destruct (cut A w) as [[x' y']|] eqn:C; [|discriminate]. injection 1 as <- <-. destruct (IH _ _ eq_refl) as [-> H].
    split; [reflexivity|]. cbn [cut]. now rewrite E, H.
Qed.
Lemma ev_upd env A e w : cut A w = None -> ev (upd env A e) w = ev env w.
Proof.
  induction w as [|b w IH]; cbn [cut ev]; [reflexivity|]. unfold upd at 1. destruct (eqb b A); [discriminate|].
  destruct (cut A w) as [[? ?]|]; [discriminate|]. intros _. now rewrite IH.
Qed.
(** Exactly two occurrences of the index. *)
Definition twice (A : L) (w : list L) : bool :=
  match cut A w with Some (_, t) => match cut A t with Some (_, s) => match cut A s with None => true | _ => false end | None => false end | None => false end.
Definition ctr (A : L) (w : list L) : poly :=
  match cut A w with
  | Some (x, t) => match cut A t with Some (y, s) => map (fun u => (fst u, x ++ snd u ++ s)) (kw y) | None => [] end
  | None => []
  end.
Lemma evp_map_app env x s p : evp env (map (fun u => (fst u, x ++ snd u ++ s)) p) = mmul (ev env x) (mmul (evp env p) (ev env s)).
Proof.
  induction p as [|t p IH]; cbn [map]; [cbn [evp fold_right]; now rewrite mmul_0_l, mmul_0_r|].
  rewrite !evp_cons, IH, mmul_add_l, mmul_add_r. f_equal. cbn [fst snd]. rewrite !ev_app, mmul_scal_l, mmul_scal_r. reflexivity.
Qed.
Lemma ksum_ctr env A w : twice A w = true -> ksum (fun e => ev (upd env A e) w) = evp env (ctr A w).
Proof.
  unfold twice, ctr. destruct (cut A w) as [[x t]|] eqn:C1; [|discriminate]. destruct (cut A t) as [[y s]|] eqn:C2; [|discriminate].
  destruct (cut A s) eqn:C3; [discriminate|]. intros _.
  apply cut_some in C1. destruct C1 as [-> N1]. apply cut_some in C2. destruct C2 as [-> N2].
  rewrite evp_map_app, <- ksum_word, <- ksum_mul_r, <- ksum_mul_l. apply ksum_ext. intros e.
  rewrite ev_app. cbn [ev]. rewrite ev_app. cbn [ev]. rewrite !ev_upd by assumption.
  assert (E : upd env A e A = e). { unfold upd. destruct (eqb A A) eqn:E; [reflexivity|]. pose proof (proj2 (eqb_ok A A) eq_refl). congruence. }
  rewrite E, !mmul_assoc. reflexivity.
Qed.
Definition pctr (A : L) (p : poly) : poly := flat_map (fun t => psc (fst t) (ctr A (snd t))) p.
Lemma ksum_pctr env A p : forallb (fun t => twice A (snd t)) p = true -> ksum (fun e => evp (upd env A e) p) = evp env (pctr A p).
Proof.
  induction p as [|t p IH]; cbn [forallb].
  - intros _. rewrite ksum_4. cbn [evp fold_right pctr flat_map]. rewrite !mscal_zero, !madd_0_l. reflexivity.
  - intros H. apply andb_prop in H. destruct H as [H1 H2]. cbn [pctr flat_map]. fold (pctr A p). rewrite evp_app, evp_psc, <- ksum_ctr, <- IH, <- ksum_scal, <- ksum_add by assumption.
    apply ksum_ext. intros e. apply evp_cons.
Qed.
End Words.
