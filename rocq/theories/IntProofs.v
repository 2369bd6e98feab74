(** Proofs about [prod_div] and the progress loop. *)
From Coq Require Import ZArith Zquot Bool Lia ZifyBool.
From Verif Require Import IntModel IntSpec.
Local Open Scope Z_scope.

Definition wf_ity (t : ity) : Prop := 2 <= width t.

Lemma fit_signed t v w : signed t = true -> fit t v = Ok w -> w = v /\ in_range t v = true.
Proof.
  unfold fit; intros Hs; rewrite Hs; destruct (in_range t v) eqn:E; intros H; inversion H; auto.
Qed.

Lemma fit_ok t v : in_range t v = true -> fit t v = Ok v.
Proof.
  unfold fit; intros H. destruct (signed t) eqn:Hs; [rewrite H; reflexivity|].
  unfold in_range, imin, imax in H. rewrite Hs in H.
  rewrite Z.mod_small; [reflexivity|]. lia.
Qed.

Lemma pow2_ge t : wf_ity t -> 2 <= 2 ^ (width t - 1).
Proof.
  unfold wf_ity; intros H.
  change 2 with (2 ^ 1) at 1. apply Z.pow_le_mono_r; lia.
Qed.

Lemma imax_pos t : wf_ity t -> 1 <= imax t.
Proof.
  intros H. unfold imax. pose proof (pow2_ge t H).
  destruct (signed t); [lia|].
  replace (width t) with (1 + (width t - 1)) by lia. unfold wf_ity in H.
  rewrite Z.pow_add_r by lia. lia.
Qed.

Lemma idiv_inv t a b c : signed t = true -> idiv t a b = Ok c -> b <> 0 /\ c = Z.quot a b /\ in_range t c = true.
Proof.
  unfold idiv; intros Hs. destruct (b =? 0) eqn:E; [discriminate|].
  intros H; apply fit_signed in H; auto. destruct H as [-> H]. repeat split; auto; lia.
Qed.

Lemma imod_inv t a b c : signed t = true -> imod t a b = Ok c -> b <> 0 /\ c = Z.rem a b.
Proof.
  unfold imod; intros Hs. destruct (b =? 0) eqn:E; [discriminate|].
  destruct (signed t && _); [discriminate|]. intros H; inversion H. split; [lia|auto].
Qed.

Lemma bind_inv {A B} (r : res A) (f : A -> res B) b : bind r f = Ok b -> exists a, r = Ok a /\ f a = Ok b.
Proof. destruct r; simpl; intros H; [eauto|discriminate]. Qed.

(** Uniqueness of truncated division, in the form used by the loop invariant: same sign remainder. *)
Lemma quot_rem_unique_sign N K q r :
  K <> 0 -> N = q * K + r -> Z.abs r < Z.abs K -> 0 <= r * N -> q = Z.quot N K /\ r = Z.rem N K.
Proof.
  intros HK HN Hr Hs.
  destruct (Z.eq_dec N 0) as [->|HN0].
  - assert (r = 0).
    { destruct (Z.eq_dec q 0); [subst; lia|].
      assert (Z.abs (q * K) = Z.abs r) by lia. rewrite Z.abs_mul in H. nia. }
    subst r. rewrite Z.quot_0_l, Z.rem_0_l by auto. nia.
  - assert (Hq : q = Z.quot N K).
    { apply Zquot_unique_full with r; [|lia].
      unfold Remainder. destruct (Z_lt_le_dec N 0); [right|left]; nia. }
    split; auto.
    pose proof (Z.quot_rem' N K). subst q. lia.
Qed.

(** Loop invariant. *)
Definition inv (N K k_p quot rem : Z) : Prop :=
  N * k_p = quot * K + rem /\ Z.abs rem < Z.abs K /\ 0 <= rem * N /\ 0 <= quot * (N * K).

Lemma sign_trans a b c : b <> 0 -> 0 <= a * b -> 0 <= b * c -> 0 <= a * c.
Proof. intros H1 H2 H3. destruct (Z_lt_le_dec b 0); nia. Qed.

Lemma quot_sign_mul a b : b <> 0 -> 0 <= Z.quot a b * (a * b).
Proof.
  intros Hb. destruct (Z.eq_dec (Z.quot a b) 0) as [e|e]; [rewrite e; lia|].
  pose proof (Zquot_sgn a b) as S. apply Z.sgn_nonneg. rewrite !Z.sgn_mul.
  destruct (Z.sgn_spec (Z.quot a b)) as [[? E]|[[? E]|[? E]]];
  rewrite E in *; nia.
Qed.

Lemma inv_init N K k : K <> 0 -> 0 < k -> inv N K k (Z.quot (N * k) K) (Z.rem (N * k) K).
Proof.
  intros HK Hk. unfold inv.
  pose proof (Z.quot_rem' (N * k) K) as E.
  pose proof (Z.rem_bound_abs (N * k) K HK) as B.
  pose proof (Z.rem_sign_mul (N * k) K HK) as S.
  pose proof (quot_sign_mul (N * k) K HK) as S2.
  split; [lia|]. split; [exact B|]. split; nia.
Qed.

(** One exact step of the loop, over mathematical integers. *)
Lemma inv_step N K k_p quot rem :
  K <> 0 -> 0 < k_p -> inv N K k_p quot rem ->
  let quot_p := Z.quot quot k_p in
  let rem_p := Z.rem quot k_p in
  let prod := Z.quot (rem * (k_p + 1) + rem_p * K) k_p in
  prod * k_p = rem * (k_p + 1) + rem_p * K /\ 0 <= prod * N /\
  inv N K (k_p + 1) (quot + (quot_p + Z.quot prod K)) (Z.rem prod K).
Proof.
  intros HK Hk (H1 & H2 & H3 & H4) quot_p rem_p prod.
  assert (Eq : quot = k_p * quot_p + rem_p) by (apply Z.quot_rem'; lia).
  assert (Srp : 0 <= rem_p * quot) by (apply Z.rem_sign_mul; lia).
  assert (Srp' : 0 <= rem_p * (N * K)).
  { destruct (Z.eq_dec quot 0) as [e|e].
    - unfold rem_p. rewrite e, Z.rem_0_l by lia. lia.
    - apply sign_trans with quot; auto. }
  assert (Sqp : 0 <= quot_p * (N * K)).
  { destruct (Z.eq_dec quot 0) as [e|e].
    - unfold quot_p. rewrite e, Z.quot_0_l by lia. lia.
    - apply sign_trans with quot; auto.
      assert (0 <= quot_p * (quot * k_p)) by (apply quot_sign_mul; lia).
      clear - H Hk. nia. }
  assert (Div : rem * (k_p + 1) + rem_p * K = (rem + N - quot_p * K) * k_p).
  { assert (E2 : rem_p = quot - k_p * quot_p) by lia. rewrite E2. lia. }
  assert (Ep : prod = rem + N - quot_p * K).
  { unfold prod. rewrite Div. apply Z.quot_mul. lia. }
  assert (Enum : prod * k_p = rem * (k_p + 1) + rem_p * K) by (rewrite Div, Ep; reflexivity).
  clearbody prod quot_p rem_p.
  assert (Spr : 0 <= prod * N).
  { assert (Spn : 0 <= (prod * N) * k_p).
    { replace (prod * N * k_p) with ((prod * k_p) * N) by ring. rewrite Enum.
      replace ((rem * (k_p + 1) + rem_p * K) * N) with ((rem * N) * (k_p + 1) + rem_p * (N * K)) by ring.
      apply Z.add_nonneg_nonneg; [apply Z.mul_nonneg_nonneg; lia|exact Srp']. }
    clear - Spn Hk. nia. }
  split; [exact Enum|]. split; [exact Spr|].
  pose proof (Z.quot_rem' prod K) as Epr.
  pose proof (Z.rem_bound_abs prod K HK) as Br.
  pose proof (Z.rem_sign_mul prod K HK) as Sr.
  unfold inv. split; [|split; [|split]].
  - lia.
  - exact Br.
  - destruct (Z.eq_dec prod 0) as [e|e].
    + rewrite e, Z.rem_0_l by auto. lia.
    + apply sign_trans with prod; auto.
  - assert (Spq : 0 <= Z.quot prod K * (N * K)).
    { destruct (Z.eq_dec prod 0) as [e|e].
      - rewrite e, Z.quot_0_l by auto. lia.
      - pose proof (quot_sign_mul prod K HK) as P.
        apply sign_trans with (prod * K); [nia|exact P|].
        replace (prod * K * (N * K)) with (prod * N * (K * K)) by ring.
        apply Z.mul_nonneg_nonneg; [exact Spr|apply Z.square_nonneg]. }
    rewrite !Z.mul_add_distr_r. lia.
Qed.

(** Signed loop: whenever it returns, the invariant has been carried to the end. *)
Lemma loop_signed t N K : signed t = true -> K <> 0 ->
  forall fuel k_p quot rem q r, 0 < k_p -> inv N K k_p quot rem ->
  prod_div_loop t K fuel k_p quot rem = Ok (q, r) -> inv N K (k_p + Z.of_nat fuel) q r.
Proof.
  intros Hs HK. induction fuel as [|fuel IH]; intros k_p quot rem q r Hk Hi H.
  - simpl in H. inversion H; subst. rewrite Z.add_0_r. exact Hi.
  - simpl in H.
    apply bind_inv in H as (quot_p & E1 & H). apply idiv_inv in E1 as (_ & -> & _); auto.
    apply bind_inv in H as (rem_p & E2 & H). apply imod_inv in E2 as (_ & ->); auto.
    apply bind_inv in H as (k_p1 & E3 & H). apply fit_signed in E3 as (-> & _); auto.
    apply bind_inv in H as (a & E4 & H). apply fit_signed in E4 as (-> & _); auto.
    apply bind_inv in H as (b & E5 & H). apply fit_signed in E5 as (-> & _); auto.
    apply bind_inv in H as (pn & E6 & H). apply fit_signed in E6 as (-> & _); auto.
    apply bind_inv in H as (prod & E7 & H). apply idiv_inv in E7 as (_ & -> & _); auto.
    apply bind_inv in H as (c & E8 & H). apply idiv_inv in E8 as (_ & -> & _); auto.
    apply bind_inv in H as (d & E9 & H). apply fit_signed in E9 as (-> & _); auto.
    apply bind_inv in H as (q' & E10 & H). apply fit_signed in E10 as (-> & _); auto.
    apply bind_inv in H as (r' & E11 & H). apply imod_inv in E11 as (_ & ->); auto.
    pose proof (inv_step N K k_p quot rem HK Hk Hi) as (_ & _ & Hi').
    apply IH in H; [|lia|exact Hi'].
    replace (k_p + Z.of_nat (S fuel)) with (k_p + 1 + Z.of_nat fuel) by lia. exact H.
Qed.

Lemma inv_final N K k q r : K <> 0 -> 0 <= k -> inv N K k q r ->
  q = Z.quot (N * k) K /\ r = Z.rem (N * k) K.
Proof.
  intros HK Hk (H1 & H2 & H3 & H4).
  apply quot_rem_unique_sign; auto.
  destruct (Z_lt_le_dec N 0); nia.
Qed.


Lemma lim_pos t N : wf_ity t -> in_range t N = true -> N <> 0 ->
  0 < Z.quot (if N >=? 0 then imax t else imin t) N.
Proof.
  intros Hw HN H0. unfold in_range in HN. destruct (N >=? 0) eqn:EN.
  - apply Z.quot_str_pos. lia.
  - rewrite <- Z.quot_opp_opp by lia. apply Z.quot_str_pos. lia.
Qed.

(** The part of [prod_div] after the sign normalisation, with nonnegative [k]. *)
Definition prod_div_core (t : ity) (N k K : Z) : res (Z * Z) :=
  let N_max := if N >=? 0 then imax t else imin t in
  let! lim := idiv t N_max N in
  if k <? lim then
    let! p := imul t k N in
    let! rem := imod t p K in
    let! q := idiv t p K in
    Ok (q, rem)
  else
    let k_0 := lim in
    let! p := imul t N k_0 in
    let! quot := idiv t p K in
    let! rem := imod t p K in
    prod_div_loop t K (Z.to_nat (k - k_0)) k_0 quot rem.

Lemma prod_div_unfold t N k K :
  prod_div t N k K =
  let! Nk := (if k <? 0 then
                let! N' := ineg t N in
                let! k' := ineg t k in Ok (N', k')
              else Ok (N, k)) in
  prod_div_core t (fst Nk) (snd Nk) K.
Proof. unfold prod_div. destruct (if k <? 0 then _ else _) as [[a b]|]; reflexivity. Qed.

Lemma prod_div_core_signed t N k K q r :
  signed t = true -> wf_ity t -> in_range t N = true -> 0 <= k ->
  prod_div_core t N k K = Ok (q, r) ->
  K <> 0 /\ q = Z.quot (N * k) K /\ r = Z.rem (N * k) K.
Proof.
  intros Hs Hw HNr Hk H. unfold prod_div_core in H. cbv zeta in H.
  apply bind_inv in H as (lim & El & H). apply idiv_inv in El as (HN & El & Rl); auto.
  pose proof (lim_pos t N Hw HNr HN) as Hl. rewrite <- El in Hl.
  destruct (k <? lim) eqn:Ek.
  - apply bind_inv in H as (p & E1 & H). apply fit_signed in E1 as (-> & _); auto.
    apply bind_inv in H as (rm & E2 & H). apply imod_inv in E2 as (HK & ->); auto.
    apply bind_inv in H as (qq & E3 & H). apply idiv_inv in E3 as (_ & -> & _); auto.
    inversion H; subst. rewrite (Z.mul_comm N k). auto.
  - apply bind_inv in H as (p & E1 & H). apply fit_signed in E1 as (-> & _); auto.
    apply bind_inv in H as (qq & E2 & H). apply idiv_inv in E2 as (HK & -> & _); auto.
    apply bind_inv in H as (rm & E3 & H). apply imod_inv in E3 as (_ & ->); auto.
    split; [exact HK|].
    apply (loop_signed t N K Hs HK) in H; [|lia|apply inv_init; auto].
    apply inv_final in H; auto; [|lia].
    replace (lim + Z.of_nat (Z.to_nat (k - lim))) with k in H by lia. exact H.
Qed.

Lemma prod_div_signed_exact t N k K q r :
  signed t = true -> wf_ity t ->
  in_range t N = true -> in_range t k = true ->
  prod_div t N k K = Ok (q, r) ->
  K <> 0 /\ q = Z.quot (N * k) K /\ r = Z.rem (N * k) K.
Proof.
  intros Hs Hw HN Hk H. rewrite prod_div_unfold in H.
  apply bind_inv in H as ((N', k') & E & H). cbn [fst snd] in H.
  destruct (k <? 0) eqn:Ek.
  - apply bind_inv in E as (N1 & E1 & E). apply fit_signed in E1 as (-> & R1); auto.
    apply bind_inv in E as (k1 & E2 & E). apply fit_signed in E2 as (-> & R2); auto.
    inversion E; subst. apply prod_div_core_signed in H; auto; [|lia].
    rewrite Z.mul_opp_opp in H. exact H.
  - inversion E; subst. apply prod_div_core_signed in H; auto. lia.
Qed.

(** ** Definedness for nonnegative operands, for every integer type. *)

Lemma idiv_ok t a b : 0 < b -> 0 <= a -> a <= imax t -> imin t <= 0 ->
  idiv t a b = Ok (a / b).
Proof.
  intros Hb Ha Hm Hi. unfold idiv. destruct (b =? 0) eqn:E; [lia|].
  rewrite Z.quot_div_nonneg by lia. apply fit_ok. unfold in_range.
  pose proof (Z.div_pos a b). assert (a / b <= a) by (apply Z.div_le_upper_bound; nia). lia.
Qed.

Lemma imod_ok t a b : 0 < b -> 0 <= a -> a <= imax t -> imin t <= 0 ->
  imod t a b = Ok (a mod b).
Proof.
  intros Hb Ha Hm Hi. unfold imod. destruct (b =? 0) eqn:E; [lia|].
  replace (in_range t (Z.quot a b)) with true.
  - rewrite andb_false_r, Z.rem_mod_nonneg by lia. reflexivity.
  - rewrite Z.quot_div_nonneg by lia. unfold in_range.
    pose proof (Z.div_pos a b). assert (a / b <= a) by (apply Z.div_le_upper_bound; nia). lia.
Qed.

Lemma imul_ok t a b : 0 <= a * b <= imax t -> imin t <= 0 -> imul t a b = Ok (a * b).
Proof. intros H1 H2. apply fit_ok. unfold in_range. lia. Qed.
Lemma iadd_ok t a b : 0 <= a + b <= imax t -> imin t <= 0 -> iadd t a b = Ok (a + b).
Proof. intros H1 H2. apply fit_ok. unfold in_range. lia. Qed.

Lemma imin_nonpos t : wf_ity t -> imin t <= 0.
Proof. intros H. unfold imin. destruct (signed t); [|lia]. pose proof (pow2_ge t H). lia. Qed.

Lemma loop_ok t N K : wf_ity t -> 0 < N -> 0 < K ->
  forall fuel k_p, 0 < k_p ->
  2 * K * (k_p + Z.of_nat fuel) <= imax t ->
  N * (k_p + Z.of_nat fuel) / K <= imax t ->
  prod_div_loop t K fuel k_p (N * k_p / K) (N * k_p mod K)
  = Ok (N * (k_p + Z.of_nat fuel) / K, N * (k_p + Z.of_nat fuel) mod K).
Proof.
  intros Hw HN HK. pose proof (imin_nonpos t Hw) as Hmin.
  induction fuel as [|fuel IH]; intros k_p Hk Hm Hq.
  - simpl. rewrite Z.add_0_r. reflexivity.
  - rewrite Nat2Z.inj_succ in *.
    assert (Hi : inv N K k_p (Z.quot (N * k_p) K) (Z.rem (N * k_p) K)) by (apply inv_init; lia).
    rewrite Z.quot_div_nonneg, Z.rem_mod_nonneg in Hi by nia.
    pose proof (inv_step N K k_p _ _ ltac:(lia) Hk Hi) as Hst. cbv zeta in Hst.
    set (quot := N * k_p / K) in *. set (rem := N * k_p mod K) in *.
    assert (Hquot0 : 0 <= quot) by (apply Z.div_pos; nia).
    assert (Hrem : 0 <= rem < K) by (apply Z.mod_pos_bound; lia).
    assert (Hqle : N * (k_p + 1) / K <= imax t).
    { etransitivity; [|exact Hq]. apply Z.div_le_mono; nia. }
    assert (Hquot : quot <= imax t).
    { etransitivity; [|exact Hqle]. apply Z.div_le_mono; nia. }
    rewrite (Z.quot_div_nonneg quot k_p), (Z.rem_mod_nonneg quot k_p) in Hst by lia.
    assert (Hrp : 0 <= quot mod k_p < k_p) by (apply Z.mod_pos_bound; lia).
    assert (Hqp : 0 <= quot / k_p) by (apply Z.div_pos; lia).
    assert (Hpn : 0 <= rem * (k_p + 1) + quot mod k_p * K <= imax t) by nia.
    rewrite (Z.quot_div_nonneg (rem * (k_p + 1) + quot mod k_p * K) k_p) in Hst by lia.
    destruct Hst as (Hpr & _ & Hi').
    set (prod := (rem * (k_p + 1) + quot mod k_p * K) / k_p) in *.
    assert (Hprod0 : 0 <= prod) by (apply Z.div_pos; lia).
    assert (Hprod1 : prod <= imax t) by nia.
    rewrite (Z.quot_div_nonneg prod K), (Z.rem_mod_nonneg prod K) in Hi' by lia.
    assert (Hpk : 0 <= prod / K) by (apply Z.div_pos; lia).
    apply inv_final in Hi'; [|lia|lia].
    rewrite Z.quot_div_nonneg, Z.rem_mod_nonneg in Hi' by nia.
    destruct Hi' as [Hi1 Hi2].
    simpl.
    rewrite idiv_ok by lia. cbn [bind].
    rewrite imod_ok by lia. cbn [bind].
    rewrite iadd_ok by nia. cbn [bind].
    rewrite imul_ok by nia. cbn [bind].
    rewrite imul_ok by nia. cbn [bind].
    rewrite iadd_ok by lia. cbn [bind].
    rewrite idiv_ok by lia. cbn [bind].
    fold prod.
    rewrite idiv_ok by lia. cbn [bind].
    rewrite iadd_ok by lia. cbn [bind].
    rewrite iadd_ok by lia. cbn [bind].
    rewrite imod_ok by lia. cbn [bind].
    rewrite Hi1, Hi2.
    replace (k_p + Z.succ (Z.of_nat fuel)) with (k_p + 1 + Z.of_nat fuel) in * by lia.
    apply IH; lia.
Qed.

Lemma prod_div_total t N k K :
  wf_ity t -> 0 < N <= imax t -> 0 <= k <= imax t -> 0 < K <= imax t ->
  2 * K * k <= imax t -> N * k / K <= imax t ->
  prod_div t N k K = Ok (N * k / K, N * k mod K).
Proof.
  intros Hw HN Hk HK Hm Hq. pose proof (imin_nonpos t Hw) as Hmin.
  rewrite prod_div_unfold. destruct (k <? 0) eqn:E; [lia|]. cbn [bind fst snd].
  unfold prod_div_core. destruct (N >=? 0) eqn:EN; [|lia]. cbv zeta.
  rewrite idiv_ok by lia. cbn [bind].
  assert (Hlim : N * (imax t / N) <= imax t) by (apply Z.mul_div_le; lia).
  assert (Hl0 : 0 < imax t / N) by (apply Z.div_str_pos; lia).
  destruct (k <? imax t / N) eqn:Ek.
  - rewrite imul_ok by nia. cbn [bind]. rewrite imod_ok by nia. cbn [bind].
    rewrite idiv_ok by nia. cbn [bind]. rewrite (Z.mul_comm k N). reflexivity.
  - rewrite imul_ok by nia. cbn [bind]. rewrite idiv_ok by nia. cbn [bind].
    rewrite imod_ok by nia. cbn [bind].
    assert (Ek' : imax t / N + Z.of_nat (Z.to_nat (k - imax t / N)) = k) by lia.
    rewrite loop_ok; rewrite ?Ek'; auto; lia.
Qed.

(** ** Progress loop. *)

Definition pstate (n p : Z) : progress_state := (p, n * (p + 1) / 100, n * (p + 1) mod 100).

Lemma ceil_cond n p i : 0 < n ->
  (i >=? n * (p + 1) / 100 + (if n * (p + 1) mod 100 =? 0 then 0 else 1)) = (n * (p + 1) <=? 100 * i).
Proof.
  intros Hn.
  pose proof (Z.div_mod (n * (p + 1)) 100 ltac:(lia)) as E.
  pose proof (Z.mod_pos_bound (n * (p + 1)) 100 ltac:(lia)) as B.
  destruct (n * (p + 1) mod 100 =? 0) eqn:E0; lia.
Qed.

Lemma prod_div_percent n p : 0 < n <= imax int64 -> 0 <= p <= 99 ->
  prod_div int64 n (p + 1) 100 = Ok (n * (p + 1) / 100, n * (p + 1) mod 100).
Proof.
  intros Hn Hp.
  assert (imax int64 = 9223372036854775807) by reflexivity.
  apply prod_div_total.
  - unfold wf_ity; simpl; lia.
  - lia.
  - lia.
  - lia.
  - lia.
  - assert (n * (p + 1) / 100 <= n); [|lia]. apply Z.div_le_upper_bound; nia.
Qed.

Lemma progress_while_ok n i : 0 < n <= imax int64 -> 0 <= i < n ->
  forall fuel p, 0 <= p -> n * p <= 100 * i -> 100 * i / n < p + Z.of_nat fuel ->
  progress_while fuel n i (pstate n p) = Some (Ok (pstate n (100 * i / n))).
Proof.
  intros Hn Hi. induction fuel as [|fuel IH]; intros p Hp Hle Hf.
  - exfalso. assert (p <= 100 * i / n) by (apply Z.div_le_lower_bound; lia). lia.
  - assert (Hp' : p <= 100 * i / n) by (apply Z.div_le_lower_bound; lia).
    assert (Hlt : 100 * i / n < 100) by (apply Z.div_lt_upper_bound; nia).
    unfold pstate at 1. cbn [progress_while].
    rewrite ceil_cond by lia.
    destruct (n * (p + 1) <=? 100 * i) eqn:E.
    + assert (p + 1 <= 100 * i / n) by (apply Z.div_le_lower_bound; lia).
      rewrite prod_div_percent by lia.
      change (p + 1, n * (p + 1 + 1) / 100, n * (p + 1 + 1) mod 100) with (pstate n (p + 1)).
      apply IH; lia.
    + assert (100 * i / n < p + 1) by (apply Z.div_lt_upper_bound; lia).
      replace (100 * i / n) with p by lia. reflexivity.
Qed.

Lemma progress_run_ok n i : 0 < n <= imax int64 -> Z.of_nat i < n ->
  progress_run n i = Some (Ok (pstate n (100 * Z.of_nat i / n))).
Proof.
  intros Hn. induction i as [|i IH]; intros Hi.
  - change (progress_run n 0) with (progress_while 101 n 0 (progress_init n)).
    change (100 * Z.of_nat 0) with (100 * 0).
    replace (progress_init n) with (pstate n 0).
    2:{ unfold progress_init, pstate. rewrite Z.mul_1_r.
        rewrite Z.quot_div_nonneg, Z.rem_mod_nonneg by lia. reflexivity. }
    apply progress_while_ok; try lia. rewrite Z.mul_0_r, Z.div_0_l by lia. lia.
  - cbn [progress_run]. rewrite IH by lia.
    assert (E : 100 * Z.of_nat i / n <= 100 * Z.of_nat (S i) / n) by (apply Z.div_le_mono; lia).
    assert (Hlt : 100 * Z.of_nat (S i) / n < 100) by (apply Z.div_lt_upper_bound; nia).
    assert (0 <= 100 * Z.of_nat i / n) by (apply Z.div_pos; lia).
    apply progress_while_ok; try lia.
    pose proof (Z.mul_div_le (100 * Z.of_nat i) n). lia.
Qed.

Lemma trunc_div_spec a b : b <> 0 ->
  a = b * Z.quot a b + Z.rem a b /\ Z.abs (Z.rem a b) < Z.abs b /\ 0 <= Z.rem a b * a.
Proof.
  intros Hb. split; [apply Z.quot_rem'|]. split; [apply Z.rem_bound_abs; auto|apply Z.rem_sign_mul; auto].
Qed.

Lemma prod_div_zero t k K : 0 <= k -> prod_div t 0 k K = UB DivByZero.
Proof.
  intros Hk. unfold prod_div. destruct (k <? 0) eqn:E; [lia|]. reflexivity.
Qed.

Lemma prod_div_minus_one t k K : wf_ity t -> signed t = true -> 0 <= k -> prod_div t (-1) k K = UB Overflow.
Proof.
  intros Hw Hs Hk. unfold prod_div. destruct (k <? 0) eqn:E; [lia|]. cbn [bind].
  change (-1 >=? 0) with false. cbv iota.
  unfold idiv. change (-1 =? 0) with false. cbv iota.
  unfold fit. rewrite Hs. unfold in_range, imin, imax. rewrite Hs.
  change (-1) with (- (1)). rewrite Z.quot_opp_opp, Z.quot_1_r by lia.
  replace (2 ^ (width t - 1) <=? 2 ^ (width t - 1) - 1) with false by lia.
  rewrite andb_false_r. reflexivity.
Qed.

Lemma prod_div_signed_exact_spec t N k K q r :
  signed t = true -> 2 <= width t ->
  imin t <= N <= imax t -> imin t <= k <= imax t -> imin t <= K <= imax t ->
  prod_div t N k K = Ok (q, r) -> truncated_division (N * k) K q r.
Proof.
  intros Hs Hw HN Hk _ H.
  apply prod_div_signed_exact in H; auto; try (unfold in_range; lia).
  destruct H as (HK & -> & ->). split; auto. apply trunc_div_spec; auto.
Qed.

Lemma prod_div_intermediate_overflow :
  exists N k K, imin int32 <= N <= imax int32 /\ imin int32 <= k <= imax int32 /\
    imin int32 <= K <= imax int32 /\ K <> 0 /\
    imin int32 <= Z.quot (N * k) K <= imax int32 /\ prod_div int32 N k K = UB Overflow.
Proof.
  exists 1073741824, 2, 2147483647. repeat split; try (vm_compute; congruence).
Qed.

Lemma prod_div_unsigned_wrong :
  exists N k K q r, 0 < N <= imax uint32 /\ 0 < k <= imax uint32 /\ 0 < K <= imax uint32 /\
    N * k / K <= imax uint32 /\
    prod_div uint32 N k K = Ok (q, r) /\ ~ truncated_division (N * k) K q r.
Proof.
  exists 2147483648, 2, 4294967295, 0, 0.
  repeat split; try (vm_compute; congruence).
  unfold truncated_division. lia.
Qed.

Lemma progress_percent n i : 0 < n <= 2 ^ 63 - 1 -> Z.of_nat i < n ->
  exists next rem, progress_run n i = Some (Ok (100 * Z.of_nat i / n, next, rem)).
Proof.
  intros Hn Hi. rewrite progress_run_ok; [|exact Hn|exact Hi]. unfold pstate. eauto.
Qed.
