From Coq Require Import Reals Bool Lra Psatz.
From Verif Require Import ExtModel BoundModel BoundSpec BoundProofs MathModel MathProofs MapModel ParticleModel FrameBase KinModel KinEqs CutModel CutSpec CutProofs.
Local Open Scope R_scope.

Lemma unit_points a b x : contains (binter BOUND_UNIT (mk_bound a b)) (Fin x) = true <->
  0 <= x <= 1 /\ ext_le a (Fin x) /\ ext_le (Fin x) b.
Proof.
  rewrite contains_points, binter_points, mk_bound_points. unfold BOUND_UNIT. rewrite mk_bound_points, !le_FF. tauto.
Qed.
Lemma pos_points b x : contains (binter BOUND_POSITIVE (mk_bound (Fin 0) b)) (Fin x) = true <->
  0 <= x /\ ext_le (Fin x) b.
Proof.
  rewrite contains_points, binter_points, mk_bound_points. unfold BOUND_POSITIVE. rewrite mk_bound_points, !le_FF.
  split; [tauto|]. intros [H1 H2]. repeat split; auto. constructor.
Qed.
Lemma div_le a b c : 0 < b -> a / b <= c <-> a <= c * b.
Proof.
  intros H. split; intros L.
  - apply Rmult_le_compat_r with (r := b) in L; [|lra]. replace (a / b * b) with a in L by (field; lra). auto.
  - apply Rmult_le_reg_r with b; auto. replace (a / b * b) with a by (field; lra). auto.
Qed.
Lemma le_div a b c : 0 < b -> c <= a / b <-> c * b <= a.
Proof.
  intros H. split; intros L.
  - apply Rmult_le_compat_r with (r := b) in L; [|lra]. replace (a / b * b) with a in L by (field; lra). auto.
  - apply Rmult_le_reg_r with b; auto. replace (a / b * b) with a by (field; lra). auto.
Qed.

(** * y *)
Definition thr (ps : parts) : R := sq (a_Mth ps + a_mh ps) - sq (a_M ps).
Lemma thr_pos ps : masses_ok ps -> 0 < thr ps.
Proof. intros (H1 & H2 & H3 & H4 & H5). unfold thr, sq. nra. Qed.

Lemma lepton_factor S x y M m :
  S * x * y * (S * (S * (1 - y)) - sq M * (S * x * y)) - sq m * (sq (S * y) + 4 * sq M * (S * x * y)) =
  S * y * (x * (sq S - 4 * sq M * sq m) - y * (S * (sq (M * x) + S * x + sq m))).
Proof. unfold sq. ring. Qed.

Lemma y_points ps S x y : masses_ok ps -> 0 < S -> 0 <= x <= 1 ->
  contains (y_bound ps S x) (Fin y) = true <->
  0 < x < 1 /\ 0 < y <= 1 /\ thr ps <= (1 - x) * (S * y) /\
  y * (S * (sq (a_M ps * x) + S * x + sq (a_m ps))) <= x * (sq S - 4 * sq (a_M ps) * sq (a_m ps)).
Proof.
  intros HP HS Hx. pose proof (thr_pos ps HP) as HN. destruct HP as (HM & Hm & Hmh & Hth & _).
  unfold y_bound. rewrite unit_points. fold (thr ps).
  assert (D0 : 0 <= S * (sq (a_M ps * x) + S * x + sq (a_m ps))) by (unfold sq; apply Rmult_le_pos; [lra|]; nra).
  set (D := S * (sq (a_M ps * x) + S * x + sq (a_m ps))) in *.
  destruct (Req_dec x 1) as [->|Hx1].
  { replace ((1 - 1) * S) with 0 by ring. rewrite ediv_zero, sinf_pos by auto. split; [|lra]. intros (_ & H & _). inversion H. }
  assert (D1 : 0 < (1 - x) * S) by nra. rewrite ediv_fin by lra. rewrite le_FF, div_le by auto.
  assert (DX : 0 < x -> 0 < D) by (intros; unfold D, sq; apply Rmult_lt_0_compat; auto; nra).
  destruct (Rle_lt_dec x 0) as [X0|X0].
  - split; [|lra]. intros (_ & H & H2). assert (x = 0) by lra. subst x. rewrite Rmult_0_l in H2.
    assert (y <= 0).
    { destruct (Req_dec D 0) as [e|e].
      - rewrite e, ediv_zero in H2. unfold sinf in H2. replace (rltb 0 0) with false in H2 by (symmetry; apply rltb_false; lra). inversion H2.
      - rewrite ediv_fin in H2 by auto. apply le_FF in H2. replace (0 / D) with 0 in H2 by (field; auto). auto. }
    exfalso. nra.
  - rewrite ediv_fin by (specialize (DX X0); lra). rewrite le_FF, le_div by auto.
    split; [intros (H1 & H2 & H3)|intros (_ & H1 & H2 & H3)]; repeat split; try lra.
    destruct (Rle_lt_dec y 0); auto. exfalso. assert (y = 0) by lra. subst y. lra.
Qed.

(** * x *)
Lemma quad_iff A B C D x : 0 < A -> 0 <= D -> D * D = B * B - 4 * A * C ->
  A * x * x - B * x + C <= 0 <-> (B - D) / (2 * A) <= x /\ x <= (B + D) / (2 * A).
Proof.
  intros HA HD HDD. rewrite div_le, le_div by lra.
  assert (E : 4 * A * (A * x * x - B * x + C) = (2 * A * x - B) * (2 * A * x - B) - D * D) by (rewrite HDD; ring).
  split; intros H.
  - assert ((2 * A * x - B) * (2 * A * x - B) <= D * D) by nra. destruct (sq_le_abs (2 * A * x - B) D); auto. lra.
  - assert ((2 * A * x - B) * (2 * A * x - B) <= D * D) by nra. nra.
Qed.
Lemma quad_disc A B C x : 0 < A -> A * x * x - B * x + C <= 0 -> 0 <= B * B - 4 * A * C.
Proof.
  intros HA H. assert (E : 4 * A * (A * x * x - B * x + C) = (2 * A * x - B) * (2 * A * x - B) - (B * B - 4 * A * C)) by ring.
  pose proof (Rle_0_sqr (2 * A * x - B)) as Z. unfold Rsqr in Z. nra.
Qed.
Definition lamS (ps : parts) (S : R) : R := sq S - 4 * sq (a_M ps) * sq (a_m ps).
(** The discriminant as written in the code. *)
Lemma x_disc ps S N T : T * T = N + sq (a_M ps) ->
  let L := S - N in
  lamS ps S * (L - 2 * a_m ps * T) * (L + 2 * a_m ps * T) =
  (lamS ps S - S * N) * (lamS ps S - S * N) - 4 * (lamS ps S + sq (a_M ps) * N) * (N * sq (a_m ps)).
Proof. intros H L. unfold lamS, L, sq in *. replace ((S - N - 2 * a_m ps * T) * (S - N + 2 * a_m ps * T)) with ((S - N) * (S - N) - 4 * a_m ps * a_m ps * (T * T)) by ring.
  rewrite Rmult_assoc. replace ((S - N - 2 * a_m ps * T) * (S - N + 2 * a_m ps * T)) with ((S - N) * (S - N) - 4 * a_m ps * a_m ps * (T * T)) by ring. rewrite H. ring. Qed.

Definition xquad (ps : parts) (S N x : R) : R :=
  (lamS ps S + sq (a_M ps) * N) * x * x - (lamS ps S - S * N) * x + N * sq (a_m ps).
Lemma xquad_necessary ps S N x y : 0 < S -> 0 <= x <= 1 -> N <= (1 - x) * (S * y) ->
  y * (S * (sq (a_M ps * x) + S * x + sq (a_m ps))) <= x * lamS ps S -> xquad ps S N x <= 0.
Proof.
  intros HS Hx H1 H2.
  assert (D0 : 0 <= sq (a_M ps * x) + S * x + sq (a_m ps)) by (unfold sq; nra).
  assert (N * (sq (a_M ps * x) + S * x + sq (a_m ps)) <= (1 - x) * (x * lamS ps S)).
  { apply Rle_trans with ((1 - x) * (S * y) * (sq (a_M ps * x) + S * x + sq (a_m ps))); [apply Rmult_le_compat_r; auto|].
    replace ((1 - x) * (S * y) * (sq (a_M ps * x) + S * x + sq (a_m ps))) with ((1 - x) * (y * (S * (sq (a_M ps * x) + S * x + sq (a_m ps))))) by ring.
    apply Rmult_le_compat_l; lra. }
  unfold xquad, sq in *. lra.
Qed.

Lemma x_points ps S x : masses_ok ps -> 0 < lamS ps S -> contains (x_bound ps S) (Fin x) = true <->
  0 <= x <= 1 /\ xquad ps S (thr ps) x <= 0.
Proof.
  intros HP HL. pose proof (thr_pos ps HP) as HN. destruct HP as (HM & Hm & Hmh & Hth & _).
  unfold x_bound. rewrite unit_points. fold (thr ps). fold (lamS ps S).
  set (A := lamS ps S + sq (a_M ps) * thr ps). set (B := lamS ps S - S * thr ps). set (C := thr ps * sq (a_m ps)).
  assert (HA : 0 < A) by (unfold A, sq; nra).
  rewrite (x_disc ps S (thr ps) (a_Mth ps + a_mh ps)) by (unfold thr, sq; ring). fold A B C.
  change (xquad ps S (thr ps) x) with (A * x * x - B * x + C).
  destruct (Rle_lt_dec 0 (B * B - 4 * A * C)) as [h|h].
  - rewrite esqrt_fin by auto. cbn [esub eadd eneg]. rewrite !ediv_fin by lra. rewrite !le_FF.
    rewrite (quad_iff A B C (sqrt (B * B - 4 * A * C)) x HA (sqrt_pos _) (sqrt_sqrt _ h)). unfold Rminus. tauto.
  - rewrite esqrt_neg by auto. cbn. split; [intros (_ & H & _); inversion H|]. intros [_ H]. apply quad_disc in H; auto. lra.
Qed.

(** * z *)
Lemma z_forward E P W2 c h mh pl D : 0 < E -> 0 <= P -> 0 < W2 -> W2 = E * E - P * P -> 0 <= D -> D * D = c * c - W2 * (mh * mh) ->
  0 <= mh -> mh <= h -> 0 <= pl -> pl * pl <= h * h - mh * mh -> E * h - P * pl <= c ->
  W2 * h <= E * c + P * D /\ (c <= E * mh -> E * c - P * D <= W2 * h).
Proof.
  intros HE HP HW EW HD ED Hm Hh Hpl Hpl2 H.
  assert (I : (W2 * h - E * c) * (W2 * h - E * c) - (P * D) * (P * D) = W2 * ((E * h - c) * (E * h - c) - P * P * (h * h - mh * mh))).
  { replace (P * D * (P * D)) with (P * P * (D * D)) by ring. rewrite ED, EW. ring. }
  assert (K : 0 <= E * h - c -> - (P * D) <= W2 * h - E * c <= P * D).
  { intros G. assert ((E * h - c) * (E * h - c) <= (P * pl) * (P * pl)) by (apply sq_mono; lra).
    assert ((P * pl) * (P * pl) <= P * P * (h * h - mh * mh)) by nra.
    assert ((W2 * h - E * c) * (W2 * h - E * c) <= (P * D) * (P * D)) by nra.
    destruct (sq_le_abs (W2 * h - E * c) (P * D)); [nra|auto|lra]. }
  assert (0 <= P * D) by nra.
  split.
  - destruct (Rle_lt_dec 0 (E * h - c)) as [G|G]; [specialize (K G); lra|].
    assert (W2 * h <= E * c); [|lra]. assert (0 <= h) by lra. assert (E * (E * h) <= E * c) by (apply Rmult_le_compat_l; lra). nra.
  - intros G. assert (0 <= E * h - c) by nra. specialize (K H1). lra.
Qed.

Section Nested.
Variables (ps : parts) (S : R) (sp : phase_space).
Hypothesis HP : masses_ok ps.
Local Notation x := (s_x sp).
Local Notation y := (s_y sp).
Local Notation z := (s_z sp).
Local Notation M := (a_M ps).
Local Notation mh := (a_mh ps).
Local Notation Mth := (a_Mth ps).
Local Notation q0 := (q0_of ps S sp).
Local Notation qn := (qn_of ps S sp).
Local Notation Eh := (Eh_of ps S sp).
Local Notation pl := (pl_of ps S sp).

Lemma region_y : region ps S sp -> contains (y_bound ps S x) (Fin y) = true /\ 0 < lamS ps S /\ 0 < x < 1 /\ 0 < y.
Proof.
  intros HR. pose proof (region_W _ _ _ HP HR) as HW. destruct (region_q0 _ _ _ HP HR) as [Hq _].
  pose proof HP as (HM & Hm & _). destruct HR as [HS Hb Hx Hy Hz Hpt Hlep _ _].
  assert (HSy : 0 < S * y) by (rewrite (f_Sx' ps S sp HM); nra). assert (Hy0 : 0 < y) by nra.
  assert (HY : thr ps <= (1 - x) * (S * y)) by (unfold thr; lra).
  assert (HL : 0 < lamS ps S) by (unfold lamS; lra).
  assert (F : y * (S * (sq (M * x) + S * x + sq (a_m ps))) <= x * lamS ps S).
  { pose proof (lepton_factor S x y M (a_m ps)) as E. fold (lamS ps S) in E. nra. }
  assert (Hx1 : x < 1) by (pose proof (thr_pos ps HP); nra).
  assert (Hx0 : 0 < x).
  { destruct (Rle_lt_dec x 0) as [h|h]; auto. assert (x = 0) by lra. rewrite H in *. exfalso.
    assert (0 < y * (S * (sq (a_m ps)))) by (unfold sq; apply Rmult_lt_0_compat; [lra|]; apply Rmult_lt_0_compat; [lra|nra]).
    unfold sq in *. lra. }
  split; [|auto]. apply y_points; auto; try lra. repeat split; auto; lra.
Qed.
Lemma region_x : region ps S sp -> contains (x_bound ps S) (Fin x) = true.
Proof.
  intros HR. destruct (region_y HR) as (Y & HL & Hx & Hy). pose proof (rg_S _ _ _ HR). apply y_points in Y; auto; [|lra]. apply x_points; auto. split; [lra|].
  apply xquad_necessary with y; [auto|lra|tauto|tauto].
Qed.
(** W^2, the energy and momentum of the whole final state. *)
Lemma W_eq : 0 <= S * x * y -> (1 - x) * (S * y) + sq M = (q0 + M) * (q0 + M) - qn * qn.
Proof.
  intros HQ. pose proof HP as (HM & _). rewrite (qn_sq ps S sp HQ). pose proof (f_Sx' ps S sp HM) as E.
  replace ((1 - x) * (S * y)) with (S * y - S * x * y) by ring. rewrite E. unfold sq. ring.
Qed.
Lemma sqrt_mul_sq a b c : 0 <= a -> b = a * a * c -> 0 <= c -> sqrt b = a * sqrt c.
Proof. intros Ha -> Hc. rewrite sqrt_mult_alt by nra. rewrite sqrt_square by auto. auto. Qed.
Lemma miss_iff : 0 < q0 -> 0 < Eh -> 0 <= S * x * y -> s_ph_t_sq sp + sq mh <= sq Eh ->
  sq Mth <= missing_sq ps S sp <->
  (q0 + M) * Eh - qn * pl <= ((1 - x) * (S * y) + sq M - sq Mth + sq mh) / 2.
Proof.
  intros H1 H2 H3 H4. pose proof HP as (HM & _). destruct (f_mx_sq ps S sp HM H1 H2 H3 H4) as [_ ->]. rewrite (W_eq H3). lra.
Qed.
Lemma region_z : region ps S sp -> contains (z_bound ps S x y) (Fin z) = true.
Proof.
  intros HR. pose proof (region_W _ _ _ HP HR) as HW. destruct (region_q0 _ _ _ HP HR) as [Hq HQ].
  pose proof HP as (HM & Hm & Hmh & Hth & HN). destruct HR as [HS Hb Hx Hy Hz Hpt Hlep [Hh1 Hh2] Hmis].
  apply miss_iff in Hmis; auto.
  pose proof (W_eq HQ) as EW. pose proof (f_Sx' ps S sp HM) as ESx.
  unfold z_bound. rewrite unit_points. split; [auto|].
  set (L := (1 - x) * (S * y) + sq M) in *. set (c := (L - sq Mth + sq mh) / 2) in *.
  assert (HL : sq (Mth + mh) <= L) by (unfold L; lra). assert (HL0 : 0 < L) by (unfold sq in HL; nra).
  assert (HD : 0 <= c * c - L * (mh * mh)).
  { assert (E4 : 4 * (c * c - L * (mh * mh)) = (L - sq (Mth - mh)) * (L - sq (Mth + mh))) by (unfold c, sq; field).
    assert (sq (Mth - mh) <= sq (Mth + mh)) by (unfold sq; nra). assert (0 <= (L - sq (Mth - mh)) * (L - sq (Mth + mh))) by (apply Rmult_le_pos; lra). lra. }
  set (D := sqrt (c * c - L * (mh * mh))). assert (ED : D * D = c * c - L * (mh * mh)) by (apply sqrt_sqrt; auto).
  assert (Pqn : 0 <= qn) by apply sqrt_pos. assert (Ppl : 0 <= pl) by apply sqrt_pos.
  assert (EB : sqrt ((sq (S * y) + 4 * sq M * (S * x * y)) * (L - sq (Mth - mh)) * (L - sq (Mth + mh))) = 4 * M * qn * D).
  { apply sqrt_mul_sq; auto; [nra|]. unfold c. rewrite ESx. replace (4 * M * qn * (4 * M * qn)) with (16 * M * M * (qn * qn)) by ring.
    rewrite (qn_sq ps S sp HQ). unfold sq. field. }
  assert (HB : 0 <= (sq (S * y) + 4 * sq M * (S * x * y)) * (L - sq (Mth - mh)) * (L - sq (Mth + mh))).
  { assert (sq (Mth - mh) <= sq (Mth + mh)) by (unfold sq; nra).
    apply Rmult_le_pos; [|lra]. apply Rmult_le_pos; [|lra]. unfold sq. nra. }
  rewrite (esqrt_fin _ HB), EB. cbn [esub eadd eneg].
  assert (D1 : 0 < S * y) by (rewrite ESx; nra).
  assert (D2 : 0 < 2 * (S * y) * L) by nra. assert (D3 : 0 < S * y * (S * y + 2 * sq M)) by (unfold sq; apply Rmult_lt_0_compat; [auto|nra]).
  rewrite !ediv_fin by lra.
  assert (Epl : pl * pl = sq Eh - sq mh - s_ph_t_sq sp) by (unfold pl_of; apply sqrt_sqrt; lra).
  assert (HmE : mh <= Eh) by (unfold sq in *; nra).
  destruct (z_forward (q0 + M) qn L c Eh mh pl D) as [F1 F2]; auto; try lra; [apply sqrt_pos|unfold sq in *; lra|].
  assert (ZE : z * (S * y) = 2 * M * Eh) by (rewrite ESx; unfold Eh_of; ring).
  assert (UP : z * (2 * (S * y) * L) <= (S * y + 2 * sq M) * (L - sq Mth + sq mh) + 4 * M * qn * D).
  { replace (z * (2 * (S * y) * L)) with (4 * M * (L * Eh)) by (rewrite <- (Rmult_assoc z), (Rmult_comm z), !Rmult_assoc, <- (Rmult_assoc z), ZE || (transitivity (2 * L * (z * (S * y))); [rewrite ZE; ring|ring])).
    replace ((S * y + 2 * sq M) * (L - sq Mth + sq mh)) with (4 * M * ((q0 + M) * c)) by (rewrite ESx; unfold c, sq; field). nra. }
  split; [|rewrite le_FF, le_div by auto; exact UP].
  unfold egtb. cbn [eltb]. destruct (rltb (2 * M * mh / (S * y)) (2 * sq M * (L - sq Mth + sq mh) / (S * y * (S * y + 2 * sq M)))) eqn:E.
  - rewrite le_FF, div_le by auto. rewrite ZE. apply Rmult_le_compat_l; lra.
  - apply rltb_false in E. rewrite le_FF, div_le by auto.
    apply (div_le _ _ _ D3) in E.
    replace (2 * M * mh / (S * y) * (S * y * (S * y + 2 * sq M))) with (4 * sq M * (mh * (q0 + M))) in E by (rewrite ESx; unfold sq; field; split; lra).
    assert (c <= (q0 + M) * mh).
    { replace (2 * sq M * (L - sq Mth + sq mh)) with (4 * sq M * c) in E by (unfold c; field).
      apply Rmult_le_reg_l with (4 * sq M); [unfold sq; nra|]. lra. }
    specialize (F2 H).
    replace (z * (2 * (S * y) * L)) with (4 * M * (L * Eh)) by (transitivity (2 * L * (z * (S * y))); [rewrite ZE; ring|ring]).
    replace ((S * y + 2 * sq M) * (L - sq Mth + sq mh)) with (4 * M * ((q0 + M) * c)) by (rewrite ESx; unfold c, sq; field). nra.
Qed.
(** * ph_t^2 *)
Lemma pt_points : 0 < S -> 0 < q0 -> 0 <= S * x * y ->
  contains (ph_t_sq_bound ps S x y z) (Fin (s_ph_t_sq sp)) = true <->
  0 <= s_ph_t_sq sp /\ s_ph_t_sq sp + sq mh <= sq Eh /\
  (q0 + M) * Eh - qn * pl <= ((1 - x) * (S * y) + sq M - sq Mth + sq mh) / 2.
Proof.
  intros HS Hq HQ. pose proof HP as (HM & Hm & Hmh & Hth & HN). pose proof (f_Sx' ps S sp HM) as ESx.
  unfold ph_t_sq_bound. rewrite pos_points.
  replace (z * (S * y) / (2 * M)) with Eh by (unfold Eh_of, q0_of; field; lra).
  set (L := (1 - x) * (S * y) + sq M). set (c := (L - sq Mth + sq mh) / 2).
  assert (Ed : (S * y + 2 * sq M) * (S * y) / (2 * sq M) * z - L + sq Mth - sq mh = 2 * ((q0 + M) * Eh - c)).
  { rewrite ESx. unfold c, Eh_of, sq. field. lra. }
  rewrite Ed. set (g := (q0 + M) * Eh - c).
  assert (Eq : qn * qn = q0 * q0 + S * x * y) by (apply qn_sq; auto). assert (Pqn0 : 0 <= qn) by apply sqrt_pos. assert (Pqn : 0 < qn) by nra.
  assert (EY : sq (S * y) + 4 * sq M * (S * x * y) = 4 * (sq M) * (qn * qn)) by (rewrite Eq, ESx; unfold sq; ring).
  assert (NZ : 0 < 4 * sq M * (qn * qn)) by (unfold sq; apply Rmult_lt_0_compat; nra).
  rewrite EY, ediv_fin by lra. cbn [emul esub eadd eneg]. rewrite le_FF.
  set (g' := if rltb (2 * g) 0 then 0 else 2 * g).
  assert (Hg : 0 <= g' /\ 2 * g <= g' /\ (g' = 0 \/ g' = 2 * g)).
  { unfold g'. destruct (rltb (2 * g) 0) eqn:E; [apply rltb_spec in E|apply rltb_false in E]; lra. }
  replace (sq M / (4 * sq M * (qn * qn)) * sq g') with (g' * g' / (4 * (qn * qn))) by (unfold sq; field; lra).
  set (w := g' / (2 * qn)). replace (g' * g' / (4 * (qn * qn))) with (w * w) by (unfold w; field; lra).
  assert (Hw : g' = 2 * qn * w) by (unfold w; field; lra). assert (W0 : 0 <= w) by (apply Rmult_le_pos; [lra|]; apply Rlt_le, Rinv_0_lt_compat; lra).
  assert (Ppl : 0 <= pl) by apply sqrt_pos.
  assert (GP : ((q0 + M) * Eh - qn * pl <= c) <-> g <= qn * pl) by (unfold g; lra). rewrite GP.
  split.
  - intros [H1 H2]. assert (H4 : s_ph_t_sq sp + sq mh <= sq Eh) by nra. split; [auto|]. split; [auto|].
    assert (Epl : pl * pl = sq Eh - sq mh - s_ph_t_sq sp) by (unfold pl_of; apply sqrt_sqrt; lra).
    assert (w <= pl) by nra. nra.
  - intros (H1 & H2 & H3). split; [auto|].
    assert (Epl : pl * pl = sq Eh - sq mh - s_ph_t_sq sp) by (unfold pl_of; apply sqrt_sqrt; lra).
    assert (w <= pl). { destruct Hg as (_ & _ & [e|e]); [rewrite e in Hw; nra|]. rewrite e in Hw. nra. }
    nra.
Qed.
Lemma region_nested : region ps S sp <->
  0 < S /\ contains (x_bound ps S) (Fin x) = true /\ contains (y_bound ps S x) (Fin y) = true /\
  contains (z_bound ps S x y) (Fin z) = true /\ contains (ph_t_sq_bound ps S x y z) (Fin (s_ph_t_sq sp)) = true.
Proof.
  pose proof HP as (HM & Hm & Hmh & Hth & HN). split.
  - intros HR. destruct (region_q0 _ _ _ HP HR) as [Hq HQ]. pose proof (rg_S _ _ _ HR).
    split; [auto|]. split; [apply region_x; auto|]. split; [apply region_y; auto|]. split; [apply region_z; auto|].
    destruct HR as [HS Hb Hx Hy Hz Hpt Hlep [Hh1 Hh2] Hmis]. apply pt_points; auto. split; [auto|]. split; [auto|]. apply miss_iff; auto.
  - intros (HS & X & Y & Z & T).
    assert (Hx : 0 <= x <= 1) by (unfold x_bound in X; apply unit_points in X; tauto).
    assert (Hz : 0 <= z <= 1) by (unfold z_bound in Z; apply unit_points in Z; tauto).
    apply y_points in Y; auto. destruct Y as (Hx' & Hy & Y1 & Y2). fold (lamS ps S) in Y2.
    assert (Hq : 0 < q0). { unfold q0_of. apply Rmult_lt_0_compat; [nra|]. apply Rinv_0_lt_compat. lra. }
    assert (HQ : 0 <= S * x * y) by (apply Rmult_le_pos; [|lra]; nra).
    apply pt_points in T; auto. destruct T as (T1 & T2 & T3).
    assert (HEh : 0 < Eh). { assert (0 <= Eh) by (unfold Eh_of; nra). unfold sq in T2. nra. }
    assert (HL : 0 < lamS ps S).
    { assert (0 < y * (S * (sq (M * x) + S * x + sq (a_m ps)))) by (apply Rmult_lt_0_compat; [lra|]; apply Rmult_lt_0_compat; [lra|]; unfold sq; nra). nra. }
    constructor; auto; try (unfold lamS in HL; lra); try lra.
    + pose proof (lepton_factor S x y M (a_m ps)) as E. fold (lamS ps S) in E. assert (0 < S * y) by nra. nra.
    + apply miss_iff; auto.
Qed.
End Nested.
(** * Smallest energy *)
Lemma unit_valid a b : valid (binter BOUND_UNIT (mk_bound a b)) = true <->
  exists x, contains (binter BOUND_UNIT (mk_bound a b)) (Fin x) = true.
Proof.
  rewrite valid_iff_point. split.
  - intros [t H]. destruct t as [r| | |]; [exists r; apply contains_points; exact H|exfalso..];
      apply binter_points in H; destruct H as [U _]; unfold BOUND_UNIT in U; rewrite mk_bound_points in U; destruct U as [U1 U2]; [inversion U2|inversion U1|inversion U1].
  - intros [xx H]. exists (Fin xx). apply contains_points. auto.
Qed.
Lemma Smin_quad ps S : masses_ok ps -> 0 < S -> 0 < lamS ps S ->
  (exists x, 0 <= x <= 1 /\ xquad ps S (thr ps) x <= 0) <-> S_min ps <= S.
Proof.
  intros HP HS HL. pose proof (thr_pos ps HP) as HN. pose proof HP as (HM & Hm & Hmh & Hth & HB).
  set (A := lamS ps S + sq (a_M ps) * thr ps). set (B := lamS ps S - S * thr ps). set (C := thr ps * sq (a_m ps)).
  assert (HA : 0 < A) by (unfold A, sq; nra). assert (HC : 0 < C) by (unfold C, sq; apply Rmult_lt_0_compat; nra).
  set (T := a_Mth ps + a_mh ps). assert (HT : a_M ps < T) by (unfold T; lra).
  pose proof (x_disc ps S (thr ps) T) as XD. cbv zeta in XD. fold A B C in XD. rewrite <- XD || (specialize (XD ltac:(unfold thr, T, sq; ring))).
  assert (SM : S_min ps = thr ps + 2 * a_m ps * T) by (unfold S_min, thr, T; ring).
  assert (HmT : 0 < a_m ps * T) by nra.
  split.
  - intros (x & Hx & H). change (xquad ps S (thr ps) x) with (A * x * x - B * x + C) in H.
    pose proof (quad_disc A B C x HA H) as HD. rewrite <- XD in HD.
    assert (HBx : 0 < B * x) by nra. assert (0 < B) by nra.
    assert (thr ps < S). { unfold B, lamS, sq in *. assert (0 < a_M ps * a_M ps * (a_m ps * a_m ps)) by (apply Rmult_lt_0_compat; nra). nra. }
    rewrite SM. destruct (Rle_lt_dec (thr ps + 2 * a_m ps * T) S); auto. exfalso.
    assert (lamS ps S * (S - thr ps - 2 * a_m ps * T) < 0) by nra. nra.
  - intros H. rewrite SM in H. exists (B / (2 * A)).
    assert (HB0 : 0 < B).
    { unfold B, lamS. assert (E : sq S - 4 * sq (a_M ps) * sq (a_m ps) - S * thr ps = S * (S - thr ps) - 4 * sq (a_M ps) * sq (a_m ps)) by (unfold sq; ring). rewrite E.
      assert ((thr ps + 2 * a_m ps * T) * (2 * a_m ps * T) <= S * (S - thr ps)) by (apply Rmult_le_compat; lra).
      assert (sq (a_M ps) < sq T) by (unfold sq; nra). assert (0 < sq (a_m ps)) by (unfold sq; nra).
      assert (0 < thr ps * (2 * a_m ps * T)) by nra. unfold sq in *. nra. }
    assert (HBA : B <= 2 * A) by (unfold A, B, sq; nra).
    split.
    + split; [apply Rmult_le_pos; [lra|apply Rlt_le, Rinv_0_lt_compat; lra]|]. rewrite div_le by lra. lra.
    + change (xquad ps S (thr ps) (B / (2 * A))) with (A * (B / (2 * A)) * (B / (2 * A)) - B * (B / (2 * A)) + C).
      assert (HD : 0 <= B * B - 4 * A * C). { rewrite <- XD. apply Rmult_le_pos; [apply Rmult_le_pos|]; lra. }
      replace (A * (B / (2 * A)) * (B / (2 * A)) - B * (B / (2 * A)) + C) with (- (B * B - 4 * A * C) / (4 * A)) by (field; lra).
      apply div_le; lra.
Qed.
Lemma Smin_iff ps S : masses_ok ps -> 0 < S -> valid (x_bound ps S) = true <-> S_min ps <= S.
Proof.
  intros HP HS. pose proof (thr_pos ps HP) as HN. pose proof HP as (HM & Hm & Hmh & Hth & HB).
  destruct (Rlt_le_dec 0 (lamS ps S)) as [HL|HL].
  - rewrite <- Smin_quad by auto. unfold x_bound. rewrite unit_valid. fold (x_bound ps S).
    split; intros [x H]; exists x; apply x_points; auto.
  - split.
    + intros V. exfalso. unfold x_bound in V. apply unit_valid in V. destruct V as [x V]. apply unit_points in V. fold (thr ps) in V. fold (lamS ps S) in V.
      rewrite (x_disc ps S (thr ps) (a_Mth ps + a_mh ps)) in V by (unfold thr, sq; ring).
      set (A := lamS ps S + sq (a_M ps) * thr ps) in *. set (B := lamS ps S - S * thr ps) in *. set (C := thr ps * sq (a_m ps)) in *.
      assert (HBn : B < 0) by (unfold B; nra). assert (HC : 0 < C) by (unfold C, sq; apply Rmult_lt_0_compat; nra).
      destruct V as (Hx & V1 & V2). destruct (Rle_lt_dec 0 (B * B - 4 * A * C)) as [h|h]; [|rewrite esqrt_neg in V1 by auto; cbn in V1; inversion V1].
      rewrite esqrt_fin in V1, V2 by auto. cbn [esub eadd eneg] in V1, V2. set (D := sqrt (B * B - 4 * A * C)) in *.
      assert (HD : 0 <= D) by apply sqrt_pos. assert (DD : D * D = B * B - 4 * A * C) by (apply sqrt_sqrt; auto).
      destruct (Rtotal_order A 0) as [HA|[HA|HA]].
      * rewrite ediv_fin, le_FF in V1, V2 by lra. assert (D > - B) by nra.
        assert (0 < (B + D) / - (2 * A)) by (apply Rmult_lt_0_compat; [lra|apply Rinv_0_lt_compat; lra]).
        assert (Hn : (B + D) / (2 * A) = - ((B + D) / - (2 * A))) by (field; lra). rewrite Hn in V2. lra.
      * rewrite HA, Rmult_0_r, ediv_zero in V2. assert (D = - B) by nra. replace (B + D) with 0 in V2 by lra.
        unfold sinf in V2. replace (rltb 0 0) with false in V2 by (symmetry; apply rltb_false; lra). inversion V2.
      * rewrite ediv_fin, le_FF in V2 by lra. apply le_div in V2; [|lra]. assert (D < - B) by nra. nra.
    + intros H. exfalso. assert (G : a_M ps * a_m ps < a_m ps * (a_Mth ps + a_mh ps)) by nra.
      assert (SM : S_min ps = thr ps + 2 * (a_m ps * (a_Mth ps + a_mh ps))) by (unfold S_min, thr; ring).
      assert (2 * (a_M ps * a_m ps) < S) by lra. assert (0 < a_M ps * a_m ps) by nra.
      assert (E : lamS ps S = (S - 2 * (a_M ps * a_m ps)) * (S + 2 * (a_M ps * a_m ps))) by (unfold lamS, sq; ring). rewrite E in HL. nra.
Qed.
