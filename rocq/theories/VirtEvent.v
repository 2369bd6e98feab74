(** One-loop corrections of a scattering event, in terms of the momenta. *)
From Coq Require Import Reals Lra Lia Psatz.
From Coquelicot Require Import Coquelicot.
From Verif Require Import ExtModel MathModel MathProofs BoundProofs ParticleModel VecModel TransModel FrameBase KinModel KinSpec VecTac KinEqs KinFinal KinAll KinFin
  DilogSpec DilogProofs XsModel VirtSpec VirtVac VirtVert VirtSphi VirtSoft VirtSum VirtCode.
Local Open Scope R_scope.
Set Bullet Behavior "Strict Subproofs".

Lemma cauchy3 a b c x y z : (a * x + b * y + c * z) ^ 2 <= (a ^ 2 + b ^ 2 + c ^ 2) * (x ^ 2 + y ^ 2 + z ^ 2).
Proof.
  pose proof (pow2_ge_0 (a * y - b * x)). pose proof (pow2_ge_0 (a * z - c * x)). pose proof (pow2_ge_0 (b * z - c * y)).
  replace ((a ^ 2 + b ^ 2 + c ^ 2) * (x ^ 2 + y ^ 2 + z ^ 2)) with ((a * x + b * y + c * z) ^ 2 + (a * y - b * x) ^ 2 + (a * z - c * x) ^ 2 + (b * z - c * y) ^ 2) by ring. lra.
Qed.
Lemma future_dot P a : 0 < norm_sq4 P -> 0 < t4 P -> 0 < norm_sq4 a -> 0 < t4 a -> 0 < dot4 P a /\ norm_sq4 P * norm_sq4 a <= dot4 P a ^ 2.
Proof.
  destruct P as [p0 px py pz], a as [e x y z]. uvec. intros H1 H2 H3 H4. ring_simplify in H1. ring_simplify in H3.
  pose proof (cauchy3 px py pz x y z) as C. set (s := px * x + py * y + pz * z) in *. set (u := px ^ 2 + py ^ 2 + pz ^ 2) in *. set (w := x ^ 2 + y ^ 2 + z ^ 2) in *.
  assert (U : 0 <= u < p0 ^ 2) by (unfold u; pose proof (pow2_ge_0 px); pose proof (pow2_ge_0 py); pose proof (pow2_ge_0 pz); lra).
  assert (W : 0 <= w < e ^ 2) by (unfold w; pose proof (pow2_ge_0 x); pose proof (pow2_ge_0 y); pose proof (pow2_ge_0 z); lra).
  replace (p0 * e - px * x - py * y - pz * z) with (p0 * e - s) by (unfold s; ring).
  replace ((p0 * p0 - px * px - py * py - pz * pz) * (e * e - x * x - y * y - z * z)) with ((p0 ^ 2 - u) * (e ^ 2 - w)) by (unfold u, w; ring).
  clearbody s u w. assert (PE : 0 < p0 * e) by (apply Rmult_lt_0_compat; assumption).
  assert (B : u * w < (p0 * e) ^ 2). { rewrite Rpow_mult_distr. apply Rle_lt_trans with (p0 ^ 2 * w); [apply Rmult_le_compat_r; lra|apply Rmult_lt_compat_l; lra]. }
  split.
  - apply Rnot_le_lt. intros N. assert ((p0 * e) ^ 2 <= s ^ 2) by (apply pow_incr; lra). lra.
  - set (g := sqrt (u * w)). assert (UW : 0 <= u * w) by (apply Rmult_le_pos; lra). assert (GS : g ^ 2 = u * w) by (apply pow2_sqrt; exact UW). assert (GP : 0 <= g) by apply sqrt_pos.
    assert (SG : s <= g). { destruct (Rle_dec s 0) as [L|L]; [lra|]. apply Rnot_lt_le. intros N. assert (g ^ 2 < s ^ 2). { apply Rsqr_incrst_1 in N; try lra. unfold Rsqr in N. lra. } lra. }
    assert (GE : g < p0 * e). { apply Rsqr_incrst_0; try lra. unfold Rsqr. lra. }
    apply Rle_trans with ((p0 * e - g) ^ 2); [|apply pow_incr; lra].
    (* p0^2 w + e^2 u >= 2 p0 e g *)
    assert (SQ : 2 * (p0 * e) * g <= p0 ^ 2 * w + e ^ 2 * u).
    { set (h := sqrt u). set (l := sqrt w). assert (HH : h ^ 2 = u) by (apply pow2_sqrt; lra). assert (LL : l ^ 2 = w) by (apply pow2_sqrt; lra).
      assert (GH : g = h * l) by (unfold g, h, l; apply sqrt_mult; lra). rewrite GH, <- HH, <- LL. pose proof (pow2_ge_0 (p0 * l - e * h)). lra. }
    replace ((p0 * e - g) ^ 2) with ((p0 * e) ^ 2 - 2 * (p0 * e) * g + g ^ 2) by ring. rewrite GS, Rpow_mult_distr. lra.
Qed.

Section E.
Variable D : R -> R.
Hypothesis HD : is_dilog D.
Variables (k : kin) (p k1 q ph : vec4) (k0 : R).
Hypothesis N1 : transfer_names (kin_vals k) p k1 q ph.
Hypothesis N2 : lepton_names k p k1 q ph.
Let P := recoil p q ph.
Let k2 := sub4 k1 q.
Hypothesis Hm : 0 < norm_sq4 k1.
Hypothesis Hq : norm_sq4 q < 0.
Hypothesis T1 : 0 < t4 k1.
Hypothesis T2 : 0 < t4 k2.
Hypothesis HP : 0 < norm_sq4 P.
Hypothesis TP : 0 < t4 P.
Hypothesis G : 0 < gram3 P k1 k2.
Hypothesis Hk0 : 0 < k0.
Hypothesis Hmax : 0 < photon_max P (kMth k).
Lemma m_sq : km k ^ 2 = norm_sq4 k1.
Proof. rewrite (n_m _ _ _ _ _ N2). apply pow2_sqrt. lra. Qed.
Lemma m_pos : 0 < km k.
Proof. rewrite (n_m _ _ _ _ _ N2). apply sqrt_lt_R0. exact Hm. Qed.
Lemma m2_sq : norm_sq4 k2 = km k ^ 2.
Proof.
  pose proof m_pos as M. rewrite (n_m2 _ _ _ _ _ N2) in M |- *. fold k2 in M |- *. symmetry. apply pow2_sqrt. apply Rnot_lt_le. intros N. rewrite sqrt_neg_0 in M by lra. lra.
Qed.
Lemma mx_is : kmx k = sqrt (norm_sq4 P). Proof. exact (n_mx _ _ _ _ _ N1). Qed.
Lemma mx_pos : 0 < kmx k. Proof. rewrite mx_is. apply sqrt_lt_R0. exact HP. Qed.
Lemma mx_sq : kmx_sq k = kmx k ^ 2.
Proof. rewrite mx_is, pow2_sqrt by lra. exact (n_mx_sq _ _ _ _ _ N1). Qed.
Lemma Q_sq_is : kQ_sq k = - norm_sq4 q. Proof. exact (n_Q_sq _ _ _ _ _ N1). Qed.
Lemma k1q : 2 * dot4 k1 q = norm_sq4 q.
Proof. pose proof m2_sq as A. rewrite m_sq in A. unfold k2 in A. destruct k1, q. uvec. lra. Qed.
Lemma k1k2 : dot4 k1 k2 = km k ^ 2 + kQ_sq k / 2.
Proof. pose proof k1q as A. rewrite m_sq, Q_sq_is. unfold k2. destruct k1, q. uvec. lra. Qed.
Lemma E1_is : (kS k - kQ_sq k - kV_1 k) / (2 * kmx k) = rest_energy P k1.
Proof.
  unfold rest_energy. rewrite <- mx_is. pose proof mx_pos as X. replace (kS k - kQ_sq k - kV_1 k) with (2 * dot4 P k1); [field; lra|].
  rewrite (n_S _ _ _ _ _ N2), (n_V_1 _ _ _ _ _ N2), Q_sq_is. pose proof k1q as A. unfold P, recoil. clear - A. destruct k1, q, p, ph. uvec. lra.
Qed.
Lemma E2_is : (kX k + kQ_sq k - kV_2 k) / (2 * kmx k) = rest_energy P k2.
Proof.
  unfold rest_energy. rewrite <- mx_is. pose proof mx_pos as X. replace (kX k + kQ_sq k - kV_2 k) with (2 * dot4 P k2); [field; lra|].
  rewrite (n_X _ _ _ _ _ N2), (n_V_2 _ _ _ _ _ N2), Q_sq_is. pose proof k1q as A. unfold k2, P, recoil. clear - A. destruct k1, q, p, ph. uvec. lra.
Qed.
Let E1 := rest_energy P k1.
Let E2 := rest_energy P k2.
Lemma dot_E1 : dot4 P k1 = kmx k * E1. Proof. unfold E1, rest_energy. rewrite <- mx_is. pose proof mx_pos. field. lra. Qed.
Lemma dot_E2 : dot4 P k2 = kmx k * E2. Proof. unfold E2, rest_energy. rewrite <- mx_is. pose proof mx_pos. field. lra. Qed.
Lemma nc : not_collinear (kQ_sq k) (km k) E1 E2.
Proof.
  assert (A : gram3 P k1 k2 = kmx k ^ 2 * ((E1 ^ 2 - km k ^ 2) * (E2 ^ 2 - km k ^ 2) - (E1 * E2 - (kQ_sq k + 2 * km k ^ 2) / 2) ^ 2)).
  { unfold gram3, det3, mk_tr3. assert (S : forall a b, dot4 a b = dot4 b a) by (intros [] []; uvec; ring).
    assert (NN : forall a, dot4 a a = norm_sq4 a) by (intros []; uvec; ring).
    rewrite (S k1 P), (S k2 P), (S k2 k1), !NN, dot_E1, dot_E2, k1k2, m2_sq, <- m_sq.
    replace (norm_sq4 P) with (kmx k ^ 2) by (rewrite mx_is; apply pow2_sqrt; lra). cbn [rx ry rz x3 y3 z3 dot3 cross3]. uvec. field. }
  unfold not_collinear. pose proof mx_pos as X. assert (X2 : 0 < kmx k ^ 2) by (apply pow_lt; exact X). rewrite A in G.
  apply Rmult_lt_reg_l with (kmx k ^ 2); [exact X2|]. lra.
Qed.
Lemma energies : km k < E1 /\ km k < E2.
Proof.
  pose proof m_pos as M. pose proof mx_pos as X. assert (N2' : 0 < norm_sq4 k2) by (rewrite m2_sq; apply pow_lt; exact M).
  destruct (future_dot P k1 HP TP Hm T1) as [A1 B1]. destruct (future_dot P k2 HP TP N2' T2) as [A2 B2]. rewrite dot_E1 in A1, B1. rewrite dot_E2 in A2, B2.
  assert (PP : norm_sq4 P = kmx k ^ 2) by (rewrite mx_is, pow2_sqrt; lra). rewrite PP, <- m_sq in B1. rewrite PP, m2_sq in B2.
  assert (X2 : 0 < kmx k ^ 2) by (apply pow_lt; exact X).
  assert (C1 : km k ^ 2 <= E1 ^ 2) by (rewrite Rpow_mult_distr in B1; apply Rmult_le_reg_l with (kmx k ^ 2); lra).
  assert (C2 : km k ^ 2 <= E2 ^ 2) by (rewrite Rpow_mult_distr in B2; apply Rmult_le_reg_l with (kmx k ^ 2); lra).
  assert (P1 : 0 < E1) by (apply Rmult_lt_reg_l with (kmx k); [exact X|lra]). assert (P2 : 0 < E2) by (apply Rmult_lt_reg_l with (kmx k); [exact X|lra]).
  pose proof nc as N. unfold not_collinear in N. pose proof (pow2_ge_0 (E1 * E2 - (kQ_sq k + 2 * km k ^ 2) / 2)) as SQ.
  assert (D1 : km k ^ 2 < E1 ^ 2). { destruct C1 as [C1|C1]; [exact C1|]. exfalso. replace (E1 ^ 2 - km k ^ 2) with 0 in N by lra. lra. }
  assert (D2 : km k ^ 2 < E2 ^ 2). { destruct C2 as [C2|C2]; [exact C2|]. exfalso. replace (E2 ^ 2 - km k ^ 2) with 0 in N by lra. lra. }
  split; apply Rsqr_incrst_0; unfold Rsqr; lra.
Qed.
Lemma max_is : photon_max P (kMth k) = (kmx k ^ 2 - kMth k ^ 2) / (2 * kmx k).
Proof. unfold photon_max. rewrite <- mx_is. replace (norm_sq4 P) with (kmx k ^ 2) by (rewrite mx_is; apply pow2_sqrt; lra). reflexivity. Qed.
Lemma Qp : 0 < kQ_sq k. Proof. rewrite Q_sq_is. lra. Qed.
Lemma event_limit : exists v, delta_vert_rad_ir D k k0 = Fin v /\
  filterlim (fun mu => vertex (- norm_sq4 q) (sqrt (norm_sq4 k1)) mu + soft (- norm_sq4 q) (sqrt (norm_sq4 k1)) E1 E2 mu (Rmin k0 (photon_max P (kMth k)))) (at_right 0) (locally v).
Proof.
  destruct energies as [A1 A2]. pose proof nc as NC. pose proof max_is as MX. pose proof Hmax as HM. rewrite MX in HM |- *. rewrite <- Q_sq_is, <- (n_m _ _ _ _ _ N2).
  pose proof (code_limit D HD k Qp m_pos mx_pos mx_sq) as C. rewrite E1_is, E2_is in C. exact (C A1 A2 NC k0 Hk0 HM).
Qed.
(** Photons above the cutoff *)
Lemma hard_limit : exists h, delta_rad_ir_hard k k0 = Fin h /\
  filterlim (fun mu => soft (- norm_sq4 q) (sqrt (norm_sq4 k1)) E1 E2 mu (photon_max P (kMth k)) - soft (- norm_sq4 q) (sqrt (norm_sq4 k1)) E1 E2 mu (Rmin k0 (photon_max P (kMth k)))) (at_right 0) (locally h).
Proof.
  destruct energies as [A1 A2]. pose proof nc as NC. rewrite <- Q_sq_is, <- (n_m _ _ _ _ _ N2).
  pose proof Hmax as HM. pose proof max_is as MX. set (km_ := photon_max P (kMth k)) in *. set (kc := Rmin k0 km_). assert (KP : 0 < kc) by (apply Rmin_glb_lt; assumption).
  exists (2 * (Qm (kQ_sq k) (km k) * lepton_L (kQ_sq k) (km k) - 1) * ln (km_ / kc)). split.
  - unfold delta_rad_ir_hard. cbv zeta. replace (rltb 0 k0) with true by (symmetry; apply rltb_spec; exact Hk0). cbn [negb]. rewrite mx_sq.
    replace (kmx k ^ 2 - sq (kMth k)) with (kmx k ^ 2 - kMth k ^ 2) by (unfold sq; ring). rewrite <- MX. unfold kc. destruct (rltb k0 km_) eqn:X; cbn [negb].
    + apply rltb_spec in X. rewrite Rmin_left by lra. f_equal. f_equal; [unfold Qm, sq; cbn [pow]; ring|]. f_equal. rewrite MX. pose proof mx_pos. field. lra.
    + apply rltb_false in X. rewrite Rmin_right by lra. f_equal. replace (km_ / km_) with 1 by (field; lra). rewrite ln_1. ring.
  - set (v := 2 * _ * _). set (K := (Qm (kQ_sq k) (km k) + 2 * km k ^ 2) * soft_K (km k) E1 E2 km_ + (Qm (kQ_sq k) (km k) + 2 * km k ^ 2) * soft_K (km k) E1 E2 kc).
    apply filterlim_locally. intros eps. set (K' := Rabs K + 1). assert (KP' : 0 < K') by (unfold K'; pose proof (Rabs_pos K); lra).
    assert (DP : 0 < eps / K') by (apply Rdiv_lt_0_compat; [apply cond_pos|exact KP']).
    exists (mkposreal _ DP). intros mu B M. change (Rabs (mu - 0) < eps / K') in B. rewrite Rminus_0_r, Rabs_pos_eq in B by lra.
    pose proof (soft_close D HD (kQ_sq k) (km k) E1 E2 Qp m_pos A1 A2 NC mu km_ M HM) as S1. pose proof (soft_close D HD (kQ_sq k) (km k) E1 E2 Qp m_pos A1 A2 NC mu kc M KP) as S2.
    assert (L : ln (km_ / kc) = ln (2 * km_ / mu) - ln (2 * kc / mu)) by (rewrite !ln_div, !ln_mult by lra; ring).
    match goal with |- ball _ _ ?x => change (Rabs (x - v) < eps) end. apply Rle_lt_trans with (K * mu).
    + unfold v. rewrite L. apply Rabs_le_between in S1. apply Rabs_le_between in S2. apply Rabs_le. unfold K. lra.
    + apply Rle_lt_trans with (K' * mu). { apply Rmult_le_compat_r; [lra|]. unfold K'. pose proof (Rle_abs K). lra. }
      apply Rlt_le_trans with (K' * (eps / K')); [apply Rmult_lt_compat_l; lra|]. right. field. lra.
Qed.
End E.

Lemma tapp_id v : tapp4 TRANSFORM4_ID v = v.
Proof. destruct v. uvec. apply V4_eq; ring. Qed.
Lemma event_names_id e ps S sp : same_event e ps S sp -> transfer_names (kin_vals (make_kin ps S sp)) (v_p e) (v_k1 e) (v_q e) (v_ph e) /\ lepton_names (make_kin ps S sp) (v_p e) (v_k1 e) (v_q e) (v_ph e).
Proof. intros H. pose proof (same_names e ps S sp TRANSFORM4_ID H lorentz_id) as N. cbv zeta in N. rewrite !tapp_id in N. exact N. Qed.

(** Only the precision of the dilogarithm matters. *)
Lemma dilog_close D D' eps k : 0 <= eps -> (forall x, Rabs (D' x - D x) <= eps) -> Rabs (delta_vert_rad_0 D' k - delta_vert_rad_0 D k) <= 6 * eps * Rabs ((kQ_sq k + 2 * km k ^ 2) / sqrt (kQ_sq k * (kQ_sq k + 4 * km k ^ 2))).
Proof.
  intros E H. unfold delta_vert_rad_0. cbv zeta. replace (sq (km k)) with (km k ^ 2) by (unfold sq; ring).
  set (f := (kQ_sq k + 2 * km k ^ 2) / sqrt (kQ_sq k * (kQ_sq k + 4 * km k ^ 2))).
  repeat match goal with |- context [D' ?x] => let y := fresh "y" in set (y := x); let h := fresh "h" in pose proof (H y) as h; clearbody y; let u := fresh "u" in let w := fresh "w" in set (u := D' y) in *; set (w := D y) in *; clearbody u w end.
  match goal with |- Rabs ?x <= _ => replace x with (f * ((u - w) + (u0 - w0) - (u1 - w1) - (u2 - w2) - 2 * (u3 - w3))) by ring end.
  rewrite Rabs_mult, Rmult_comm. apply Rmult_le_compat_r; [apply Rabs_pos|].
  repeat match goal with h : Rabs _ <= eps |- _ => apply Rabs_le_between in h end. apply Rabs_le. lra.
Qed.
