(** The cross-sections of the code as contractions. *)
From Coq Require Import Reals List Lra Ring Field Psatz.
From Coquelicot Require Import Coquelicot.
From Verif Require Import ParamModel MathModel ParticleModel VecModel TransModel FrameBase SfModel KinModel KinSpec KinAll LepModel HadModel XsModel XsProofs XsDelta
  QedSpec QedAlg QedXsSpec QedFrame.
Import ListNotations.
Local Open Scope R_scope.

Lemma contract_app L u v : contract L (u ++ v) = cadd (contract L u) (contract L v).
Proof. unfold contract. induction u as [|t u IH]; cbn [app fold_right]; [apply cx_eq; cbn [re im cadd c0 creal]; ring|]. rewrite IH. apply cx_eq; cbn [re im cadd]; ring. Qed.
Lemma contract_weigh L x w : contract L (weigh x w) = cmul (creal x) (contract L w).
Proof. unfold contract, weigh. induction w as [|t w IH]; cbn [map fold_right fst snd]; [apply cx_eq; cbn [re im cmul c0 creal]; ring|]. rewrite IH. apply cx_eq; cbn [re im cadd cmul creal]; ring. Qed.
Lemma contract_tensor L q p h H W : (forall i, List.In i [1; 2; 3; 4; 5; 6; 7; 8; 9]%nat -> contract L (had_struct q p h i) = creal (W i)) ->
  contract L (had_tensor q p h H) = creal (H 1%nat * W 1%nat + H 2%nat * W 2%nat + H 3%nat * W 3%nat + H 4%nat * W 4%nat + H 5%nat * W 5%nat + H 6%nat * W 6%nat + H 7%nat * W 7%nat + H 8%nat * W 8%nat + H 9%nat * W 9%nat).
Proof.
  intros E. unfold had_tensor. cbn [flat_map]. rewrite !contract_app, !contract_weigh, !E by (cbn [List.In]; tauto).
  unfold contract at 1. cbn [fold_right]. apply cx_eq; cbn [re im cadd cmul creal c0]; ring.
Qed.
Ltac cases9 := intros ? [<-|[<-|[<-|[<-|[<-|[<-|[<-|[<-|[<-|[]]]]]]]]]].

Section Xs.
Variables (ps : parts) (S : R) (sp : phase_space) (e : event) (tr : tr4) (sf : sf_set sf_point) (ph : phenom) (lam : R) (eta : vec3) (s : vec4).
Hypothesis He : same_event e ps S sp.
Hypothesis Ht : lorentz tr.
Hypothesis Hm : 0 < a_m ps.
Let t := tapp4 tr.
Let k := make_kin ps S sp.
Let p := t (v_p e). Let k1 := t (v_k1 e). Let q := t (v_q e). Let h := t (v_ph e). Let k2 := sub4 k1 q.
Hypothesis Hs : helicity_vector p k1 s.
Lemma flux_born : born_coeff (Born k ph) = 2 * flux (p_alpha_qed ph) k.
Proof. unfold Born, flux. cbn [born_coeff]. unfold Rdiv. rewrite !Rinv_mult. generalize (/ kM k), (/ kph_l k), (/ klambda_S k). intros. field. Qed.
Theorem born_qed : creal (born sf k ph lam eta) = cmul (creal (flux (p_alpha_qed ph) k))
  (contract (lepton_born (a_m ps) k1 k2 (scale4 lam s)) (had_tensor q p h (weights (HadLP sf k) eta))).
Proof.
  destruct (event_born ps S sp e tr He Ht Hm s lam Hs) as (W1 & W2 & W3 & W4 & W5 & W6 & W7 & W8 & W9). fold t k p k1 q h k2 in W1, W2, W3, W4, W5, W6, W7, W8, W9.
  pose (U := LepBornBaseUU k). pose (P := LepBornBaseUP k). pose (L := LepBornBaseLU k). pose (C := LepBornBaseLP k).
  rewrite (contract_tensor _ _ _ _ _ (fun i => match i with 1%nat => 2 * lb1 U | 2%nat => 2 * lb2 U | 3%nat => 2 * lb3 U | 4%nat => 2 * lb4 U
    | 5%nat => lam * (2 * lb5 L) | 6%nat => 2 * lb6 P | 7%nat => lam * (2 * lb7 C) | 8%nat => 2 * lb8 P | _ => lam * (2 * lb9 C) end)) by (cases9; assumption).
  rewrite born_full. unfold born_base_uu, born_base_ul, born_base_ut1, born_base_ut2, born_base_lu, born_base_ll, born_base_lt1, born_base_lt2. rewrite flux_born.
  unfold weights, HadLP, sf_lp, U, P, L, C. cbv zeta. cbn [Hlp_uu Hlp_ul Hlp_ut Hlp_lu Hlp_ll Hlp_lt sflp_uu sflp_ul sflp_ut sflp_lu sflp_ll sflp_lt].
  apply cx_eq; cbn [re im creal cmul]; ring.
Qed.

(** ** Anomalous magnetic moment *)
Lemma F2_integral m Q2 : 0 < m -> 0 < Q2 -> RInt (fun x => m * m / (m * m + Q2 * (x * (1 - x)))) 0 1 = 2 * (m * m) * lepton_L Q2 m.
Proof.
  intros M0 Q0. rewrite lepton_L_textbook by assumption. set (l := sqrt (Q2 * (Q2 + 4 * (m * m)))).
  assert (LP : 0 < Q2 * (Q2 + 4 * (m * m))) by nra.
  assert (L2 : l * l = Q2 * (Q2 + 4 * (m * m))) by (apply sqrt_sqrt; lra). assert (L0 : 0 < l) by (now apply sqrt_lt_R0).
  assert (LQ : Q2 < l).
  { destruct (Rlt_le_dec Q2 l) as [X|C]; [exact X|]. exfalso. pose proof (Rmult_le_compat l Q2 l Q2 ltac:(lra) ltac:(lra) C C).
    pose proof (Rmult_lt_0_compat Q2 (m * m) Q0 (Rmult_lt_0_compat m m M0 M0)). lra. }
  pose (G := fun x => m * m / l * (ln (l / 2 + Q2 * (x - / 2)) - ln (l / 2 - Q2 * (x - / 2)))).
  assert (I : is_RInt (fun x => m * m / (m * m + Q2 * (x * (1 - x)))) 0 1 (minus (G 1) (G 0))).
  { apply (is_RInt_derive G).
    - intros x Hx. rewrite Rmin_left, Rmax_right in Hx by lra. unfold G.
      assert (A : 0 < l / 2 + Q2 * (x - / 2)) by nra. assert (B : 0 < l / 2 - Q2 * (x - / 2)) by nra.
      auto_derive; [split; [lra|split; [lra|exact I]]|].
      assert (D : (l / 2 + Q2 * (x - / 2)) * (l / 2 - Q2 * (x - / 2)) = Q2 * (m * m + Q2 * (x * (1 - x)))).
      { transitivity (l * l / 4 - Q2 * Q2 * ((x - / 2) * (x - / 2))); [field|]. rewrite L2. field. }
      assert (N : 0 < m * m + Q2 * (x * (1 - x))) by nra.
      replace (m * m / (m * m + Q2 * (x * (1 - x)))) with (m * m * Q2 / ((l / 2 + Q2 * (x - / 2)) * (l / 2 - Q2 * (x - / 2)))) by (rewrite D; field; lra).
      field. repeat split; lra.
    - intros x Hx. rewrite Rmin_left, Rmax_right in Hx by lra. apply (ex_derive_continuous (V := R_NormedModule)).
      assert (N : m * m + Q2 * (x * (1 - x)) <> 0).
      { apply Rgt_not_eq. pose proof (Rmult_le_pos x (1 - x) ltac:(lra) ltac:(lra)) as X. pose proof (Rmult_le_pos _ _ (Rlt_le _ _ Q0) X).
        pose proof (Rmult_lt_0_compat m m M0 M0). lra. }
      auto_derive. auto. }
  rewrite (is_RInt_unique _ _ _ _ I). unfold G, minus, plus, opp. cbn.
  replace (l / 2 + Q2 * (1 - / 2)) with ((l + Q2) / 2) by field. replace (l / 2 - Q2 * (1 - / 2)) with ((l - Q2) / 2) by field.
  replace (l / 2 + Q2 * (0 - / 2)) with ((l - Q2) / 2) by field. replace (l / 2 - Q2 * (0 - / 2)) with ((l + Q2) / 2) by field.
  unfold Rdiv at 7. rewrite (ln_div (l + Q2) (l - Q2)) by lra.
  assert (X : ln ((l + Q2) / 2) - ln ((l - Q2) / 2) = ln (l + Q2) - ln (l - Q2)) by (rewrite !ln_div by lra; ring).
  replace (ln ((l + Q2) / 2)) with (ln (l + Q2) - ln (l - Q2) + ln ((l - Q2) / 2)) by lra. field. lra.
Qed.
Lemma km_eq : km k = a_m ps. Proof. reflexivity. Qed.
Lemma Q_pos : 0 < kQ_sq k.
Proof.
  destruct (ev_names ps S sp e tr He Ht) as [N _]. pose proof (n_Q_sq _ _ _ _ _ N) as E. cbn [kin_vals iQ_sq] in E. fold k in E. rewrite E. unfold norm_sq4. rewrite (proj1 Ht).
  destruct He as (P & _). pose proof (ph_space _ P) as X. unfold norm_sq4 in X. lra.
Qed.
Lemma flux_amm : amm_coeff (Amm k ph) = flux (p_alpha_qed ph) k * form_factor_2 (p_alpha_qed ph) (km k) (kQ_sq k) * kQ_sq k.
Proof.
  unfold Amm, flux, form_factor_2. cbv zeta. cbn [amm_coeff]. rewrite F2_integral by (exact Hm || exact Q_pos).
  pose proof PI_neq0. unfold sq, Rdiv. rewrite !Rinv_mult. generalize (/ kM k), (/ kph_l k), (/ klambda_S k), (lepton_L (kQ_sq k) (km k)). intros. field. assumption.
Qed.
Theorem amm_qed : creal (amm sf k ph lam eta) = cmul (creal (flux (p_alpha_qed ph) k * (form_factor_2 (p_alpha_qed ph) (a_m ps) (kQ_sq k) / (2 * a_m ps))))
  (contract (lepton_pauli (a_m ps) k1 k2 (scale4 lam s)) (had_tensor q p h (weights (HadLP sf k) eta))).
Proof.
  destruct (event_pauli ps S sp e tr He Ht Hm s lam Hs) as (W1 & W2 & W3 & W4 & W5 & W6 & W7 & W8 & W9). fold t k p k1 q h k2 in W1, W2, W3, W4, W5, W6, W7, W8, W9.
  pose (a := 2 * a_m ps * kQ_sq k). pose (U := LepAmmBaseUU k). pose (P := LepAmmBaseUP k). pose (L := LepAmmBaseLU k). pose (C := LepAmmBaseLP k).
  rewrite (contract_tensor _ _ _ _ _ (fun i => match i with 1%nat => a * la1 U | 2%nat => a * la2 U | 3%nat => a * la3 U | 4%nat => a * la4 U
    | 5%nat => lam * (a * la5 L) | 6%nat => a * la6 P | 7%nat => lam * (a * la7 C) | 8%nat => a * la8 P | _ => lam * (a * la9 C) end)) by (cases9; assumption).
  rewrite amm_full. unfold amm_base_uu, amm_base_ul, amm_base_ut1, amm_base_ut2, amm_base_lu, amm_base_ll, amm_base_lt1, amm_base_lt2. rewrite flux_amm, km_eq.
  set (F := form_factor_2 _ _ _). set (fl := flux _ _).
  replace (fl * (F / (2 * a_m ps))) with (fl * F * / (2 * a_m ps)) by (unfold Rdiv; ring).
  unfold weights, HadLP, sf_lp, U, P, L, C. cbv zeta. cbn [Hlp_uu Hlp_ul Hlp_ut Hlp_lu Hlp_ll Hlp_lt sflp_uu sflp_ul sflp_ut sflp_lu sflp_ll sflp_lt].
  unfold a. apply cx_eq; cbn [re im creal cmul]; field; lra.
Qed.

(** ** Radiation *)
Variables (tau phi_k Rk : R) (f : photon).
Hypothesis Hf : same_photon f e tau phi_k Rk.
Hypothesis HR : 0 < Rk.
Let r := make_rad k tau phi_k Rk.
Let kk := t (v_k e f).
Lemma M_pos : 0 < kM k. Proof. destruct (ev_masses ps S sp e He) as (_ & _ & _ & H & _). exact H. Qed.
Lemma lY_pos : 0 < klambda_Y_sqrt k.
Proof.
  destruct (ev_names ps S sp e tr He Ht) as [N _]. pose proof (n_lambda_Y_sqrt _ _ _ _ _ N) as E. cbn [kin_vals ilambda_Y_sqrt] in E. fold k in E. rewrite E.
  unfold sdot, norm_sq4. rewrite !(proj1 Ht). destruct He as (P & _). pose proof (ph_M _ P) as PM. pose proof (ph_qz _ P) as Pq.
  unfold v_p, v_q, dot4, dot3, r4. cbn [t4 x4 y4 z4 x3 y3 z3].
  apply Rmult_lt_0_compat; [apply Rmult_lt_0_compat; [lra|]|]; apply sqrt_lt_R0; [nra|].
  match goal with |- 0 < ?a / ?b => replace a with (e_M e * e_M e * (e_qz e * e_qz e)) by ring; replace b with (e_M e * e_M e) by ring end.
  assert (0 < e_M e * e_M e) by nra. assert (0 < e_qz e * e_qz e) by nra. apply Rdiv_lt_0_compat; nra.
Qed.
Lemma energy_rate : is_derive (fun x => rk_0 (make_rad k tau phi_k x)) Rk (/ (2 * kM k)).
Proof. change (is_derive (fun x => x / (2 * kM k)) Rk (/ (2 * kM k))). pose proof M_pos as H. revert H. generalize (kM k). intros M0 H. auto_derive; [lra|]. field. lra. Qed.
Lemma angle_rate : is_derive (fun x => rk_l (make_rad k x phi_k Rk) / rk_0 (make_rad k x phi_k Rk)) tau (- (2 * sq (kM k) / klambda_Y_sqrt k)).
Proof.
  change (is_derive (fun x => Rk * (kS_x k - 2 * sq (kM k) * x) / (2 * kM k * klambda_Y_sqrt k) / (Rk / (2 * kM k))) tau (- (2 * sq (kM k) / klambda_Y_sqrt k))).
  pose proof M_pos as H. pose proof lY_pos as H'. revert H H'. generalize (kM k), (klambda_Y_sqrt k), (kS_x k). intros M0 l0 S0 H H'. unfold sq.
  auto_derive; [|field; lra]. repeat split; try (apply Rgt_not_eq; apply Rdiv_lt_0_compat); nra.
Qed.
Theorem rad_qed : exists de dc, is_derive (fun x => rk_0 (make_rad k tau phi_k x)) Rk de /\
  is_derive (fun x => rk_l (make_rad k x phi_k Rk) / rk_0 (make_rad k x phi_k Rk)) tau dc /\
  creal (rad sf r ph lam eta) = cmul (creal (flux (p_alpha_qed ph) k * (4 * PI * p_alpha_qed ph) * photon_measure (rk_0 r) de dc))
    (contract (lepton_rad (a_m ps) k1 k2 kk (scale4 lam s)) (had_tensor (sub4 q kk) p h (weights_rad (HadRadLP sf r) eta))).
Proof.
  exists (/ (2 * kM k)), (- (2 * sq (kM k) / klambda_Y_sqrt k)). split; [exact energy_rate|]. split; [exact angle_rate|].
  destruct (event_rad ps S sp e tr He Ht Hm s lam Hs tau phi_k Rk f Hf HR) as (W1 & W2 & W3 & W4 & W5 & W6 & W7 & W8 & W9). fold t k p k1 q h k2 kk in W1, W2, W3, W4, W5, W6, W7, W8, W9. fold r in W1, W2, W3, W4, W5, W6, W7, W8, W9.
  pose (sum := fun a b c e : R => - 2 * (a / (Rk * Rk) + b / Rk + c + e * Rk)).
  pose (B := LepRadBaseUU r). pose (P := LepRadBaseUP r). pose (A := LepRadBaseLU r). pose (C := LepRadBaseLP r).
  rewrite (contract_tensor _ _ _ _ _ (fun i => match i with 1%nat => sum (lr011 B) (lr012 B) (lr013 B) 0 | 2%nat => sum (lr021 B) (lr022 B) (lr023 B) 0
    | 3%nat => sum (lr031 B) (lr032 B) (lr033 B) 0 | 4%nat => sum (lr041 B) (lr042 B) (lr043 B) 0
    | 5%nat => lam * sum (lr051 A + lr151 A) (lr052 A + lr152 A) (lr053 A + lr153 A) 0 | 6%nat => sum (lr061 P) (lr062 P) (lr063 P) (lr064 P)
    | 7%nat => lam * sum (lr071 C + lr171 C) (lr072 C + lr172 C) (lr073 C + lr173 C) (lr074 C + lr174 C) | 8%nat => sum (lr081 P) (lr082 P) (lr083 P) (lr084 P)
    | _ => lam * sum (lr091 C + lr191 C) (lr092 C + lr192 C) (lr093 C + lr193 C) (lr094 C + lr194 C) end)) by (cases9; assumption).
  rewrite rad_full. unfold rad_base_uu, rad_base_up, rad_base_lu, rad_base_lp.
  change (rad_R (Rad r ph)) with Rk.
  assert (K : flux (p_alpha_qed ph) k * (4 * PI * p_alpha_qed ph) * photon_measure (rk_0 r) (/ (2 * kM k)) (- (2 * sq (kM k) / klambda_Y_sqrt k)) = - rad_coeff (Rad r ph) * Rk / 2).
  { pose proof M_pos. pose proof lY_pos. pose proof PI_neq0. unfold photon_measure. rewrite Rabs_Ropp, Rabs_pos_eq by (apply Rlt_le, Rdiv_lt_0_compat; unfold sq; nra).
    change (rk_0 r) with (Rk / (2 * kM k)). unfold Rad. cbn [rad_coeff]. change (rS r) with (kS k). change (rS_x r) with (kS_x k). change (rM r) with (kM k). change (rph_l r) with (kph_l k).
    change (rlambda_S r) with (klambda_S k). change (rlambda_Y_sqrt r) with (klambda_Y_sqrt k). unfold flux, sq.
    replace (p_alpha_qed ph * p_alpha_qed ph * kS k * (kS_x k * kS_x k) / (16 * kM k * kph_l k * klambda_S k)) with (p_alpha_qed ph * p_alpha_qed ph * kS k * (kS_x k * kS_x k) / (16 * kM k) * (/ kph_l k * / klambda_S k)) by (unfold Rdiv; rewrite !Rinv_mult; ring).
    replace (- (p_alpha_qed ph ^ 3 * kS k * (kS_x k * kS_x k)) / (64 * (PI * PI) * kM k * kph_l k * klambda_S k * klambda_Y_sqrt k)) with (- (p_alpha_qed ph ^ 3 * kS k * (kS_x k * kS_x k)) / (64 * (PI * PI) * kM k * klambda_Y_sqrt k) * (/ kph_l k * / klambda_S k)) by (unfold Rdiv; rewrite !Rinv_mult; ring).
    generalize (/ kph_l k * / klambda_S k). intros. field. lra. }
  rewrite K. set (co := rad_coeff (Rad r ph)). fold A B C P.
  unfold weights_rad, HadRadLP, sf_lp, sf_base_up, sf_base_lp. cbv zeta. cbn [HRlp_uu HRlp_up HRlp_lu HRlp_lp sflp_uu sflp_ul sflp_ut sflp_lu sflp_ll sflp_lt].
  assert (SE : forall a b c e, sum a b c e = - 2 * / Rk * (a * / Rk + b + c * Rk + e * (Rk * Rk))) by (intros; unfold sum; field; lra).
  rewrite !SE. apply cx_eq; cbn [re im creal cmul]; [|ring].
  assert (F9 : forall c x1 x2 x3 x4 x5 x6 x7 x8 x9 w1 w2 w3 w4 w5 w6 w7 w8 w9, - c * Rk / 2 * (x1 * (- 2 * / Rk * w1) + x2 * (- 2 * / Rk * w2) + x3 * (- 2 * / Rk * w3) + x4 * (- 2 * / Rk * w4) + x5 * (lam * (- 2 * / Rk * w5)) + x6 * (- 2 * / Rk * w6)
    + x7 * (lam * (- 2 * / Rk * w7)) + x8 * (- 2 * / Rk * w8) + x9 * (lam * (- 2 * / Rk * w9))) - 0 * 0 = c * (x1 * w1 + x2 * w2 + x3 * w3 + x4 * w4 + lam * (x5 * w5) + x6 * w6 + lam * (x7 * w7) + x8 * w8 + lam * (x9 * w9))) by (intros; field; lra).
  rewrite F9. clear F9 SE K W1 W2 W3 W4 W5 W6 W7 W8 W9.
  generalize (make_had_rad_base_uu r (sf_base_uu sf (shift_point_of r))), (make_had_rad_base_lu r (sf_base_lu sf (shift_point_of r))),
    (make_had_rad_base_up r (mkBaseUP (sf_base_ul sf (shift_point_of r)) (sf_base_ut sf (shift_point_of r)))),
    (make_had_rad_base_lp r (mkBaseLP (sf_base_ll sf (shift_point_of r)) (sf_base_lt sf (shift_point_of r)))).
  intros U1 U2 U3 U4. clearbody co A B C P. revert co A B C P U1 U2 U3 U4. unfold Rdiv. generalize (/ Rk), Rk. clear.
  intros iR R0 co A B C P U1 U2 U3 U4. unfold dot3, scale3, add3. cbn [x3 y3 z3]. ring.
Qed.
End Xs.

(** Helicity vectors exist. *)
Lemma helicity_exists ps S sp e tr : same_event e ps S sp -> lorentz tr -> 0 < a_m ps ->
  exists s, helicity_vector (tapp4 tr (v_p e)) (tapp4 tr (v_k1 e)) s.
Proof.
  intros He Ht Hm. destruct (ev_dots ps S sp e tr He Ht) as (D1 & D2 & _). pose proof (ev_D ps S sp e tr He Ht) as D.
  set (p := tapp4 tr (v_p e)) in *. set (k1 := tapp4 tr (v_k1 e)) in *. set (M := a_M ps) in *. set (m := a_m ps) in *. set (x := dot4 p k1) in *.
  set (D0 := x * x - M * M * (m * m)). assert (P : 0 < D0) by (unfold D0; lra).
  pose proof (sqrt_lt_R0 _ P) as Y. pose proof (sqrt_sqrt D0 ltac:(lra)) as Y2. set (l := sqrt D0) in *.
  exists (add4 (scale4 (x / (m * l)) k1) (scale4 (- (m / l)) p)). unfold helicity_vector.
  rewrite !dot_add_l, !dot_add_r, !dot_scale_l, !dot_scale_r, D1, D2, (dot_comm k1 p). fold x.
  split; [field; lra|]. split; [|split; [|eauto]].
  - transitivity (- (D0 / (l * l))); [unfold D0; field; lra|]. rewrite Y2. field. lra.
  - replace (x / (m * l) * x + - (m / l) * (M * M)) with (D0 / (m * l)) by (unfold D0; field; lra). apply Rdiv_lt_0_compat; nra.
Qed.
