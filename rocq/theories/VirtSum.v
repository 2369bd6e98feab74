(** Soft photons, integrated over the Feynman parameter; the sum with the vertex correction; the formula of the code. *)
From Coq Require Import Reals Lra Lia.
From Coquelicot Require Import Coquelicot.
From Verif Require Import ExtModel MathModel MathProofs DilogSpec DilogProofs KinModel XsModel VirtSpec VirtVac VirtVert VirtSphi VirtSoft.
Local Open Scope R_scope.
Set Bullet Behavior "Strict Subproofs".

Section S.
Variable D : R -> R.
Hypothesis HD : is_dilog D.
Variables Q m E1 E2 : R.
Hypothesis HQ : 0 < Q.
Hypothesis Hm : 0 < m.
Hypothesis H1 : m < E1.
Hypothesis H2 : m < E2.
Hypothesis G : not_collinear Q m E1 E2.
Let c := cc Q m.
Let kp := (c + 1 / 2) / (c - 1 / 2).
Let mm := m ^ 2.
Let En := mean_energy E1 E2.
Let Ms := mean_mass_sq Q m.
Let mom := mean_momentum Q m E1 E2.
Lemma c_half : 1 / 2 < c. Proof. exact (cc_half Q m HQ Hm). Qed.
Lemma mm_is : mm = Q * ((c - 1 / 2) * (c + 1 / 2)). Proof. exact (msq Q m HQ Hm). Qed.
Lemma mm_pos : 0 < mm. Proof. apply pow_lt. exact Hm. Qed.
Lemma Q_is : mm * (kp - 1) ^ 2 / kp = Q.
Proof. rewrite mm_is. pose proof c_half. unfold kp. field. lra. Qed.
Lemma kp_gt : 1 < kp.
Proof. pose proof c_half. unfold kp. apply Rmult_lt_reg_r with (c - 1 / 2); [lra|]. replace ((c + 1 / 2) / (c - 1 / 2) * (c - 1 / 2)) with (c + 1 / 2) by (field; lra). lra. Qed.
Lemma e_sq E : m < E -> mm < E ^ 2.
Proof. intros H. unfold mm. apply Rsqr_incrst_1 in H; [|lra|lra]. unfold Rsqr in H. cbn [pow]. lra. Qed.
Lemma G' : (E1 * E2 - (mm * (kp - 1) ^ 2 / kp + 2 * mm) / 2) ^ 2 < (E1 ^ 2 - mm) * (E2 ^ 2 - mm).
Proof. rewrite Q_is. exact G. Qed.
Let p1 : 0 < E1 := Rlt_trans _ _ _ Hm H1.
Let p2 : 0 < E2 := Rlt_trans _ _ _ Hm H2.
Lemma En_pos a : 0 <= a <= 1 -> 0 < En a.
Proof. exact (en_pos E1 E2 p1 p2 a). Qed.
Lemma En_le a : 0 <= a <= 1 -> En a <= E1 + E2.
Proof. intros H. unfold En, mean_energy. assert (a * E1 <= 1 * E1) by (apply Rmult_le_compat_r; lra). assert ((1 - a) * E2 <= 1 * E2) by (apply Rmult_le_compat_r; lra). lra. Qed.
Lemma Mom_sq_pos a : 0 <= a <= 1 -> 0 < En a ^ 2 - Ms a.
Proof. intros H. pose proof (mom_sq_pos kp mm E1 E2 (e_sq _ H1) (e_sq _ H2) G' a H) as X. rewrite Q_is in X. exact X. Qed.
Lemma Mom_pos a : 0 <= a <= 1 -> 0 < mom a.
Proof. intros H. apply sqrt_lt_R0, Mom_sq_pos. exact H. Qed.
Lemma Mom_sq a : 0 <= a <= 1 -> En a ^ 2 - mom a ^ 2 = Ms a.
Proof. intros H. unfold mom, mean_momentum. fold En Ms. rewrite pow2_sqrt; [|apply Rlt_le, Mom_sq_pos; exact H]. ring. Qed.
Lemma Ms_pos a : 0 <= a <= 1 -> 0 < Ms a.
Proof. exact (mean_pos Q m HQ Hm a). Qed.
Lemma Mom_lt a : 0 <= a <= 1 -> mom a < En a.
Proof. intros H. pose proof (Mom_sq a H) as S. pose proof (Mom_pos a H). pose proof (En_pos a H). pose proof (Ms_pos a H). apply Rsqr_incrst_0; try lra. unfold Rsqr. lra. Qed.
Definition Fd := Fs D kp mm E1 E2 1 - Fs D kp mm E1 E2 0.
Lemma Fd_int : is_RInt (fun a => En a / (2 * mom a * Ms a) * ln ((En a + mom a) / (En a - mom a))) 0 1 (- Fd / (mm * (kp - / kp))).
Proof.
  pose proof (Fs_int D HD kp mm E1 E2 kp_gt mm_pos p1 p2 (e_sq _ H1) (e_sq _ H2) G') as I. rewrite Q_is in I. exact I.
Qed.
Lemma Mom_cont a : 0 <= a <= 1 -> continuous mom a.
Proof.
  intros H. pose proof (mom_der kp mm E1 E2 (e_sq _ H1) (e_sq _ H2) G' a H) as X. rewrite Q_is in X. apply (ex_derive_continuous (V := R_NormedModule)). eexists; exact X.
Qed.
Lemma En_cont a : continuous En a.
Proof. apply (ex_derive_continuous (V := R_NormedModule)). unfold En, mean_energy. auto_derive. auto. Qed.
Lemma Ms_cont a : continuous Ms a.
Proof. apply (ex_derive_continuous (V := R_NormedModule)). unfold Ms, mean_mass_sq. auto_derive. auto. Qed.
Variables mu k0 : R.
Hypothesis Hmu : 0 < mu.
Hypothesis Hk0 : 0 < k0.
Let w := sqrt (k0 ^ 2 + mu ^ 2).
Definition sq_a a := soft_square (En a) (mom a) mu k0.
Lemma sq_a_ex : ex_RInt sq_a 0 1.
Proof.
  apply (ex_RInt_ext (fun a => / Ms a * (ln ((k0 + w) / mu) - En a / (2 * mom a) * ln ((En a * w + mom a * k0) / (En a * w - mom a * k0))))).
  { intros a Ha. rewrite Rmin_left, Rmax_right in Ha by lra. assert (Ha' : 0 <= a <= 1) by lra. unfold sq_a. rewrite (square_is (En a) (mom a) mu k0 (Mom_pos a Ha') (Mom_lt a Ha') Hmu Hk0). rewrite (Mom_sq a Ha'). reflexivity. }
  apply (ex_RInt_continuous (V := R_CompleteNormedModule)). intros a Ha. rewrite Rmin_left, Rmax_right in Ha by lra.
  pose proof (Mom_pos a Ha) as MP. pose proof (Mom_lt a Ha) as ML. pose proof (Ms_pos a Ha) as MM.
  pose proof (om_sum (En a) (mom a) mu MP ML Hmu k0 (Rlt_le _ _ Hk0)) as (A & B & C). fold w in A, B, C.
  pose proof (Mom_cont a Ha) as CM. pose proof (En_cont a) as CE. pose proof (Ms_cont a) as CS.
  assert (CEw : continuous (fun a => En a * w) a) by (apply (continuous_mult (K := R_AbsRing)); [exact CE|apply continuous_const]).
  assert (CMk : continuous (fun a => mom a * k0) a) by (apply (continuous_mult (K := R_AbsRing)); [exact CM|apply continuous_const]).
  apply (continuous_mult (K := R_AbsRing)); [apply (continuous_comp Ms Rinv); [exact CS|apply continuous_Rinv; lra]|].
  apply (continuous_minus (V := R_NormedModule)); [apply continuous_const|]. apply (continuous_mult (K := R_AbsRing)).
  - apply (continuous_mult (K := R_AbsRing)); [exact CE|]. apply (continuous_comp (fun a => 2 * mom a) Rinv); [apply (continuous_mult (K := R_AbsRing)); [apply continuous_const|exact CM]|apply continuous_Rinv; lra].
  - apply (continuous_comp (fun a => (En a * w + mom a * k0) / (En a * w - mom a * k0)) ln).
    + apply (continuous_mult (K := R_AbsRing)); [apply (continuous_plus (V := R_NormedModule)); assumption|]. apply (continuous_comp (fun a => En a * w - mom a * k0) Rinv); [apply (continuous_minus (V := R_NormedModule)); assumption|apply continuous_Rinv; lra].
    + apply (ex_derive_continuous (V := R_NormedModule)). eexists. apply is_derive_Reals, derivable_pt_lim_ln. apply Rdiv_lt_0_compat; lra.
Qed.
Definition lim_a a := / Ms a * (ln (2 * k0 / mu) - En a / (2 * mom a) * ln ((En a + mom a) / (En a - mom a))).
Lemma lim_int : is_RInt lim_a 0 1 (2 * lepton_L Q m * ln (2 * k0 / mu) + Fd / (mm * (kp - / kp))).
Proof.
  pose proof (is_RInt_scal (V := R_NormedModule) _ _ _ (ln (2 * k0 / mu)) _ (inv_integral Q m HQ Hm)) as I1.
  pose proof (is_RInt_minus (V := R_NormedModule) _ _ _ _ _ _ I1 Fd_int) as I.
  assert (K : mm * (kp - / kp) <> 0). { pose proof mm_pos. pose proof kp_gt. assert (/ kp < 1) by (rewrite <- Rinv_1; apply Rinv_lt_contravar; lra). apply Rmult_integral_contrapositive_currified; lra. }
  assert (X : forall a, Rmin 0 1 < a < Rmax 0 1 -> minus (scal (ln (2 * k0 / mu)) (/ mean_mass_sq Q m a)) (En a / (2 * mom a * Ms a) * ln ((En a + mom a) / (En a - mom a))) = lim_a a).
  { intros a Ha. rewrite Rmin_left, Rmax_right in Ha by lra. assert (Ha' : 0 <= a <= 1) by lra. pose proof (Mom_pos a Ha'). pose proof (Ms_pos a Ha'). unfold lim_a. fold Ms. unfold minus. toR. field. lra. }
  replace (2 * lepton_L Q m * ln (2 * k0 / mu) + Fd / (mm * (kp - / kp))) with (minus (scal (ln (2 * k0 / mu)) (2 * lepton_L Q m)) (- Fd / (mm * (kp - / kp)))).
  - exact (is_RInt_ext _ lim_a 0 1 _ X I).
  - unfold minus. toR. set (z := mm * (kp - / kp)) in *. clearbody z. field. exact K.
Qed.
Let Em := E1 + E2.
Definition soft_K := / mm * (1 + Em ^ 2 / mm) / k0.
Lemma close_a a : 0 <= a <= 1 -> Rabs (sq_a a - lim_a a) <= soft_K * mu.
Proof.
  intros Ha. unfold sq_a, lim_a. pose proof (square_close (En a) (mom a) mu k0 (Mom_pos a Ha) (Mom_lt a Ha) Hmu Hk0) as S. unfold rad_0 in S. rewrite (Mom_sq a Ha) in S.
  eapply Rle_trans; [exact S|]. pose proof (mean_ge Q m HQ a Ha) as MG. fold Ms mm in MG. pose proof mm_pos as MP. pose proof (En_pos a Ha) as EP. pose proof (En_le a Ha) as EL. fold Em in EL.
  replace (soft_K * mu) with (/ mm * (1 + Em ^ 2 / mm) * (mu / k0)) by (unfold soft_K; field; lra).
  apply Rmult_le_compat_r; [left; apply Rdiv_lt_0_compat; lra|].
  assert (I : 0 < / Ms a <= / mm) by (split; [apply Rinv_0_lt_compat; lra|apply Rinv_le_contravar; lra]).
  assert (E2' : 0 <= En a ^ 2 <= Em ^ 2) by (split; [apply pow2_ge_0|apply pow_incr; lra]).
  assert (J : 0 <= En a ^ 2 / Ms a <= Em ^ 2 / mm) by (unfold Rdiv; split; [apply Rmult_le_pos; lra|apply Rmult_le_compat; lra]).
  apply Rmult_le_compat; lra.
Qed.
Lemma int_close : Rabs (RInt sq_a 0 1 - (2 * lepton_L Q m * ln (2 * k0 / mu) + Fd / (mm * (kp - / kp)))) <= soft_K * mu.
Proof.
  pose proof (RInt_correct (V := R_CompleteNormedModule) _ _ _ sq_a_ex) as I1.
  pose proof (is_RInt_minus (V := R_NormedModule) _ _ _ _ _ _ I1 lim_int) as ID.
  pose proof (is_RInt_const (V := R_NormedModule) 0 1 (soft_K * mu)) as IK.
  replace (soft_K * mu) with (scal (1 - 0) (soft_K * mu)) by (toR; ring).
  refine (norm_RInt_le _ _ 0 1 _ _ ltac:(lra) _ ID IK). exact close_a.
Qed.
Definition leg E := let p := sqrt (E ^ 2 - m ^ 2) in E / (2 * p) * ln ((E + p) / (E - p)).
Lemma leg_close E : m < E <= Em -> Rabs (mm * soft_square E (sqrt (E ^ 2 - m ^ 2)) mu k0 - (ln (2 * k0 / mu) - leg E)) <= mm * soft_K * mu.
Proof.
  intros [A B]. pose proof (e_sq E A) as S. pose proof mm_pos as MP. unfold leg. set (p := sqrt (E ^ 2 - m ^ 2)). assert (P : 0 < p) by (apply sqrt_lt_R0; fold mm; lra).
  assert (PS : p ^ 2 = E ^ 2 - mm) by (unfold p; rewrite pow2_sqrt; fold mm; lra). assert (PE : p < E) by (apply Rsqr_incrst_0; try lra; unfold Rsqr; lra).
  pose proof (square_close E p mu k0 P PE Hmu Hk0) as C. unfold rad_0 in C. replace (E ^ 2 - p ^ 2) with mm in C by lra.
  set (x := soft_square E p mu k0) in *. cbv zeta. set (y := ln (2 * k0 / mu) - E / (2 * p) * ln ((E + p) / (E - p))) in *.
  replace (mm * x - y) with (mm * (x - / mm * y)) by (field; lra). rewrite Rabs_mult, (Rabs_pos_eq mm) by lra. rewrite Rmult_assoc. apply Rmult_le_compat_l; [lra|].
  eapply Rle_trans; [exact C|]. replace (soft_K * mu) with (/ mm * (1 + Em ^ 2 / mm) * (mu / k0)) by (unfold soft_K; field; lra).
  apply Rmult_le_compat_r; [left; apply Rdiv_lt_0_compat; lra|]. apply Rmult_le_compat_l; [left; apply Rinv_0_lt_compat; lra|].
  assert (E ^ 2 <= Em ^ 2) by (apply pow_incr; lra). apply Rplus_le_compat_l. unfold Rdiv. apply Rmult_le_compat_r; [left; apply Rinv_0_lt_compat; lra|lra].
Qed.
Definition S_phi := Qm Q m * Fd / (mm * (kp - / kp)).
Lemma soft_close : Rabs (soft Q m E1 E2 mu k0 - (2 * (Qm Q m * lepton_L Q m - 1) * ln (2 * k0 / mu) + leg E1 + leg E2 + S_phi)) <= (Qm Q m + 2 * mm) * soft_K * mu.
Proof.
  pose proof int_close as I. pose proof (leg_close E1 ltac:(unfold Em; lra)) as L1. pose proof (leg_close E2 ltac:(unfold Em; lra)) as L2.
  unfold soft. change (fun a => soft_square (mean_energy E1 E2 a) (mean_momentum Q m E1 E2 a) mu k0) with sq_a. fold (Qm Q m). fold mm in L1, L2 |- *.
  assert (QP : 0 < Qm Q m) by (unfold Qm; fold mm; pose proof mm_pos; lra).
  set (x := RInt sq_a 0 1) in *. set (l := ln (2 * k0 / mu)) in *. set (s := Fd / (mm * (kp - / kp))) in *.
  set (u1 := mm * soft_square E1 (sqrt (E1 ^ 2 - mm)) mu k0) in *. set (u2 := mm * soft_square E2 (sqrt (E2 ^ 2 - mm)) mu k0) in *.
  replace S_phi with (Qm Q m * s) by (unfold S_phi, s; unfold Rdiv; ring).
  replace (Qm Q m * x - u1 - u2 - (2 * (Qm Q m * lepton_L Q m - 1) * l + leg E1 + leg E2 + Qm Q m * s))
    with (Qm Q m * (x - (2 * lepton_L Q m * l + s)) - (u1 - (l - leg E1)) - (u2 - (l - leg E2))) by ring.
  set (z := x - (2 * lepton_L Q m * l + s)) in *. set (z1 := u1 - (l - leg E1)) in *. set (z2 := u2 - (l - leg E2)) in *.
  assert (Z : Rabs (Qm Q m * z) <= Qm Q m * (soft_K * mu)) by (rewrite Rabs_mult, (Rabs_pos_eq (Qm Q m)) by lra; apply Rmult_le_compat_l; lra).
  apply Rabs_le_between in Z. apply Rabs_le_between in L1. apply Rabs_le_between in L2. apply Rabs_le. lra.
Qed.
End S.
