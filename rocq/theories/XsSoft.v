(** The infrared part of the radiative cross-section. *)
From Coq Require Import Reals Lra Psatz Bool.
From Verif Require Import ExtModel MathModel MathProofs BoundModel BoundProofs ParticleModel VecModel TransModel VecTac KinModel SfModel
  CutModel LepModel HadModel XsModel XsProofs.
Local Open Scope R_scope.

Lemma soft_uu k : let b := LepBornBaseUU (project k) in let l := LepRadBaseUU k in
  lr011 l = 4 * rF_IR k * lb1 b /\ lr021 l = 4 * rF_IR k * lb2 b /\ lr031 l = 4 * rF_IR k * lb3 b /\ lr041 l = 4 * rF_IR k * lb4 b.
Proof. cbv zeta. unfold LepRadBaseUU. cbn [lr011 lr021 lr031 lr041]. repeat split. Qed.
Lemma soft_up k : let b := LepBornBaseUP (project k) in let l := LepRadBaseUP k in
  lr061 l = 4 * rF_IR k * lb6 b /\ lr081 l = 4 * rF_IR k * lb8 b.
Proof. cbv zeta. unfold LepRadBaseUP. cbn [lr061 lr081]. split; ring. Qed.
Lemma soft_lu k : let b := LepBornBaseLU (project k) in let l := LepRadBaseLU k in
  lr051 l + lr151 l = 4 * rF_IR k * lb5 b.
Proof. cbv zeta. unfold LepRadBaseLU. cbn [lr051 lr151]. ring. Qed.
Lemma soft_lp k : rlambda_S_sqrt k <> 0 -> let b := LepBornBaseLP (project k) in let l := LepRadBaseLP k in
  lr071 l + lr171 l = 4 * rF_IR k * lb7 b /\ lr091 l + lr191 l = 4 * rF_IR k * lb9 b.
Proof.
  intros H. cbv zeta. unfold LepRadBaseLP. cbn [lr071 lr171 lr091 lr191]. split; [ring|].
  unfold LepBornBaseLP, project. cbn [lb9 klambda_S_sqrt kS kQ_sq kz kS_x kV_p kmh kS_p kV_m kV_2 kX kV_1 km kM klambda_Y].
  unfold sq. field. exact H.
Qed.

Section Sub.
Context (sf : sf_set sf_point) (k : kinrad) (ph : phenom) (lambda_e : R) (eta : vec3).
Hypothesis HR : rR k <> 0.
Hypothesis HS : rlambda_S_sqrt k <> 0.
Hypothesis HD : rM k * rph_l k * rlambda_S k <> 0.
Hypothesis HY : rlambda_Y_sqrt k <> 0.
Let c := - (p_alpha_qed ph / (2 * sq PI)) * (rF_IR k / (rR k * rlambda_Y_sqrt k)).

Lemma coeff_ratio : rad_coeff (Rad k ph) * (4 * rF_IR k) / rR k = c * born_coeff (Born (project k) ph).
Proof.
  unfold c, Rad, Born, project. cbn [rad_coeff born_coeff kS kS_x kM kph_l klambda_S]. unfold sq.
  pose proof PI_neq0. assert (rM k <> 0) by (intros e; apply HD; rewrite e; ring). assert (rph_l k <> 0) by (intros e; apply HD; rewrite e; ring).
  assert (rlambda_S k <> 0) by (intros e; apply HD; rewrite e; ring). field. repeat split; auto.
Qed.

Lemma rad_sub_uu h h0 : rad_base_uu (Rad k ph) (LepRadBaseUU k) h - rad_f_base_uu (Rad k ph) (LepRadBaseUU k) (make_had_rad_f_base_uu_diff (rR k) h h0)
  = c * born_base_uu (Born (project k) ph) (LepBornBaseUU (project k)) h0.
Proof.
  unfold born_base_uu. rewrite <- Rmult_assoc, <- coeff_ratio. destruct (soft_uu k) as (E1 & E2 & E3 & E4).
  unfold rad_base_uu, rad_f_base_uu, make_had_rad_f_base_uu_diff. cbn [hf10 hf20 hf30 hf40 hd10 hd20 hd30 hd40].
  rewrite E1, E2, E3, E4. cbn [Rad rad_R]. field. exact HR.
Qed.
Lemma rad_sub_lu h h0 : rad_base_lu (Rad k ph) (LepRadBaseLU k) h - rad_f_base_lu (Rad k ph) (LepRadBaseLU k) (make_had_rad_f_base_lu_diff (rR k) h h0)
  = c * born_base_lu (Born (project k) ph) (LepBornBaseLU (project k)) h0.
Proof.
  unfold born_base_lu. rewrite <- !Rmult_assoc, <- coeff_ratio. pose proof (soft_lu k) as E1. cbv zeta in E1.
  unfold rad_base_lu, rad_f_base_lu, make_had_rad_f_base_lu_diff. cbn [hf50 hd50]. rewrite E1. cbn [Rad rad_R]. field. exact HR.
Qed.
Lemma rad_sub_up h h0 : dot3 (rad_base_up (Rad k ph) (LepRadBaseUU k) (LepRadBaseUP k) h) eta
  - dot3 (rad_f_base_up (Rad k ph) (LepRadBaseUU k) (LepRadBaseUP k) (make_had_rad_f_base_up_diff (rR k) h h0)) eta
  = c * (x3 eta * born_base_ut1 (Born (project k) ph) (LepBornBaseUP (project k)) (hup_ut h0)
     + y3 eta * born_base_ut2 (Born (project k) ph) (LepBornBaseUU (project k)) (hup_ut h0)
     + z3 eta * born_base_ul (Born (project k) ph) (LepBornBaseUP (project k)) (hup_ul h0)).
Proof.
  destruct (soft_uu k) as (E1 & E2 & E3 & E4). destruct (soft_up k) as (E6 & E8).
  unfold rad_base_up, rad_f_base_up, make_had_rad_f_base_up_diff. cbn [hf1 hf2 hf3 hf4 hf6 hf8 hd1 hd2 hd3 hd4 hd6 hd8].
  rewrite E1, E2, E3, E4, E6, E8. cbn [Rad rad_R].
  transitivity (rad_coeff (Rad k ph) * (4 * rF_IR k) / rR k * (
    x3 eta * (lb6 (LepBornBaseUP (project k)) * h61 (hup_ut h0) + lb8 (LepBornBaseUP (project k)) * h81 (hup_ut h0))
    + y3 eta * (lb1 (LepBornBaseUU (project k)) * h12 (hup_ut h0) + lb2 (LepBornBaseUU (project k)) * h22 (hup_ut h0)
      + lb3 (LepBornBaseUU (project k)) * h32 (hup_ut h0) + lb4 (LepBornBaseUU (project k)) * h42 (hup_ut h0))
    + z3 eta * (lb6 (LepBornBaseUP (project k)) * h63 (hup_ul h0) + lb8 (LepBornBaseUP (project k)) * h83 (hup_ul h0)))).
  - destruct eta. uvec. field. exact HR.
  - rewrite coeff_ratio. unfold born_base_ut1, born_base_ut2, born_base_ul. ring.
Qed.
Lemma rad_sub_lp h h0 : dot3 (rad_base_lp (Rad k ph) (LepRadBaseLU k) (LepRadBaseLP k) h) eta
  - dot3 (rad_f_base_lp (Rad k ph) (LepRadBaseLU k) (LepRadBaseLP k) (make_had_rad_f_base_lp_diff (rR k) h h0)) eta
  = c * (x3 eta * born_base_lt1 (Born (project k) ph) (LepBornBaseLP (project k)) (hlp_lt h0)
     + y3 eta * born_base_lt2 (Born (project k) ph) (LepBornBaseLU (project k)) (hlp_lt h0)
     + z3 eta * born_base_ll (Born (project k) ph) (LepBornBaseLP (project k)) (hlp_ll h0)).
Proof.
  pose proof (soft_lu k) as E5. destruct (soft_lp k HS) as (E7 & E9). cbv zeta in E5.
  unfold rad_base_lp, rad_f_base_lp, make_had_rad_f_base_lp_diff. cbn [hf5 hf7 hf9 hd5 hd7 hd9].
  rewrite E5, E7, E9. cbn [Rad rad_R].
  transitivity (rad_coeff (Rad k ph) * (4 * rF_IR k) / rR k * (
    x3 eta * (lb7 (LepBornBaseLP (project k)) * h71 (hlp_lt h0) + lb9 (LepBornBaseLP (project k)) * h91 (hlp_lt h0))
    + y3 eta * (lb5 (LepBornBaseLU (project k)) * h52 (hlp_lt h0))
    + z3 eta * (lb7 (LepBornBaseLP (project k)) * h73 (hlp_ll h0) + lb9 (LepBornBaseLP (project k)) * h93 (hlp_ll h0)))).
  - destruct eta. uvec. field. exact HR.
  - rewrite coeff_ratio. unfold born_base_lt1, born_base_lt2, born_base_ll. ring.
Qed.
Lemma rad_sub : choose k = Use_diff ->
  rad_f sf k ph lambda_e eta = Some (rad sf k ph lambda_e eta - c * born sf (project k) ph lambda_e eta).
Proof.
  intros HC. rewrite rad_f_full, rad_full, born_full. unfold HadRadFLP. rewrite HC. cbv zeta. cbn [omap]. f_equal.
  unfold full_f. cbn [HFlp_uu HFlp_up HFlp_lu HFlp_lp].
  unfold HadRadLP, HadLP, sf_lp. cbn [HRlp_uu HRlp_up HRlp_lu HRlp_lp Hlp_uu Hlp_ul Hlp_ut Hlp_lu Hlp_ll Hlp_lt
    sflp_uu sflp_ul sflp_ut sflp_lu sflp_ll sflp_lt].
  fold (sf_base_up sf (shift_point_of k)). fold (sf_base_lp sf (shift_point_of k)).
  set (p := shift_point_of k). set (p0 := point_of (project k)).
  pose proof (rad_sub_uu (make_had_rad_base_uu k (sf_base_uu sf p)) (make_had_base_uu (project k) (sf_base_uu sf p0))) as U.
  pose proof (rad_sub_lu (make_had_rad_base_lu k (sf_base_lu sf p)) (make_had_base_lu (project k) (sf_base_lu sf p0))) as L.
  pose proof (rad_sub_up (make_had_rad_base_up k (sf_base_up sf p))
    (mk_had_up (make_had_base_ul (project k) (sf_base_ul sf p0)) (make_had_base_ut (project k) (sf_base_ut sf p0)))) as UP.
  pose proof (rad_sub_lp (make_had_rad_base_lp k (sf_base_lp sf p))
    (mk_had_lp (make_had_base_ll (project k) (sf_base_ll sf p0)) (make_had_base_lt (project k) (sf_base_lt sf p0)))) as LP.
  cbn [hup_ul hup_ut hlp_ll hlp_lt] in UP, LP.
  match type of U with ?a - ?b = ?d => replace b with (a - d) by lra end.
  match type of L with ?a - ?b = ?d => replace b with (a - d) by lra end.
  match type of UP with ?a - ?b = ?d => replace b with (a - d) by lra end.
  match type of LP with ?a - ?b = ?d => replace b with (a - d) by lra end.
  ring.
Qed.
End Sub.

(** Three-point formula. *)
Lemma diff_R_quadratic a b d R h : h <> 0 -> R <> 0 -> let f t := a + b * t + d * (t * t) in
  diff_R R h (f 0) (f h) (f (2 * h)) = (f R - f 0) / R.
Proof. intros H1 H2 f. unfold f, diff_R. cbv zeta. field. auto. Qed.
Lemma diff_R_match h f0 f1 f2 : h <> 0 -> diff_R h h f0 f1 f2 = (f1 - f0) / h.
Proof. intros H. unfold diff_R. cbv zeta. field. auto. Qed.
Lemma diff_R3_components R h f0 f1 f2 : diff_R3 R h f0 f1 f2 =
  V3 (diff_R R h (x3 f0) (x3 f1) (x3 f2)) (diff_R R h (y3 f0) (y3 f1) (y3 f2)) (diff_R R h (z3 f0) (z3 f1) (z3 f2)).
Proof. unfold diff_R3, diff_R. cbv zeta. destruct f0, f1, f2. uvec. f_equal; ring. Qed.
