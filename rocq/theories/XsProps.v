(** C36-C41, C78-C80: cross-sections. *)
From Coq Require Import Reals Bool Lra Psatz.
From Coquelicot Require Import Coquelicot.
From Verif Require Import ExtModel BoundModel MathModel ParticleModel VecModel TransModel FrameBase KinModel KinSpec SfModel CutModel
  LepModel HadModel XsModel XsSpec XsProofs XsSoft XsTaylor XsDelta XsBorn XsMirror XsFinal BoundProofs CutSpec CutProofs KinProps CutProps.
Set Bullet Behavior "Strict Subproofs".
Local Open Scope R_scope.

(** A structure-function set that depends on everything. *)
Definition ex_sf : sf_set sf_point := fun n p => match n with F_UUT => 1 | F_UL_sin_phih => 2 | F_LU_sin_phih => 3 | F_LL => 4 | _ => 0 end.
Definition ex_ph := Phenom 1 0.

(** ** C36: skipping the parts of unpolarised beams and targets changes nothing *)
Theorem C36_born_four_parts sf k ph : exists uu up lu lp, forall lambda_e eta, born sf k ph lambda_e eta = four_parts uu up lu lp lambda_e eta.
Proof. exact (born_parts sf ph k). Qed.
Print Assumptions C36_born_four_parts.
Theorem C36_amm_four_parts sf k ph : exists uu up lu lp, forall lambda_e eta, amm sf k ph lambda_e eta = four_parts uu up lu lp lambda_e eta.
Proof. exact (amm_parts sf ph k). Qed.
Print Assumptions C36_amm_four_parts.
Theorem C36_nrad_ir_four_parts dilog sf k ph k0 : (forall lambda_e eta, nrad_ir dilog sf k ph lambda_e eta k0 = None) \/
  exists uu up lu lp, forall lambda_e eta, nrad_ir dilog sf k ph lambda_e eta k0 = Some (four_parts uu up lu lp lambda_e eta).
Proof. exact (nrad_parts sf ph dilog k k0). Qed.
Print Assumptions C36_nrad_ir_four_parts.
Theorem C36_rad_four_parts sf r ph : exists uu up lu lp, forall lambda_e eta, rad sf r ph lambda_e eta = four_parts uu up lu lp lambda_e eta.
Proof. exact (rad_parts sf ph r). Qed.
Print Assumptions C36_rad_four_parts.
Theorem C36_rad_f_four_parts sf r ph : (forall lambda_e eta, rad_f sf r ph lambda_e eta = None) \/
  exists uu up lu lp, forall lambda_e eta, rad_f sf r ph lambda_e eta = Some (four_parts uu up lu lp lambda_e eta).
Proof. exact (rad_f_parts sf ph r). Qed.
Print Assumptions C36_rad_f_four_parts.
Theorem C36_full_formula sf k ph lambda_e eta :
  born sf k ph lambda_e eta =
  born_base_uu (Born k ph) (LepBornBaseUU k) (make_had_base_uu k (sf_base_uu sf (point_of k)))
  + (x3 eta * born_base_ut1 (Born k ph) (LepBornBaseUP k) (make_had_base_ut k (sf_base_ut sf (point_of k)))
     + y3 eta * born_base_ut2 (Born k ph) (LepBornBaseUU k) (make_had_base_ut k (sf_base_ut sf (point_of k)))
     + z3 eta * born_base_ul (Born k ph) (LepBornBaseUP k) (make_had_base_ul k (sf_base_ul sf (point_of k))))
  + lambda_e * (born_base_lu (Born k ph) (LepBornBaseLU k) (make_had_base_lu k (sf_base_lu sf (point_of k)))
     + (x3 eta * born_base_lt1 (Born k ph) (LepBornBaseLP k) (make_had_base_lt k (sf_base_lt sf (point_of k)))
        + y3 eta * born_base_lt2 (Born k ph) (LepBornBaseLU k) (make_had_base_lt k (sf_base_lt sf (point_of k)))
        + z3 eta * born_base_ll (Born k ph) (LepBornBaseLP k) (make_had_base_ll k (sf_base_ll sf (point_of k))))).
Proof. exact (born_full sf k ph lambda_e eta). Qed.
Print Assumptions C36_full_formula.
(** The dispatch takes the short paths: unpolarised, and the sum of the one-sided results. *)
Example C36_example k : let f := born ex_sf k ex_ph in let o := V3 0 0 0 in let e := V3 1 0 2 in
  f 1 e = f 1 o + f 0 e - f 0 o + (f 1 e - f 1 o - f 0 e + f 0 o) /\ f 3 e - f 3 o - f 0 e + f 0 o = 3 * (f 1 e - f 1 o - f 0 e + f 0 o).
Proof.
  intros f o e. destruct (C36_born_four_parts ex_sf k ex_ph) as (uu & up & lu & lp & H). unfold f. rewrite !H. unfold four_parts, o, e. cbn [x3 y3 z3]. split; ring.
Qed.

(** ** C39: the most singular leptonic coefficients are the soft factor times the Born ones *)
Theorem C39_soft_coefficients r : let b_uu := LepBornBaseUU (project r) in let b_up := LepBornBaseUP (project r) in
  let b_lu := LepBornBaseLU (project r) in let b_lp := LepBornBaseLP (project r) in
  let l_uu := LepRadBaseUU r in let l_up := LepRadBaseUP r in let l_lu := LepRadBaseLU r in let l_lp := LepRadBaseLP r in
  let s := 4 * rF_IR r in
  rlambda_S_sqrt r <> 0 ->
  lr011 l_uu = s * lb1 b_uu /\ lr021 l_uu = s * lb2 b_uu /\ lr031 l_uu = s * lb3 b_uu /\ lr041 l_uu = s * lb4 b_uu /\
  lr061 l_up = s * lb6 b_up /\ lr081 l_up = s * lb8 b_up /\
  lr051 l_lu + lr151 l_lu = s * lb5 b_lu /\
  lr071 l_lp + lr171 l_lp = s * lb7 b_lp /\ lr091 l_lp + lr191 l_lp = s * lb9 b_lp.
Proof.
  exact (fun H => conj (proj1 (soft_uu r)) (conj (proj1 (proj2 (soft_uu r))) (conj (proj1 (proj2 (proj2 (soft_uu r)))) (conj (proj2 (proj2 (proj2 (soft_uu r))))
    (conj (proj1 (soft_up r)) (conj (proj2 (soft_up r)) (conj (soft_lu r) (soft_lp r H)))))))).
Qed.
Print Assumptions C39_soft_coefficients.
(** The soft factor is the square of the classical current of the photon, which is never positive. *)
Theorem C39_soft_factor_is_current ps S sp tau phi_k R e f : same_event e ps S sp -> same_photon f e tau phi_k R -> 0 < a_m ps -> 0 < R ->
  rF_IR (make_rad (make_kin ps S sp) tau phi_k R) = sq R / 4 * norm_sq4 (eikonal (v_k1 e) (v_k2 e) (v_k e f)) /\
  norm_sq4 (eikonal (v_k1 e) (v_k2 e) (v_k e f)) <= 0.
Proof. exact (fun He Hf Hm HR => conj (F_IR_eikonal ps S sp tau phi_k R e f He Hf Hm HR) (eikonal_neg ps S sp tau phi_k R e f He Hf Hm HR)). Qed.
Print Assumptions C39_soft_factor_is_current.
Example C39_example : exists e f, same_event e ex_ps 20 ex_sp /\ same_photon f e 1 3 2 /\ 0 < a_m ex_ps /\
  rF_IR (make_rad (make_kin ex_ps 20 ex_sp) 1 3 2) <= 0.
Proof.
  destruct (C18_points_are_events _ _ _ ex_admissible) as [e He]. destruct (C20_photon_exists _ _ _ 1 3 2 e He ex_tau ltac:(lra)) as [f Hf].
  assert (Hm : 0 < a_m ex_ps) by (unfold ex_ps; cbn [a_m]; lra).
  exists e, f. split; [auto|]. split; [auto|]. split; [auto|].
  destruct (C39_soft_factor_is_current _ _ _ _ _ _ _ _ He Hf Hm ltac:(lra)) as [-> N]. unfold sq. lra.
Qed.

(** ** C37: the two radiative cross-sections differ by the infrared term *)
Theorem C37_infrared_term ps S sp tau phi_k R e f sf ph lambda_e eta mx : same_event e ps S sp -> same_photon f e tau phi_k R ->
  0 < a_m ps -> 0 < e_pl e -> 0 < R -> bmax (R_bound (make_kin ps S sp) tau phi_k) = Fin mx -> mx * sqrt (2 * / 2 ^ 52) <= R ->
  let k := make_kin ps S sp in let r := make_rad k tau phi_k R in
  rad_f sf r ph lambda_e eta = Some (rad sf r ph lambda_e eta
    - p_alpha_qed ph / (8 * sq PI) * (R / sqrt (4 * (sq (dot4 (v_p e) (v_q e)) - norm_sq4 (v_p e) * norm_sq4 (v_q e))))
      * (- norm_sq4 (eikonal (v_k1 e) (v_k2 e) (v_k e f))) * born sf k ph lambda_e eta).
Proof. exact (fun He Hf Hm L HR B H => rad_minus ps S sp tau phi_k R e f He Hf Hm sf ph lambda_e eta mx L HR B H). Qed.
Print Assumptions C37_infrared_term.
Lemma ex_strict : s_ph_t_sq ex_sp + sq (a_mh ex_ps) < sq (s_z ex_sp * (20 * s_y ex_sp) / (2 * a_M ex_ps)).
Proof. unfold ex_sp, ex_ps, sq. cbn [s_ph_t_sq s_z s_y a_mh a_M]. lra. Qed.
Example C37_example : exists e f R mx, same_event e ex_ps 20 ex_sp /\ same_photon f e 1 3 R /\ 0 < e_pl e /\ 0 < R /\
  bmax (R_bound (make_kin ex_ps 20 ex_sp) 1 3) = Fin mx /\ mx * sqrt (2 * / 2 ^ 52) <= R.
Proof.
  destruct (adm_nonzero _ _ _ ex_admissible ex_strict) as (e & He & L).
  destruct (C28_R_bound_exact ex_ps 20 ex_sp 1 3 ex_masses ltac:(unfold ex_ps; cbn; lra) ex_region ex_tau_in) as (mx & B & H0 & _ & _).
  destruct (C20_photon_exists _ _ _ 1 3 (1 + mx) e He ex_tau ltac:(lra)) as [f Hf].
  exists e, f, (1 + mx), mx. split; [auto|]. split; [auto|]. split; [auto|]. split; [lra|]. split; [rewrite B; reflexivity|].
  assert (sqrt (2 * / 2 ^ 52) <= 1).
  { rewrite <- sqrt_1. apply sqrt_le_1; try lra. }
  apply Rle_trans with (mx * 1); [apply Rmult_le_compat_l; lra|lra].
Qed.

(** ** C40: the derivative formula used for small R *)
Theorem C40_exact_on_quadratics a b d R h : h <> 0 -> R <> 0 -> let f t := a + b * t + d * (t * t) in
  diff_R R h (f 0) (f h) (f (2 * h)) = (f R - f 0) / R.
Proof. exact (diff_R_quadratic a b d R h). Qed.
Print Assumptions C40_exact_on_quadratics.
Theorem C40_error f K R h : 0 < R <= h ->
  (forall s, 0 <= s <= 2 * h -> forall n, (n <= 3)%nat -> ex_derive_n f n s) ->
  (forall s, 0 <= s <= 2 * h -> Rabs (Derive_n f 3 s) <= K) ->
  Rabs (diff_R R h (f 0) (f h) (f (2 * h)) - (f R - f 0) / R) <= 7 / 6 * K * (h * h).
Proof. exact (diff_R_error f K R h). Qed.
Print Assumptions C40_error.
(** At the switching point both formulas give the same coefficients. *)
Theorem C40_matching h : h <> 0 ->
  (forall h1 h0 h2, make_had_rad_f_base_uu_deriv h h h1 h0 h1 h2 = make_had_rad_f_base_uu_diff h h1 h0) /\
  (forall h1 h0 h2, make_had_rad_f_base_up_deriv h h h1 h0 h1 h2 = make_had_rad_f_base_up_diff h h1 h0) /\
  (forall h1 h0 h2, make_had_rad_f_base_lu_deriv h h h1 h0 h1 h2 = make_had_rad_f_base_lu_diff h h1 h0) /\
  (forall h1 h0 h2, make_had_rad_f_base_lp_deriv h h h1 h0 h1 h2 = make_had_rad_f_base_lp_diff h h1 h0).
Proof. exact (deriv_match h). Qed.
Print Assumptions C40_matching.
Example C40_example : diff_R (1 / 10) (1 / 2) 1 (1 + 3 * (1 / 2) + 5 * (1 / 4)) (1 + 3 * 1 + 5 * 1) = 3 + 5 * (1 / 10) /\
  (forall t, Derive_n (fun s => s * s * s) 3 t = 6).
Proof.
  split; [unfold diff_R; lra|]. intros t. cbn [Derive_n].
  assert (D1 : forall s, Derive (fun s => s * s * s) s = 3 * (s * s)) by (intros s; apply is_derive_unique; auto_derive; [auto|ring]).
  rewrite (Derive_ext _ (fun s => 6 * s)).
  - apply is_derive_unique. auto_derive; [auto|ring].
  - intros s. rewrite (Derive_ext _ (fun s => 3 * (s * s))) by (intros u; apply D1). apply is_derive_unique. auto_derive; [auto|ring].
Qed.

(** ** C38, C79: the soft-photon cutoff *)
Theorem C38_cutoff_cancels dilog k k0 k1 : 0 < km k -> 0 < kmx k -> sq (kMth k) < kmx_sq k -> 0 < k0 -> 0 < k1 ->
  exists s, eadd (delta_vert_rad_ir dilog k k0) (delta_rad_ir_hard k k0) = Fin s /\
            eadd (delta_vert_rad_ir dilog k k1) (delta_rad_ir_hard k k1) = Fin s.
Proof. exact (fun Hm Hx HT H0 H1 => ex_intro _ _ (conj (cutoff_sum dilog k Hm Hx HT k0 H0) (cutoff_sum dilog k Hm Hx HT k1 H1))). Qed.
Print Assumptions C38_cutoff_cancels.
Theorem C38_cutoff_monotone dilog k k0 k1 a b : 0 < km k -> 0 < kmx k -> sq (kMth k) < kmx_sq k -> 0 < kQ_sq k -> 0 < k0 <= k1 ->
  delta_vert_rad_ir dilog k k0 = Fin a -> delta_vert_rad_ir dilog k k1 = Fin b ->
  let top := (kmx_sq k - sq (kMth k)) / (2 * kmx k) in
  a <= b /\ (k0 < k1 -> k1 <= top -> a < b) /\ (top <= k0 -> a = b).
Proof. exact (fun Hm Hx HT HQ H A B => vert_mono dilog k Hm Hx HT k0 k1 a b HQ H A B). Qed.
Print Assumptions C38_cutoff_monotone.
Theorem C38_hard_part_nonneg k k0 a : 0 < km k -> 0 < kmx k -> sq (kMth k) < kmx_sq k -> 0 < kQ_sq k -> delta_rad_ir_hard k k0 = Fin a -> 0 <= a.
Proof. exact (fun Hm Hx HT HQ A => hard_nonneg k Hm Hx HT k0 a HQ A). Qed.
Print Assumptions C38_hard_part_nonneg.
Lemma ex_delta : let k := make_kin ex_ps 20 ex_sp in 0 < km k /\ 0 < kmx k /\ sq (kMth k) < kmx_sq k /\ 0 < kQ_sq k.
Proof.
  pose proof ex_missing as H. destruct (region_q0 _ _ _ ex_masses ex_region) as [Hq HQ].
  assert (F : kmx_sq (make_kin ex_ps 20 ex_sp) = missing_sq ex_ps 20 ex_sp) by (destruct (f_mx_sq ex_ps 20 ex_sp (proj1 ex_masses) Hq) as [F _]; auto; apply ex_region).
  cbv zeta. change (kmx (make_kin ex_ps 20 ex_sp)) with (sqrt (kmx_sq (make_kin ex_ps 20 ex_sp))). rewrite F.
  split; [unfold ex_ps; cbn; lra|]. split; [apply sqrt_lt_R0; lra|]. split; [change (kMth (make_kin ex_ps 20 ex_sp)) with 1; unfold sq; lra|].
  change (kQ_sq (make_kin ex_ps 20 ex_sp)) with (20 * (1 / 2) * (1 / 2)). lra.
Qed.
Example C38_example : let k := make_kin ex_ps 20 ex_sp in
  (0 < km k /\ 0 < kmx k /\ sq (kMth k) < kmx_sq k /\ 0 < kQ_sq k) /\
  exists s, eadd (delta_vert_rad_ir (fun x => x) k (1 / 100)) (delta_rad_ir_hard k (1 / 100)) = Fin s.
Proof.
  cbv zeta. pose proof ex_delta as (A & B & C & D). split; [auto|].
  destruct (C38_cutoff_cancels (fun x => x) _ (1 / 100) 1 A B C ltac:(lra) ltac:(lra)) as (s & H & _). exists s. exact H.
Qed.

Theorem C79_nrad_ir_factors dilog sf k ph lambda_e eta k0 dv : delta_vert_rad_ir dilog k k0 = Fin dv ->
  nrad_ir dilog sf k ph lambda_e eta k0 =
  Some ((1 + p_alpha_qed ph / PI * (dv + delta_vac_lep k + p_delta_vac_had ph)) * born sf k ph lambda_e eta + amm sf k ph lambda_e eta).
Proof. exact (nrad_ir_is dilog sf k ph lambda_e eta k0 dv). Qed.
Print Assumptions C79_nrad_ir_factors.
Theorem C79_cutoff_cancels dilog sf k ph lambda_e eta k0 k1 : 0 < km k -> 0 < kmx k -> sq (kMth k) < kmx_sq k -> 0 < k0 -> 0 < k1 ->
  exists n0 n1 h0 h1, nrad_ir dilog sf k ph lambda_e eta k0 = Some n0 /\ nrad_ir dilog sf k ph lambda_e eta k1 = Some n1 /\
    delta_rad_ir_hard k k0 = Fin h0 /\ delta_rad_ir_hard k k1 = Fin h1 /\
    n0 + p_alpha_qed ph / PI * h0 * born sf k ph lambda_e eta = n1 + p_alpha_qed ph / PI * h1 * born sf k ph lambda_e eta.
Proof. exact (nrad_cutoff dilog sf k ph lambda_e eta k0 k1). Qed.
Print Assumptions C79_cutoff_cancels.
Theorem C79_no_cutoff_no_value dilog sf k ph lambda_e eta k0 : k0 <= 0 -> nrad_ir dilog sf k ph lambda_e eta k0 = None.
Proof. exact (nrad_ir_none dilog sf k ph lambda_e eta k0). Qed.
Print Assumptions C79_no_cutoff_no_value.
Example C79_example : exists n, nrad_ir (fun x => x) ex_sf (make_kin ex_ps 20 ex_sp) ex_ph 1 (V3 0 0 1) (1 / 100) = Some n.
Proof.
  pose proof ex_delta as (A & B & C & D).
  destruct (C79_cutoff_cancels (fun x => x) ex_sf _ ex_ph 1 (V3 0 0 1) (1 / 100) 1 A B C ltac:(lra) ltac:(lra)) as (n & _ & _ & _ & H & _). exists n. exact H.
Qed.

(** ** C41: reflection in the lepton plane *)
Theorem C41_born_reflection ps S sp sf ph lambda_e eta :
  let sp' := PhaseSpace (s_x sp) (s_y sp) (s_z sp) (s_ph_t_sq sp) (- s_phi_h sp) (s_phi sp) in
  let k := make_kin ps S sp in let k' := make_kin ps S sp' in let eta' := V3 (- x3 eta) (y3 eta) (- z3 eta) in
  born sf k' ph lambda_e eta = born sf k ph (- lambda_e) eta' /\ amm sf k' ph lambda_e eta = amm sf k ph (- lambda_e) eta' /\
  (forall dilog k0, nrad_ir dilog sf k' ph lambda_e eta k0 = nrad_ir dilog sf k ph (- lambda_e) eta' k0).
Proof.
  exact (conj (born_m _ _ (make_kin_mirror ps S sp) sf ph lambda_e eta) (conj (amm_m _ _ (make_kin_mirror ps S sp) sf ph lambda_e eta)
    (fun dilog k0 => nrad_ir_m _ _ (make_kin_mirror ps S sp) sf dilog ph lambda_e eta k0))).
Qed.
Print Assumptions C41_born_reflection.
Theorem C41_rad_reflection ps S sp tau phi_k R sf ph lambda_e eta :
  let sp' := PhaseSpace (s_x sp) (s_y sp) (s_z sp) (s_ph_t_sq sp) (- s_phi_h sp) (s_phi sp) in
  let r := make_rad (make_kin ps S sp) tau phi_k R in let r' := make_rad (make_kin ps S sp') tau (- phi_k) R in
  let eta' := V3 (- x3 eta) (y3 eta) (- z3 eta) in
  rad sf r' ph lambda_e eta = rad sf r ph (- lambda_e) eta' /\ rad_f sf r' ph lambda_e eta = rad_f sf r ph (- lambda_e) eta'.
Proof.
  exact (conj (rad_m _ _ (make_rad_mirror _ _ tau phi_k R (make_kin_mirror ps S sp)) sf ph lambda_e eta)
    (rad_f_m sf _ _ ph lambda_e eta (make_rad_mirror _ _ tau phi_k R (make_kin_mirror ps S sp)))).
Qed.
Print Assumptions C41_rad_reflection.
(** So the unpolarised cross-section is even, and the spin-independent beam asymmetry odd. *)
Theorem C41_parity ps S sp sf ph :
  let sp' := PhaseSpace (s_x sp) (s_y sp) (s_z sp) (s_ph_t_sq sp) (- s_phi_h sp) (s_phi sp) in
  let b s := born sf (make_kin ps S s) ph in
  b sp' 0 (V3 0 0 0) = b sp 0 (V3 0 0 0) /\
  (forall l, b sp' l (V3 0 0 0) - b sp' 0 (V3 0 0 0) = - (b sp l (V3 0 0 0) - b sp 0 (V3 0 0 0))) /\
  (forall a, b sp' 0 (V3 0 0 a) - b sp' 0 (V3 0 0 0) = - (b sp 0 (V3 0 0 a) - b sp 0 (V3 0 0 0))).
Proof. exact (born_parity ps S sp sf ph). Qed.
Print Assumptions C41_parity.
Example C41_example : exists l eta, born ex_sf (make_kin ex_ps 20 (PhaseSpace (1 / 2) (1 / 2) (1 / 2) (1 / 4) (- (1)) 2)) ex_ph l eta
  = born ex_sf (make_kin ex_ps 20 ex_sp) ex_ph (-1) (V3 1 2 3).
Proof.
  exists 1, (V3 (-1) 2 (-3)). transitivity (born ex_sf (make_kin ex_ps 20 ex_sp) ex_ph (- (1)) (V3 (- (-1)) 2 (- (-3)))).
  - exact (proj1 (C41_born_reflection ex_ps 20 ex_sp ex_sf ex_ph 1 (V3 (-1) 2 (-3)))).
  - replace (- (-1)) with 1 by ring. replace (- (-3)) with 3 by ring. replace (- (1)) with (-1) by ring. reflexivity.
Qed.

(** ** C78: the Born cross-section is the textbook sum over modulations *)
Theorem C78_born_modulations ps S sp sf ph lambda_e S_L S_T phi_S : admissible ps S sp -> 0 < s_ph_t_sq sp ->
  s_ph_t_sq sp + sq (a_mh ps) < sq (s_z sp * (S * s_y sp) / (2 * a_M ps)) ->
  let k := make_kin ps S sp in
  born sf k ph lambda_e (V3 (S_T * cos (phi_S - s_phi_h sp)) (S_T * sin (phi_S - s_phi_h sp)) S_L) =
  massive_sidis (p_alpha_qed ph) (s_x sp) (s_y sp) (S * s_x sp * s_y sp) (a_M ps) (a_m ps) (fun n => sf n (point_of k)) lambda_e S_L S_T (s_phi_h sp) phi_S.
Proof. exact (born_textbook ps S sp sf ph lambda_e S_L S_T phi_S). Qed.
Print Assumptions C78_born_modulations.
Theorem C78_massless_textbook alpha x y Q_sq M F lambda_e S_L S_T phi_h phi_S : 0 < x -> 0 < y < 1 -> 0 < Q_sq -> 0 < M ->
  massive_sidis alpha x y Q_sq M 0 F lambda_e S_L S_T phi_h phi_S = textbook_sidis alpha x y Q_sq M F lambda_e S_L S_T phi_h phi_S.
Proof. exact (massive_zero alpha x y Q_sq M F lambda_e S_L S_T phi_h phi_S). Qed.
Print Assumptions C78_massless_textbook.
Example C78_example : (admissible ex_ps 20 ex_sp /\ 0 < s_ph_t_sq ex_sp) /\
  born ex_sf (make_kin ex_ps 20 ex_sp) ex_ph 0 (V3 0 0 0) = / 8 * (4 / 5 * 6 / 5 * (400 / (400 - 4 / 100))) * ((15 / 2 + 1 - 8 / 1000) / 2).
Proof.
  split; [split; [apply ex_admissible|unfold ex_sp; cbn; lra]|].
  rewrite (born_uut ex_ps 20 ex_sp ex_sf ex_ph ex_admissible ltac:(unfold ex_sp; cbn; lra) ex_strict ltac:(reflexivity) ltac:(reflexivity) ltac:(reflexivity) ltac:(reflexivity)).
  cbv zeta. unfold gamma_sq, ex_ps, ex_sp, ex_ph. cbn [p_alpha_qed s_x s_y s_z a_M a_m]. field.
Qed.

(** ** C80: the integrands of the radiative integrals *)
Theorem C80_rad_f_integrand sf k ph lambda_e eta k0 x : rad_f_integrand sf k ph lambda_e eta k0 x =
  match take3_cut (cut_k_0_bar (mk_bound (Fin 0) (Fin k0))) k x with
  | Some (r, jac) => match rad_f sf r ph lambda_e eta with Some s => jac * s | None => 0 end
  | None => 0 end.
Proof. exact (rad_f_integrand_is sf k ph lambda_e eta k0 x). Qed.
Print Assumptions C80_rad_f_integrand.
(** The two integrals split the photons by their energy in the frame of the unobserved hadrons. *)
Theorem C80_soft_window sf k ph lambda_e eta k0 x : 0 <= k0 -> rad_f_integrand sf k ph lambda_e eta k0 x <> 0 ->
  exists tau phi_k R jac v, let r := make_rad k tau phi_k R in rad_f sf r ph lambda_e eta = Some v /\
    rad_f_integrand sf k ph lambda_e eta k0 x = jac * v /\ valid_rad r = true /\ rmx r <> 0 /\ 0 <= rk_0_bar r <= k0.
Proof. exact (rad_f_window sf k ph lambda_e eta k0 x). Qed.
Print Assumptions C80_soft_window.
Theorem C80_hard_window sf k ph lambda_e eta k0 x : rad_integrand sf k ph lambda_e eta k0 x <> 0 ->
  exists tau phi_k R jac, let r := make_rad k tau phi_k R in
    rad_integrand sf k ph lambda_e eta k0 x = jac * rad sf r ph lambda_e eta /\ valid_rad r = true /\ (rmx r <> 0 -> k0 <= rk_0_bar r).
Proof. exact (rad_window sf k ph lambda_e eta k0 x). Qed.
Print Assumptions C80_hard_window.
(** A negative cutoff does not close the soft window: the interval is unset and every photon is integrated. *)
Theorem C80_negative_cutoff : exists k0, k0 < 0 /\
  forall k x r jac, take3_cut (cut_k_0_bar BOUND_INVALID) k x = Some (r, jac) -> take3_cut (cut_k_0_bar (mk_bound (Fin 0) (Fin k0))) k x = Some (r, jac).
Proof. exact negative_window. Qed.
Print Assumptions C80_negative_cutoff.
Example C80_example sf ph : exists x, 0 <= 1 /\ rad_f_integrand sf (make_kin ex_ps 20 ex_sp) ph 1 (V3 0 0 1) 1 x =
  match take3_cut (cut_k_0_bar (Bnd (Fin 0) (Fin 1))) (make_kin ex_ps 20 ex_sp) x with
  | Some (r, jac) => match rad_f sf r ph 1 (V3 0 0 1) with Some s => jac * s | None => 0 end
  | None => 0 end.
Proof.
  exists (fun _ => 1 / 2). split; [lra|]. rewrite C80_rad_f_integrand.
  replace (mk_bound (Fin 0) (Fin 1)) with (Bnd (Fin 0) (Fin 1)); [reflexivity|]. unfold mk_bound. cbn [eleb].
  replace (rleb 0 1) with true; [reflexivity|]. symmetry. apply rleb_spec. lra.
Qed.
