(** Polarization dispatch, infrared structure and cutoff dependence of the cross-sections. *)
From Coq Require Import Reals Lra Psatz Bool.
From Verif Require Import ExtModel MathModel MathProofs BoundModel BoundProofs ParticleModel VecModel TransModel VecTac KinModel KinEqs SfModel
  CutModel LepModel HadModel XsModel.
Local Open Scope R_scope.

Lemma nonzero_cases x : {nonzero x = true} + {nonzero x = false /\ x = 0}.
Proof. unfold nonzero, reqb. destruct (Req_EM_T x 0); [right|left]; auto. Qed.
Lemma any_nonzero_cases eta : {any_nonzero eta = true} + {any_nonzero eta = false /\ eta = VEC3_ZERO}.
Proof.
  unfold any_nonzero. destruct eta as [x y z]. cbn [x3 y3 z3].
  destruct (nonzero_cases x) as [->|[-> ->]]; [left; reflexivity|].
  destruct (nonzero_cases y) as [->|[-> ->]]; [left; reflexivity|].
  destruct (nonzero_cases z) as [->|[-> ->]]; [left; reflexivity|]. right. split; reflexivity.
Qed.

Section Full.
Context {B LUU LUP LLU LLP : Type}.
Context (base_uu : B -> LUU -> had_uu -> R) (base_ul : B -> LUP -> had_ul -> R)
  (base_ut1 : B -> LUP -> had_ut -> R) (base_ut2 : B -> LUU -> had_ut -> R) (base_lu : B -> LLU -> had_lu -> R)
  (base_ll : B -> LLP -> had_ll -> R) (base_lt1 : B -> LLP -> had_lt -> R) (base_lt2 : B -> LLU -> had_lt -> R).
Context (lep_uu : kin -> LUU) (lep_up : kin -> LUP) (lep_lu : kin -> LLU) (lep_lp : kin -> LLP).
Context (sf : sf_set sf_point).
Lemma from_base_full k b lambda_e eta : let p := point_of k in
  from_base base_uu base_ul base_ut1 base_ut2 base_lu base_ll base_lt1 base_lt2 lep_uu lep_up lep_lu lep_lp sf k b lambda_e eta =
  base_uu b (lep_uu k) (make_had_base_uu k (sf_base_uu sf p))
  + (x3 eta * base_ut1 b (lep_up k) (make_had_base_ut k (sf_base_ut sf p))
     + y3 eta * base_ut2 b (lep_uu k) (make_had_base_ut k (sf_base_ut sf p))
     + z3 eta * base_ul b (lep_up k) (make_had_base_ul k (sf_base_ul sf p)))
  + lambda_e * (base_lu b (lep_lu k) (make_had_base_lu k (sf_base_lu sf p))
     + (x3 eta * base_lt1 b (lep_lp k) (make_had_base_lt k (sf_base_lt sf p))
        + y3 eta * base_lt2 b (lep_lu k) (make_had_base_lt k (sf_base_lt sf p))
        + z3 eta * base_ll b (lep_lp k) (make_had_base_ll k (sf_base_ll sf p)))).
Proof.
  intros p. subst p. unfold from_base, from_base_parts, assemble. destruct eta as [x y z]. cbn [x3 y3 z3].
  destruct (nonzero_cases lambda_e) as [->|[-> ->]]; destruct (nonzero_cases x) as [->|[-> ->]];
    destruct (nonzero_cases y) as [->|[-> ->]]; destruct (nonzero_cases z) as [->|[-> ->]];
    unfold HadUU, HadUL, HadUT, HadUP, HadLU, HadLL, HadLT, HadLP, sf_uu, sf_ul, sf_ut, sf_up, sf_lu, sf_ll, sf_lt, sf_lp, dot3;
    cbn [x3 y3 z3 Huu_uu Hul_uu Hul_ul Hut_uu Hut_ut Hup_uu Hup_ul Hup_ut Hlu_uu Hlu_lu Hll_uu Hll_ul Hll_lu Hll_ll
      Hlt_uu Hlt_ut Hlt_lu Hlt_lt Hlp_uu Hlp_ul Hlp_ut Hlp_lu Hlp_ll Hlp_lt
      sfuu_uu sful_uu sful_ul sfut_uu sfut_ut sfup_uu sfup_ul sfup_ut sflu_uu sflu_lu sfll_uu sfll_ul sfll_lu sfll_ll
      sflt_uu sflt_ut sflt_lu sflt_lt sflp_uu sflp_ul sflp_ut sflp_lu sflp_ll sflp_lt]; ring.
Qed.
End Full.

Section Xs.
Context (dilog : R -> R) (sf : sf_set sf_point).

Lemma born_full k ph lambda_e eta : let p := point_of k in let b := Born k ph in
  born sf k ph lambda_e eta =
  born_base_uu b (LepBornBaseUU k) (make_had_base_uu k (sf_base_uu sf p))
  + (x3 eta * born_base_ut1 b (LepBornBaseUP k) (make_had_base_ut k (sf_base_ut sf p))
     + y3 eta * born_base_ut2 b (LepBornBaseUU k) (make_had_base_ut k (sf_base_ut sf p))
     + z3 eta * born_base_ul b (LepBornBaseUP k) (make_had_base_ul k (sf_base_ul sf p)))
  + lambda_e * (born_base_lu b (LepBornBaseLU k) (make_had_base_lu k (sf_base_lu sf p))
     + (x3 eta * born_base_lt1 b (LepBornBaseLP k) (make_had_base_lt k (sf_base_lt sf p))
        + y3 eta * born_base_lt2 b (LepBornBaseLU k) (make_had_base_lt k (sf_base_lt sf p))
        + z3 eta * born_base_ll b (LepBornBaseLP k) (make_had_base_ll k (sf_base_ll sf p)))).
Proof. apply from_base_full. Qed.
Lemma amm_full k ph lambda_e eta : let p := point_of k in let b := Amm k ph in
  amm sf k ph lambda_e eta =
  amm_base_uu b (LepAmmBaseUU k) (make_had_base_uu k (sf_base_uu sf p))
  + (x3 eta * amm_base_ut1 b (LepAmmBaseUP k) (make_had_base_ut k (sf_base_ut sf p))
     + y3 eta * amm_base_ut2 b (LepAmmBaseUU k) (make_had_base_ut k (sf_base_ut sf p))
     + z3 eta * amm_base_ul b (LepAmmBaseUP k) (make_had_base_ul k (sf_base_ul sf p)))
  + lambda_e * (amm_base_lu b (LepAmmBaseLU k) (make_had_base_lu k (sf_base_lu sf p))
     + (x3 eta * amm_base_lt1 b (LepAmmBaseLP k) (make_had_base_lt k (sf_base_lt sf p))
        + y3 eta * amm_base_lt2 b (LepAmmBaseLU k) (make_had_base_lt k (sf_base_lt sf p))
        + z3 eta * amm_base_ll b (LepAmmBaseLP k) (make_had_base_ll k (sf_base_ll sf p)))).
Proof. apply from_base_full. Qed.
Lemma nrad_ir_full k ph lambda_e eta k_0_bar : let p := point_of k in
  nrad_ir dilog sf k ph lambda_e eta k_0_bar =
  omap (fun b => nrad_ir_base_uu b (LepNradBaseUU k) (make_had_base_uu k (sf_base_uu sf p))
  + (x3 eta * nrad_ir_base_ut1 b (LepNradBaseUP k) (make_had_base_ut k (sf_base_ut sf p))
     + y3 eta * nrad_ir_base_ut2 b (LepNradBaseUU k) (make_had_base_ut k (sf_base_ut sf p))
     + z3 eta * nrad_ir_base_ul b (LepNradBaseUP k) (make_had_base_ul k (sf_base_ul sf p)))
  + lambda_e * (nrad_ir_base_lu b (LepNradBaseLU k) (make_had_base_lu k (sf_base_lu sf p))
     + (x3 eta * nrad_ir_base_lt1 b (LepNradBaseLP k) (make_had_base_lt k (sf_base_lt sf p))
        + y3 eta * nrad_ir_base_lt2 b (LepNradBaseLU k) (make_had_base_lt k (sf_base_lt sf p))
        + z3 eta * nrad_ir_base_ll b (LepNradBaseLP k) (make_had_base_ll k (sf_base_ll sf p))))) (Nrad dilog k ph k_0_bar).
Proof. intros p. unfold nrad_ir, omap. destruct (Nrad dilog k ph k_0_bar); [|reflexivity]. f_equal. apply from_base_full. Qed.

Lemma dot3_zero_r a : dot3 a VEC3_ZERO = 0.
Proof. unfold dot3, VEC3_ZERO. cbn [x3 y3 z3]. ring. Qed.
Lemma dot3_zero_l a : dot3 VEC3_ZERO a = 0.
Proof. unfold dot3, VEC3_ZERO. cbn [x3 y3 z3]. ring. Qed.

Lemma rad_full k ph lambda_e eta : let p := shift_point_of k in let b := Rad k ph in
  rad sf k ph lambda_e eta =
  rad_base_uu b (LepRadBaseUU k) (make_had_rad_base_uu k (sf_base_uu sf p))
  + dot3 (rad_base_up b (LepRadBaseUU k) (LepRadBaseUP k) (make_had_rad_base_up k (sf_base_up sf p))) eta
  + lambda_e * (rad_base_lu b (LepRadBaseLU k) (make_had_rad_base_lu k (sf_base_lu sf p))
     + dot3 (rad_base_lp b (LepRadBaseLU k) (LepRadBaseLP k) (make_had_rad_base_lp k (sf_base_lp sf p))) eta).
Proof.
  intros p b. subst p b. unfold rad, assemble.
  destruct (nonzero_cases lambda_e) as [->|[-> ->]]; destruct (any_nonzero_cases eta) as [->|[-> ->]];
    unfold HadRadUU, HadRadUP, HadRadLU, HadRadLP, sf_uu, sf_up, sf_lu, sf_lp, sf_base_up, sf_base_lp; cbv zeta;
    cbn [HRuu_uu HRup_uu HRup_up HRlu_uu HRlu_lu HRlp_uu HRlp_up HRlp_lu HRlp_lp
      sfuu_uu sfup_uu sfup_ul sfup_ut sflu_uu sflu_lu sflp_uu sflp_ul sflp_ut sflp_lu sflp_ll sflp_lt];
    rewrite ?dot3_zero_r, ?dot3_zero_l; ring.
Qed.

(** The four coefficient groups of rad_f from one complete set. *)
Definition full_f (k : kinrad) (b : Rad_t) (lambda_e : R) (eta : vec3) (h : HadRadFLP_t) : R :=
  rad_f_base_uu b (LepRadBaseUU k) (HFlp_uu h)
  + dot3 (rad_f_base_up b (LepRadBaseUU k) (LepRadBaseUP k) (HFlp_up h)) eta
  + lambda_e * (rad_f_base_lu b (LepRadBaseLU k) (HFlp_lu h)
     + dot3 (rad_f_base_lp b (LepRadBaseLU k) (LepRadBaseLP k) (HFlp_lp h)) eta).
Lemma rad_f_0_full h0 k ph lambda_e eta :
  rad_f_0 sf h0 k ph lambda_e eta = omap (full_f k (Rad k ph) lambda_e eta) (HadRadFLP sf k h0).
Proof.
  unfold rad_f_0, rad_f_with, full_f, assemble, omap.
  destruct (nonzero_cases lambda_e) as [->|[-> ->]]; destruct (any_nonzero_cases eta) as [->|[-> ->]];
    unfold HadRadFUU, HadRadFUP, HadRadFLU, HadRadFLP; cbv zeta; destruct (choose k) as [|d|]; try reflexivity;
    unfold HadRadUU, HadRadUP, HadRadLU, HadRadLP, sf_uu, sf_up, sf_lu, sf_lp; cbv zeta;
    cbn [HRuu_uu HRup_uu HRup_up HRlu_uu HRlu_lu HRlp_uu HRlp_up HRlp_lu HRlp_lp HFuu_uu HFup_uu HFup_up HFlu_uu HFlu_lu HFlp_uu HFlp_up HFlp_lu HFlp_lp
      Huu_uu Hup_uu Hup_ul Hup_ut Hlu_uu Hlu_lu
      sfuu_uu sfup_uu sfup_ul sfup_ut sflu_uu sflu_lu sflp_uu sflp_ul sflp_ut sflp_lu sflp_ll sflp_lt];
    f_equal; rewrite ?dot3_zero_r, ?dot3_zero_l; ring.
Qed.
Lemma rad_f_is_0 k ph lambda_e eta : rad_f sf k ph lambda_e eta = rad_f_0 sf (HadLP sf (project k)) k ph lambda_e eta.
Proof. reflexivity. Qed.
Lemma rad_f_full k ph lambda_e eta :
  rad_f sf k ph lambda_e eta = omap (full_f k (Rad k ph) lambda_e eta) (HadRadFLP sf k (HadLP sf (project k))).
Proof. rewrite rad_f_is_0. apply rad_f_0_full. Qed.
End Xs.
