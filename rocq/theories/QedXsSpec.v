(** Specification of the cross-sections: lepton tensor of QedSpec.v contracted with the hadronic tensor. *)
From Coq Require Import Reals List.
From Coquelicot Require Import Coquelicot.
From Verif Require Import MathModel VecModel KinModel HadModel QedSpec.
Import ListNotations.
Local Open Scope R_scope.

(** The hadronic tensor with weights H 1, ..., H 9 of the nine structures. *)
Definition weigh (x : R) (w : upper2) : upper2 := map (fun t => (cmul (creal x) (fst (fst t)), snd (fst t), snd t)) w.
Definition had_tensor (q p h : vec4) (H : nat -> R) : upper2 :=
  flat_map (fun i => weigh (H i) (had_struct q p h i)) [1; 2; 3; 4; 5; 6; 7; 8; 9]%nat.
(** The weights for target polarization [eta], from the coefficients H_ij of the code (j = 0: unpolarized, 1-3: components
    of the polarization in the hadron frame). *)
Definition weights (c : HadLP_t) (eta : vec3) (i : nat) : R :=
  let uu := Hlp_uu c in let ul := Hlp_ul c in let ut := Hlp_ut c in let lu := Hlp_lu c in let ll := Hlp_ll c in let lt := Hlp_lt c in
  match i with
  | 1%nat => h10 uu + y3 eta * h12 ut | 2%nat => h20 uu + y3 eta * h22 ut | 3%nat => h30 uu + y3 eta * h32 ut | 4%nat => h40 uu + y3 eta * h42 ut
  | 5%nat => h50 lu + y3 eta * h52 lt
  | 6%nat => x3 eta * h61 ut + z3 eta * h63 ul | 7%nat => x3 eta * h71 lt + z3 eta * h73 ll
  | 8%nat => x3 eta * h81 ut + z3 eta * h83 ul | 9%nat => x3 eta * h91 lt + z3 eta * h93 ll
  | _ => 0
  end.
Definition weights_rad (c : HadRadLP_t) (eta : vec3) (i : nat) : R :=
  let uu := HRlp_uu c in let up := HRlp_up c in let lu := HRlp_lu c in let lp := HRlp_lp c in
  match i with
  | 1%nat => hr10 uu + dot3 (hr1 up) eta | 2%nat => hr20 uu + dot3 (hr2 up) eta | 3%nat => hr30 uu + dot3 (hr3 up) eta | 4%nat => hr40 uu + dot3 (hr4 up) eta
  | 5%nat => hr50 lu + dot3 (hr5 lp) eta | 6%nat => dot3 (hr6 up) eta | 7%nat => dot3 (hr7 lp) eta
  | 8%nat => dot3 (hr8 up) eta | 9%nat => dot3 (hr9 lp) eta
  | _ => 0
  end.
(** Flux, propagator and phase space of the lepton and the hadron. *)
Definition flux (alpha : R) (k : kin) : R := sq alpha * kS k * sq (kS_x k) / (16 * kM k * kph_l k * klambda_S k).
(** Invariant measure d3k / ((2 pi)^3 2 k0) of a photon of energy k0, when the energy changes at the rate [de] and the
    cosine of the polar angle at the rate [dc]. *)
Definition photon_measure (k0 de dc : R) : R := k0 * k0 * de * Rabs dc / ((2 * PI) ^ 3 * (2 * k0)).
(** The form factor F2 of a lepton of mass m at lowest order, for momentum transfer squared -Q2 (Feynman parameters
    (1-z) x, (1-z) (1-x), z; the integral over z is done). *)
Definition form_factor_2 (alpha m Q2 : R) : R := alpha / (2 * PI) * RInt (fun x => m * m / (m * m + Q2 * (x * (1 - x)))) 0 1.
