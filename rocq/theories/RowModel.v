(** Model of the rows of the event tree: app/sidisgen/main.cpp 54-56, 789-860 and 957-1021. Over the real numbers. *)
From Coq Require Import Reals ZArith String Ascii List Bool.
From Verif Require Import ParticleModel VecModel TransModel FrameBase KinModel FrameModel SfModel HadModel FormatModel.
Import ListNotations.
Local Open Scope R_scope.

(** TLorentzVector: px, py, pz, E; the default constructor gives zeros. *)
Record lvec := LVec { lv_x : R; lv_y : R; lv_z : R; lv_e : R }.
Definition lvec_zero : lvec := LVec 0 0 0 0.
(** main.cpp 54-56 *)
Definition convert_vec4 (v : vec4) : lvec := LVec (x4 v) (y4 v) (z4 v) (t4 v).

(** An accepted event: its weight and kinematics (generator.hpp Event). *)
Inductive drawn := DNrad (weight : R) (k : kin) | DRad (weight : R) (r : kinrad).
Record momenta := Momenta { m_p : lvec; m_k1 : lvec; m_q : lvec; m_k2 : lvec; m_ph : lvec; m_k : lvec }.
Record row := Row { o_type : Z; o_weight : R; o_x : R; o_y : R; o_z : R; o_ph_t_sq : R; o_phi_h : R; o_phi : R; o_tau : R; o_phi_k : R; o_R : R;
  o_momenta : momenta; o_sf : SfLP }.
Section Fill.
(** The initial state, the parameter "setup.target_pol", the structure functions, the parameter "setup.hadron", and S. *)
Context (init : initial) (pol : vec3) (sf : sf_set sf_point) (had : hadron) (S : R).
(** main.cpp 957-1021 with momenta and structure functions switched on; [None]: a momentum is not a number. *)
Definition fill (d : drawn) : option row :=
  match d with
  | DNrad w k =>
    match make_final init pol k with
    | None => None
    | Some fin =>
      Some (Row (ev_idx NRAD + 1) w (kx k) (ky k) (kz k) (kph_t_sq k) (kphi_h k) (kphi k) 0 0 0
        (Momenta (convert_vec4 (in_p init)) (convert_vec4 (in_k1 init)) (convert_vec4 (fin_q fin)) (convert_vec4 (fin_k2 fin)) (convert_vec4 (fin_ph fin)) lvec_zero)
        (sf_lp sf (had, kx k, kz k, S * kx k * ky k, kph_t_sq k)))
    end
  | DRad w r =>
    match make_final_rad init pol r with
    | None => None
    | Some fin =>
      Some (Row (ev_idx RAD + 1) w (rx r) (ry r) (rz r) (rph_t_sq r) (rphi_h r) (rphi r) (rtau r) (rphi_k r) (rR r)
        (Momenta (convert_vec4 (in_p init)) (convert_vec4 (in_k1 init)) (convert_vec4 (finr_q fin)) (convert_vec4 (finr_k2 fin)) (convert_vec4 (finr_ph fin)) (convert_vec4 (finr_k fin)))
        (sf_lp sf (had, rx r, rz r, S * rx r * ry r, rph_t_sq r)))
    end
  end.
End Fill.
(** main.cpp 797-799 *)
Definition setup_S (ps : parts) (beam_energy : R) : R := 2 * beam_energy * a_M ps.

Local Open Scope string_scope.
Local Open Scope list_scope.
(** main.cpp 809-841, 848, 854: names of the branches, in order. *)
Definition branches (write_momenta rad_enable write_photon write_sf_set : bool) : list string :=
  ["type"; "weight"; "x"; "y"; "z"; "ph_t_sq"; "phi_h"; "phi"; "tau"; "phi_k"; "R"] ++
  (if write_momenta then ["p"; "k1"; "q"; "k2"; "ph"] ++ (if rad_enable && write_photon then ["k"] else []) else []) ++
  (if write_sf_set then ["sf"] else []).
(** main.cpp 849: the leaves of the branch "sf". *)
Definition sf_leaflist : string :=
  "F_UUL/D:F_UUT/D:F_UU_cos_phih/D:F_UU_cos_2phih/D:F_UL_sin_phih/D:F_UL_sin_2phih/D:F_UTL_sin_phih_m_phis/D:F_UTT_sin_phih_m_phis/D:F_UT_sin_2phih_m_phis/D:F_UT_sin_3phih_m_phis/D:F_UT_sin_phis/D:F_UT_sin_phih_p_phis/D:F_LU_sin_phih/D:F_LL/D:F_LL_cos_phih/D:F_LT_cos_phih_m_phis/D:F_LT_cos_2phih_m_phis/D:F_LT_cos_phis/D".
(** TTree::Branch(name, address, leaflist): leaves separated by colons, each "name/type"; consecutive values are taken from memory. *)
Fixpoint split_at (c : ascii) (s : string) (acc : string) : list string :=
  match s with
  | EmptyString => [acc]
  | String d s' => if Ascii.eqb d c then acc :: split_at c s' "" else split_at c s' (acc ++ String d "")%string
  end.
Definition leaf_of (s : string) : option (string * string) :=
  match split_at "/" s "" with [name; type] => Some (name, type) | _ => None end.
Definition leaves (s : string) : list (option (string * string)) := map leaf_of (split_at ":" s "").
(** An SfLP in memory: its doubles in order of declaration (structure_function.hpp 320-357, 401-408), without padding. *)
Definition memory (r : SfLP) : list R :=
  [uu_F_UUL (sflp_uu r); uu_F_UUT (sflp_uu r); uu_F_UU_cos_phih (sflp_uu r); uu_F_UU_cos_2phih (sflp_uu r);
   ul_F_UL_sin_phih (sflp_ul r); ul_F_UL_sin_2phih (sflp_ul r);
   ut_F_UTL_sin_phih_m_phis (sflp_ut r); ut_F_UTT_sin_phih_m_phis (sflp_ut r); ut_F_UT_sin_2phih_m_phis (sflp_ut r);
   ut_F_UT_sin_3phih_m_phis (sflp_ut r); ut_F_UT_sin_phis (sflp_ut r); ut_F_UT_sin_phih_p_phis (sflp_ut r);
   lu_F_LU_sin_phih (sflp_lu r); ll_F_LL (sflp_ll r); ll_F_LL_cos_phih (sflp_ll r);
   lt_F_LT_cos_phih_m_phis (sflp_lt r); lt_F_LT_cos_2phih_m_phis (sflp_lt r); lt_F_LT_cos_phis (sflp_lt r)].
