(** Vocabulary for C42-C45: polarization letters, leading twist, meaning of a filter word. *)
From Coq Require Import Reals String Ascii List Bool DecimalString.
From Verif Require Import SfModel.
Import ListNotations.
Local Open Scope string_scope.

(** The eighteen functions, as listed in the class documentation of MaskSfSet (mask.hpp 80-99). *)
Definition all_sf : list sf_name :=
  [F_UUL; F_UUT; F_UU_cos_phih; F_UU_cos_2phih; F_UL_sin_phih; F_UL_sin_2phih;
   F_UTL_sin_phih_m_phis; F_UTT_sin_phih_m_phis; F_UT_sin_2phih_m_phis; F_UT_sin_3phih_m_phis;
   F_UT_sin_phis; F_UT_sin_phih_p_phis; F_LU_sin_phih; F_LL; F_LL_cos_phih;
   F_LT_cos_phih_m_phis; F_LT_cos_2phih_m_phis; F_LT_cos_phis].

(** First letter of the subscript: polarization of the beam. *)
Inductive beam := BU | BL.
Inductive tgt := TU | TL | TT.
Definition beam_of (n : sf_name) : beam :=
  match n with
  | F_LU_sin_phih | F_LL | F_LL_cos_phih | F_LT_cos_phih_m_phis | F_LT_cos_2phih_m_phis | F_LT_cos_phis => BL
  | _ => BU
  end.
(** Second letter: polarization of the target. *)
Definition tgt_of (n : sf_name) : tgt :=
  match n with
  | F_UUL | F_UUT | F_UU_cos_phih | F_UU_cos_2phih | F_LU_sin_phih => TU
  | F_UL_sin_phih | F_UL_sin_2phih | F_LL | F_LL_cos_phih => TL
  | _ => TT
  end.
(** The functions not suppressed by 1/Q. *)
Definition leading (n : sf_name) : bool :=
  match n with
  | F_UUT | F_UU_cos_2phih | F_UL_sin_2phih | F_UTT_sin_phih_m_phis | F_UT_sin_3phih_m_phis
  | F_UT_sin_phih_p_phis | F_LL | F_LT_cos_phih_m_phis => true
  | _ => false
  end.

(** Letters of the filter words: u, l for the beam, u, l, t for the target, p = polarized, x = any. *)
Definition beam_letter (c : ascii) : option (beam -> bool) :=
  if Ascii.eqb c "u" then Some (fun b => match b with BU => true | _ => false end)
  else if Ascii.eqb c "l" then Some (fun b => match b with BL => true | _ => false end)
  else if Ascii.eqb c "x" then Some (fun _ => true)
  else None.
Definition tgt_letter (c : ascii) : option (tgt -> bool) :=
  if Ascii.eqb c "u" then Some (fun t => match t with TU => true | _ => false end)
  else if Ascii.eqb c "l" then Some (fun t => match t with TL => true | _ => false end)
  else if Ascii.eqb c "t" then Some (fun t => match t with TT => true | _ => false end)
  else if Ascii.eqb c "p" then Some (fun t => match t with TU => false | _ => true end)
  else if Ascii.eqb c "x" then Some (fun _ => true)
  else None.
(** The functions kept by a word; [None] if the word means nothing. *)
Definition word_keeps (w : string) : option (sf_name -> bool) :=
  match w with
  | String b (String t EmptyString) =>
      match beam_letter b, tgt_letter t with
      | Some fb, Some ft => Some (fun n => fb (beam_of n) && ft (tgt_of n))
      | _, _ => None
      end
  | _ => if String.eqb w "leading" then Some leading
         else if String.eqb w "subleading" then Some (fun n => negb (leading n)) else None
  end.
Definition meaningful (w : string) : Prop := word_keeps w <> None.
(** [n] survives all the words of a list. *)
Definition kept_by (ws : list string) (n : sf_name) : Prop :=
  forall w f, In w ws -> word_keeps w = Some f -> f n = true.

(** The result [r] of a set restricted to the functions kept. *)
Definition restricts {Pt} (ws : list string) (base r : sf_set Pt) : Prop :=
  forall n p, (kept_by ws n -> r n p = base n p) /\ (~ kept_by ws n -> r n p = 0%R).

(** Decimal numerals, and the word the option documentation promises. *)
Definition decimal (n : nat) : string := NilEmpty.string_of_uint (Nat.to_uint n).
Definition select_word (n : nat) : string := "select" ++ decimal n.

Local Open Scope list_scope.
(** The fields of the aggregates, with the function each is named after. *)
Definition fields_base_uu (r : SfBaseUU) := [(F_UUL, uu_F_UUL r); (F_UUT, uu_F_UUT r);
  (F_UU_cos_phih, uu_F_UU_cos_phih r); (F_UU_cos_2phih, uu_F_UU_cos_2phih r)].
Definition fields_base_ul (r : SfBaseUL) := [(F_UL_sin_phih, ul_F_UL_sin_phih r); (F_UL_sin_2phih, ul_F_UL_sin_2phih r)].
Definition fields_base_ut (r : SfBaseUT) := [(F_UTL_sin_phih_m_phis, ut_F_UTL_sin_phih_m_phis r);
  (F_UTT_sin_phih_m_phis, ut_F_UTT_sin_phih_m_phis r); (F_UT_sin_2phih_m_phis, ut_F_UT_sin_2phih_m_phis r);
  (F_UT_sin_3phih_m_phis, ut_F_UT_sin_3phih_m_phis r); (F_UT_sin_phis, ut_F_UT_sin_phis r);
  (F_UT_sin_phih_p_phis, ut_F_UT_sin_phih_p_phis r)].
Definition fields_base_up (r : SfBaseUP) := fields_base_ul (up_ul r) ++ fields_base_ut (up_ut r).
Definition fields_base_lu (r : SfBaseLU) := [(F_LU_sin_phih, lu_F_LU_sin_phih r)].
Definition fields_base_ll (r : SfBaseLL) := [(F_LL, ll_F_LL r); (F_LL_cos_phih, ll_F_LL_cos_phih r)].
Definition fields_base_lt (r : SfBaseLT) := [(F_LT_cos_phih_m_phis, lt_F_LT_cos_phih_m_phis r);
  (F_LT_cos_2phih_m_phis, lt_F_LT_cos_2phih_m_phis r); (F_LT_cos_phis, lt_F_LT_cos_phis r)].
Definition fields_base_lp (r : SfBaseLP) := fields_base_ll (lp_ll r) ++ fields_base_lt (lp_lt r).
Definition fields_uu (r : SfUU) := fields_base_uu (sfuu_uu r).
Definition fields_ul (r : SfUL) := fields_base_uu (sful_uu r) ++ fields_base_ul (sful_ul r).
Definition fields_ut (r : SfUT) := fields_base_uu (sfut_uu r) ++ fields_base_ut (sfut_ut r).
Definition fields_up (r : SfUP) :=
  fields_base_uu (sfup_uu r) ++ fields_base_ul (sfup_ul r) ++ fields_base_ut (sfup_ut r).
Definition fields_lu (r : SfLU) := fields_base_uu (sflu_uu r) ++ fields_base_lu (sflu_lu r).
Definition fields_ll (r : SfLL) :=
  fields_base_uu (sfll_uu r) ++ fields_base_ul (sfll_ul r) ++ fields_base_lu (sfll_lu r) ++ fields_base_ll (sfll_ll r).
Definition fields_lt (r : SfLT) :=
  fields_base_uu (sflt_uu r) ++ fields_base_ut (sflt_ut r) ++ fields_base_lu (sflt_lu r) ++ fields_base_lt (sflt_lt r).
Definition fields_lp (r : SfLP) :=
  fields_base_uu (sflp_uu r) ++ fields_base_ul (sflp_ul r) ++ fields_base_ut (sflp_ut r) ++
  fields_base_lu (sflp_lu r) ++ fields_base_ll (sflp_ll r) ++ fields_base_lt (sflp_lt r).

(** A list of fields holds exactly the functions selected by [keep], each once, with the value of that function. *)
Definition holds_exactly {Pt} (s : sf_set Pt) (p : Pt) (keep : sf_name -> bool) (fs : list (sf_name * R)) : Prop :=
  NoDup (map fst fs) /\ (forall n, In n (map fst fs) <-> keep n = true) /\ (forall n v, In (n, v) fs -> v = s n p).
Definition pol (b : beam -> bool) (t : tgt -> bool) (n : sf_name) : bool := b (beam_of n) && t (tgt_of n).
Definition bu (b : beam) := match b with BU => true | BL => false end.
Definition bl (b : beam) := match b with BL => true | BU => false end.
Definition bany (b : beam) := true.
Definition tu (t : tgt) := match t with TU => true | _ => false end.
Definition tl (t : tgt) := match t with TL => true | _ => false end.
Definition tt' (t : tgt) := match t with TT => true | _ => false end.
Definition tul (t : tgt) := match t with TT => false | _ => true end.
Definition tut (t : tgt) := match t with TL => false | _ => true end.
Definition tlt (t : tgt) := match t with TU => false | _ => true end.
Definition tany (t : tgt) := true.

(** The structure-function class meant for a TMD class: that of its most derived library ancestor. *)
Inductive derives : cls -> cls -> Prop :=
  | der_refl c : derives c c
  | der_step c b d : base_of c = Some b -> derives b d -> derives c d.
Definition matching (c : cls) (w : wrapper) : Prop :=
  match w with
  | UseSfSet => derives c CSfSet
  | UseGaussianWwTmdSfSet => derives c CGaussianWwTmdSet
  | UseGaussianTmdSfSet => derives c CGaussianTmdSet /\ ~ derives c CGaussianWwTmdSet
  | UseWwTmdSfSet => derives c CWwTmdSet
  | UseTmdSfSet => derives c CTmdSet /\ ~ derives c CGaussianTmdSet /\ ~ derives c CWwTmdSet
  end.
