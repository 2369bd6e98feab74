(** Model of the structure-function interface (include/sidis/structure_function.hpp,
    src/structure_function.cpp), of the masks (include/sidis/sf_set/mask.hpp) and of the way sidisgen turns the
    option "phys.sf_set" into a structure-function set (app/sidisgen/main.cpp, alloc_sf). *)
From Coq Require Import Reals String Ascii List Bool PeanoNat.
Import ListNotations.
Local Open Scope string_scope.

(** structure_function.hpp 45-126: the eighteen virtual functions, in order of declaration. *)
Inductive sf_name :=
  | F_UUL | F_UUT | F_UU_cos_phih | F_UU_cos_2phih
  | F_UL_sin_phih | F_UL_sin_2phih
  | F_UTL_sin_phih_m_phis | F_UTT_sin_phih_m_phis | F_UT_sin_2phih_m_phis | F_UT_sin_3phih_m_phis
  | F_UT_sin_phis | F_UT_sin_phih_p_phis
  | F_LU_sin_phih
  | F_LL | F_LL_cos_phih
  | F_LT_cos_phih_m_phis | F_LT_cos_2phih_m_phis | F_LT_cos_phis.

(** A structure-function set: an object with eighteen overridable functions. [Pt] is the argument list
    (hadron, x, z, Q_sq, ph_t_sq). Simplification: a derived class overrides only the eighteen functions, as every
    class in the repository does, not the group getters. *)
Definition sf_set (Pt : Type) := sf_name -> Pt -> R.

(** structure_function.hpp 320-357: aggregates; field order is the order of declaration. *)
Record SfBaseUU := mkBaseUU { uu_F_UUL : R; uu_F_UUT : R; uu_F_UU_cos_phih : R; uu_F_UU_cos_2phih : R }.
Record SfBaseUL := mkBaseUL { ul_F_UL_sin_phih : R; ul_F_UL_sin_2phih : R }.
Record SfBaseUT := mkBaseUT {
  ut_F_UTL_sin_phih_m_phis : R; ut_F_UTT_sin_phih_m_phis : R; ut_F_UT_sin_2phih_m_phis : R;
  ut_F_UT_sin_3phih_m_phis : R; ut_F_UT_sin_phis : R; ut_F_UT_sin_phih_p_phis : R }.
Record SfBaseUP := mkBaseUP { up_ul : SfBaseUL; up_ut : SfBaseUT }.
Record SfBaseLU := mkBaseLU { lu_F_LU_sin_phih : R }.
Record SfBaseLL := mkBaseLL { ll_F_LL : R; ll_F_LL_cos_phih : R }.
Record SfBaseLT := mkBaseLT {
  lt_F_LT_cos_phih_m_phis : R; lt_F_LT_cos_2phih_m_phis : R; lt_F_LT_cos_phis : R }.
Record SfBaseLP := mkBaseLP { lp_ll : SfBaseLL; lp_lt : SfBaseLT }.
(** structure_function.hpp 369-408. *)
Record SfUU := mkSfUU { sfuu_uu : SfBaseUU }.
Record SfUL := mkSfUL { sful_uu : SfBaseUU; sful_ul : SfBaseUL }.
Record SfUT := mkSfUT { sfut_uu : SfBaseUU; sfut_ut : SfBaseUT }.
Record SfUP := mkSfUP { sfup_uu : SfBaseUU; sfup_ul : SfBaseUL; sfup_ut : SfBaseUT }.
Record SfLU := mkSfLU { sflu_uu : SfBaseUU; sflu_lu : SfBaseLU }.
Record SfLL := mkSfLL { sfll_uu : SfBaseUU; sfll_ul : SfBaseUL; sfll_lu : SfBaseLU; sfll_ll : SfBaseLL }.
Record SfLT := mkSfLT { sflt_uu : SfBaseUU; sflt_ut : SfBaseUT; sflt_lu : SfBaseLU; sflt_lt : SfBaseLT }.
Record SfLP := mkSfLP {
  sflp_uu : SfBaseUU; sflp_ul : SfBaseUL; sflp_ut : SfBaseUT;
  sflp_lu : SfBaseLU; sflp_ll : SfBaseLL; sflp_lt : SfBaseLT }.

Section Getters.
Context {Pt : Type} (s : sf_set Pt) (p : Pt).
(** structure_function.cpp 250-305: positional aggregate initialisation. *)
Definition sf_base_uu : SfBaseUU := mkBaseUU (s F_UUL p) (s F_UUT p) (s F_UU_cos_phih p) (s F_UU_cos_2phih p).
Definition sf_base_ul : SfBaseUL := mkBaseUL (s F_UL_sin_phih p) (s F_UL_sin_2phih p).
Definition sf_base_ut : SfBaseUT :=
  mkBaseUT (s F_UTL_sin_phih_m_phis p) (s F_UTT_sin_phih_m_phis p) (s F_UT_sin_2phih_m_phis p)
    (s F_UT_sin_3phih_m_phis p) (s F_UT_sin_phis p) (s F_UT_sin_phih_p_phis p).
Definition sf_base_up : SfBaseUP := mkBaseUP sf_base_ul sf_base_ut.
Definition sf_base_lu : SfBaseLU := mkBaseLU (s F_LU_sin_phih p).
Definition sf_base_ll : SfBaseLL := mkBaseLL (s F_LL p) (s F_LL_cos_phih p).
Definition sf_base_lt : SfBaseLT :=
  mkBaseLT (s F_LT_cos_phih_m_phis p) (s F_LT_cos_2phih_m_phis p) (s F_LT_cos_phis p).
Definition sf_base_lp : SfBaseLP := mkBaseLP sf_base_ll sf_base_lt.
(** structure_function.cpp 307-365. *)
Definition sf_uu : SfUU := mkSfUU sf_base_uu.
Definition sf_ul : SfUL := mkSfUL sf_base_uu sf_base_ul.
Definition sf_ut : SfUT := mkSfUT sf_base_uu sf_base_ut.
Definition sf_up : SfUP := mkSfUP sf_base_uu sf_base_ul sf_base_ut.
Definition sf_lu : SfLU := mkSfLU sf_base_uu sf_base_lu.
Definition sf_ll : SfLL := mkSfLL sf_base_uu sf_base_ul sf_base_lu sf_base_ll.
Definition sf_lt : SfLT := mkSfLT sf_base_uu sf_base_ut sf_base_lu sf_base_lt.
Definition sf_lp : SfLP := mkSfLP sf_base_uu sf_base_ul sf_base_ut sf_base_lu sf_base_ll sf_base_lt.
End Getters.

(** structure_function.cpp 189-247: the defaults of the base class. *)
Definition SfSet_default {Pt} : sf_set Pt := fun _ _ => 0%R.

(** mask.hpp 14. *)
Definition NUM_SF : nat := 18.
Definition bits (l : list nat) : list bool := map (fun n => negb (Nat.eqb n 0)) l.
(** mask.hpp 17-70. *)
Definition MASK_LEADING    := bits [0; 1; 0; 1; 0; 1; 0; 1; 0; 1; 0; 1; 0; 1; 0; 1; 0; 0].
Definition MASK_SUBLEADING := bits [1; 0; 1; 0; 1; 0; 1; 0; 1; 0; 1; 0; 1; 0; 1; 0; 1; 1].
Definition MASK_UU := bits [1; 1; 1; 1; 0; 0; 0; 0; 0; 0; 0; 0; 0; 0; 0; 0; 0; 0].
Definition MASK_UL := bits [0; 0; 0; 0; 1; 1; 0; 0; 0; 0; 0; 0; 0; 0; 0; 0; 0; 0].
Definition MASK_UT := bits [0; 0; 0; 0; 0; 0; 1; 1; 1; 1; 1; 1; 0; 0; 0; 0; 0; 0].
Definition MASK_UP := bits [0; 0; 0; 0; 1; 1; 1; 1; 1; 1; 1; 1; 0; 0; 0; 0; 0; 0].
Definition MASK_UX := bits [1; 1; 1; 1; 1; 1; 1; 1; 1; 1; 1; 1; 0; 0; 0; 0; 0; 0].
Definition MASK_LU := bits [0; 0; 0; 0; 0; 0; 0; 0; 0; 0; 0; 0; 1; 0; 0; 0; 0; 0].
Definition MASK_LL := bits [0; 0; 0; 0; 0; 0; 0; 0; 0; 0; 0; 0; 0; 1; 1; 0; 0; 0].
Definition MASK_LT := bits [0; 0; 0; 0; 0; 0; 0; 0; 0; 0; 0; 0; 0; 0; 0; 1; 1; 1].
Definition MASK_LP := bits [0; 0; 0; 0; 0; 0; 0; 0; 0; 0; 0; 0; 0; 1; 1; 1; 1; 1].
Definition MASK_LX := bits [0; 0; 0; 0; 0; 0; 0; 0; 0; 0; 0; 0; 1; 1; 1; 1; 1; 1].
Definition MASK_XU := bits [1; 1; 1; 1; 0; 0; 0; 0; 0; 0; 0; 0; 1; 0; 0; 0; 0; 0].
Definition MASK_XL := bits [0; 0; 0; 0; 1; 1; 0; 0; 0; 0; 0; 0; 0; 1; 1; 0; 0; 0].
Definition MASK_XT := bits [0; 0; 0; 0; 0; 0; 1; 1; 1; 1; 1; 1; 0; 0; 0; 1; 1; 1].
Definition MASK_XP := bits [0; 0; 0; 0; 1; 1; 1; 1; 1; 1; 1; 1; 0; 1; 1; 1; 1; 1].
Definition MASK_XX := bits [1; 1; 1; 1; 1; 1; 1; 1; 1; 1; 1; 1; 1; 1; 1; 1; 1; 1].

(** mask.hpp 133-263: the subscript used by each of the eighteen overrides. *)
Definition mask_idx (n : sf_name) : nat :=
  match n with
  | F_UUL => 0 | F_UUT => 1 | F_UU_cos_phih => 2 | F_UU_cos_2phih => 3
  | F_UL_sin_phih => 4 | F_UL_sin_2phih => 5
  | F_UTL_sin_phih_m_phis => 6 | F_UTT_sin_phih_m_phis => 7 | F_UT_sin_2phih_m_phis => 8
  | F_UT_sin_3phih_m_phis => 9 | F_UT_sin_phis => 10 | F_UT_sin_phih_p_phis => 11
  | F_LU_sin_phih => 12
  | F_LL => 13 | F_LL_cos_phih => 14
  | F_LT_cos_phih_m_phis => 15 | F_LT_cos_2phih_m_phis => 16 | F_LT_cos_phis => 17
  end.
(** mask.hpp 101-263: MaskSfSet. The array always has NUM_SF entries here. *)
Definition mask_sf_set {Pt} (mask : list bool) (inner : sf_set Pt) : sf_set Pt :=
  fun n p => if nth (mask_idx n) mask false then inner n p else 0%R.

(** main.cpp 209-215: zip_and. *)
Fixpoint zip_and (a b : list bool) : list bool :=
  match a, b with x :: a', y :: b' => (x && y) :: zip_and a' b' | _, _ => a end.

(** What happens to one filter word. *)
Inductive word_result :=
  | WMask (m : list bool)   (** and the mask with [m] *)
  | WOutOfBounds            (** throw "… because out of bounds" *)
  | WUnrecognized           (** throw "Unrecognized structure function filter" *)
  | WStoulThrows            (** std::stoul throws std::invalid_argument: not a sidisgen exception *).

Definition is_digit (c : ascii) : bool := (48 <=? nat_of_ascii c)%nat && (nat_of_ascii c <=? 57)%nat.
(** main.cpp 309: [std::regex mask_regex("select([0-9]+)", std::regex_constants::basic)], matched whole.
    In the POSIX basic grammar the parentheses and the plus sign are ordinary characters (a group is written
    with backslashes and there is no plus operator), so the pattern is: the text "select(", one digit, the
    text "+)". It contains no group, so match[1] is an empty, unmatched sub-match. *)
Definition basic_select_match (w : string) : bool :=
  match w with
  | String a1 (String a2 (String a3 (String a4 (String a5 (String a6 (String a7 (String d (String a9
      (String a10 EmptyString))))))))) =>
      String.eqb (String a1 (String a2 (String a3 (String a4 (String a5 (String a6 (String a7 EmptyString)))))))
        "select(" && is_digit d && String.eqb (String a9 (String a10 EmptyString)) "+)"
  | _ => false
  end.

(** main.cpp 315-364: the chain of tests on one word. *)
Definition filter_word (w : string) : word_result :=
  if String.eqb w "leading" then WMask MASK_LEADING
  else if String.eqb w "subleading" then WMask MASK_SUBLEADING
  else if String.eqb w "uu" then WMask MASK_UU
  else if String.eqb w "ul" then WMask MASK_UL
  else if String.eqb w "ut" then WMask MASK_UT
  else if String.eqb w "up" then WMask MASK_UP
  else if String.eqb w "ux" then WMask MASK_UX
  else if String.eqb w "lu" then WMask MASK_LU
  else if String.eqb w "ll" then WMask MASK_LL
  else if String.eqb w "lt" then WMask MASK_LT
  else if String.eqb w "lp" then WMask MASK_LP
  else if String.eqb w "lx" then WMask MASK_LX
  else if String.eqb w "xu" then WMask MASK_XU
  else if String.eqb w "xl" then WMask MASK_XL
  else if String.eqb w "xt" then WMask MASK_XT
  else if String.eqb w "xp" then WMask MASK_XP
  else if String.eqb w "xx" then WMask MASK_XX
  else if basic_select_match w then WStoulThrows
  else WUnrecognized.

(** Outcome of alloc_sf (the messages it prints are left out). *)
Inductive alloc_result (A : Type) :=
  | AOk (a : A)
  | AThrow (msg : string) (word : string)  (** a sidisgen exception *)
  | AForeign                              (** another exception: std::invalid_argument *)
  | ANullDeref.                           (** TClass::GetClass returned null and is dereferenced *)
Arguments AOk {A}. Arguments AThrow {A}. Arguments AForeign {A}. Arguments ANullDeref {A}.

(** main.cpp 313-365: the loop, on the words in the order visited. *)
Fixpoint filter_loop (ws : list string) (mask : list bool) : alloc_result (list bool) :=
  match ws with
  | [] => AOk mask
  | w :: ws' =>
      match filter_word w with
      | WMask m => filter_loop ws' (zip_and mask m)
      | WOutOfBounds => AThrow "out of bounds" w
      | WUnrecognized => AThrow "unrecognized filter" w
      | WStoulThrows => AForeign
      end
  end.
(** main.cpp 309-375: filters applied to the base set, words in reverse; mask object only if not full. *)
Definition apply_filters {Pt} (parts : list string) (base : sf_set Pt) : alloc_result (sf_set Pt) :=
  match filter_loop (rev parts) (repeat true NUM_SF) with
  | AOk mask => if forallb (fun b => b) mask then AOk base else AOk (mask_sf_set mask base)
  | AThrow m w => AThrow m w
  | AForeign => AForeign
  | ANullDeref => ANullDeref
  end.

(** tmd.hpp 26, 94, 291, 372 and structure_function.hpp: the library classes a plugin may derive from;
    [CUser b] is a class of the plugin deriving (singly) from [b], [COther] has no base in the library. *)
Inductive cls := CSfSet | CTmdSet | CGaussianTmdSet | CWwTmdSet | CGaussianWwTmdSet | COther | CUser (b : cls).
Definition base_of (c : cls) : option cls :=
  match c with
  | CGaussianTmdSet => Some CTmdSet
  | CWwTmdSet => Some CTmdSet
  | CGaussianWwTmdSet => Some CGaussianTmdSet
  | CUser b => Some b
  | CSfSet | CTmdSet | COther => None
  end.
Definition lib_eqb (a b : cls) : bool :=
  match a, b with
  | CSfSet, CSfSet | CTmdSet, CTmdSet | CGaussianTmdSet, CGaussianTmdSet
  | CWwTmdSet, CWwTmdSet | CGaussianWwTmdSet, CGaussianWwTmdSet => true
  | _, _ => false
  end.
(** TClass::InheritsFrom: the class itself or one of its ancestors. [b] is a library class. *)
Fixpoint inherits_from (c b : cls) : bool :=
  match c with
  | CUser c' => inherits_from c' b
  | CSfSet | CTmdSet | COther => lib_eqb c b
  | CGaussianTmdSet | CWwTmdSet => lib_eqb c b || lib_eqb CTmdSet b
  | CGaussianWwTmdSet => lib_eqb c b || lib_eqb CGaussianTmdSet b || lib_eqb CTmdSet b
  end.

(** Which structure-function class is constructed around the plugin object. *)
Inductive wrapper := UseSfSet | UseTmdSfSet | UseGaussianTmdSfSet | UseWwTmdSfSet | UseGaussianWwTmdSfSet.
(** main.cpp 264-304, after the library was loaded; [None]: the library has no class of that name. *)
Definition plugin_dispatch (c : option cls) : alloc_result wrapper :=
  match c with
  | None => ANullDeref
  | Some c =>
      if inherits_from c CSfSet then AOk UseSfSet
      else if inherits_from c CTmdSet then AOk UseTmdSfSet
      else if inherits_from c CGaussianTmdSet then AOk UseGaussianTmdSfSet
      else if inherits_from c CWwTmdSet then AOk UseWwTmdSfSet
      else if inherits_from c CGaussianWwTmdSet then AOk UseGaussianWwTmdSfSet
      else AThrow "could not find structure functions" ""
  end.

(** main.cpp 228-305: the words and the base word. [load] gives the built-in sets and the plugins found: for a base
    word that is neither built in nor loadable, [LNoFile]. *)
Inductive load_result (Pt : Type) :=
  | LNoFile
  | LClass (c : option cls) (as_set : wrapper -> sf_set Pt).
Arguments LNoFile {Pt}. Arguments LClass {Pt}.
Definition alloc_sf {Pt} (prokudin test : sf_set Pt) (load : string -> load_result Pt) (words : list string)
  : alloc_result (sf_set Pt) :=
  match rev words with
  | [] => AThrow "no structure function provided" ""
  | base :: parts_rev =>
      let parts := rev parts_rev in
      if String.eqb base "prokudin" then apply_filters parts prokudin
      else if String.eqb base "test" then apply_filters parts test
      else match load base with
           | LNoFile => AThrow "failed to load" base
           | LClass c as_set =>
               match plugin_dispatch c with
               | AOk w => apply_filters parts (as_set w)
               | AThrow m w => AThrow m w
               | AForeign => AForeign
               | ANullDeref => ANullDeref
               end
           end
  end.
