(** Model of the catalogue of methods, GlobalFunctions.cpp.  Definitions only. *)
From Coq Require Import String List ZArith DecimalString.
From Verif Require Import JsonModel.
Import ListNotations.
Local Open Scope string_scope.

(** std::to_string of a code *)
Definition dec (k : Z) : string := NilZero.string_of_uint (N.to_uint (Z.to_N k)).
(** std::map::at: None stands for std::out_of_range *)
Fixpoint at_ (k : Z) (m : list (Z * list string)) : option (list string) :=
  match m with [] => None | (k', v) :: m' => if Z.eqb k k' then Some v else at_ k m' end.
(** GlobalFunctions.cpp:11-18, 51-58: one line, as the JSON value it spells *)
Definition line (k : Z) (n : string) (ps : list string) : json :=
  JObj (("method", JObj [(dec k, JStr n)]) ::
        match ps with [p] => if String.eqb p "" then [] else [(p, JObj [("values", JArr [])])] | _ => [] end).
(** GlobalFunctions.cpp:6-21, 46-61: the lines in the order of the codes *)
Fixpoint catalogue (par : list (Z * list string)) (off : list (Z * string)) : option (list json) :=
  match off with
  | [] => Some []
  | (k, n) :: off' => match at_ k par with
                      | None => None
                      | Some ps => match catalogue par off' with None => None | Some r => Some (line k n ps :: r) end
                      end
  end.
(** GlobalVariables.h:232-266 substance_method_parameters with the codes of 83-128 *)
Definition par_s : list (Z * list string) := [
  (0, ["m_heat_capacity_ft_coeffs"]); (1, ["m_heat_capacity_ft_coeffs"]); (2, ["eos_hkf_coeffs"]); (3, ["eos_hkf_coeffs"]);
  (4, ["eos_akinfiev_diamond_coeffs"]); (5, ["m_landau_phase_trans_props"]); (6, ["m_berman_phase_trans_props"]); (8, ["eos_gas_crit_props"]);
  (9, [""]); (10, ["eos_churakov_gottschalk_coeffs"]); (11, [""]); (12, [""]); (13, [""]); (14, [""]); (25, [""]); (26, [""]); (27, [""]);
  (28, [""]); (29, [""]); (30, [""]); (31, [""]); (32, [""]); (33, [""]); (34, [""]); (35, ["m_volume_fpt_coeffs"]); (36, ["m_volume_fpt_coeffs"]);
  (37, ["eos_birch_murnaghan_coeffs"]); (38, ["eos_birch_murnaghan_coeffs"]); (39, [""]); (40, [""]); (41, ["solute_holland_powell98_coeffs"]);
  (42, ["solute_anderson91_coeffs"]); (43, [""])]%Z.
(** GlobalVariables.h:213-229 reaction_method_parameters with the codes of 130-146 *)
Definition par_r : list (Z * list string) := [
  (0, ["logk_ft_coeffs"]); (1, [""]); (2, [""]); (3, ["logk_ft_coeffs"]); (4, ["logk_ft_coeffs"]); (5, ["logk_ft_coeffs"]); (6, ["logk_ft_coeffs"]);
  (7, ["logk_ft_coeffs"]); (8, [""]); (9, ["dr_marshall_franck_coeffs"]); (10, ["dr_ryzhenko_coeffs"]); (11, ["dr_heat_capacity_ft_coeffs"]);
  (12, ["dr_volume_fpt_coeffs"]); (13, [""]); (14, ["dr_dolejs_manning10_coeffs"])]%Z.
