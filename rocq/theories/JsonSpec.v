(** Records as a user writes them: every member may be present or absent.  [ren_*] writes them as JSON. *)
From Coq Require Import List Bool Reals String ZArith.
From Verif Require Import UnitsModel CpModel JsonModel.
Import ListNotations.
Open Scope R_scope.
Open Scope string_scope.

Definition dflt {A : Type} (d : A) (o : option A) : A := match o with Some a => a | None => d end.
Definition orelse {A : Type} (o p : option A) : option A := match o with Some a => Some a | None => p end.
Definition mem (k : string) (o : option json) : list (string * json) := match o with Some v => [(k, v)] | None => [] end.

(** {"units": [u], "values": [v], "errors": [e]} *)
Record num : Type := mkNum { n_val : R; n_unit : option string; n_err : option R }.
Definition one (x : json) : json := JArr [x].
Definition ren_num (n : num) : json :=
  JObj (mem "errors" (option_map (fun e => one (JNum e)) (n_err n)) ++ mem "units" (option_map (fun u => one (JStr u)) (n_unit n)) ++ [("values", one (JNum (n_val n)))])%list.
Definition ren_int (z : Z) : json := JNum (IZR z).
(** {"3": "SOME_NAME"} *)
Definition ren_key (k : string * string) : json := JObj [(fst k, JStr (snd k))].

Record erec : Type := mkER { er_name : option string; er_symbol : option string; er_number : option Z; er_S : option num; er_Cp : option num;
  er_M : option num; er_V : option num; er_class : option (string * string); er_iso : option Z }.
Definition ren_elem (r : erec) : json :=
  JObj (mem "atomic_mass" (option_map ren_num (er_M r)) ++ mem "class_" (option_map ren_key (er_class r)) ++ mem "entropy" (option_map ren_num (er_S r)) ++
        mem "heat_capacity" (option_map ren_num (er_Cp r)) ++ mem "isotope_mass" (option_map ren_int (er_iso r)) ++ mem "name" (option_map JStr (er_name r)) ++
        mem "number" (option_map ren_int (er_number r)) ++ mem "symbol" (option_map JStr (er_symbol r)) ++ mem "volume" (option_map ren_num (er_V r)))%list.

(** the value an entry stands for, in the unit [t] *)
Definition reads (convert : R -> string -> string -> jres R) (t : string) (o : option num) (y : option R) : Prop :=
  match o with None => y = None | Some n => exists z, convert (n_val n) (dflt t (n_unit n)) t = JOk z /\ y = Some z end.
(** a reference property: value, error, status *)
Definition reads3 (convert : R -> string -> string -> jres R) (t : string) (o : option num) (y : R * R * bool) : Prop :=
  match o with
  | None => y = (0, 0, false)
  | Some n => exists z e, convert (n_val n) (dflt t (n_unit n)) t = JOk z /\ y = (z, e, true) /\
      match n_err n with None => e = 0 | Some x => convert x (dflt t (n_unit n)) t = JOk e end
  end.
Definition key_of (o : option (string * string)) (z : Z) : Prop := match o with None => z = 0%Z | Some k => stoi (fst k) = Some z end.

(** one entry of TPMethods, coefficients in the units of the program *)
Record mrec : Type := mkMR { mr_key : string; mr_name : string; mr_lim : option (option R * option R); mr_cp : option (list R); mr_ph : option (list R);
  mr_hkf : option (list R); mr_crit : option (list R); mr_ak : option (list R); mr_landau : option (list R); mr_hp : option (list R) }.
Definition ren_list (l : list R) : json := JObj [("values", JArr (map JNum l))].
Definition ren_lim (p : option R * option R) : json := JObj (mem "lowerT" (option_map JNum (fst p)) ++ mem "upperT" (option_map JNum (snd p)))%list.
Definition ren_meth (m : mrec) : json :=
  JObj (mem "eos_akinfiev_diamond_coeffs" (option_map ren_list (mr_ak m)) ++ mem "eos_gas_crit_props" (option_map ren_list (mr_crit m)) ++
        mem "eos_hkf_coeffs" (option_map ren_list (mr_hkf m)) ++ mem "limitsTP" (option_map ren_lim (mr_lim m)) ++
        mem "m_heat_capacity_ft_coeffs" (option_map ren_list (mr_cp m)) ++ mem "m_landau_phase_trans_props" (option_map ren_list (mr_landau m)) ++
        mem "m_phase_trans_props" (option_map ren_list (mr_ph m)) ++ [("method", ren_key (mr_key m, mr_name m))] ++
        mem "solute_holland_powell98_coeff" (option_map ren_list (mr_hp m)))%list.
Record srec : Type := mkSrec { sr_name : option string; sr_symbol : option string; sr_formula : option string; sr_charge : option Z; sr_reaction : option string;
  sr_mass : option num; sr_agg : option (string * string); sr_class : option (string * string); sr_lim : option (option R * option R); sr_Tr : option R; sr_Pr : option R;
  sr_meth : option (list mrec); sr_exp : option num; sr_comp : option num; sr_Cp : option num; sr_G : option num; sr_H : option num; sr_S : option num; sr_V : option num }.
Definition ren_subst (r : srec) : json :=
  JObj (mem "Pst" (option_map JNum (sr_Pr r)) ++ mem "TPMethods" (option_map (fun l => JArr (map ren_meth l)) (sr_meth r)) ++ mem "Tst" (option_map JNum (sr_Tr r)) ++
        mem "aggregate_state" (option_map ren_key (sr_agg r)) ++ mem "class_" (option_map ren_key (sr_class r)) ++ mem "formula" (option_map JStr (sr_formula r)) ++
        mem "formula_charge" (option_map ren_int (sr_charge r)) ++ mem "limitsTP" (option_map ren_lim (sr_lim r)) ++
        mem "m_compressibility" (option_map ren_num (sr_comp r)) ++ mem "m_expansivity" (option_map ren_num (sr_exp r)) ++
        mem "mass_per_mole" (option_map ren_num (sr_mass r)) ++ mem "name" (option_map JStr (sr_name r)) ++ mem "reaction" (option_map JStr (sr_reaction r)) ++
        mem "sm_enthalpy" (option_map ren_num (sr_H r)) ++ mem "sm_entropy_abs" (option_map ren_num (sr_S r)) ++ mem "sm_gibbs_energy" (option_map ren_num (sr_G r)) ++
        mem "sm_heat_capacity_p" (option_map ren_num (sr_Cp r)) ++ mem "sm_volume" (option_map ren_num (sr_V r)) ++ mem "symbol" (option_map JStr (sr_symbol r)))%list.

(** what the program should make of the methods: the last one of a category counts *)
Definition in_cat (c : cat) (x : option (cat * Z)) : option Z :=
  match x with
  | Some (GenEoS, z) => match c with GenEoS => Some z | _ => None end
  | Some (CorrT, z) => match c with CorrT => Some z | _ => None end
  | Some (CorrP, z) => match c with CorrP => Some z | _ => None end
  | None => None
  end.
Fixpoint last_in (c : cat) (xs : list (option (cat * Z))) : Z :=
  match xs with [] => 0%Z | x :: xs' => let r := last_in c xs' in
    match in_cat c x with Some z => if existsb (fun y => match in_cat c y with Some _ => true | None => false end) xs' then r else z | None => r end end.
(** the parameters: lists replace, intervals, heat capacities and transitions accumulate *)
Definition lim_list (p : option (option R * option R)) : list R :=
  match p with None => [] | Some (a, b) => (match a with Some x => [x] | None => [] end ++ match b with Some x => [x] | None => [] end)%list end.
Definition last_list (f : mrec -> option (list R)) (l : list mrec) : list R := fold_left (fun a m => dflt a (f m)) l [].
Definition all_lists (f : mrec -> option (list R)) (l : list mrec) : list (list R) :=
  flat_map (fun m => match f m with Some (x :: r) => [x :: r] | _ => [] end) l.
Definition all_ints (l : list mrec) : list (list R) := flat_map (fun m => if String.eqb (mr_name m) "cp_ft_equation" then [lim_list (mr_lim m)] else []) l.
(** units of the program *)
Definition builtin : list string := ["1"; "(cm^3)/g"; "(cm^3*K^0.5)/g"; "K"; "bar"; "cal/(mol*bar)"; "cal/mol"; "(cal*K)/(mol*bar)"; "(cal*K)/mol"; "cal/(mol*K)";
  "J/(mol*K)"; "J/(mol*K^2)"; "(J*K)/mol"; "J/(mol*K^0.5)"; "J/(mol*K^3)"; "J/(mol*K^4)"; "J/(mol*K^5)"; "(J*K^2)/mol"; "J/mol"; "J/(mol*K^1.5)";
  "J/bar"; "K/bar"; "degC"; "kJ/(mol*K^2)"; "1/K"; "kbar"; "g/mol"; "J/K/mol"; "K^2"; "1/K^2"; "K^0.5"; "1/K^3"; "1/bar"; "1/bar^2"; "K^3"; "kJ/mol"].
Definition keeps (convert : R -> string -> string -> jres R) : Prop := forall x u, In u builtin -> convert x u u = JOk x.

(** ** reactions *)
Record rmrec : Type := mkRM { rm_key : string; rm_name : string; rm_lk : option (list R); rm_cp : option (list R); rm_v : option (list R); rm_rb : option (list R);
  rm_fm : option (list R); rm_dm : option (list R) }.
Definition ren_rmeth (m : rmrec) : json :=
  JObj (mem "dr_dolejs_manning10_coeffs" (option_map ren_list (rm_dm m)) ++ mem "dr_heat_capacity_ft_coeffs" (option_map ren_list (rm_cp m)) ++
        mem "dr_marshall_franck_coeffs" (option_map ren_list (rm_fm m)) ++ mem "dr_ryzhenko_coeffs" (option_map ren_list (rm_rb m)) ++
        mem "dr_volume_fpt_coeffs" (option_map ren_list (rm_v m)) ++ mem "logk_ft_coeffs" (option_map ren_list (rm_lk m)) ++
        [("method", ren_key (rm_key m, rm_name m))])%list.
Definition ren_reactant (p : string * R) : json := JObj [("coefficient", JNum (snd p)); ("symbol", JStr (fst p))].
Record rrec : Type := mkRrec { rr_name : option string; rr_symbol : option string; rr_equation : option string; rr_lim : option (option R * option R);
  rr_Tr : option R; rr_Pr : option R; rr_reactants : option (list (string * R)); rr_meth : option (list rmrec);
  rr_lK : option num; rr_Cp : option num; rr_G : option num; rr_H : option num; rr_S : option num; rr_V : option num }.
Definition ren_reac (r : rrec) : json :=
  JObj (mem "Pst" (option_map JNum (rr_Pr r)) ++ mem "TPMethods" (option_map (fun l => JArr (map ren_rmeth l)) (rr_meth r)) ++ mem "Tst" (option_map JNum (rr_Tr r)) ++
        mem "drsm_enthalpy" (option_map ren_num (rr_H r)) ++ mem "drsm_entropy" (option_map ren_num (rr_S r)) ++ mem "drsm_gibbs_energy" (option_map ren_num (rr_G r)) ++
        mem "drsm_heat_capacity_p" (option_map ren_num (rr_Cp r)) ++ mem "drsm_volume" (option_map ren_num (rr_V r)) ++ mem "equation" (option_map JStr (rr_equation r)) ++
        mem "limitsTP" (option_map ren_lim (rr_lim r)) ++ mem "logKr" (option_map ren_num (rr_lK r)) ++ mem "name" (option_map JStr (rr_name r)) ++
        mem "reactants" (option_map (fun l => JArr (map ren_reactant l)) (rr_reactants r)) ++ mem "symbol" (option_map JStr (rr_symbol r)))%list.
(** the coefficient of a symbol: the last entry counts *)
Fixpoint look (k : string) (l : list (string * R)) : option R := match l with [] => None | (k', v) :: l' => if String.eqb k k' then Some v else look k l' end.
Definition last_entry (k : string) (l : list (string * R)) : option R := look k (rev l).
Definition last_rlist (f : rmrec -> option (list R)) (l : list rmrec) : list R := fold_left (fun a m => dflt a (f m)) l [].

(** ** members the readers look at; a null member counts as absent *)
Definition known_e : list string := ["properties"; "name"; "symbol"; "number"; "entropy"; "heat_capacity"; "atomic_mass"; "volume"; "isotope_mass"].
Definition known_s : list string := ["properties"; "name"; "symbol"; "formula"; "formula_charge"; "reaction"; "mass_per_mole"; "aggregate_state"; "class_"; "limitsTP"; "Tst"; "Pst";
  "m_expansivity"; "m_compressibility"; "sm_heat_capacity_p"; "sm_gibbs_energy"; "sm_enthalpy"; "sm_entropy_abs"; "sm_volume"].
Definition known_r : list string := ["properties"; "name"; "symbol"; "equation"; "limitsTP"; "Tst"; "Pst"; "reactants"; "TPMethods";
  "logKr"; "drsm_heat_capacity_p"; "drsm_gibbs_energy"; "drsm_enthalpy"; "drsm_entropy"; "drsm_volume"].
Definition same_member (j j' : json) (k : string) : Prop := field j k = field j' k \/ (field j k = Some JNull /\ field j' k = None).
(** methods offered to the writer of a database (GlobalVariables.h:148-215) *)
Definition offered_s : list (Z * string) := [(0, "cp_ft_equation"); (1, "cp_ft_equation_saxena86"); (2, "solute_hkf88_gems"); (3, "solute_hkf88_reaktoro"); (4, "solute_aknifiev_diamond03");
  (5, "landau_holland_powell98"); (6, "landau_berman88"); (8, "fug_critical_param"); (9, "fluid_prsv"); (10, "fluid_churakov_gottschalk"); (11, "fluid_soave_redlich_kwong");
  (12, "fluid_sterner_pitzer"); (13, "fluid_peng_robinson78"); (14, "fluid_comp_redlich_kwong_hp91"); (25, "water_diel_jnort91_reaktoro"); (26, "water_diel_jnort91_gems");
  (27, "water_diel_sverj14"); (28, "water_diel_fern97"); (29, "water_eos_hgk84_lvs83_gems"); (30, "water_eos_iapws95_gems"); (31, "water_eos_hgk84_reaktoro");
  (32, "water_eos_iapws95_reaktoro"); (33, "water_pvt_zhang_duan05"); (34, "mv_constant"); (35, "mv_equation_dorogokupets88"); (36, "mv_equation_berman88");
  (37, "mv_eos_birch_murnaghan_gott97"); (38, "mv_eos_murnaghan_hp98"); (39, "mv_eos_tait_hp11"); (40, "mv_pvnrt"); (41, "solute_holland_powell98"); (42, "solute_anderson91");
  (43, "standard_entropy_cp_integration")]%Z.
Definition offered_r : list (Z * string) := [(0, "logk_fpt_function"); (3, "logk_nordstrom_munoz88"); (4, "logk_1_term_extrap0"); (5, "logk_1_term_extrap1"); (6, "logk_2_term_extrap");
  (7, "logk_3_term_extrap"); (8, "logk_lagrange_interp"); (9, "logk_marshall_frank78"); (10, "solute_eos_ryzhenko_gems"); (11, "dr_heat_capacity_ft"); (12, "dr_volume_fpt");
  (13, "dr_volume_constant"); (14, "logk_dolejs_manning10")]%Z.
(** ** substances: keys, parameters, limits *)
Definition keyed (l : list mrec) (ks : list Z) : Prop := List.Forall2 (fun m z => stoi (mr_key m) = Some z) l ks.
Definition par_of (l : list mrec) (x c : option R) : sparams :=
  mkPS (last_list mr_ak l) (last_list mr_crit l) (last_list mr_hkf l) (all_ints l) (all_lists mr_cp l) (all_lists mr_ph l) (last_list mr_landau l) (last_list mr_hp l) x c.
Definition unitless_hack (u : string) (o : option num) : Prop := match o with Some n => n_unit n <> Some u | None => True end.
Definition low (p : option (option R * option R)) : option R := match p with Some (a, _) => a | None => None end.
Definition upp (p : option (option R * option R)) : option R := match p with Some (_, b) => b | None => None end.
(** what the record says about the methods: numeric keys, expansivity and compressibility *)
Definition meth_ok (convert : R -> string -> string -> jres R) (r : srec) (ks : list Z) (x c : option R) : Prop :=
  match sr_meth r with
  | None => ks = [] /\ x = Some 0 /\ c = Some 0
  | Some l => keyed l ks /\ unitless_hack "kbar" (sr_exp r) /\ unitless_hack "1e-05/K" (sr_comp r) /\ reads convert "1/K" (sr_exp r) x /\ reads convert "kbar" (sr_comp r) c
  end.
(** ** reactions *)
Definition rkeyed (l : list rmrec) (ks : list Z) : Prop := List.Forall2 (fun m z => stoi (rm_key m) = Some z) l ks.
Definition rpar_of (l : list rmrec) : rparams :=
  mkPR (last_rlist rm_lk l) (last_rlist rm_cp l) (last_rlist rm_v l) (last_rlist rm_rb l) (last_rlist rm_fm l) (last_rlist rm_dm l).
Definition rmeth_ok (r : rrec) (ks : list Z) : Prop := match rr_meth r with None => ks = [] | Some l => rkeyed l ks end.
Definition same_on (ks : list string) (j j' : json) : Prop := forall k, In k ks -> same_member j j' k.
(** coefficient vectors the reader does not look for *)
Definition read_s : list string := ["eos_akinfiev_diamond_coeffs"; "eos_gas_crit_props"; "eos_hkf_coeffs"; "limitsTP"; "m_heat_capacity_ft_coeffs"; "m_phase_trans_props";
  "m_landau_phase_trans_props"; "solute_holland_powell98_coeff"].
(** ** heat capacity records *)
Definition with_methods (l : list mrec) : srec := mkSrec None None None None None None None None None None None (Some l) None None None None None None None.
Record cpr : Type := mkCpr { c_lo : R; c_up : R; c_co : list R; c_tr : option (list R) }.
Definition cp_meth (x : cpr) : mrec := mkMR "0" "cp_ft_equation" (Some (Some (c_lo x), Some (c_up x))) (Some (c_co x)) (c_tr x) None None None None None.
Definition given_lists (l : list cpr) : list (list R) := flat_map (fun x => match c_tr x with Some t => [t] | None => [] end) l.
Definition cp_data (s : subst) (G H S : R) : cpdat := mkCp (p_int (s_par s)) (p_cp (s_par s)) (p_ph (s_par s)) (s_Tr s) G H S.
