(** Property theorems C30, C31, C60, C61: reading JSON records. *)
From Coq Require Import List Bool Reals Lra String Ascii ZArith.
From Verif Require Import UnitsModel CpModel CpSpec JsonModel JsonSpec JsonProofs JsonReac JsonMore JsonWit.
Import ListNotations.
Open Scope R_scope.
Open Scope string_scope.

(** C30: whatever members of a substance record are present, each goes into its own slot and absent
    ones leave the default; only mass_per_mole has no default (None: indeterminate) *)
Theorem C30_substance : forall r ks mass ag cl x c a b h d v,
  reads uconvert "g/mol" (sr_mass r) mass -> key_of (sr_agg r) ag -> key_of (sr_class r) cl -> meth_ok uconvert r ks x c ->
  reads3 uconvert "J/K/mol" (sr_Cp r) a -> reads3 uconvert "J/mol" (sr_G r) b -> reads3 uconvert "J/mol" (sr_H r) h ->
  reads3 uconvert "J/K/mol" (sr_S r) d -> reads3 uconvert "J/bar" (sr_V r) v ->
  exists s, parseSubstance uconvert (ren_subst r) = JOk s /\
  (s_name s = dflt "" (sr_name r) /\ s_symbol s = dflt "" (sr_symbol r) /\ s_formula s = dflt "" (sr_formula r) /\ s_charge s = dflt 0%Z (sr_charge r) /\
   s_reaction s = dflt "" (sr_reaction r) /\ s_agg s = ag /\ s_class s = cl) /\
  (s_lowT s = dflt 0 (low (sr_lim r)) /\ s_upT s = dflt 0 (upp (sr_lim r)) /\ s_Tr s = dflt (29815 / 100) (sr_Tr r) /\ s_Pr s = dflt 100000 (sr_Pr r)) /\
  s_mass s = mass /\
  s_refs s = mkSR a b h d v /\
  s_meth s = mkMe (last_in GenEoS (map s_method ks)) (last_in CorrT (map s_method ks)) (last_in CorrP (map s_method ks)) /\
  s_par s = par_of (dflt [] (sr_meth r)) x c /\
  s_reacdc s = match sr_meth r, sr_reaction r with None, Some _ => true | _, _ => false end.
Proof. exact (substance_read uconvert uconvert_keeps). Qed.
Print Assumptions C30_substance.
Theorem C30_reaction : forall fromEquation r ks k a b h d v,
  rmeth_ok r ks ->
  reads3 uconvert "1" (rr_lK r) k -> reads3 uconvert "J/K/mol" (rr_Cp r) a -> reads3 uconvert "J/mol" (rr_G r) b -> reads3 uconvert "J/mol" (rr_H r) h ->
  reads3 uconvert "J/K/mol" (rr_S r) d -> reads3 uconvert "J/bar" (rr_V r) v ->
  exists s, parseReaction uconvert fromEquation (ren_reac r) = JOk s /\
  (r_name s = dflt "" (rr_name r) /\ r_symbol s = dflt "" (rr_symbol r) /\ r_equation s = dflt "" (rr_equation r)) /\
  (r_lowT s = dflt 0 (low (rr_lim r)) /\ r_upT s = dflt 0 (upp (rr_lim r)) /\ r_Tr s = dflt (29815 / 100) (rr_Tr r) /\ r_Pr s = dflt 100000 (rr_Pr r)) /\
  match rr_reactants r with
  | Some l => NoDup (map fst (r_reactants s)) /\ forall q, look q (r_reactants s) = last_entry q l
  | None => r_reactants s = match rr_equation r with Some e => fromEquation e | None => [] end
  end /\
  r_refs s = Some (mkRR k a b h d v) /\
  r_meth s = mkMe (last_in GenEoS (map r_method ks)) (last_in CorrT (map r_method ks)) (last_in CorrP (map r_method ks)) /\
  r_par s = rpar_of (dflt [] (rr_meth r)).
Proof. exact (fun f => reaction_read uconvert f uconvert_keeps). Qed.
Print Assumptions C30_reaction.
(** elements: what is given is right; an absent value takes the one read before it *)
Theorem C30_element_partial : forall r a b c d z,
  reads uconvert "J/(mol*K)" (er_S r) a -> reads uconvert "J/(mol*K)" (er_Cp r) b -> reads uconvert "g/mol" (er_M r) c -> reads uconvert "J/bar" (er_V r) d -> key_of (er_class r) z ->
  exists e, parseElement uconvert (ren_elem r) = JOk e /\
  e_name e = dflt "" (er_name r) /\ e_symbol e = dflt "" (er_symbol r) /\ e_number e = dflt 0%Z (er_number r) /\
  e_S e = a /\ e_Cp e = orelse b a /\ e_mass e = orelse c (orelse b a) /\ e_V e = orelse d (orelse c (orelse b a)) /\
  e_class e = z /\ e_iso e = dflt 0%Z (er_iso r).
Proof. exact (element_read uconvert). Qed.
Print Assumptions C30_element_partial.
Theorem C30_absent_copied_refuted : exists e, parseElement uconvert (ren_elem h_e) = JOk e /\ er_Cp h_e = None /\ er_M h_e = None /\ er_V h_e = None /\
  e_Cp e = Some 65 /\ e_mass e = Some 65 /\ e_V e = Some 65.
Proof. exact absent_takes_entropy. Qed.
Print Assumptions C30_absent_copied_refuted.
Theorem C30_absent_indeterminate_refuted : (exists e, parseElement uconvert (ren_elem no_e) = JOk e /\ e_S e = None /\ e_Cp e = None /\ e_mass e = None /\ e_V e = None) /\
  (exists s, parseSubstance uconvert (ren_subst no_s) = JOk s /\ s_mass s = None).
Proof. exact (conj absent_indeterminate mass_indeterminate). Qed.
Print Assumptions C30_absent_indeterminate_refuted.
(** a null member counts as absent, and members the program does not know do not matter *)
Theorem C30_null_and_unknown : forall convert fromEquation j j',
  (same_on known_e j j' -> field j "class_" = field j' "class_" -> parseElement convert j = parseElement convert j') /\
  (same_on known_s j j' -> field j "TPMethods" = field j' "TPMethods" -> parseSubstance convert j = parseSubstance convert j') /\
  (same_on known_r j j' -> parseReaction convert fromEquation j = parseReaction convert fromEquation j').
Proof. exact (fun c f j j' => conj (element_same c j j') (conj (substance_same c j j') (reaction_same c f j j'))). Qed.
Print Assumptions C30_null_and_unknown.
Theorem C30_tpmethods_null_refuted : exists l s s', parseSubstance uconvert (JObj (("TPMethods", JNull) :: l)) = JOk s /\ parseSubstance uconvert (JObj l) = JOk s' /\ s_reacdc s <> s_reacdc s'.
Proof. exact tpmethods_null. Qed.
Print Assumptions C30_tpmethods_null_refuted.
(** malformed members: the rest is lost without a word, an exception of another type, undefined behaviour *)
Theorem C30_malformed_refuted : (exists s, parseSubstance uconvert j_null = JOk s /\ rG (s_refs s) = (0, 0, false) /\ p_hkf (s_par s) = []) /\
  parseSubstance uconvert j_key = JStd /\ parseSubstance uconvert j_emp = JUB.
Proof. exact (conj null_loses (conj key_escapes empty_ub)). Qed.
Print Assumptions C30_malformed_refuted.
Definition ex_num (x : R) : option num := Some (mkNum x None None).
Definition ex_s : srec := mkSrec (Some "Quartz") (Some "Qtz") (Some "SiO2") None None None (Some ("3", "AS_CRYSTAL")) None (Some (None, Some 900)) None None
  (Some [mkMR "0" "cp_ft_equation" (Some (Some 298, Some 848)) (Some [46; 3]) None None None None None None]) None None None (ex_num (-856)) None (ex_num 41) None.
Example C30_example : keyed (dflt [] (sr_meth ex_s)) [0%Z] /\ stoi "3" = Some 3%Z /\ reads3 uconvert "J/mol" (sr_G ex_s) (-856, 0, true) /\ reads3 uconvert "J/bar" (sr_V ex_s) (0, 0, false).
Proof.
  split; [repeat constructor|split; [reflexivity|split; [|reflexivity]]].
  exists (-856), 0; split; [apply uconvert_keeps; cbn; tauto|split; reflexivity].
Qed.

(** C31: each offered method but two is honoured when it is the last of its category, and no two are confused *)
Theorem C31_offered_partial : forall k n, In (k, n) offered_s -> k <> 41%Z -> k <> 42%Z -> exists c z, z <> 0%Z /\ forall pre, last_in c (map s_method (pre ++ [k])) = z.
Proof. exact offered_last. Qed.
Print Assumptions C31_offered_partial.
Theorem C31_reaction_methods : forall k n, In (k, n) offered_r -> exists c z, z <> 0%Z /\ forall pre, last_in c (map r_method (pre ++ [k])) = z.
Proof. exact roffered_last. Qed.
Print Assumptions C31_reaction_methods.
Theorem C31_not_confused : forall k k', In k (map fst offered_s) -> In k' (map fst offered_s) -> s_method k = s_method k' -> s_method k <> None -> k = k'.
Proof. exact offered_distinct. Qed.
Print Assumptions C31_not_confused.
Theorem C31_codes_stored : forall l ks, keyed l ks -> exists s, parseSubstance uconvert (ren_subst (with_methods l)) = JOk s /\
  s_meth s = mkMe (last_in GenEoS (map s_method ks)) (last_in CorrT (map s_method ks)) (last_in CorrP (map s_method ks)) /\ s_par s = par_of l None None.
Proof. exact with_methods_read. Qed.
Print Assumptions C31_codes_stored.
(** the two that are not; two methods of one category; offered coefficient vectors that are not read *)
Theorem C31_offered_ignored_refuted : forall l, (forall m, In m l -> m = m_of "41" "solute_holland_powell98" \/ m = m_of "42" "solute_anderson91") ->
  exists s, parseSubstance uconvert (ren_subst (with_methods l)) = JOk s /\ s_meth s = mkMe 0 0 0.
Proof. exact hp98_ignored. Qed.
Print Assumptions C31_offered_ignored_refuted.
Theorem C31_first_method_lost_refuted : exists s, parseSubstance uconvert (ren_subst (with_methods [m_of "0" "cp_ft_equation"; m_of "2" "solute_hkf88_gems"])) = JOk s /\ s_meth s = mkMe 101 0 0.
Proof. exact second_wins. Qed.
Print Assumptions C31_first_method_lost_refuted.
Theorem C31_coefficients_dropped_refuted : forall k x l name ps,
  In k ["m_volume_fpt_coeffs"; "eos_birch_murnaghan_coeffs"; "eos_churakov_gottschalk_coeffs"; "m_berman_phase_trans_props"; "solute_holland_powell98_coeffs"; "solute_anderson91_coeffs"] ->
  thermoParamSubst uconvert (JObj ((k, x) :: l)) name ps = thermoParamSubst uconvert (JObj l) name ps.
Proof. exact offered_coefficients_dropped. Qed.
Print Assumptions C31_coefficients_dropped_refuted.
Example C31_example : In (36, "mv_equation_berman88")%Z offered_s /\ In (41, "solute_holland_powell98")%Z offered_s /\ last_in CorrP (map s_method [34; 2; 36]%Z) = 307%Z.
Proof. split; [cbn; tauto|split; [cbn; tauto|reflexivity]]. Qed.

(** C60: every unit the program reads coefficients into is one it knows, and leaves values as they are *)
Theorem C60_own_units : forall x u, In u builtin -> uconvert x u u = JOk x.
Proof. exact uconvert_keeps. Qed.
Print Assumptions C60_own_units.
(** coefficients given with units are each converted from their own unit to the one of their place; HKF coefficients excepted, see below *)
Theorem C60_each_unit_partial : forall conv us vs j data to values r, field j data = Some (JObj [("units", JArr (map JStr us)); ("values", JArr (map JNum vs))]) ->
  data <> "eos_hkf_coeffs" -> read_values_units conv j data values to = JOk r ->
  List.length r = List.length vs /\ forall k v, nth_error vs k = Some v -> nth k us "" <> "" -> nth k to "" <> "" ->
    exists y, nth_error r k = Some y /\ conv v (nth k us "") (nth k to "") = JOk y.
Proof. exact units_each. Qed.
Print Assumptions C60_each_unit_partial.
(** all units given for HKF coefficients are dropped when the third one is (cal*K)/mol *)
Theorem C60_hkf_units_refuted : forall us vs ps l name, (3 <= List.length us)%nat -> nth 2 us "" = "(cal*K)/mol" ->
  l = [("eos_hkf_coeffs", JObj [("units", JArr (map JStr us)); ("values", JArr (map JNum vs))])] -> name <> "cp_ft_equation" ->
  exists ps', thermoParamSubst uconvert (JObj l) name ps = JOk ps' /\ p_hkf ps' = vs.
Proof. exact hkf_units_dropped. Qed.
Print Assumptions C60_hkf_units_refuted.
Example C60_example : In "(cal*K)/(mol*bar)" builtin /\ nth 2 ["J/(mol*bar)"; "J/mol"; "(cal*K)/mol"] "" = "(cal*K)/mol".
Proof. split; [cbn; tauto|reflexivity]. Qed.

(** C61: heat capacities of a record, from the JSON text to the reported value *)
Theorem C61_heat_capacity : forall l k x T G H S, (forall x, In x l -> c_co x <> [] /\ c_tr x <> Some []) ->
  cp_rec (mkCp (rows (map (fun x => (c_lo x, c_up x)) l)) (map c_co l) (given_lists l) (29815 / 100) G H S) (map (fun x => (c_lo x, c_up x)) l) ->
  nth_error l k = Some x -> chosen (map (fun x => (c_lo x, c_up x)) l) k T -> 0 < T -> nth 9 (c_co x) 0 = 0 ->
  exists s q, parseSubstance uconvert (ren_subst (with_methods (map cp_meth l))) = JOk s /\ empCp (cp_data s G H S) T = COk q /\ pCp q = cp_poly (c_co x) T.
Proof. exact cp_end_to_end. Qed.
Print Assumptions C61_heat_capacity.
(** an entry without coefficients shifts those of the following ones to its own interval *)
Theorem C61_shifted_refuted : exists s q, parseSubstance uconvert (ren_subst (with_methods [cp_bare 1 10 None; cp_bare 10 100 (Some [7])])) = JOk s /\
  p_int (s_par s) = [[1; 10]; [10; 100]] /\ p_cp (s_par s) = [[7]] /\ empCp (cp_data s 0 0 0) 5 = COk q /\ pCp q = 7.
Proof. exact misaligned. Qed.
Print Assumptions C61_shifted_refuted.
Definition ex_cp : list cpr := [mkCpr 200 400 [1; 2] None; mkCpr 400 800 [3; 4] (Some [400; 2; 800])].
Example C61_example : (forall x, In x ex_cp -> c_co x <> [] /\ c_tr x <> Some []) /\
  cp_rec (mkCp (rows (map (fun x => (c_lo x, c_up x)) ex_cp)) (map c_co ex_cp) (given_lists ex_cp) (29815 / 100) 0 0 0) (map (fun x => (c_lo x, c_up x)) ex_cp) /\
  chosen (map (fun x => (c_lo x, c_up x)) ex_cp) 1 500.
Proof.
  split; [intros x [<-|[<-|[]]]; split; discriminate|]. split.
  - split; try reflexivity; cbn.
    + repeat split; lra.
    + intros p [<-|[<-|[]]]; cbn; lra.
    + lra.
    + exists 2%nat; repeat constructor.
    + unfold trans_ok; cbn; repeat constructor; do 3 eexists; (split; [reflexivity|]); cbn; lra.
  - exists (400, 800); split; [reflexivity|left; cbn; lra].
Qed.
