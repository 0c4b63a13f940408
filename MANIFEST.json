{
 "claims": [
  {
   "property": "C01",
   "status": "partial",
   "theorems": [
    "C01_derivatives_exact",
    "C01_pow_one_at_zero_refuted"
   ],
   "note": "Proved for every expression built from the operators on its domain; the one-argument-at-zero power case is refuted by witness."
  },
  {
   "property": "C02",
   "status": "proved",
   "theorems": [
    "C02_status_propagation"
   ],
   "note": ""
  },
  {
   "property": "C03",
   "status": "partial",
   "theorems": [
    "C03_error_nonneg",
    "C03_in_place_error_negative_refuted"
   ],
   "note": "Non-negative for all binary/unary operators; refuted for the in-place operators."
  },
  {
   "property": "C04",
   "status": "partial",
   "theorems": [
    "C04_error_propagation",
    "C04_sqrt_log_pow_rdiv_refuted",
    "C04_product_with_zero_refuted"
   ],
   "note": "Refuted for sqrt, log, pow, scalar/x and products with a zero factor; proved for the remaining operators."
  },
  {
   "property": "C05",
   "status": "partial",
   "theorems": [
    "C05_in_place_agree",
    "C05_in_place_status",
    "C05_in_place_error"
   ],
   "note": "Values, derivatives and statuses agree for all operands; the error agrees up to sign for non-zero values only (C03 has the negative-error witness)."
  },
  {
   "property": "C06",
   "status": "partial",
   "theorems": [
    "C06_memoize_transparent",
    "C06_memoizeN_transparent",
    "C06_memoize_once",
    "C06_memoize_calls",
    "C06_memoizeLast_transparent",
    "C06_memoizeLast_refuted"
   ],
   "note": "memoize and memoizeN proved; memoizeLast refuted for the value-initialised first key and after an exception."
  },
  {
   "property": "C07",
   "status": "partial",
   "theorems": [
    "C07_memoizeN_bounded",
    "C07_hit_partial",
    "C07_hit_recomputed_refuted",
    "C07_evicts_oldest_insertion",
    "C07_not_lru_refuted",
    "C07_copies_exceed_bound_refuted"
   ],
   "note": "Bound proved for one wrapper; recently-used retention and shared copies refuted."
  },
  {
   "property": "C08",
   "status": "partial",
   "theorems": [
    "C08_reference_keys_values",
    "C08_reference_keys_equiv_partial",
    "C08_writeback_lost_refuted",
    "C08_dangling_key_refuted"
   ],
   "note": "Conditional on live, unmodified references; write-back and dangling keys refuted."
  },
  {
   "property": "C09",
   "status": "partial",
   "theorems": [
    "C09_settings_ignored_refuted",
    "C09_settings_ignored_reaction_refuted",
    "C09_stale_witnesses_refuted",
    "C09_history_partial"
   ],
   "note": "Refuted: a cached answer ignores every later change of data or settings. Proved: without changes, histories of queries are answered as by uncached evaluation, for databases without gas models."
  },
  {
   "property": "C10",
   "status": "partial",
   "theorems": [
    "C10_reaction_sum_partial",
    "C10_order",
    "C10_Cv_U_A_last_refuted",
    "C10_not_a_sum_refuted"
   ],
   "note": "Five of eight properties are the sum, in any order; Cv, U and A are refuted (last species only)."
  },
  {
   "property": "C11",
   "status": "partial",
   "theorems": [
    "C10_reaction_sum_partial",
    "C11_conVol_logK_partial",
    "C11_conVol_lnK_refuted",
    "C11_lnK_derivative_refuted"
   ],
   "note": "Proved for reactions from reactants; refuted for lnK under the constant-volume correction and for the temperature derivative of lnK. Reaction models: see C36, C37."
  },
  {
   "property": "C12",
   "status": "partial",
   "theorems": [
    "C12_reacDC_inverse_partial",
    "C12_conVol_refuted"
   ],
   "note": "Proved for all substances without a constant-volume pressure method and without fallback; refuted with constant volume."
  },
  {
   "property": "C13",
   "status": "partial",
   "theorems": [
    "C13_grounded_terminates_partial",
    "C13_cycle_refuted",
    "C13_no_reaction_refuted",
    "C13_witness_refuted"
   ],
   "note": "Every query on a reference graph without infinite chains ends; cycles and missing reactions are refuted."
  },
  {
   "property": "C14",
   "status": "proved",
   "theorems": [
    "C14_proton_zero"
   ],
   "note": "After any history of operations."
  },
  {
   "property": "C15",
   "status": "partial",
   "theorems": [
    "C15_fills_gaps_only_partial",
    "C15_no_gap_left"
   ],
   "note": "Direct substances: exactly the gaps are filled. Substances calculated through reactions: no gap with a reference value is left."
  },
  {
   "property": "C51",
   "status": "partial",
   "theorems": [
    "C51_queries_change_no_settings_partial",
    "C51_solvent_kept",
    "C51_solvent_replaced_refuted"
   ],
   "note": "Refuted for a solvent symbol missing from the database, proved otherwise."
  },
  {
   "property": "C52",
   "status": "partial",
   "theorems": [
    "C52_state_preference_ignored_refuted",
    "C52_enable_memoize_ignored"
   ],
   "note": "Refuted: removing either setting from any history changes no answer."
  },
  {
   "property": "C53",
   "status": "partial",
   "theorems": [
    "C53_gas_order_refuted",
    "C09_history_partial"
   ],
   "note": "Refuted for gases (flag applyPressureCorrection leaks); proved for databases without gas models."
  },
  {
   "property": "C54",
   "status": "partial",
   "theorems": [
    "C54_convention_shift_partial"
   ],
   "note": "Substances evaluated by a model of their own, fallback off."
  },
  {
   "property": "C16",
   "status": "proved",
   "theorems": [
    "C16_substances",
    "C16_reactions",
    "C16_elements"
   ],
   "note": "Any history, any json library and record type."
  },
  {
   "property": "C17",
   "status": "partial",
   "theorems": [
    "C17_split_partial",
    "C17_prefix_loaded",
    "C17_formula_data_stale_refuted",
    "C17_element_mass_stale_refuted",
    "C17_one_by_one_refuted",
    "C17_half_loaded_refuted"
   ],
   "note": "Loading is a fold over the records up to the first failure. Refuted: an error leaves half the file loaded, and earlier formula data are not refreshed."
  },
  {
   "property": "C18",
   "status": "proved",
   "theorems": [
    "C18_listings",
    "C18_insertion_order"
   ],
   "note": "Any history."
  },
  {
   "property": "C19",
   "status": "partial",
   "theorems": [
    "C19_element_order_refuted",
    "C19_element_both_below_refuted",
    "C19_equal_yet_below_refuted",
    "C19_one_valence_partial",
    "C19_substance_order"
   ],
   "note": "Refuted for element keys (not antisymmetric); proved for elements of one valence and for substances and reactions."
  },
  {
   "property": "C20",
   "status": "proved",
   "theorems": [
    "C20_round_trip",
    "C20_signed_numbers",
    "C20_plus_needs_space_refuted",
    "C20_exponent_eaten_refuted",
    "C20_no_equals_refuted"
   ],
   "note": "Any number of species, any spacing, integer and decimal coefficients. The refuted theorems show the texts outside the grammar that are misread without an error."
  },
  {
   "property": "C21",
   "status": "partial",
   "theorems": [
    "C21_last_occurrence_counts",
    "C21_empty_piece",
    "C21_repeated_species_refuted",
    "C21_net_partial",
    "C21_old_species_kept_refuted"
   ],
   "note": "Refuted: the last occurrence overwrites. Proved when no species is repeated."
  },
  {
   "property": "C55",
   "status": "partial",
   "theorems": [
    "C55_own_symbol_partial",
    "C55_renamed_refuted"
   ],
   "note": "Refuted when a record is renamed through a reference; proved for histories that do not."
  },
  {
   "property": "C22",
   "status": "proved",
   "theorems": [
    "C22_same_unit",
    "C22_and_back",
    "C22_in_two_steps",
    "C22_linear"
   ],
   "note": "All texts accepted by the library."
  },
  {
   "property": "C23",
   "status": "proved",
   "theorems": [
    "C23_same_temperature",
    "C23_and_back"
   ],
   "note": "All eight units."
  },
  {
   "property": "C24",
   "status": "partial",
   "theorems": [
    "C24_refused_iff",
    "C24_symmetric",
    "C24_transitive_partial",
    "C24_physical_partial",
    "C24_transitive_refuted",
    "C24_wrong_units_accepted_refuted",
    "C24_right_units_refused_refuted"
   ],
   "note": "Refused exactly when convertible is false; exact for expressions over the table without the odd names, refuted for these."
  },
  {
   "property": "C25",
   "status": "proved",
   "theorems": [
    "C25_parsed",
    "C25_value",
    "C25_juxtaposition_refuted",
    "C25_undefined_refuted"
   ],
   "note": "All expressions of the grammar; texts outside it are shown to be misread or undefined."
  },
  {
   "property": "C56",
   "status": "proved",
   "theorems": [
    "C56_exact_values"
   ],
   "note": "Over the listed units with exact definitions."
  },
  {
   "property": "C26",
   "status": "partial",
   "theorems": [
    "C26_table_partial",
    "C26_transposed_partial",
    "C26_calls",
    "C26_no_overrun",
    "C26_label_refuted"
   ],
   "note": "Proved for all shapes and both loop orders when all symbols settle on one pressure per pair (always so without zero pressures); refuted for a zero pressure with a mineral listed before water."
  },
  {
   "property": "C27",
   "status": "partial",
   "theorems": [
    "C27_increments_partial",
    "C27_exact_range",
    "C27_past_max_refuted",
    "C27_ends_refuted"
   ],
   "note": "Start, step, no duplicates, coverage; running past the maximum by less than a step and non-termination for a step <= 0 are refutations."
  },
  {
   "property": "C28",
   "status": "partial",
   "theorems": [
    "C28_labels_partial",
    "C28_shift_refuted",
    "C28_transposed_refuted"
   ],
   "note": "Proved for names of the right kind; a reaction property asked for a substance shifts the columns."
  },
  {
   "property": "C29",
   "status": "partial",
   "theorems": [
    "C29_grid_partial",
    "C29_overrun_refuted",
    "C29_saturation_refuted"
   ],
   "note": "Proved for full grids of distinct values with the pressure left alone; refuted for other pair lists and on the saturation curve."
  },
  {
   "property": "C57",
   "status": "partial",
   "theorems": [
    "C57_independent_partial",
    "C57_order_refuted"
   ],
   "note": "Proved when the engine leaves the pressure alone; refuted at zero pressure."
  },
  {
   "property": "C36",
   "status": "partial",
   "theorems": [
    "C36_logK_polynomial_partial",
    "C36_two_term",
    "C36_three_term",
    "C36_three_term_reference",
    "C36_method_chosen",
    "C36_energies_partial",
    "C36_Cp_coefficients_refuted",
    "C36_entropy_missing_refuted",
    "C36_enthalpy_only_refuted",
    "C36_no_coefficients_refuted",
    "C36_short_coefficients_refuted",
    "C36_energies_refuted"
   ],
   "note": "All identities for logK coefficients and for the two- and three-term extrapolations with H, S (Cp) given; refuted for Cp coefficients alone, for a missing entropy, for an enthalpy alone; U and A are 0 for zero enthalpy."
  },
  {
   "property": "C37",
   "status": "partial",
   "theorems": [
    "C37_frantz_T",
    "C37_frantz_P",
    "C37_dolejs_T",
    "C37_dolejs_P",
    "C37_ryzhenko_T_partial",
    "C37_ryzhenko_P",
    "C37_logK_unset_refuted",
    "C37_ryzhenko_energies_refuted"
   ],
   "note": "G, H, S, Cp, V identities for all density functions with matching alpha and beta; logK is never set by two models and U of the third is wrong."
  },
  {
   "property": "C48",
   "status": "partial",
   "theorems": [
    "C48_there_and_back",
    "C48_same_functions",
    "C48_back_and_there",
    "C48_extrapolation_coefficients",
    "C48_reference_refuted",
    "C48_reference_back_refuted"
   ],
   "note": "Both directions are inverse and describe the same functions; the reference properties stored on the way are right exactly when the T^-2 coefficient is 0."
  },
  {
   "property": "C58",
   "status": "partial",
   "theorems": [
    "C58_dolejs_ignored_refuted"
   ],
   "note": "Refuted for the Dolejs-Manning method, which evaluates the Frantz-Marshall model."
  },
  {
   "property": "C32",
   "status": "partial",
   "theorems": [
    "C32_consistent_partial",
    "C32_reference",
    "C32_sqrt_coefficient_refuted",
    "C32_uneven_vectors_refuted"
   ],
   "note": "All identities for records without a sqrt(T) coefficient and with vectors of one length, over all intervals; refuted otherwise."
  },
  {
   "property": "C33",
   "status": "partial",
   "theorems": [
    "C33_reported",
    "C33_right_interval",
    "C33_upper_end_refuted"
   ],
   "note": "Every T but the upper end of the last interval uses the right interval; the upper end reads index -1."
  },
  {
   "property": "C34",
   "status": "partial",
   "theorems": [
    "C34_gibbs",
    "C34_jumps",
    "C34_no_transition",
    "C34_transitions_refuted"
   ],
   "note": "Proved for any number of intervals with one transition per boundary; refuted for missing, late or incomplete transition records."
  },
  {
   "property": "C35",
   "status": "proved",
   "theorems": [
    "C35_consistent",
    "C35_gibbs",
    "C35_reference"
   ],
   "note": "For all references and T > 0, S and Cp defined."
  },
  {
   "property": "C59",
   "status": "partial",
   "theorems": [
    "C59_first_interval_partial",
    "C59_values_and_enthalpy",
    "C59_later_intervals_refuted",
    "C59_constant_refuted"
   ],
   "note": "Right in the first interval; refuted in later intervals and for the constant heat capacity."
  },
  {
   "property": "C30",
   "status": "partial",
   "theorems": [
    "C30_substance",
    "C30_reaction",
    "C30_element_partial",
    "C30_absent_copied_refuted",
    "C30_absent_indeterminate_refuted",
    "C30_null_and_unknown",
    "C30_tpmethods_null_refuted",
    "C30_malformed_refuted"
   ],
   "note": "All subsets of members: given members go to their own slots. Refuted: absent element data copy the previous value or are indeterminate, an absent molar mass is indeterminate, malformed members."
  },
  {
   "property": "C31",
   "status": "partial",
   "theorems": [
    "C31_offered_partial",
    "C31_reaction_methods",
    "C31_not_confused",
    "C31_codes_stored",
    "C31_offered_ignored_refuted",
    "C31_first_method_lost_refuted",
    "C31_coefficients_dropped_refuted",
    "C31_unhandled_refuted",
    "C31_offered_unhandled_refuted"
   ],
   "note": "The last method of each category is stored. Refuted for methods 41 and 42, for a second method of a category, for six coefficient vectors, and for codes the engine has no branch for."
  },
  {
   "property": "C60",
   "status": "partial",
   "theorems": [
    "C60_own_units",
    "C60_each_unit_partial",
    "C60_hkf_units_refuted"
   ],
   "note": "Each coefficient is converted from its own unit. All units the reader converts to convert to themselves without change; units of HKF coefficients are dropped in one case."
  },
  {
   "property": "C61",
   "status": "partial",
   "theorems": [
    "C61_heat_capacity",
    "C61_shifted_refuted"
   ],
   "note": "From the JSON record to the reported heat capacity; refuted for an entry without coefficients."
  },
  {
   "property": "C41",
   "status": "partial",
   "theorems": [
    "C41_murnaghan",
    "C41_murnaghan_constant",
    "C41_murnaghan_reference",
    "C41_murnaghan_reference_refuted",
    "C41_landau_partial",
    "C41_landau_entropy_only",
    "C41_landau_refuted",
    "C41_berman_partial",
    "C41_berman_published_partial",
    "C41_berman_published_volume_partial",
    "C41_berman_refuted",
    "C41_bm_slope",
    "C41_bm_isotherm",
    "C41_bm_start",
    "C41_bm_solver",
    "C41_bm_fixpoint",
    "C41_bm_entropy_refuted",
    "C41_bm_volume_refuted",
    "C41_bm_size_refuted"
   ],
   "note": "Murnaghan consistent for all parameters away from the reference point. Landau: S and H always, all relations without volume of disorder, V and Cp refuted otherwise. Berman: consistent for v1 = v2 = 0, refuted otherwise. Birch-Murnaghan: isotherm consistent; entropy sign, volume and size test refuted."
  },
  {
   "property": "C42",
   "status": "partial",
   "theorems": [
    "C42_constant_volume",
    "C42_constant_volume_slope",
    "C42_ideal_gas",
    "C42_ideal_gas_work_refuted",
    "C42_ideal_gas_off",
    "C42_critical_parameters",
    "C42_fugacity_values",
    "C42_fugacity_gap_refuted",
    "C42_stp_code_refuted"
   ],
   "note": "Both pressure corrections keep G - (H - T S) and set U, A. Refuted: fugacity models change H and S but not G, U, A; the ideal-gas correction uses V (P - Pref) for R T ln; without the pressure step U and A stay."
  },
  {
   "property": "C62",
   "status": "partial",
   "theorems": [
    "C62_srk_volume",
    "C62_pr_volume",
    "C62_prsv_volume",
    "C62_srk_undefined",
    "C62_critical_refuted",
    "C62_circle_number"
   ],
   "note": "Proved for all parameters with b P < 1000 R T and an exact circle number, with the effect of the rounded one bounded per root. No result at the critical temperature of the Peng-Robinson models."
  },
  {
   "property": "C63",
   "status": "partial",
   "theorems": [
    "C63_srk",
    "C63_pr_partial",
    "C63_prsv_partial",
    "C63_hot_single_phase",
    "C63_pr_hot_refuted",
    "C63_prsv_refuted",
    "C63_range"
   ],
   "note": "Soave-Redlich-Kwong in every single-phase state; Peng-Robinson while 1 + kappa (1 - sqrt Tr) > 0; Stryjek-Vera above Tc or with k1 = k2 = 0; refuted otherwise. CORK, STP and CG: see C68-C71 and C80-C83."
  },
  {
   "property": "C38",
   "status": "partial",
   "theorems": [
    "C38_derivatives_partial",
    "C38_volume_refuted",
    "C38_gap",
    "C38_internal_energy_refuted",
    "C38_reference_reaktoro",
    "C38_reference_gems",
    "C38_two_codes",
    "C38_chain_partial"
   ],
   "note": "S, Cp, H and the gap for both codes, all parameters, T > 228 K. Refuted: V is dG/dP only up to 4184004/4184000, and U subtracts 41.84 P V."
  },
  {
   "property": "C39",
   "status": "partial",
   "theorems": [
    "C39_functionG",
    "C39_region",
    "C39_functionG_dense",
    "C39_functionG_fails",
    "C39_density_maximum_refuted",
    "C39_gShok2_partial",
    "C39_gShok2_dense_refuted",
    "C39_gShok2_dense_sign",
    "C39_omega",
    "C39_omega_constant",
    "C39_omega_reference",
    "C39_omega_two_codes"
   ],
   "note": "functionG: all five derivatives in both regions and on their boundary. Refuted: division by zero at a density maximum or at 1000 kg/m3; gShok2 has the wrong sign above 1 g/cm3. gShok2 is not treated on the boundary lines of region II; the unused omega_TP, omega_PP are not modelled."
  },
  {
   "property": "C40",
   "status": "partial",
   "theorems": [
    "C40_akinfiev_diamond",
    "C40_akinfiev_diamond_gap",
    "C40_akinfiev_diamond_volume_refuted",
    "C40_anderson_partial",
    "C40_anderson_refuted",
    "C40_holland_powell_below_500_partial",
    "C40_holland_powell_above_500_partial",
    "C40_holland_powell_entropy",
    "C40_holland_powell_entropy_refuted"
   ],
   "note": "Akinfiev-Diamond consistent for all parameters. Refuted: entropy of Holland-Powell away from the reference density, volume and enthalpy of Anderson, volume of Akinfiev-Diamond with the program's molar mass of water."
  },
  {
   "property": "C43",
   "status": "partial",
   "theorems": [
    "C43_density_first",
    "C43_density_second_partial",
    "C43_density_maximum_refuted",
    "C43_energies",
    "C43_legendre",
    "C43_cv",
    "C43_cp_cv",
    "C43_cp_ge_cv",
    "C43_expansivity_slope_partial",
    "C43_molar",
    "C43_molar_legendre"
   ],
   "note": "For every Helmholtz function with correct derivatives and every continuous solution of the pressure equation. Refuted: second temperature derivative of density and of expansivity at a density maximum (0/0)."
  },
  {
   "property": "C45",
   "status": "partial",
   "theorems": [
    "C45_johnson_norton_partial",
    "C45_zero_coefficient_refuted",
    "C45_finite_difference",
    "C45_finite_difference_refuted",
    "C45_zero_celsius_refuted"
   ],
   "note": "All Johnson-Norton derivatives and Born functions where the code divides by no zero coefficient. Refuted at temperatures where a coefficient is zero; the finite-difference models leave the mixed derivative, U and N at 0 and store the pressure derivative per bar."
  },
  {
   "property": "C46",
   "status": "proved",
   "theorems": [
    "C46_found",
    "C46_throws",
    "C46_step",
    "C46_pressure_met",
    "C46_returned_untested_refuted",
    "C46_positive",
    "C46_solution_kept",
    "C46_start",
    "C46_state_number_refuted",
    "C46_zhang_duan_slope",
    "C46_zhang_duan_found",
    "C46_zhang_duan_accept"
   ],
   "note": "For every model function. The returned iterate is not tested itself, and a solvent state number above 2 never gives a density (both shown as refutations of stronger statements)."
  },
  {
   "property": "C47",
   "status": "proved",
   "theorems": [
    "C47_derivatives",
    "C47_relations"
   ],
   "note": "All temperatures above zero."
  },
  {
   "property": "C64",
   "status": "proved",
   "theorems": [
    "C64_implicit_derivatives",
    "C64_away"
   ],
   "note": "One pass of the Newton loop over whole ThermoScalars, any Helmholtz values carrying chain-rule derivatives."
  },
  {
   "property": "C65",
   "status": "partial",
   "theorems": [
    "C65_round_trip",
    "C65_wagner_pruss_pressure_refuted",
    "C65_zhang_duan_pressure",
    "C65_zhang_duan_fugacity"
   ],
   "note": "Refuted: waterPressureWagnerPruss evaluates the HGK model."
  },
  {
   "property": "C66",
   "status": "partial",
   "theorems": [
    "C66_first",
    "C66_second",
    "C66_zero_refuted",
    "C66_zhang_duan_density",
    "C66_zhang_duan_second_refuted"
   ],
   "note": "Error bounds for smooth functions; nothing at coordinate zero; densityPP of Zhang-Duan has the scale of one pressure unit only."
  },
  {
   "property": "C44",
   "status": "partial",
   "theorems": [
    "C44_wagner_pruss_partial",
    "C44_wagner_pruss_TTT_refuted",
    "C44_hgk_partial",
    "C44_hgk_TDD_refuted",
    "C44_hgk_TTT_refuted",
    "C44_no_value_refuted",
    "C44_wagner_pruss_state",
    "C44_hgk_state"
   ],
   "note": "All entries of both tables proved to be derivatives except those refuted: TTT of both, TDD of HGK."
  },
  {
   "property": "C49",
   "status": "partial",
   "theorems": [
    "C49_check",
    "C49_check_reaction_partial",
    "C49_murnaghan",
    "C49_landau",
    "C49_berman",
    "C49_birch_murnaghan",
    "C49_hkf_gems",
    "C49_hkf_reaktoro_refuted",
    "C49_gas_partial",
    "C49_akinfiev_refuted",
    "C49_json_limits_refuted",
    "C49_earlier_warning_refuted"
   ],
   "note": "The check itself is exact and changes no number or status enumerator. Refuted at its callers: wrong units in one HKF model, discarded result in Akinfiev-Diamond, pressure limits never read from JSON, messages lost by later corrections, gas volumes never flagged."
  },
  {
   "property": "C67",
   "status": "partial",
   "theorems": [
    "C67_message_partial",
    "C67_warning_lost_refuted"
   ],
   "note": "Exact message of every property of a reaction calculated from its components; only the last component's message survives."
  },
  {
   "property": "C50",
   "status": "partial",
   "theorems": [
    "C50_values",
    "C50_frame",
    "C50_separate_engines_partial",
    "C50_copy_answers_as_source",
    "C50_copy_own_change_refuted",
    "C50_copy_source_change_refuted",
    "C50_copy_outlives_source_refuted",
    "C50_copy_cache_refuted",
    "C50_assign_refuted",
    "C50_unchanged_engines_partial",
    "C50_output_current",
    "C50_output_refuted",
    "C50_output_partial"
   ],
   "note": "Proved for substances and databases (refinement of plain values). Refuted for engines (captured this, shared cache, generated assignment) and for outputs (shared batch); positive theorems for engines never copied, for engines never changed and for batches not used again."
  },
  {
   "property": "C68",
   "status": "partial",
   "theorems": [
    "C68_co2_volume",
    "C68_steam_volume",
    "C68_vapour_volume",
    "C68_work",
    "C68_co2_slopes_partial",
    "C68_vapour_slopes_partial",
    "C68_liquid_work",
    "C68_saturation",
    "C68_hot_entropy_refuted",
    "C68_co2_entropy_refuted",
    "C68_jump_refuted",
    "C68_dense_refuted",
    "C68_double_root_refuted"
   ],
   "note": "Volume, work, continuity at saturation and, up to p0, entropy and heat capacity proved. Refuted: entropy of steam above 695 K (sign of da/dT), entropy above p0, jump at 695 K, dense liquid water without a result, double roots. Missing: temperature slopes of the liquid, whose Gibbs energy contains the ratio at Psat(T)."
  },
  {
   "property": "C69",
   "status": "partial",
   "theorems": [
    "C69_other_fluids",
    "C69_volume_refuted"
   ],
   "note": "All relations proved for every fluid and state; positivity of the volume refuted."
  },
  {
   "property": "C70",
   "status": "proved",
   "theorems": [
    "C70_table",
    "C70_pressure",
    "C70_density",
    "C70_state",
    "C70_ideal"
   ],
   "note": "Proved for any coefficients; the density function is shown to exist by the implicit function theorem."
  },
  {
   "property": "C71",
   "status": "partial",
   "theorems": [
    "C71_defined",
    "C71_result",
    "C71_fixed",
    "C71_outside",
    "C71_pole_refuted",
    "C71_range_refuted"
   ],
   "note": "Refuted: water at one temperature near 348.4 K (0/0), and states accepted by the caller but outside 200-2000 K or with another formula (numbers never written). Proved: all other denominators; what a returned result is. Convergence of the search is not proved, and the density returned is one step beyond the one tested."
  },
  {
   "property": "C72",
   "status": "partial",
   "theorems": [
    "C72_pressure_energy",
    "C72_identities",
    "C72_helmholtz_partial",
    "C72_helmholtz_refuted"
   ],
   "note": "Pressure, energy, heat capacities and the identities exact; entropy and pressure as slopes of A hold after removing a surplus below 4e-9 RT/(1-y)^2 that a rounded constant adds; with it they fail in every state."
  },
  {
   "property": "C73",
   "status": "partial",
   "theorems": [
    "C73_density",
    "C73_solvent",
    "C73_enthalpy",
    "C73_gibbs_partial",
    "C73_volume_refuted",
    "C73_euler",
    "C73_second_partial",
    "C73_second_refuted"
   ],
   "note": "Existence of the density function, first derivatives, H and Cp proved. Refuted: volume against G (two molar masses), dAldT and densityTT between 522 and 757 K (wrong denominator); proved elsewhere."
  },
  {
   "property": "C74",
   "status": "partial",
   "theorems": [
    "C74_dielectric",
    "C74_second_partial",
    "C74_epsilonP_refuted",
    "C74_outside"
   ],
   "note": "First derivatives and Born functions proved; second ones where dAldT is right. Refuted: unit of epsilonP. Outside 1000 C / 5000 bar everything is zero."
  },
  {
   "property": "C75",
   "status": "partial",
   "theorems": [
    "C75_search",
    "C75_liquid_partial",
    "C75_vapour_partial",
    "C75_metastable",
    "C75_pressure"
   ],
   "note": "A converged search gives a stable solution and a record of one density for compressed liquid, vapour and supercritical fluid. Missing: convergence itself (silent after 11 or 31 evaluations). The metastable vapour record mixes two densities: exact gap proved. Saturated states and the near-critical equation are not modelled."
  },
  {
   "property": "C76",
   "status": "partial",
   "theorems": [
    "C76_symbol",
    "C76_table",
    "C76_default",
    "C76_transposed",
    "C76_empty_refuted",
    "C76_underscore_refuted",
    "C76_collision_refuted",
    "C76_two_characters_refuted",
    "C76_new_line_refuted"
   ],
   "note": "Every file with a one-character separator other than '_' that is in none of the printed numbers, names and units reads back exactly. Refuted: empty separator (endless loop), '_', two-character separators, distinct symbols give one name."
  },
  {
   "property": "C77",
   "status": "partial",
   "theorems": [
    "C77_one",
    "C77_many",
    "C77_offered",
    "C77_history_partial",
    "C77_solvent_refuted",
    "C77_short_refuted",
    "C77_all_or_nothing_refuted",
    "C77_replace_refuted",
    "C77_to_double_refuted"
   ],
   "note": "Settings by name change what they name, and known properties always find their unit. Refuted: short vectors read outside, exceptions leave half of the changes, whole-table setters can remove units, values returned by the API ignore the units."
  },
  {
   "property": "C78",
   "status": "partial",
   "theorems": [
    "C78_sessions_partial",
    "C78_columns",
    "C78_column_names",
    "C78_reopen_refuted",
    "C78_early_refuted",
    "C78_electro_refuted"
   ],
   "note": "Proved for open/write/close in turn. Refuted: open without close, write before open, columns of the electro file."
  },
  {
   "property": "C79",
   "status": "proved",
   "theorems": [
    "C79_equation",
    "C79_limit",
    "C79_critical",
    "C79_above_one",
    "C79_low_density",
    "C79_cold_refuted"
   ],
   "note": "Formula as used above 228 K and below 4857 kg/m3; below 228 K there is no number."
  },
  {
   "property": "C80",
   "status": "partial",
   "theorems": [
    "C80_array_refuted",
    "C80_outside",
    "C80_too_high_refuted"
   ],
   "note": "Refuted for every call through a gas: seven parameters are copied and twelve are read. With twelve coefficients the range test and the ideal gas outside are exact; too high pressures read an unwritten variable."
  },
  {
   "property": "C81",
   "status": "partial",
   "theorems": [
    "C81_search",
    "C81_encloses",
    "C81_pressure_refuted"
   ],
   "note": "For every isotherm finite at the seed densities the search returns a density with the pressure asked for, or one on a chord that encloses P. Refuted: the answer always has the pressure asked for."
  },
  {
   "property": "C82",
   "status": "partial",
   "theorems": [
    "C82_result",
    "C82_fugacity",
    "C82_enthalpy_refuted",
    "C82_gibbs_refuted"
   ],
   "note": "Fugacity coefficient and volume are right for every free-energy function; enthalpy, entropy and their combination are refuted."
  },
  {
   "property": "C83",
   "status": "partial",
   "theorems": [
    "C83_newton",
    "C83_diameter",
    "C83_zero_density",
    "C83_memory_partial"
   ],
   "note": "Memory: all histories without the pair (0, 0), for which the cache would answer 0. Threads that share the static variables are not modelled."
  },
  {
   "property": "C84",
   "status": "partial",
   "theorems": [
    "C84_rows",
    "C84_order_partial",
    "C84_none",
    "C84_short_refuted",
    "C84_extra_refuted",
    "C84_crossed_refuted"
   ],
   "note": "Right when the records are given in the order of the loops and are as many as the rows. Refuted: other orders, too few, too many."
  },
  {
   "property": "C85",
   "status": "partial",
   "theorems": [
    "C85_berman",
    "C85_murnaghan",
    "C85_murnaghan_constant",
    "C85_landau",
    "C85_constant_volume",
    "C85_relations",
    "C85_gas_gibbs",
    "C85_berman_reference_refuted",
    "C85_gas_enthalpy_refuted",
    "C85_gas_volume_refuted"
   ],
   "note": "Proved for minerals away from the points where a branch changes. Refuted at Berman's reference point and for enthalpy, entropy and volume of the fluids. Birch-Murnaghan is not covered."
  },
  {
   "property": "C86",
   "status": "partial",
   "theorems": [
    "C86_logK",
    "C86_frantz",
    "C86_ryzhenko",
    "C86_dolejs",
    "C86_relations",
    "C86_Cp_coefficients_refuted"
   ],
   "note": "Proved for every method and the density models given a water that carries its derivatives. Refuted for H and S with heat capacity coefficients only. U and A need a non-zero enthalpy."
  },
  {
   "property": "C87",
   "status": "partial",
   "theorems": [
    "C87_state",
    "C87_density",
    "C87_molar",
    "C87_density_derivatives",
    "C87_energies",
    "C87_molar_relations",
    "C87_reaction"
   ],
   "note": "Proved for every Helmholtz energy and density whose table entries carry their derivatives; the tables themselves are not expanded operator by operator. Second temperature derivatives need densityT other than 0."
  },
  {
   "property": "C88",
   "status": "partial",
   "theorems": [
    "C88_mechanical",
    "C88_energies",
    "C88_relations",
    "C88_sound",
    "C88_paths",
    "C88_isobars",
    "C88_table",
    "C88_determinant"
   ],
   "note": "Proved for every table whose constants satisfy the relations exactly and every state on the parametric equations; the program's table satisfies them to one part in 10^14 and its solver meets the equations to 1e-5."
  },
  {
   "property": "C89",
   "status": "partial",
   "theorems": [
    "C89_dal_partial",
    "C89_dal_iff",
    "C89_dal_refuted"
   ],
   "note": "Refuted: the exponent contains dr/dT. The derivative is what is reported less an explicit excess."
  },
  {
   "property": "C90",
   "status": "proved",
   "theorems": [
    "C90_equilibrium",
    "C90_vapour_liquid",
    "C90_slope",
    "C90_heat"
   ],
   "note": "For every table whose constants satisfy the relations."
  },
  {
   "property": "C91",
   "status": "partial",
   "theorems": [
    "C91_slope_unset_refuted",
    "C91_dome",
    "C91_tsat_partial",
    "C91_tsat_refuted",
    "C91_eqn_partial",
    "C91_eqn_refuted",
    "C91_density",
    "C91_density_refuted"
   ],
   "note": "Refuted: unset slope in the dome, loops without end, silent failure of denLVS. The cases in which the loops end are characterised."
  },
  {
   "property": "C92",
   "status": "partial",
   "theorems": [
    "C92_fixed_point",
    "C92_newton",
    "C92_guess",
    "C92_isotherm",
    "C92_coexistence"
   ],
   "note": "Answers at a fixed point of the iteration; that 16 rounds reach it is not shown."
  },
  {
   "property": "C93",
   "status": "proved",
   "theorems": [
    "C93_hkf_carries",
    "C93_reaktoro_carries",
    "C93_reaktoro_derivatives"
   ],
   "note": "For solvents and Born functions that carry their derivatives (C86, C87 for water). The volume enters with the factor of C38."
  },
  {
   "property": "C94",
   "status": "partial",
   "theorems": [
    "C94_carried_temperature_gap",
    "C94_carried_iff",
    "C94_gems_gap_partial",
    "C94_gems_refuted"
   ],
   "note": "Refuted for charged species: plain powers in gShok2. The gap is given exactly; neutral species and HKFreaktoro are right."
  },
  {
   "property": "C95",
   "status": "partial",
   "theorems": [
    "C95_increments_carry",
    "C95_akinfiev_diamond_partial",
    "C95_akinfiev_diamond_reports",
    "C95_akinfiev_diamond_refuted",
    "C95_holland_powell_above_500",
    "C95_holland_powell_below_500_partial",
    "C95_holland_powell_reports",
    "C95_holland_powell_refuted",
    "C95_anderson"
   ],
   "note": "Anderson right; refuted for Akinfiev-Diamond (S and H) and for Holland-Powell below 500 K, with the exact error."
  },
  {
   "property": "C96",
   "status": "partial",
   "theorems": [
    "C96_rises",
    "C96_continuous_refuted",
    "C96_pressure",
    "C96_mirrored",
    "C96_refused"
   ],
   "note": "Rises up to 647.25 K, refused outside the two-phase range; continuity at 314 K is refuted."
  },
  {
   "property": "C97",
   "status": "partial",
   "theorems": [
    "C97_saturation_partial",
    "C97_newton"
   ],
   "note": "Missing: that the searches converge and that the loop ends."
  },
  {
   "property": "C98",
   "status": "proved",
   "theorems": [
    "C98_states",
    "C98_dielectric",
    "C98_equilibrium"
   ],
   "note": "For every result of pcorr that C97 describes in its last case."
  },
  {
   "property": "C99",
   "status": "partial",
   "theorems": [
    "C99_snapped",
    "C99_liquid_partial",
    "C99_mixed_refuted",
    "C99_twin_refuted"
   ],
   "note": "Right away from saturation; refuted between the two saturation pressures the code uses."
  },
  {
   "property": "C100",
   "status": "partial",
   "theorems": [
    "C100_watson_refuted",
    "C100_cold",
    "C100_form",
    "C100_rises",
    "C100_star"
   ],
   "note": "Refuted: the double sum stops after its first row. The form that is computed is proved."
  },
  {
   "property": "C101",
   "status": "partial",
   "theorems": [
    "C101_form",
    "C101_sengers_refuted",
    "C101_cold"
   ],
   "note": "Refuted for the same reason; positivity and the form that is computed are proved."
  },
  {
   "property": "C102",
   "status": "partial",
   "theorems": [
    "C102_units",
    "C102_kinematic",
    "C102_diffusivity",
    "C102_beyond",
    "C102_step_refuted",
    "C102_prandtl_refuted"
   ],
   "note": "The relations hold up to factors of units; beyond the limits the values are zero without an error."
  },
  {
   "property": "C103",
   "status": "partial",
   "theorems": [
    "C103_falls",
    "C103_outside",
    "C103_number_refuted",
    "C103_saturated",
    "C103_single_phase_refuted"
   ],
   "note": "Right up to 647.0667 K; refuted in the last 0.3 mK below the critical temperature and for state 1 off saturation."
  },
  {
   "property": "C104",
   "status": "partial",
   "theorems": [
    "C104_above",
    "C104_saturated",
    "C104_below_refuted"
   ],
   "note": "Right above the critical temperature and at saturation; refuted for one phase at or below it."
  },
  {
   "property": "C105",
   "status": "partial",
   "theorems": [
    "C105_limits",
    "C105_accepted",
    "C105_blind_refuted"
   ],
   "note": "The accepted range is stated; inside it the dielectric constant and the transport properties can be zero without an error."
  },
  {
   "property": "C106",
   "status": "partial",
   "theorems": [
    "C106_files",
    "C106_path_refuted",
    "C106_loop_refuted"
   ],
   "note": "Holds for names without a directory and the loop over T-P pairs first; refuted otherwise."
  },
  {
   "property": "C107",
   "status": "partial",
   "theorems": [
    "C107_volume",
    "C107_identities",
    "C107_gibbs_pressure_refuted",
    "C107_expansion_refuted",
    "C107_flat_refuted"
   ],
   "note": "Refuted; the theorems give the derivatives that are carried and those that should be."
  },
  {
   "property": "C108",
   "status": "partial",
   "theorems": [
    "C108_pressure",
    "C108_again",
    "C108_electro",
    "C108_reaktoro",
    "C108_refused_refuted",
    "C108_zhang_duan",
    "C108_frozen_refuted"
   ],
   "note": "Holds for requests that are answered (repetition for Haar-Gallagher-Kell but for saturation above 647.067 K); refuted for requests refused and for the lower temperature limit of Zhang-Duan."
  },
  {
   "property": "C109",
   "status": "partial",
   "theorems": [
    "C109_units",
    "C109_one_density",
    "C109_equilibrium",
    "C109_relations",
    "C109_surface_refuted"
   ],
   "note": "Proved but for the surface tension of the saturated vapour, which is refuted. cpswap is not modelled: the loop that reaches it does not end (C91)."
  },
  {
   "property": "C110",
   "status": "partial",
   "theorems": [
    "C110_volume",
    "C110_relations",
    "C110_engine_refuted",
    "C110_reference_refuted",
    "C110_gibbs_refuted"
   ],
   "note": "Refuted at the engine and in the function; the positive theorems give the volume that is computed and the relations that hold."
  },
  {
   "property": "C111",
   "status": "partial",
   "theorems": [
    "C111_all",
    "C111_whole",
    "C111_again",
    "C111_warnings",
    "C111_quiet_refuted",
    "C111_atomic_refuted",
    "C111_old_charge_refuted"
   ],
   "note": "Proved when every formula can be read; refuted: all or nothing, the old charge in the warning, silence of a second call."
  },
  {
   "property": "C112",
   "status": "partial",
   "theorems": [
    "C112_total",
    "C112_lines",
    "C112_no_exception",
    "C112_template",
    "C112_emptied_refuted"
   ],
   "note": "Proved but for lines used with their empty values, which remove coefficients read before."
  }
 ]
}