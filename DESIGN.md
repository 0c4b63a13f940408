# Formal model of ThermoFun in Rocq (Coq 8.16.1)

Sources modelled: `/repo/ThermoFun` at the pinned commit (read as text, never run).
Coq files: `/verif/rocq/theories`, logical root `Verif`.

## Layout

* `*Model.v`  – definitions only; every definition cites the file and lines it models.
* `*Spec.v` or the head of a property file – small independent specification vocabulary.
* `*Proofs.v` – lemmas.
* `P_*.v` – property theorems only, each closed by `exact lemma`, followed by
  `Print Assumptions`, with an `Example` showing the hypotheses are met by a
  non-trivial case.
* A name ending in `_refuted` proves that the property is false of the code as
  written (witness included); `_partial` proves part of a property.

## Modelling conventions

* `double` is modelled by the mathematical real numbers (`R` of the standard
  library).  Rounding, overflow, NaN and infinities are outside the model.  Where the
  code would divide by zero, take the log/sqrt/pow of an out-of-domain number, read
  outside a vector, dereference null, or fail to terminate, the model either has a
  distinct outcome (`UB`, `Throw`, `OutOfFuel`) or the theorem carries the domain
  condition as a hypothesis.
* `std::string` is Coq `string` (bytes).  `std::map` is a sorted association list or a
  finite function, according to what is observable.
* External code (nlohmann json, ChemicalFun formula parser, spdlog, the gas equation of
  state solvers in `Gases/s_solmod2_.cpp`) is represented by section variables /
  function arguments, so the theorems hold for every behaviour of it.

## Plan per property (what is modelled, how it is proved)

| id | model | method |
|----|-------|--------|
| C01 | ThermoScalar record over R, all overloaded operators; expression trees evaluated with them | induction over trees, `is_derive` |
| C02 | status component of the same operators | induction over trees |
| C03 | error component, incl. in-place operators | algebra; `_refuted` witness for `*=`, `/=` |
| C04 | error component | algebra; `_refuted` for sqrt, log, pow, double/TS |
| C05 | in-place operators | algebra |
| C06,C07 | memoize / memoizeN as state machines over call histories | invariant by induction on the history |
| C08 | same with a memory holding the caller's variables, keys hold addresses | witness history (`_refuted`); positive theorem for value keys |
| C09 | engine state machine: settings, cache, queries | witness; positive theorem without memoisation |
| C10,C11,C12 | fold over reactants, back-substitution | induction over the reactant list |
| C13 | recursive query evaluation with fuel over the reference graph | graph induction; `_refuted` for cycles |
| C14,C15 | dispatch function of a substance query | case analysis |
| C16,C17,C18 | database as sorted maps, operation histories | refinement to an abstract map |
| C19 | comparison operators | witness triple; positive theorem for Substance |
| C55 | the same database | witness history; invariant without renaming |
| C20,C21 | equation text (bytes) split by the regular expression, stod, map | parser inverse to a printer with arbitrary spacing; numbers as sign, mantissa, exponent (EquationSpec); an empty piece changes nothing |
| C22–C25, C56 | unit table, tree, parser, factor, dimension | induction over trees, parser inverse to printer |
| C26–C29, C57 | batch loops, index functions, output loops; engine as an arbitrary function that may replace the pressure | loop invariant over the visited cells, list induction |
| C30,C31,C60,C61 | JSON documents as an inductive type, the three readers with state and exceptions (JsonModel); records with optional members written as JSON (JsonSpec) | step lemmas for each member, for all subsets; induction over methods; enumeration of the offered names and units; C61 composed with C33 |
| C32–C35 | Cp integration incl. interval selection and transitions | calculus (`is_derive`), induction over intervals |
| C59 | the same formulas as ThermoScalar expression trees | C01 applied to them, induction over intervals |
| C36, C48 | LogK_function_of_T.cpp and the conversions of Reaction.cpp over R | `is_derive` of the reported functions, algebra |
| C37, C58 | the three density models; water is any function of T, P with matching alpha, beta | `is_derive` in T and in P |
| C41 | the four mineral models over R (MineralModel), consistency relations (MineralSpec) | `is_derive` for any consistent input properties; Newton loop with fuel |
| C42, C62, C63 | constant-volume, ideal-gas and fugacity corrections on ThermoScalars; Cardano's formula, root choice, residual functions of SRK, PR78, PRSV over R (GasModel); equations of state and residuals (GasSpec) | trigonometric and radical root formulas; monotonicity between roots for the global minimum; the chosen root is differentiable where it is simple and unique |
| C38–C40 | `SoluteModel.v`: functionG, gShok2, omega, both HKF codes, Akinfiev-Diamond, Holland-Powell 1998, Anderson 1991 over R, with the solvent's functions arbitrary | calculus rules of `RDeriv.v` and `field`; the boundary of region II by a quadratic bound (`SoluteG2.v`) |
| C43, C45–C47, C64–C66 | `WaterModel.v`, `WaterAdModel.v`: water state from any Helmholtz function, Johnson-Norton, Woolley, density solvers, Zhang-Duan, finite differences over R | differentiability in two variables (`RDiff2.v`, implicit function theorem); Newton loops by induction on fuel; remainder bounds by the mean value theorem |
| C44 | `HelmModel.v`: the HGK and Wagner-Pruss functions over R with their coefficients copied by script from the sources, every term and every table entry | jets closed under sum, product, composition, change of variables (`HelmJet.v`); each term equals such a jet by field; errors isolated as explicit extra summands |
| C49 | `BoundsModel.v`: setMessage, both checks, every call of the check with its arguments, statuses of the properties at that point | case analysis on statuses; the amounts the models add are arbitrary ThermoScalars |
| C68, C69 | `CorkModel.v`: the pure-fluid part of TCORKcalc over R, Cardano with its own root choice; equations of state and published coefficients restated in `CorkSpec.v` | roots as in C62; the chosen root is differentiable; the branch at saturation is glued; intervals of numbers for the witnesses |
| C70, C71 | `StpModel.v`: the pure-fluid part of TSTPcalc over R; the formulas of Pressure and Helmholtz converted by script; unwritten memory and 0/0 are outcomes | the table is compared with a jet built from the coefficient functions (`StpJet.v`); `RImplicit.v` proves the implicit function theorem, so the density function in the statements exists; the search loop by induction; positive denominators by discriminants |
| C72–C75 | `GemsModel.v`: bb, base, resid, ideal, thmHGK, dalHGK, JN91, Born92, triple, dimHGK over R, tables copied by script; `GemsRun.v`: denHGK, calcv2/3, HGKeqn, the choice of pressure | the same jets as C44, one per term (`GemsJet.v`, `GemsBase.v`); the density function exists (`RImplicit.v`); low-density limits for the witnesses (`GemsLim.v`); the search by induction on fuel |
| C76–C78 | `CsvModel.v`: find_and_replace, headers and rows as texts, the unit table and its setters, the file state of OutputToCSV; the formatting of numbers is a parameter | a reader written in `CsvSpec.v` inverts the writer (list induction); invariants over histories of settings and of open/write/close |
| C79 | `FernModel.v`: epsilonF over R | the only positive root of a quadratic; slope at zero density by `is_derive` |
| C80–C83 | `CgModel.v`: the Churakov-Gottschalk fluid for one component over R, with `None` for what is not finite; the search is a fuel recursion over any isotherm `R -> option R`, the static caches a state passed along | invariant of the 20-round search (a finite pair enclosing P is kept), intermediate value theorem; exact algebra and mean-value bounds for the residuals; induction over histories of cached calls |
| C84 | `BatchGiven.v`: selectProvided* and the calls that take ready records, on top of `BatchModel.v` | the table as a list; index arithmetic of the two loop orders |
| C85 | `CarryModel.v`: the mineral corrections, applyPressure and the gas wrappers statement by statement on ThermoScalars (`ThermoScalarModel.v`); values as in `MineralModel.v` | one closure lemma per operator ("carries": value and both derivatives of a function of T and P), then composition; away from branch points the branch is locally constant |
| C86 | `CarryReac.v`: LogK_function_of_T, Frantz-Marshall, Ryzhenko-Bryzgalin and Dolejs-Manning on ThermoScalars; values as in `ReacModel.v` | closure lemmas of C85; log K is constant in its branch (the branch depends on the record only) |
| C87 | `CarryWater.v`: waterThermoState, the molar properties and propertiesWater on ThermoScalars; values as in `WaterModel.v`; the Newton step of `WaterAdModel.v` | closure lemmas; uniqueness of derivatives together with C43-C47 |
| C88 | `LvsModel.v`: Pfind, aux, ss and thmLVS (WaterHGK-JNgems.cpp) over the reals for one phase; `LvsSpec.v`: the two parametric equations, paths of states and the relations between the constants | derivatives of each scaling term along an arbitrary path in r and theta, with T and D given by the two equations; the path exists through every state in every direction |
| C89 | `LvsModel.v`: dalLVS with its pivoted elimination and with the exponents as written | the elimination solves the system (its determinant is not 0), the slopes along an isobar are unique; derivative of alpha on any isobar; a state with bounds on every power for the refutation |
| C90 | `LvsFlow.v`: Pfind, denLVS and thmLVS for isat = 1 | both saturated states meet the parametric equations; C88 on the coexistence curve |
| C91 | `LvsFlow.v`: the early return of conver and what Pfind stores, the loops of TsLVS, LVSeqn and denLVS; the equation inside is an arbitrary function | induction on the rounds; bounds on the powers for the dome |
| C92 | `LvsFlow.v`: rtheta, its iteration as a step, the three kinds of answer | algebra of powers; the step is f/f' for the function it solves |
| C93 | `CarrySolute.v`: functionG, speciesElectroStateHKF and the HKF properties on ThermoScalars; `CarrySoluteSpec.v`: a solvent, a g function, a Born coefficient carry the derivatives of functions | closure of "carries" under each operation, region limits by one-sided matching (`CarrySolG.v`), then C38 and uniqueness of derivatives |
| C94 | `CarrySolute.v`: gShok2 with its plain powers, omeg92, the gems properties | for arbitrary ThermoScalars: an affine function carries the same derivatives, C38 for that function gives the exact gap (`CarrySolUse.v`) |
| C95 | `CarrySolute.v`: Akinfiev_EOS_increments, the Akinfiev-Diamond, Holland-Powell and Anderson properties on ThermoScalars | closure; the constants that carry derivatives appear as affine terms; a function with T' frozen for Holland-Powell (`CarrySolAD.v`) |
| C96 | `HgkSat.v`: PsHGK; `GemsRun.v`: the pressure choice of calculateWaterHGKgems | substitution by roots; a verified sign test for integer polynomials (`HgkPs.v`); alternating bounds of the exponential where the two formulas meet |
| C97 | `HgkSat.v`: corr, pcorr, a loop without limit | induction on the rounds for any start; the slopes of G from C72 and the implicit density for Newton's step (`HgkSatPf.v`) |
| C98 | `HgkSat.v`: HGKeqn with isat = 1, the choice of the record by state | the records unfolded; C97 for the equality of the Gibbs energies |
| C99 | `HgkSat.v`: HGKsat with isat = 0, PTOL; HGKeqn with what pcorr found | case analysis on the two saturation pressures the code compares with |
| C100 | `HgkTrans.v`: viscos with its nested loops as state machines | induction on the loops; monotony of the dilute-gas factor by factoring; the sign test of `HgkPs.v` and bounds of the exponential for the witness (`HgkTransPf.v`) |
| C101 | `HgkTrans.v`: thcond | as C100 |
| C102 | `HgkTrans.v`: the transport half of dimHGK with the units of calculateWaterHGKgems | algebra on the record; C100, C101 for the signs |
| C103 | `HgkTrans.v`: surten, the isat each dimHGK is called with | factoring of the power; case analysis on the temperature |
| C104 | `HgkRoute.v`: crtreg, what LVSeqn leaves, the swap of the records, the outputs by state; the equation is a parameter | case analysis; a band of requests shown to take this path |
| C105 | `HgkRoute.v`: set_P, valid, valTP | linear arithmetic on the limits; C102 and Born92 for the zeros |
| C106 | `CsvGrid.v`: names, header and lines of toCSVPropertyGrid, a disk of files by name with a set of directories; the grid is that of C29 | induction on properties and lines, reading back as in C76 |
| C107 | `CarryBM.v`: BM_IntVol, BM_Volume, BirchMurnaghan and the returned record on ThermoScalars | closure of `carries` under the operators, induction on the Newton loop |
| C108 | `SolventCalls.v`: the calls of the four water models with units, the pressure passed by reference, the table of triple points and the limits, and the dielectric call that follows; the request of C105 decides what is refused | case analysis on the choice of the pressure; acceptance from C105 |
| C109 | `LvsDim.v`: dimLVS with triple, both halves of the record, and the two saturated records of LVSeqn | equality with the record of dimHGK under equal inputs; equilibrium and Clapeyron from C90 |
| C110 | `VolFT.v`: thermoPropertiesReaction_Vol_fT on ThermoScalars, its wrapper, and the engine's call of the wrapper (`EngineModel.reacBody`) | case analysis on the coefficients, induction for those beyond the fifth |
| C111 | `Charge.v`: setSubstancesChargeFromFromula over the map of substances, with its warnings and the exception of the formula parser (a parameter) | induction on the map |
| C112 | `Catalog.v`: the lists of methods with their parameters (GlobalFunctions.cpp, GlobalVariables.h), each line as the JSON value it spells; the readers of `JsonModel.v` | induction on the tables and on any list of lines |
| C67 | `EngineModel.v` (add_reactant, set_msg) | induction over the component list |
| C51,C53 | the same engine state machine | invariant over all calls; witness histories |
| C52 | the same | two histories run in lockstep |
| C54 | the same | lockstep run with other conventions |
| C50 | `AliasModel.v`: memory cells, copy constructors, assignments, maps of handles, closures over `this` with a shared cache, end of life, outputs of batches | refinement of the memory model by a model of plain values; invariants on ownership; witness programs for what is shared |

## Findings (theorems named `_refuted`)

* ThermoScalar: derivative of `pow(x, 1)`-like cases at 0, error formulas of sqrt, log, pow
  and double/ThermoScalar, negative errors after in-place operators.
* Memoisation: `memoizeLast` returns a default value for a first key equal to the
  value-initialised key; `memoizeN` evicts by insertion, not by use; copies share and exceed
  the bound; reference keys lose write-backs and can dangle.
* Engine: caches are never invalidated (appendData, fallback, conventions, solvent);
  `solvent_state` and `enable_memoize` set by `setPreferences` have no effect; the answer for
  a gas depends on earlier reaction queries, even failed ones; Cv, U, A of a reaction are those
  of the last species; lnK is not updated by the constant-volume correction and its
  temperature derivative is wrong; a constant-volume substance defined by a reaction does not
  give the reaction back; self-referential records recurse without end; an unknown solvent
  symbol is silently replaced.
* Database: elements already stored keep stale formula data after `appendData`; a failing
  record stops the load silently half way; records renamed through a reference are found under
  the old name; the element order is not a strict weak order (two keys can each be below the
  other) and `==` ignores the valence.
* Equations: a repeated species keeps only its last coefficient; species of an earlier equation
  are kept; `A+ B` is one species; a text without `=` makes every species a product; `2E1X` is
  20 X.
* Units: `bar^n` is `K^n`; half powers are cut off in dimensions; `T` is `Wb*m^2`; `percent` is
  not convertible to `m/m`; `J/kelvin` not to `J/K`; convertible is not transitive through
  temperature units; `m(s)` is read as `m`; empty text, `()` and a leading operator are
  undefined behaviour.
* Batch: at zero pressure a mineral listed before water is calculated at 0 but printed with the
  saturation pressure, and its value depends on the order of the symbols; a property name of
  another kind shifts the columns (transposed: reads out of range); the property grid misplaces
  or overruns for pair lists that are not full grids and on the saturation curve; increments run
  past the maximum and never end for a step <= 0.
* Reactions: Cp coefficients without logK coefficients leave H and S at their reference values
  while Cp is not 0; a missing entropy or enthalpy is derived with T instead of Tr; an enthalpy
  alone gives a constant logK; U and A are 0 for zero enthalpy; without coefficients, or with
  both kinds and one too short, vectors are read out of range; Frantz-Marshall and Dolejs-Manning
  never set logK; the Dolejs-Manning method evaluates Frantz-Marshall; Ryzhenko-Bryzgalin mixes
  J/Pa and bar in U; the conversions evaluate `x/T*T` for `x/(T*T)`.
* Heat capacity: the sqrt(T) coefficient enters Cp as a constant (`pow(TK, (1/2))`) but H, S, G as
  sqrt(T); coefficient vectors of different length leave old coefficients in use; the upper end of
  the last interval reads index -1; more than one interval without transition records is an error,
  too few transitions read out of range, a transition listed above its boundary is dropped; the
  derivatives carried by H, S, G are wrong in later intervals (the interval ends count as variable
  temperatures) and for a constant heat capacity (dH/dT is 0: the reference temperature is a variable).
* JSON: an absent heat capacity, mass or volume of an element takes the value read before it, an
  absent entropy or molar mass is indeterminate, as are expansivity and compressibility when a
  record has methods; `"TPMethods": null` is not like no TPMethods; a null in a coefficient vector
  silently ends the reading of the record; a method key that is not a number throws
  `std::invalid_argument`; `"values": []` is undefined behaviour; methods 41 and 42 are offered but
  ignored; only the last method of a category is kept; `m_volume_fpt_coeffs`,
  `eos_birch_murnaghan_coeffs`, `eos_churakov_gottschalk_coeffs`, `m_berman_phase_trans_props`,
  `solute_holland_powell98_coeffs` and `solute_anderson91_coeffs` are offered but never read; five
  offered methods have codes no branch of the engine tests for, and every property is undefined;
  a heat-capacity entry without coefficients shifts the following ones; HKF units are dropped when
  the third is `(cal*K)/mol`.

* Minerals: at the reference point the Murnaghan model leaves its increment out, so G jumps
  there; the Landau model's volume is not dG/dP and its heat capacity leaves the volume part
  out; Berman's v1, v2 terms use Tr^2 where powers of T - Tr belong, so S, V, H disagree with G;
  Birch-Murnaghan: the entropy increment has the sign of +dG/dT, the reference volume is added
  on top of the volume at T, P, and eight coefficients pass the size test although the ninth is
  read.
* Gases: a fugacity model adds RT ln(phi) to G and takes it off again, while H and S get the
  residual parts, so G differs from H - T S by the residual; U, A, Cp keep the ideal values; the
  ideal-gas correction adds V (P - Pref) with the final volume, below R T ln(P/Pref) everywhere;
  the Sterner-Pitzer wrapper has no equation code for gases other than CO2 and H2O; both
  Peng-Robinson models divide 0 by 0 at the critical temperature and take sqrt(alpha) positive far
  above it; Stryjek-Vera treats kappa as a constant in H and S.

- **C38, volume constant.** Both HKF codes multiply by 4.184 but use 41.84004 in the volume, so dG/dP differs from V by one part in a million (`C38_volume_refuted`).
- **C38, internal energy.** Both HKF codes compute U = H − P·V in calories with V still in cm³: the reported U subtracts 41.84 times P·V (`C38_internal_energy_refuted`).
- **C39, division by zero.** `functionG` divides by alpha, beta and 1 − rho: no result at the density maximum of water (`C39_density_maximum_refuted`). Above 1000 kg/m³ everything is zero.
- **C39, sign.** `gShok2` uses |1 − rho| but the derivative of 1 − rho: above 1 g/cm³ the pressure derivative has the wrong sign (`C39_gShok2_dense_refuted`).
- **C40, Holland-Powell.** The entropy has + K ln(rho/rho0)/T' where the derivative of G has none (below 500 K) or a minus sign (above); Cp lacks a term above 500 K (`C40_holland_powell_*`).
- **C40, enthalpies.** Holland-Powell and Anderson add the increment of G to H without T times the increment of S (`C40_anderson_refuted`); Anderson's volume is constant although G depends on P.
- **C40, molar mass.** Akinfiev-Diamond uses 18.01528 for water, the rest of the program 18.015268 (`C40_akinfiev_diamond_volume_refuted`).

* Water: the second temperature derivative of the density is 0/0 at a density maximum; the
  Johnson-Norton derivatives divide by a coefficient that is zero at isolated temperatures (one
  between 447 and 597 K); the density returned by the solver is one step past the one tested and can miss
  the pressure by any amount; a solvent state above 2 starts from density 0; `waterPressureWagnerPruss`
  evaluates HGK, and both pressure functions drop the derivatives of the Helmholtz function; densityPP of
  Zhang-Duan is scaled by 1e-5 instead of 1e-10; the finite-difference dielectric models leave
  epsilonTP, bornU and bornN at 0, store epsilonP per bar but bornQ per Pa, and divide by zero at 0 C.
- C44 `C44_wagner_pruss_TTT_refuted`: helmholtzTTT of Wagner-Pruss uses `tT*tT*tau*T` where `tT*tT*tT` belongs (WaterHelmholtzStateWagnerPruss.cpp:373). Nothing in the repository reads helmholtzTTT.
- C44 `C44_hgk_TTT_refuted`: HGK2 has `H/(t*t)` for `2*H/(t*t)` in its third temperature derivative (WaterHelmholtzStateHGK.cpp:297).
- C44 `C44_hgk_TDD_refuted`: two slips in the HGK derivative by T and twice by D: `x_rrt` lacks a factor x (line 269), and `theta_rrt` has psi_r*theta_r for psi_r*theta_t (line 372). The value goes into pressureTD and from there into densityTT, densityTP.
- C44 `C44_no_value_refuted`: Wagner-Pruss divides zero by zero at the critical density, HGK at the centres of its Gaussian terms.
- C49 `C49_json_limits_refuted`: `limitsTP` is read for lowerT and upperT only (ParseJsonToData.cpp:568-578), the pressure limits stay 0, so every property of a substance loaded from a database carries the out-of-bounds message at any positive pressure.
- C49 `C49_hkf_reaktoro_refuted`: SoluteHKFreaktoro.cpp:140 passes degrees centigrade and bar, the limits are in K and Pa.
- C49 `C49_akinfiev_refuted`: SoluteADgems.cpp:102 checks `tps` and returns `state`.
- C49 `C49_gas_partial`: the volume of a gas is assigned from a double, gets the status assigned and is never flagged.
- C49 `C49_earlier_warning_refuted`: every `+=` of a ThermoScalar resets the message, so a warning of the temperature correction is lost in the pressure correction.
- C49: `Reaction::checkCalcMethodBounds` has no caller; the status `outofbounds` is never set.
- C67 `C67_warning_lost_refuted`: the message of a reaction property is that of the last component in alphabetical order.
- C50 `C50_copy_answers_as_source`, `C50_copy_own_change_refuted`, `C50_copy_source_change_refuted`: the copy constructor of ThermoEngine (ThermoEngine.cpp:851-854) copies closures that captured the `this` of the source. A copy answers every request by symbol from the data and preferences of its source. `ThermoBatch(engine)` (ThermoBatch.cpp:60-62) copies the engine, so `ThermoBatch::setSolventSymbol` (562-565) has no effect on such a batch.
- C50 `C50_copy_outlives_source_refuted`: when the source is destroyed first, the copy (and a batch made from the engine) runs on freed memory.
- C50 `C50_copy_cache_refuted`: the copy and the source share one cache.
- C50 `C50_assign_refuted`: ThermoEngine has no assignment operator; the generated one shares the Impl.
- C50 `C50_output_current`, `C50_output_refuted`: Output copies the ThermoBatch, which copies a shared pointer; an output shows the results its batch has now, not those it was made for.
- C68 `C68_hot_entropy_refuted`: for every T between 695 and 1300 K and P up to 2 kbar (simple roots) the entropy of steam is not -dG/dT: the derivative of the attraction (s_solmod2_.cpp:4461) is that of a cubic in 673-T while line 4460 is a cubic in T-673.
- C68 `C68_jump_refuted`: for the same reason (4480 against 4460) the volume of steam jumps at 695 K.
- C68 `C68_co2_entropy_refuted`: above 5 kbar the entropy of CO2 ignores the pressure correction that the Gibbs energy contains.
- C68 `C68_dense_refuted`: choosing the liquid root (4808-4818) tests v2 where v3 is meant, so a negative root is taken for dense liquid water and the result is not a number, for example at 625 K and 90 kbar.
- C68 `C68_double_root_refuted`: with a double root the branch of one real root is taken and none of its numbers is a root.
- C69 `C69_volume_refuted`: the corresponding-states volume is negative for light gases at high pressure (Tc 36 K, Pc 22.5 bar, 900 K, 49 kbar), inside the accepted range.
- C71 `C71_pole_refuted`: one coefficient of water (row 7, 5227) changes sign at T = 65537.898/188.10675 = 348.41 K and Helmholtz divides by it (5962 on), so there the result is 0/0; close to it digits cancel. The limit exists, the code has no branch for it.
- C71 `C71_range_refuted`: STPCalcFugPure (6251-6277) accepts Tmin <= T < 10000 K, FugacityPT (5478-5484) only 200 to 2000 K; in between, and for formulas other than H2O and CO2 (uninitialised Eos_Code), an error code is returned that GasSTP.cpp:27 ignores and the caller adds numbers that were never written.
- C71, no theorem: the density returned is one Newton step beyond the one whose pressure was tested (5545-5563); GasSTP.cpp:21 allocates CPg and never frees it.

- **C72, a rounded constant.** base writes 28.16666667 where (g1 + g2 + 1)/2 = 28.166666666666665 belongs; A and S carry a surplus below 4e-9 R T/(1-y)^2, so p/d^2 is not dA/dd in any state (`C72_helmholtz_refuted`). The energies, heat capacities and p are not touched.
- **C73, two molar masses.** Energies are scaled with 18.0155341 g/mol (4.305816 cal), the volume with 18.015268: dG/dP differs from V by 15 parts in a million (`C73_volume_refuted`).
- **C73, dAldT.** dalHGK (2979) subtracts l/di/di in d2P/dD2 where l/del/del belongs; only the one of the last four terms with l = 2 and di = 0.319 is wrong. Where its factor exp(-20000 (T/640-1)^2) is not cut off (522-757 K) dAldT, densityTT, epsilonTT and bornX are not derivatives (`C73_second_refuted`); elsewhere they are.
- **C74, units.** epsilonP is per bar, bornQ and densityP are per Pa (`C74_epsilonP_refuted`). Beyond 1000 C or 5000 bar epsilon and all Born functions are silently 0 (`C74_outside`).
- **C75, metastable vapour.** State 1 above saturation: calcv2 writes Dens[1] whatever density it is handed, so thmHGK and dimHGK combine members evaluated at the vapour's density with the liquid's density (`C75_metastable`).
- **C75, silent ends.** denHGK returns after 11 evaluations in the unstable region or 31 elsewhere without a sign, the members then belonging to the density before the last step. A pressure below 0.00611732 bar is replaced by the saturation formula at any temperature, supercritical ones included (`C75_pressure`).
- **Seen while reading, not theorems.** `valid` tests the address of its error flag; the correction loop of tcorr has its test inverted and TdPsdT uses exponents one half below those of PsHGK, but calculateWaterHGKgems never reaches either; the shared constants ac_, el_ and tt_ are written by every call.

- **C76, separators.** An empty separator makes find_and_replace run forever (`C76_empty_refuted`); '_' cuts symbols, and symbols that differ only by separator and '_' give one line (`C76_underscore_refuted`, `C76_collision_refuted`). With two characters a symbol ending in the first one shifts the cut (`C76_two_characters_refuted`). Other separators give a file that reads back exactly (`C76_table`).
- **C77, settings.** setPropertiesUnits and setPropertiesDigits read past the end when fewer values than names are given (`C77_short_refuted`), and keep half of the changes when a name is unknown (`C77_all_or_nothing_refuted`). setUnits and setDigits replace the table; without "temperature" every later calculation throws (`C77_replace_refuted`). toDouble, toThermoScalar and to2DVectorDouble ignore the units that were set (`C77_to_double_refuted`); with an unknown property toDouble reads an empty vector.
- **C78, OutputToCSV.** A second open without close loses every row (`C78_reopen_refuted`); a row before the first open leaves the file without header (`C78_early_refuted`); the electro file prints bornX twice, so bornY and all that follow stand under the wrong names (`C78_electro_refuted`).
- **C79, cold water.** epsilonF is not a number at and below 228 K (`C79_cold_refuted`).

- **C80, Churakov-Gottschalk gas.** thermoPropertiesGasCGF allocates seven doubles and CGcalcFugPure reads twelve, so no call is defined (`C80_array_refuted`; the array is also never deleted). Above the pressure of the densest seed the fugacity is an unwritten local variable (`C80_too_high_refuted`); the density function then throws a TError, which is not a std::exception.
- **C81, density search.** Always a number when the seed pressures are finite (`C81_search`), but it can keep its first pair for all 20 rounds and return a density whose pressure is not P (`C81_pressure_refuted`).
- **C82, residuals.** The enthalpy is RT too high (`C82_enthalpy_refuted`; 2.5 kJ/mol for a gas without interactions, `C82_result_case`), H - TS misses RT ln phi by RT (1 + ln Z) (`C82_gibbs_refuted`), and both are taken at the density of T + T/100000 because the second call overwrites the density (`C82_result`). A residual energy of 100 RT or more gives a fugacity coefficient 0.

- **C84, ready results.** The records must be listed in the order of the loops of the settings (`C84_order_partial`); in the other order every row is filled, with values of other rows (`C84_crossed_refuted`). Too few records: the output reads past the end (`C84_short_refuted`). Too many are dropped silently (`C84_extra_refuted`).
- **C85, carried derivatives.** Minerals carry the derivatives of what they report, except at the reference point of Berman's correction, which is where most users look first: there dG/dP misses V and dV/dT is 0 (`C85_berman_reference_refuted`). Gases: residual enthalpy, residual entropy and volume come as plain numbers, so the derivatives carried are those of the ideal gas, and 0 for the volume (`C85_gas_enthalpy_refuted`, `C85_gas_volume_refuted`).
- **C77, names of solvent properties.** They are in the table of names but have no default unit: listing or setting one throws (`C77_solvent_refuted`).

- **C86, carried derivatives of reactions.** With heat capacity coefficients only, the logK coefficients are calculated at the temperature asked for and taken as plain numbers: H and S do not change with temperature but carry the derivatives Cp and Cp/T (`C86_Cp_coefficients_refuted`). log K carries the right derivative. U and A are set, and carry, only where the enthalpy is not 0.
- **C87, carried derivatives of water.** densityTT and the temperature derivative of alpha divide by densityT; at a density maximum their carried derivatives are 0/0, so `C87_density_derivatives` asks for densityT other than 0 there. That the table entries carry their derivatives is a hypothesis (C01 gives it for every expression built from the operators).

- **C88, water near the critical point.** Energies, entropy, heat capacities, alpha, beta and speed belong to one fundamental equation wherever the two parametric equations hold. The table of the program satisfies the relations between its constants to one part in 10^14 (`C88_table`); the theorems are about tables that satisfy them exactly, `co_exact` being one. The program solves the parametric equations to 1e-5 and stops at a density that differs from the last one tried by one part in 10^6: that error is not carried through.
- **C89, misplaced parentheses.** dalLVS has `pow(a2.r,(-1.0 - cgamma[i]) * drdT)` for r^(-1-gamma) dr/dT, twice (WaterHGK-JNgems.cpp:1414, 1418). At 653.6 K near the critical density the reported d(alpha)/dT is too large (`C89_dal_refuted`); it is right exactly where the excess is 0 (`C89_dal_iff`). dAldT enters XBorn through Born92.
- **C91, saturation near the critical point.** In the dome conver sets `par.th1 = drho * fabs(drho)` where the commented line beside it divides, so |theta| < 1, Pfind takes the state for one phase and never stores d2.dPdT. TsLVS called for isat = 0 then divides by 0 for every temperature from 643 K to the critical one (`C91_slope_unset_refuted`): the check whether T and P lie on the saturation curve cannot succeed. TsLVS repeats while `(++i > 20) || ...`: 20 rounds without convergence mean no end (`C91_tsat_refuted`). LVSeqn never resets sW, so a round with equal densities means no end (`C91_eqn_refuted`). denLVS gives up after 20 rounds without telling (`C91_density_refuted`).

- **C94, charged species of HKFgems.** gShok2 computes `pw = fabs(1.0e0 - D.val)` and raises it to `b.val`: plain numbers, so g does not carry dg/dP at all and only part of dg/dT (SoluteHKFgems.cpp:193-225). The values are right, the derivatives that G carries are not: dG/dP misses cal (1+Z) (d omega/dg) (dg/dP), for every anion a number other than 0 (`C94_gems_refuted`). HKFreaktoro carries them right (`C93_reaktoro_derivatives`).
- **C95, constants that carry derivatives.** In the Akinfiev-Diamond model the increments at 298.15 K are constants of the substance, but they are computed with a `Temperature`, whose ddt is 1, and are subtracted with their derivatives (SoluteADgems.cpp:70-74). In G the error is cancelled by another one: `Seos298.val*(Tk.val-Tr)` is a plain number. The carried derivatives of S and H are off by the heat capacity of the increments at 298.15 K, and dH/dP by the pressure derivative there, as only Gids, Sids and CPids have their ddp reset (line 90). In Holland-Powell `Tprime = T.val` drops the derivative of T' below 500 K: the carried dG/dT is neither the derivative of G nor -S (`C95_holland_powell_refuted`).

- **C96, vapour pressure.** The two formulas of PsHGK differ at 314 K: the pressure jumps by a millionth (`C96_continuous_refuted`), upwards, so it still rises everywhere (`C96_rises`). Above 647.25 K `fabs(1.0e0 - v)` mirrors the curve (`C96_mirrored`); the caller's P is set to that value, then valid refuses the request (`C96_refused`).
- **C97, pcorr.** No limit on the rounds; the returned pressure is moved once more after the densities were computed, by at most 1e-4 RT over the difference of the volumes. Equal densities divide by zero.
- **C99, two saturation pressures.** HGKeqn decides with aSta.Psat = PsHGK(T) (line 1747), calcv3 with the pressure of pcorr (1662). Between the two, state 0 has the energies of the liquid and the density of the vapour (`C99_mixed_refuted`), or state 1 repeats the liquid (`C99_twin_refuted`). A pressure within 1e-6 MPa of pcorr's is replaced by it (`C99_snapped`); as line 1747 compares again, a snapped pressure above PsHGK(T) always falls in the first window.

- **C100, viscosity.** The nested loops of viscos (2357-2363) never set `j` back to -1: the inner loop runs for i = 0 only, so five of the six powers of (1/T - 1) are missing. What is reported is the viscosity of the dilute gas times a function of the density (`C100_form`): it rises with temperature at every density (`C100_rises`), and cold water gets less than 1e-4 Pa s where the correlation the code cites gives 1.6e-3 and more (`C100_cold`); at 25 degrees the value is one sixteenth of that of the correlation.
- **C101, thermal conductivity.** The same in both double sums of thcond (2438-2445, 2457-2464; the second one starts from -1 again, then runs once): `C101_form`, `C101_sengers_refuted`.
- **C102, transport record.** dynamic_viscosity is in poise, Visck in cm2/s, thermal_conductivity in cal/(cm s K), while density is in kg/m3 and Beta in 1/Pa: Visck is not dynamic_viscosity / density in the units reported but a thousand times it (`C102_kinematic`); ThermoProperties.h states no unit for the six. Beyond the limits of a correlation the value is 0 without an error (`C102_beyond`, `C102_step_refuted`); the two correlations have different limits, so there are viscous states with Prandtl number 0 (`C102_prandtl_refuted`).
- **C103, surface tension.** Tcstar * Tstar = 647.06676 K lies below Tcrit = 647.067 K, so in the last 2.4e-4 K Tnorm is negative and pow gives not-a-number (`C103_number_refuted`). The block for the other density in HGKeqn calls dimHGK with isat = 1 (1751): state 1 of a single-phase request has a surface tension, state 0 has none (`C103_single_phase_refuted`).

- **C104, near the critical point at or below 647.067 K.** For a request with one phase LVSeqn sets only Dens[0] and wr. The swap after it (478-483) copies wr to wl, but Dens[0] to Dens[1] only above the critical temperature: state 0 reports density 0 and divides by it for the volume, state 1 reports the right density with a record of zeros (`C104_below_refuted`, for every request in a band around the saturation curve between 645.3 and 647.067 K, e.g. 373.35 degrees and 220 bar).
- **C105, limits.** valid accepts up to 2250 degrees and 30000 bar; Born92 and the transport correlations return zeros beyond 1000 degrees and 5000 bar. An accepted request at, say, 300 degrees and 6000 bar gets dielectric constant 0, viscosity 0, conductivity 0 and no error (`C105_blind_refuted`).

- **C106, names of the grid files.** toCSVPropertyGrid puts the property before the whole name: for `/tmp/grid.csv` it opens `entropy_/tmp/grid.csv`. Unless such a directory exists nothing is written, and nothing is reported (`C106_path_refuted`). With loopOverTPpairsFirst = false each file holds the header and a sentence (`C106_loop_refuted`).

- **C107, derivatives of Birch-Murnaghan.** The doubles Tref and Pref are handed to parameters of type Temperature and Pressure, whose constructors set the derivative to 1. The Gibbs energy carries v/10^6 - vt instead of v/10^6 for its pressure derivative (`C107_gibbs_pressure_refuted`). The volume at no pressure carries the expansivity at T less that at Tref (`C107_expansion_refuted`). With a constant expansivity G, S and V carry no temperature derivative from the model (`C107_flat_refuted`).

- **C108, pressure after a refusal.** WaterHGK turns the caller's pressure into bar before it looks up the triple point and checks the state, and turns it back only after both. An exception leaves the variable 10^5 times too small; asking again then gets an answer for that pressure (`C108_refused_refuted`). checkModelValidity has its lower temperature limit commented out: Zhang-Duan water answers from 0 K although 273.15 K is declared (`C108_frozen_refuted`).

- **C109, surface tension at saturation.** dimLVS gives the saturated vapour the surface tension 0, dimHGK gives it that of the liquid: at saturation the value reported for state 1 falls to 0 where the near-critical equation takes over (`C109_surface_refuted`). The Prandtl number is divided by the conductivity without the guard of dimHGK. The reported enthalpy of vaporisation and the reported volumes use two molar masses (18.0155 and 18.015268 g/mol, `C109_equilibrium`).

- **C110, volume methods of reactions.** The wrapper Reaction_Vol_fT returns default properties and the engine stores them over the temperature correction: with CPM_VKE or CPM_VBE log K and every property are 0 (`C110_engine_refuted`). The function it should call adds the energy V0 (P - Pref) to the volume, takes P in bar and Pref in Pa (`C110_volume`, `C110_reference_refuted`), and corrects ln K for pressure without correcting G (`C110_gibbs_refuted`).

- **C111, charges from formulas.** The warning prints the charge of the record after it was set, so the replaced value is never shown (`C111_old_charge_refuted`). A formula that cannot be read leaves the substances before it changed and the rest unchanged (`C111_atomic_refuted`). A charge that is not whole is cut to an int, and every later call warns again (`C111_quiet_refuted`).

- **C112, catalogue of methods.** The lines are accepted by the readers. A line kept with its empty list of values takes away coefficients that an earlier entry of the same record gave (`C112_emptied_refuted`). Which offered parameters are never read is in C31.

## Trusted base

* Coq 8.16.1 kernel (`coqc`, `coqchk`).
* Axioms listed by `Print Assumptions` under each theorem: only those of the standard
  library behind `R` (`ClassicalDedekindReals.sig_forall_dec`, `sig_not_dec`,
  `functional_extensionality_dep`) and, through Coquelicot's use of the standard library,
  `Classical_Prop.classic`.
* The correspondence between the model and the C++ text, which is by reading.

## Modelled and not modelled

| Source | Modelled | Left out |
|---|---|---|
| Common/ThermoScalar.hpp | all operators and functions | stream output, strings of the status |
| OptimizationUtils.h | memoize, memoizeLast, memoizeN, key copying and reference keys | hashing collisions |
| ThermoEngine.cpp/.h | dispatch, caches, recursion, conventions, preferences, copies of the settings | the model formulas are parameters here |
| Database.cpp, Element/Substance/Reaction keys | maps, operation histories, loading, comparison operators, charges from formulas (`Charge.v`; ChemicalFun, outside the repository, is taken to give the charge as a double) | file reading, logging |
| Common/formuladata etc. | not modelled | formula parser |
| Reaction.cpp:fromEquation, Common/ParseUtils | equation text to coefficients | locale of stod |
| Common/Units.cpp | table, parser, factors, dimensions, conversion | floating-point rounding |
| Batch/ThermoBatch.cpp, OutputBatch.cpp | T-P lists, loops, indices, tables as lists of labelled values (`BatchModel.v`); their text, the setters of units and digits (`CsvModel.v`); the files of a grid (`CsvGrid.v`); ready results (`BatchGiven.v`) | formatting of numbers |
| Common/OutputToCSV.cpp | opening, closing, header flag, rows of each of the three files | folder creation, failures of the file system |
| Reactions/*.cpp, ThermoModelsReaction.cpp, Reaction.cpp:358-519 | values of all formulas; Volume_function_of_T is in `VolFT.v` | alpha and beta of Volume_function_of_T, which nothing uses |
| Substances/EmpiricalCpIntegration.cpp, StandardEntropyCpIntegration.cpp | values and temperature derivatives of all formulas, interval search, transitions | messages, logging |
| GlobalFunctions.cpp | availableSubstanceTPMethods, availableReactionTPMethods (`Catalog.v`) | the text around the JSON values, the lists of properties |
| Common/ParseJsonToData.cpp | the readers of elements, substances and reactions | json::parse itself, overflow of stoi, logging, unused helpers |
| Substances/Solids/*.cpp | values of all formulas, the Newton loop, the branches; carried derivatives of Murnaghan, Landau and Berman (`CarryModel.v`) and Birch-Murnaghan (`CarryBM.v`) | messages, bounds check, alpha and beta of Birch-Murnaghan |
| Substances/Gases, s_solmod2_.cpp | wrappers' effect on the properties; pure-fluid part of SRK, PR78, PRSV, CORK, STP, CG | mixtures, the corresponding-states branch of STP; density derivatives kept by CORK for mixtures are defined but nothing is claimed about them |
| `Substances/Solute/SoluteHKFreaktoro.cpp`, `SoluteHKFgems.cpp`, `SoluteADgems.cpp`, `SoluteHollandPowell98.cpp`, `SoluteAnderson91.cpp` | values of every reported property; g (five derivatives in `functionG`, three in `gShok2`), omega (three) | propagated T and P derivatives (`ddt`, `ddp`), error columns, messages, checks for missing parameters, `wTP`, `wPP` (unused) |
| WaterHGK-JNgems.cpp | bb, base, resid, ideal, thmHGK, dalHGK, JN91, epsBrn, Born92, triple, dimHGK, denHGK, calcv2, calcv3, HGKeqn (isat = 0), the outputs; the pressure choice of calculateWaterHGKgems | PsHGK and pcorr are oracles here (modelled in `HgkSat.v`); viscosity, conductivity, surface tension are in `HgkTrans.v`, limits |
| SoluteHKFreaktoro.cpp, SoluteHKFgems.cpp, SoluteADgems.cpp, SoluteHollandPowell98.cpp, SoluteAnderson91.cpp | values and derivatives on ThermoScalars (`CarrySolute.v`) | error members of the ThermoScalars; the mixed and second pressure derivatives of g, which no property uses |
| WaterHGK-JNgems.cpp | PsHGK, corr, pcorr, HGKsat, HGKeqn with isat = 1, the choice of the record (`HgkSat.v`) | tcorr, TsHGK, TdPsdT (not reached by calculateWaterHGKgems); infinities in pcorr (equal densities end the search as NotANumber) |
| WaterHGK-JNgems.cpp | viscos, thcond, surten, the transport half of dimHGK (`HgkTrans.v`) | pow of a negative number in thcond |
| WaterHGK-JNgems.cpp | calculateWaterHGKgems from the request to the choice of the equation and of the record, valid, valTP, Psublm, crtreg (`HgkRoute.v`) | valTD, TdegUS, the conversion of units of the caller; LVSeqn and the saturation pressure inside crtreg are parameters |
| WaterHGK-JNgems.cpp | Pfind, aux, ss, thmLVS, dalLVS (`LvsModel.v`); saturated states, the dome of conver, the loops of TsLVS, denLVS and LVSeqn, rtheta (`LvsFlow.v`) | the three passes of conver (the states are those that meet its equations), Cvcoex, cpswap, backup and restor; dimLVS is in `LvsDim.v` |
| ThermoModelsSolvent.cpp | the calls of WaterHGK, WaterHGKreaktoro, WaterWP95reaktoro and WaterZhangDuan2005 (`SolventCalls.v`) | exceptions of LVSeqn; the models are parameters here |
| WaterThermoStateUtils, WaterElectroStateJohnsonNorton, WaterUtils, WaterHGKreaktoro, WaterWP95reaktoro, WaterIdealGasWolley, WaterZhangDuan2005, WaterElectroFernandez1997 and WaterElectroSverjensky2014 | formulas, finite differences | status, error values |
| WaterHelmholtzStateWagnerPruss.cpp, WaterHelmholtzStateHGK.cpp | all ten values at any T, D | the ddt, ddp parts of these values |
| Substance.cpp and Reaction.cpp checkCalcMethodBounds, Exception.cpp setMessage, all callers | messages and statuses | std::to_string (a parameter) |
| `AliasModel.v` | Element/Substance/Reaction/Database copy constructors and assignments, Database::Impl maps, ThermoEngine.cpp 61-127, 846-938 (closures, copy, generated assignment, setters, calls by symbol and by record), ThermoBatch.h 96-155, OutputBatch.cpp 13-28, OptimizationUtils.h 11-23 | the calculation is a tree of requests by symbol; the cache key is the request; ChemicalFun::DBElements is a value; iterators and references kept by the caller are not modelled |

Real numbers stand for doubles everywhere: rounding, overflow and NaN are not modelled.
