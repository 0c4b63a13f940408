{"id": "C01", "title": "Derivatives carried by ThermoScalar are the true partial derivatives", "statement": "Any quantity computed from Temperature(T), Pressure(P) and plain doubles with the overloaded + - * / sqrt pow exp log log10 operators reports a ddt and a ddp equal to the partial derivatives in T and P of the value it reports, wherever every intermediate operation is inside its domain.", "quantifier": "all expression trees over the overloaded operators (any depth), all T and P in the domain of the expression", "why_tests_cant": "A test compares a handful of expressions with finite differences; the claim is about every composition of operators at every point.", "anchors": ["ThermoFun/Common/ThermoScalar.hpp:operator+,operator-,operator*,operator/,sqrt,pow,exp,log,log10,Temperature,Pressure"]}
{"id": "C02", "title": "Undefined inputs make the result undefined, defined inputs never do", "statement": "The status reported by an arithmetic result is `notdefined` exactly when one of the ThermoScalar leaves it was computed from is `notdefined`; otherwise it is `calculated` (for at least one binary/unary operation).", "quantifier": "all expression trees and all assignments of status to the leaves", "why_tests_cant": "Status is propagated through arbitrarily deep formulas; tests look at single operations.", "anchors": ["ThermoFun/Common/ThermoScalar.hpp:status,operator+,operator*,operator/,pow,exp,log"]}
{"id": "C03", "title": "Reported errors are never negative", "statement": "Whenever all inputs carry a non-negative error, every arithmetic result carries a non-negative error.", "quantifier": "all operands and all sequences of operators including the in-place ones", "why_tests_cant": "The sign of the error depends on the sign of operands and on which overload is picked; tests only use positive values.", "anchors": ["ThermoFun/Common/ThermoScalar.hpp:ThermoScalarBase(…5 args…),operator*=,operator/="]}
{"id": "C04", "title": "Reported errors follow the first-order error propagation formula", "statement": "The error of f(x,y) with independent inputs is sqrt((f_x dx)^2+(f_y dy)^2) for each overloaded operation f.", "quantifier": "all operands with non-zero values", "why_tests_cant": "Pointwise comparisons on sample values cannot separate a formula wrong by a factor that happens to be close to one.", "anchors": ["ThermoFun/Common/ThermoScalar.hpp:operator+,operator*,operator/,sqrt,pow,exp,log"]}
{"id": "C05", "title": "In-place operators agree with the binary operators", "statement": "x+=y, x-=y, x*=y, x/=y leave x with exactly the value and both derivatives that x+y, x-y, x*y, x/y would return (y a ThermoScalar or a double).", "quantifier": "all operands", "why_tests_cant": "Requires agreement of two code paths for all operands.", "anchors": ["ThermoFun/Common/ThermoScalar.hpp:operator+=,operator-=,operator*=,operator/="]}
{"id": "C06", "title": "Memoisation is transparent for pure functions", "statement": "A function wrapped by memoize or memoizeN returns at every call exactly what the wrapped function would return for the same arguments, whatever was called before, when the wrapped function is deterministic and arguments are compared by value.", "quantifier": "all finite call histories, all argument types with a total order, all cache bounds", "why_tests_cant": "A stale or mis-keyed entry shows only after a specific history.", "anchors": ["ThermoFun/OptimizationUtils.h:memoize,memoizeN"]}
{"id": "C07", "title": "Bounded cache never exceeds its bound and never recomputes more than necessary", "statement": "With a positive bound n, memoizeN keeps at most n results at any time and its eviction queue lists exactly the cached keys, each once; a repeated request for a key that is still cached is answered without calling the wrapped function.", "quantifier": "all finite call histories and all n >= 1", "why_tests_cant": "Depends on the interleaving of hits, misses and evictions.", "anchors": ["ThermoFun/OptimizationUtils.h:memoizeN"]}
{"id": "C08", "title": "Memoised calls on references are keyed by the value passed", "statement": "engine.thermoPropertiesSubstance(T,P,symbol) with memoisation on returns what it would return with memoisation off, for any history of calls including those passing the same P variable after changing it.", "quantifier": "all histories of calls and of writes to the caller's variables", "why_tests_cant": "The defect needs a caller-owned variable that changes between calls while its address is stored in the cache.", "anchors": ["ThermoFun/OptimizationUtils.h:memoize,memoizeN", "ThermoFun/ThermoEngine.cpp:set_fn"]}
{"id": "C09", "title": "Changing engine settings changes later results", "statement": "After setSolventSymbol / preference changes / appendData a query returns the result computed with the new settings, exactly as a fresh engine with these settings would.", "quantifier": "all histories of queries and setting changes", "why_tests_cant": "Only histories in which the same query precedes and follows the change reveal a stale cache.", "anchors": ["ThermoFun/ThermoEngine.cpp:ThermoEngine::Impl::set_fn,setSolventSymbol,appendData"]}
{"id": "C10", "title": "Reaction properties are the stoichiometric sum of its reactants", "statement": "thermoPropertiesReactionFromReactants gives, for each of the eight properties, the sum over reactants of coefficient times the reactant's property, independent of the number and order of reactants.", "quantifier": "all reactant maps (any number of species, any real coefficients) and all property values", "why_tests_cant": "The accumulation is wrong only for some properties and only with two or more reactants.", "anchors": ["ThermoFun/ThermoEngine.cpp:Impl::thermoPropertiesReactionFromReactants"]}
{"id": "C11", "title": "logK, lnK and Gibbs energy of reaction agree", "statement": "Every reaction result satisfies lnK = -G/(R T) and logK = lnK/ln 10 up to the declared conversion constants, for reactions computed from reactants and for every reaction model.", "quantifier": "all reactant maps, all T > 0, all coefficient vectors", "why_tests_cant": "Equality must hold along a continuum of T and coefficients.", "anchors": ["ThermoFun/ThermoEngine.cpp:Impl::thermoPropertiesReactionFromReactants", "ThermoFun/Reactions/LogK_function_of_T.cpp:thermoPropertiesReaction_LogK_fT"]}
{"id": "C12", "title": "A substance defined by a reaction reproduces that reaction", "statement": "For a substance computed from its defining reaction, summing coefficient times property over the reaction's species (with that substance's own properties) gives back the reaction's G, H, S, Cp and V.", "quantifier": "all reactions with a non-zero coefficient of the substance, all values of the other species", "why_tests_cant": "Must hold for all stoichiometries and values.", "anchors": ["ThermoFun/ThermoEngine.cpp:Impl::reacDCthermoProperties"]}
{"id": "C13", "title": "Queries on cyclic or self-referential reaction definitions end with an error", "statement": "Every call to thermoPropertiesSubstance / thermoPropertiesReaction either returns or throws, for every database content, including databases in which substances are defined by reactions that mention them.", "quantifier": "all databases (all substance/reaction reference graphs)", "why_tests_cant": "Non-termination cannot be observed by a test, and depends on graph shape.", "anchors": ["ThermoFun/ThermoEngine.cpp:Impl::reacDCthermoProperties,thermoPropertiesReactionFromReactants"]}
{"id": "C14", "title": "The proton has zero properties by convention", "statement": "thermoPropertiesSubstance(T,P,\"H+\") returns zero for all eight properties at all T and P, whatever its record contains.", "quantifier": "all T, P, records and preferences", "why_tests_cant": "Must hold for every record.", "anchors": ["ThermoFun/ThermoEngine.cpp:Impl::thermoPropertiesSubstance"]}
{"id": "C15", "title": "Fallback to reference properties only fills gaps", "statement": "With fallback on, a property is replaced by the reference value exactly when it was not computed; with fallback off nothing is replaced; defined values are never altered.", "quantifier": "all results, all reference records, both preference values", "why_tests_cant": "Combination of eight status flags and preference.", "anchors": ["ThermoFun/ThermoEngine.cpp:Impl::thermoPropertiesSubstance (fallback 468-492)"]}
{"id": "C16", "title": "The database is a last-writer-wins map for set and first-writer-wins for add", "statement": "After any history of add/set/append calls, getSubstance(s) (getReaction, getElement) returns the record given by the abstract map semantics: set overwrites, add keeps the earlier record, records of other symbols are never changed, and get throws exactly for symbols never added.", "quantifier": "all histories of public database operations", "why_tests_cant": "Depends on arbitrary operation sequences.", "anchors": ["ThermoFun/Database.cpp:addSubstance,setSubstance,getSubstance,addReaction,getReaction,addElement,setElement"]}
{"id": "C17", "title": "Loading is all-or-nothing in effect order", "statement": "appendData over a list of records is the same as appending them one by one in order; a malformed record leaves exactly the records before it loaded.", "quantifier": "all record lists and all positions of the malformed record", "why_tests_cant": "Crash point anywhere in the list.", "anchors": ["ThermoFun/Database.cpp:addRecord,fromJSONs,fromFile,appendData"]}
{"id": "C18", "title": "Listing functions are complete, duplicate-free and sorted", "statement": "mapSubstances/getSubstancesList list every stored record exactly once, in a fixed order independent of insertion order.", "quantifier": "all histories", "why_tests_cant": "Ordering defects need particular symbol sets.", "anchors": ["ThermoFun/Database.cpp:getSubstancesList,getReactionsList,substancesSymbols"]}
{"id": "C19", "title": "Element ordering is a strict weak order", "statement": "operator< on Element and on Substance is irreflexive, transitive and compatible with equality, as std::map and std::set require.", "quantifier": "all triples of keys", "why_tests_cant": "Violations need a specific triple of keys; std::map then silently misplaces entries.", "anchors": ["ThermoFun/Element.cpp:operator<,operator==", "ThermoFun/Substance.cpp:operator<"]}
{"id": "C20", "title": "Reaction equations round-trip", "statement": "Parsing the text of a balanced equation with pairwise distinct species gives exactly the species with product coefficients positive and reactant coefficients negative.", "quantifier": "all equations with any number of distinct species on each side", "why_tests_cant": "Unbounded number of species and spellings.", "anchors": ["ThermoFun/Reaction.cpp:fromEquation,extractCoef,strip_all"]}
{"id": "C21", "title": "No species of an equation is lost", "statement": "Writing a species twice (on the same or both sides) is equivalent to writing it once with the net coefficient.", "quantifier": "all equations, including those with repeated species", "why_tests_cant": "Requires repeated species.", "anchors": ["ThermoFun/Reaction.cpp:fromEquation"]}
{"id": "C22", "title": "Unit conversion is consistent", "statement": "convert(x,u,u)=x, convert(convert(x,u,v),v,u)=x, convert(convert(x,u,v),v,w)=convert(x,u,w) and convert is linear in x, for all non-temperature units of the same dimension.", "quantifier": "all doubles (as reals), all unit expressions built from the unit table with * / ^ and parentheses", "why_tests_cant": "Unbounded unit expressions.", "anchors": ["ThermoFun/Common/Units.cpp:convert,factor,parseUnit"]}
{"id": "C23", "title": "Temperature conversion round-trips", "statement": "Converting a temperature between any two temperature units and back is the identity and goes through the physical definitions (degC, degF, degR, K).", "quantifier": "all values and all pairs of temperature units", "why_tests_cant": "All values.", "anchors": ["ThermoFun/Common/Units.cpp:toKelvin,fromKelvin,convert"]}
{"id": "C24", "title": "Conversion is refused exactly for incompatible dimensions", "statement": "convert throws iff convertible returns false, and convertible(u,v) is an equivalence relation that holds exactly when both units have the same exponents of the base units.", "quantifier": "all pairs of unit expressions", "why_tests_cant": "All pairs.", "anchors": ["ThermoFun/Common/Units.cpp:convertible,checkConvertibleUnits,dimension"]}
{"id": "C25", "title": "Unit strings are parsed with the usual precedence", "statement": "The text of any unit expression is parsed to the tree with left-associative * and / and parentheses, so its conversion factor is the product/quotient of the factors of its parts.", "quantifier": "all unit expressions of any size and nesting", "why_tests_cant": "Unbounded nesting.", "anchors": ["ThermoFun/Common/Units.cpp:parseUnit,findMatchedParenthesisFromRight"]}
{"id": "C26", "title": "Each batch result is stored at the row and column that is printed for it", "statement": "The value printed in row (symbol, T, P) and column (property) is the value computed for that symbol, T, P and property; every combination is computed exactly once; no out-of-range index is used.", "quantifier": "all numbers of symbols, T-P pairs and properties, both loop orders, both output layouts", "why_tests_cant": "Index arithmetic errors surface only for particular shapes.", "anchors": ["ThermoFun/Batch/ThermoBatch.cpp:calculate", "ThermoFun/Batch/OutputBatch.cpp:foutResults,foutResultsTransposed"]}
{"id": "C27", "title": "T-P grid covers exactly the requested points", "statement": "The list of T-P pairs generated from (min,max,step) starts at min, advances by step, has no duplicates, and does not run past max; generation always ends.", "quantifier": "all min, max, step", "why_tests_cant": "Termination and overshoot depend on real-valued steps.", "anchors": ["ThermoFun/Batch/ThermoBatch.cpp:addTPpairs,setTPpairs (increments 146-168)"]}
{"id": "C28", "title": "Property columns keep their label", "statement": "For any list of requested property names the value under each label is the property named by the label.", "quantifier": "all lists of property names", "why_tests_cant": "Requires unknown names in the list.", "anchors": ["ThermoFun/Batch/ThermoBatch.cpp:selectResultsSubst,selectResultsReac,selectResultsSolvent"]}
{"id": "C29", "title": "The property grid output is aligned and in range", "statement": "toCSVPropertyGrid prints for each (T,P) cell the value computed for that pair and never reads outside the result array.", "quantifier": "all lists of T-P pairs", "why_tests_cant": "Needs pair lists that are not full grids.", "anchors": ["ThermoFun/Batch/OutputBatch.cpp:foutPropertyGrid"]}
{"id": "C30", "title": "Missing fields of a record are not filled from other fields", "statement": "After parsing an element or substance record a field that is absent from the JSON has its documented default, independent of the other fields and of earlier records.", "quantifier": "all subsets of present fields and all values", "why_tests_cant": "Depends on which subset of fields is present.", "anchors": ["ThermoFun/Common/ParseJsonToData.cpp:parseElement,parseSubstance,read_value_unit"]}
{"id": "C31", "title": "Every advertised calculation method is honoured", "statement": "For every method name the library's enumeration accepts, parsing a substance that lists the method selects a calculation model for it.", "quantifier": "all method names, all lists of methods", "why_tests_cant": "All names.", "anchors": ["ThermoFun/Common/ParseJsonToData.cpp:setTPMethods_old", "ThermoFun/GlobalVariables.h:new_old_s_methodtype"]}
{"id": "C32", "title": "Heat-capacity integration is thermodynamically consistent within an interval", "statement": "For a substance described by a Cp(T) polynomial, H(T) has derivative Cp(T), S(T) has derivative Cp(T)/T, G = H - T S up to the reference constant, and dG/dT = -S.", "quantifier": "all coefficient vectors, reference values and T > 0", "why_tests_cant": "Identity over a continuum with 11 coefficients.", "anchors": ["ThermoFun/Substances/EmpiricalCpIntegration.cpp:thermoPropertiesEmpCpIntegration"]}
{"id": "C33", "title": "Every temperature inside the declared range selects the right interval", "statement": "For any list of contiguous temperature intervals, each T with lower <= T <= upper of the list uses the interval that contains it and never an index outside the coefficient table.", "quantifier": "all interval lists and all T", "why_tests_cant": "Boundary temperatures and gaps.", "anchors": ["ThermoFun/Substances/EmpiricalCpIntegration.cpp:thermoPropertiesEmpCpIntegration (45-71)"]}
{"id": "C34", "title": "Phase transitions and interval changes preserve G = H - T S", "statement": "Across any number of intervals and phase transitions, G(T) - (H(T) - T S(T)) keeps its reference value, if each transition satisfies dH = T_tr dS.", "quantifier": "all numbers of intervals and transitions", "why_tests_cant": "Induction over intervals.", "anchors": ["ThermoFun/Substances/EmpiricalCpIntegration.cpp:thermoPropertiesEmpCpIntegration"]}
{"id": "C35", "title": "Constant-Cp integration is consistent", "statement": "H' = Cp, S' = Cp/T, G' = -S and reference values are reproduced at T = Tr.", "quantifier": "all references and T", "why_tests_cant": "Continuum.", "anchors": ["ThermoFun/Substances/StandardEntropyCpIntegration.cpp"]}
{"id": "C36", "title": "logK(T) models are thermodynamically consistent", "statement": "For the logK(T) polynomial with given coefficients: G = -R T ln10 logK, dH/dT = Cp, dS/dT = Cp/T, G = H - T S and d(lnK)/dT = H/(R T^2); likewise for the two- and three-term extrapolations.", "quantifier": "all coefficient vectors and T > 0", "why_tests_cant": "Continuum and seven coefficients.", "anchors": ["ThermoFun/Reactions/LogK_function_of_T.cpp:thermoPropertiesReaction_LogK_fT"]}
{"id": "C37", "title": "Density-model reactions are thermodynamically consistent", "statement": "For the Dolejs-Manning, Frantz-Marshall and Ryzhenko-Bryzgalin models: G = H - T S, S = -dG/dT, Cp = dH/dT, V = dG/dP for any water density function with the reported alpha and beta.", "quantifier": "all coefficients, all differentiable density functions, all T, P", "why_tests_cant": "Continuum of functions.", "anchors": ["ThermoFun/Reactions/DolejsManning2010.cpp", "ThermoFun/Reactions/FrantzMarshall.cpp", "ThermoFun/Reactions/RyzhenkoBryzgalyn.cpp"]}
{"id": "C38", "title": "HKF aqueous species are thermodynamically consistent", "statement": "S = -dG/dT, V = dG/dP, Cp = T dS/dT and U = H - P V for any solvent permittivity function and any omega(T,P) whose reported derivatives are correct.", "quantifier": "all species parameters, all differentiable solvent functions", "why_tests_cant": "Continuum.", "anchors": ["ThermoFun/Substances/Solute/SoluteHKFgems.cpp:thermoPropertiesAqSoluteHKFgems", "ThermoFun/Substances/Solute/SoluteHKFreaktoro.cpp"]}
{"id": "C39", "title": "The solvent g-function and omega report their true derivatives", "statement": "The first and second T and P derivatives of g and of the Born coefficient omega returned with them are the derivatives of the returned values.", "quantifier": "all densities, charges, T, P, including the corrected region", "why_tests_cant": "Piecewise formula over a continuum.", "anchors": ["ThermoFun/Substances/Solute/SoluteHKFgems.cpp:gShok2,omeg92", "ThermoFun/Substances/Solute/SoluteHKFreaktoro.cpp:functionG,speciesElectroStateHKF"]}
{"id": "C40", "title": "Aqueous gas and neutral-species models are consistent", "statement": "The Akinfiev-Diamond, Holland-Powell 1998 and Anderson 1991 models satisfy G = H - T S whenever the inputs do and S = -dG/dT.", "quantifier": "all parameters, T, P, densities", "why_tests_cant": "Continuum.", "anchors": ["ThermoFun/Substances/Solute/SoluteADgems.cpp", "ThermoFun/Substances/Solute/SoluteHollandPowell98.cpp", "ThermoFun/Substances/Solute/SoluteAnderson91.cpp"]}
{"id": "C41", "title": "Mineral equations of state are consistent", "statement": "For Murnaghan-HP98, Landau, Berman88 and Birch-Murnaghan corrections: volume is dG/dP, entropy is -dG/dT, H = G + T S for the increments, and reference-state properties are reproduced at the reference point.", "quantifier": "all parameters, T, P", "why_tests_cant": "Continuum.", "anchors": ["ThermoFun/Substances/Solids/SolidMurnaghanHP98.cpp", "ThermoFun/Substances/Solids/SolidHPLandau.cpp", "ThermoFun/Substances/Solids/SolidBerman88.cpp", "ThermoFun/Substances/Solids/SolidBMGottschalk.cpp"]}
{"id": "C42", "title": "Gas models and pressure corrections keep G = H - T S", "statement": "The gas equations of state and the ideal-gas / constant-volume pressure corrections keep G - (H - T S) and set U = H - P V, A = U - T S.", "quantifier": "all inputs", "why_tests_cant": "Continuum.", "anchors": ["ThermoFun/Substances/Gases", "ThermoFun/ThermoModelsSubstance.cpp:applyPressure…,ConMolVol,IdealGasLawVol"]}
{"id": "C43", "title": "Water properties derived from the Helmholtz function are consistent", "statement": "Density derivatives, cv, cp, entropy, enthalpy, Gibbs energy returned for water are those of the one Helmholtz function: implicit-function derivatives of density, cp - cv relation, G = A + P/rho.", "quantifier": "all smooth Helmholtz functions and all states with dP/drho > 0", "why_tests_cant": "Continuum of functions.", "anchors": ["ThermoFun/Substances/Solvent/Reaktoro/WaterThermoStateUtils.cpp"]}
{"id": "C44", "title": "The Helmholtz derivative tables are the derivatives of the Helmholtz function", "statement": "Every partial derivative up to third order reported by the HGK and Wagner-Pruss water models is the partial derivative of the reported Helmholtz energy.", "quantifier": "all T, rho in the domain", "why_tests_cant": "Continuum; third-order derivatives.", "anchors": ["ThermoFun/Substances/Solvent/Reaktoro/WaterHelmholtzStateHGK.cpp", "ThermoFun/Substances/Solvent/Reaktoro/WaterHelmholtzStateWagnerPruss.cpp"]}
{"id": "C45", "title": "Dielectric constant and Born functions are consistent", "statement": "epsilon_T, epsilon_P, ... and Born Z,Y,Q,X,U,N are the derivatives of epsilon and of -1/epsilon.", "quantifier": "all states, all density functions", "why_tests_cant": "Continuum.", "anchors": ["ThermoFun/Substances/Solvent/Reaktoro/WaterElectroStateJohnsonNorton.cpp"]}
{"id": "C46", "title": "Iterative density solvers only return accepted iterates", "statement": "The water density solvers either throw or return a density for which the residual test was met at the preceding iterate; they stop after at most the configured number of iterations; the Zhang-Duan derivative used for Newton is the derivative of the residual.", "quantifier": "all starting states and model functions", "why_tests_cant": "All model functions.", "anchors": ["ThermoFun/Substances/Solvent/Reaktoro/WaterUtils.cpp:waterDensity", "ThermoFun/Substances/Solvent/WaterZhangDuan2005.cpp"]}
{"id": "C47", "title": "Ideal-gas water functions are consistent", "statement": "The Woolley ideal gas functions satisfy G = H - T S, dH/dT = Cp, dG/dT = -S.", "quantifier": "all T > 0", "why_tests_cant": "Continuum.", "anchors": ["ThermoFun/Substances/Solvent/WaterIdealGasWolley.cpp"]}
{"id": "C48", "title": "Reaction coefficient conversions are inverse to each other", "statement": "Converting Cp(T) coefficients to logK(T) coefficients and back returns the original coefficients and both describe the same logK(T).", "quantifier": "all coefficient vectors and reference states", "why_tests_cant": "Continuum.", "anchors": ["ThermoFun/Reaction.cpp:convert_CpfT_to_logKfT,convert_logKfT_toCpfT"]}
{"id": "C49", "title": "Out-of-range T or P is flagged, in-range is not", "statement": "checkCalcMethodBounds appends the out-of-bounds message and status exactly when T or P is outside the method's declared limits and the property had been calculated, and never changes values.", "quantifier": "all limits, T, P, statuses", "why_tests_cant": "Boundary combinations.", "anchors": ["ThermoFun/Substance.cpp:checkCalcMethodBounds", "ThermoFun/Reaction.cpp:checkCalcMethodBounds"]}
{"id": "C50", "title": "Copies are independent", "statement": "A copied Database, Substance, Reaction or engine can be changed without affecting the original and vice versa; an Output returned by a batch keeps its results when the batch computes again.", "quantifier": "all histories of operations on both copies", "why_tests_cant": "Aliasing is visible only for particular histories.", "anchors": ["ThermoFun/ThermoEngine.cpp:ThermoEngine(const ThermoEngine&)", "ThermoFun/Batch/OutputBatch.cpp:Output", "ThermoFun/Database.cpp:Database(const Database&)"]}
{"id": "C51", "title": "Queries do not change data or settings", "statement": "Asking for properties of a substance or reaction leaves the database, the conventions, the fallback and memoisation settings and the chosen solvent symbol unchanged.", "quantifier": "all databases, models, histories, T, P, symbols", "why_tests_cant": "A test looks at the answer, not at what later queries see.", "anchors": ["ThermoFun/ThermoEngine.cpp:getThermoPreferencesSubstance"]}
{"id": "C52", "title": "Every engine preference has an effect", "statement": "For each field of EnginePreferences set by setPreferences (solvent_state, enable_memoize, ...) there is a history in which the answers to later queries depend on it.", "quantifier": "all histories of engine operations", "why_tests_cant": "A setter without effect passes every test that only reads the preference back.", "anchors": ["ThermoFun/ThermoEngine.h:EnginePreferences", "ThermoFun/ThermoEngine.cpp:setPreferences, 110-135 and 180-225"]}
{"id": "C53", "title": "Answers do not depend on what was asked before", "statement": "The answer to a query is the same whatever other queries were made before it on the same engine, including queries that failed.", "quantifier": "all histories of queries", "why_tests_cant": "Needs particular orders of queries on gases and reactions.", "anchors": ["ThermoFun/ThermoEngine.cpp:thermoPropertiesReactionFromReactants", "ThermoFun/ThermoEngine.cpp:thermoPropertiesSubstance"]}
{"id": "C54", "title": "Conventions shift the answers by the documented constants only", "statement": "Choosing the steam-tables convention for water shifts G, A, U, H, S by the triple-point constants and nothing else; choosing Berman-Brown shifts G by Tr times the elemental entropies and nothing else.", "quantifier": "all substances, models, T, P", "why_tests_cant": "A test covers single substances.", "anchors": ["ThermoFun/ThermoEngine.cpp:441-455"]}
{"id": "C55", "title": "A stored record is found under its own symbol", "statement": "After any history of the database, the record returned for a symbol carries that symbol, and every stored record is listed under the symbol it carries.", "quantifier": "all histories of add, set, edit and load operations", "why_tests_cant": "Requires a history that renames a record through a reference or stores it under another key.", "anchors": ["ThermoFun/Database.cpp:95-144", "ThermoFun/Database.cpp:200-240"]}
{"id": "C56", "title": "Named units have their defined size", "statement": "Converting between any two named units of one dimension that have an exact definition (SI prefixes, calorie, bar, atmosphere, inch, ...) multiplies by the exact ratio of the definitions.", "quantifier": "all pairs of such units and all values", "why_tests_cant": "There are thousands of pairs.", "anchors": ["ThermoFun/Common/Units.cpp:97-403"]}
{"id": "C57", "title": "A batch value does not depend on the other symbols asked for", "statement": "The value reported for a symbol at a T-P pair is the same whatever other symbols are in the request and in whatever order they are listed.", "quantifier": "all lists of symbols and T-P pairs", "why_tests_cant": "Tests run one list in one order.", "anchors": ["ThermoFun/Batch/ThermoBatch.cpp:247-299", "ThermoFun/ThermoModelsSolvent.cpp:123-135"]}
{"id": "C58", "title": "The reaction model asked for is the one evaluated", "statement": "Selecting a density model for a reaction evaluates that model with the coefficients given for it: two reactions that differ in those coefficients differ in their answers.", "quantifier": "all coefficient vectors, water states, T, P", "why_tests_cant": "A test with one data set cannot tell which formula ran.", "anchors": ["ThermoFun/ThermoModelsReaction.cpp:ReactionDolejsManning10::thermoProperties"]}
{"id": "C59", "title": "The temperature derivatives carried by integrated properties are right", "statement": "The ddt part of H, S and G calculated by a heat-capacity integration is the derivative of the reported value with respect to T.", "quantifier": "all records, all intervals, all T", "why_tests_cant": "Tests compare values, not derivatives, and mostly in the first interval.", "anchors": ["ThermoFun/Substances/EmpiricalCpIntegration.cpp:93-175", "ThermoFun/Substances/StandardEntropyCpIntegration.cpp:14-28"]}
{"id": "C60", "title": "Values in the program's own units are read unchanged", "statement": "A value whose unit is the one the program stores it in, or that has no unit, is stored as written; a value in another unit is converted.", "quantifier": "all values, all built-in units", "why_tests_cant": "There are dozens of built-in unit strings in the reader and any of them could be one the converter rejects.", "anchors": ["ThermoFun/Common/ParseJsonToData.cpp:105-176,358-448", "ThermoFun/Common/Units.cpp:convert"]}
{"id": "C61", "title": "Heat capacities in a record are the ones reported", "statement": "For a record with any number of heat-capacity entries, the heat capacity reported at T is the polynomial of the entry whose interval contains T.", "quantifier": "all records with contiguous intervals, all T", "why_tests_cant": "Reading and integrating are tested apart and with few intervals.", "anchors": ["ThermoFun/Common/ParseJsonToData.cpp:329-393", "ThermoFun/Substances/EmpiricalCpIntegration.cpp:29-175"]}
{"id": "C62", "title": "The molar volume of a cubic gas is a root of its equation and the stable one", "statement": "For the Soave-Redlich-Kwong, Peng-Robinson and Stryjek-Vera gases, whenever a result is given the volume exceeds the co-volume, satisfies the equation of state at the given T and P and has the least Gibbs energy of all volumes; the fugacity coefficient belongs to that volume.", "quantifier": "all critical constants, acentric factors, T and P", "why_tests_cant": "The number of real roots changes over the T-P plane and a wrong root differs only in part of it.", "anchors": ["ThermoFun/Substances/Gases/s_solmod2_.cpp:FugacityPure,Cardano"]}
{"id": "C63", "title": "Residual functions of the cubic gases are consistent", "statement": "Residual G, H, S, V and Cp of the cubic gas models satisfy dG/dP = V - RT/P, dG/dT = -S, dH/dT = Cp and G = H - T S.", "quantifier": "all parameters, T, P inside one phase", "why_tests_cant": "Relations between derivatives over a continuum; tests compare single numbers.", "anchors": ["ThermoFun/Substances/Gases/s_solmod2_.cpp:SRK,PR78,PRSV"]}
{"id": "C64", "title": "Derivatives of the water density survive the iteration", "statement": "The temperature and pressure derivatives carried by the density returned from the iterative solver are those of the density as a function of temperature and pressure, independent of the starting value's derivatives.", "quantifier": "all Helmholtz functions, all states, all carried derivatives", "why_tests_cant": "The solver iterates on numbers that carry derivatives; tests compare values.", "anchors": ["ThermoFun/Substances/Solvent/Reaktoro/WaterUtils.cpp:62-73"]}
{"id": "C65", "title": "Pressure functions give back the pressure of a density", "statement": "The pressure reported for a density returned by the density solver of the same equation of state is the pressure it was asked for up to the tolerance; the fugacity coefficient belongs to the same equation of state.", "quantifier": "all models, T, P", "why_tests_cant": "Continuum; each equation of state must be paired with its own functions.", "anchors": ["ThermoFun/Substances/Solvent/Reaktoro/WaterUtils.cpp:95-110", "ThermoFun/Substances/Solvent/WaterZhangDuan2005.cpp:82-109"]}
{"id": "C66", "title": "Finite-difference derivatives are accurate", "statement": "Derivatives obtained by finite differences of density and dielectric constant differ from the true ones by at most a bound of second order in the step, in the units in which they are stored.", "quantifier": "all smooth functions, all states", "why_tests_cant": "Continuum of functions; unit scale errors look like small numbers.", "anchors": ["ThermoFun/Substances/Solvent/WaterZhangDuan2005.cpp:159-199", "ThermoFun/Substances/Solvent/WaterElectroFernandez1997.cpp:61-87"]}
{"id": "C67", "title": "Warnings of the components reach the reaction", "statement": "When the properties of a reaction are calculated from its components, the message of each property tells for every component whether its property was undefined or carried a warning.", "quantifier": "all reactions, component lists, messages", "why_tests_cant": "The text depends on the order of the components and on which of them carries a warning.", "anchors": ["ThermoFun/ThermoEngine.cpp:thermoPropertiesReactionFromReactants", "ThermoFun/Common/Exception.cpp:setMessage"]}
{"id": "C68", "title": "Water and carbon dioxide after Holland and Powell are consistent", "statement": "For H2O and CO2 with the compensated Redlich-Kwong model the volume is a solution of the equation of state (the largest in the vapour) plus the pressure correction, dG/dP = V - RT/P, dG/dT = -S, dH/dT = Cp, G = H - T S, the Gibbs energy is continuous at the saturation pressure and there is a result wherever the equation has a solution above the co-volume.", "quantifier": "all T, P with simple roots", "why_tests_cant": "Branches by temperature and pressure, three hand-differentiated attraction functions, root selection; tests compare a few numbers.", "anchors": ["ThermoFun/Substances/Gases/s_solmod2_.cpp:4425-4669,4780-4876"]}
{"id": "C69", "title": "Other fluids of the compensated Redlich-Kwong model are consistent", "statement": "For every other fluid the volume is the corresponding-states volume of Holland and Powell (1991), positive, and G, H, S, Cp satisfy dG/dP = V - RT/P, dG/dT = -S, dH/dT = Cp, G = H - T S.", "quantifier": "all critical constants, T and P", "why_tests_cant": "Relations between derivatives over a continuum.", "anchors": ["ThermoFun/Substances/Gases/s_solmod2_.cpp:4675-4776"]}
{"id": "C70", "title": "Sterner-Pitzer fluids: table of derivatives and state functions", "statement": "For the Sterner-Pitzer equation every stored derivative of the reduced Helmholtz energy is that derivative, the pressure and its slope follow from it, the density is a differentiable function of T and p with the stored first and second derivatives wherever the slope is not zero, dG/dP = V - RT/P, dG/dT = -S, dH/dT = Cp, dH/dP = V - T dV/dT along it, and the dilute fluid is ideal.", "quantifier": "all coefficients, T, densities", "why_tests_cant": "Nine derivatives of a ten-coefficient formula, differentiated by hand; relations over a continuum.", "anchors": ["ThermoFun/Substances/Gases/s_solmod2_.cpp:5516-5732,5914-6035"]}
{"id": "C71", "title": "Sterner-Pitzer fluids: every accepted state has a result and it belongs to the pressure asked", "statement": "For water and carbon dioxide the fugacity call, wherever it does not fall back to an ideal gas, returns numbers computed from a density within the limits whose pressure is the one asked; G = RT ln phi = H - T S; no denominator vanishes.", "quantifier": "all T, P", "why_tests_cant": "Zeros of denominators, convergence of a loop, memory left unwritten on failure.", "anchors": ["ThermoFun/Substances/Gases/s_solmod2_.cpp:5208-5263,5469-5732,5844-5909,6251-6277", "ThermoFun/Substances/Gases/GasSTP.cpp:10-43"]}
{"id": "C72", "title": "GEMS water: one Helmholtz energy", "statement": "In the Haar-Gallagher-Kell water of GEMS the dimensionless functions are those of one Helmholtz energy of temperature and density: p/d^2 and -S are its slopes, Cv and (p - T dp/dT)/d^2 those of U, dp/dT and dp/dd those of p, and H, G, S follow.", "quantifier": "all T > 0 and densities with packing below one, off the switch points of the last four terms", "why_tests_cant": "Forty terms with hand-written derivatives; a difference in the ninth digit passes any tolerance.", "anchors": ["ThermoFun/Substances/Solvent/WaterHGK-JNgems.cpp:2172-2200,2395-2475,2500-2680"]}
{"id": "C73", "title": "GEMS water: reported properties are derivatives of each other", "statement": "Along the density that solves p(T, rho) = P the reported densityT, densityP, densityTT, Alpha, Beta, dAldT are derivatives of the density; Cp, S, V are derivatives of H and G; G = H - T S and A = U - T S up to one constant.", "quantifier": "all states with dp/dd nonzero, all triple-point data", "why_tests_cant": "Second derivatives at constant pressure of a function known only implicitly.", "anchors": ["ThermoFun/Substances/Solvent/WaterHGK-JNgems.cpp:11-151,2479-2490,2681-2727,2864-3013"]}
{"id": "C74", "title": "GEMS water: dielectric constant and Born functions", "statement": "epsilonT, epsilonTT and epsilonP are derivatives of epsilon, Z = -1/epsilon, and Y, Q, X are derivatives of Z and Y, in the units of the other properties.", "quantifier": "all states below 1000 C and 5000 bar", "why_tests_cant": "As C73, composed with a five-term series.", "anchors": ["ThermoFun/Substances/Solvent/WaterHGK-JNgems.cpp:153-218,2281-2314,2789-2859"]}
{"id": "C75", "title": "GEMS water: the record belongs to the density and the density to the pressure", "statement": "calculateWaterHGKgems finds a density whose pressure is the one asked, where pressure rises with density; every property of one state is evaluated at the density reported with it; the caller's pressure is unchanged unless it is the saturation pressure.", "quantifier": "all T, P, triple-point data, saturation oracles", "why_tests_cant": "Loops that end silently; member variables shared by three density searches.", "anchors": ["ThermoFun/Substances/Solvent/WaterHGK-JNgems.cpp:385-520,1638-1766,2204-2243"]}
{"id": "C76", "title": "A CSV file of a batch reads back", "statement": "Reading the file written by toCSV or toCSVTransposed, cutting lines at the separator, gives the header cells and, line by line, symbol, T, P and the printed values; a separator inside a symbol never makes a new cell, and writing ends.", "quantifier": "all separators, symbols, properties, units, printed numbers", "why_tests_cant": "Tests use a comma and plain symbols; the claim is about every separator and symbol.", "anchors": ["ThermoFun/Batch/OutputBatch.cpp:34-64,108-136,174-293"]}
{"id": "C77", "title": "Settings of a batch", "statement": "Setting the unit or digits of named properties changes these and nothing else, and after any settings the calculation and output of known properties find their units; the values handed out by the output are in the units that were set.", "quantifier": "all histories of settings, all tables", "why_tests_cant": "The order and combination of setters is unbounded.", "anchors": ["ThermoFun/Batch/ThermoBatch.cpp:247-253,509-546", "ThermoFun/Batch/OutputBatch.cpp:81-106", "ThermoFun/Batch/ThermoBatch.h:268-319"]}
{"id": "C78", "title": "OutputToCSV files", "statement": "Each file opened gets its header once and then every row written to it until it is closed; the cells of a row stand under their names.", "quantifier": "all sequences of open, write and close", "why_tests_cant": "Sequences are unbounded; stream states after failures are invisible to tests that check one file.", "anchors": ["ThermoFun/Common/OutputToCSV.cpp:55-154", "ThermoFun/Common/OutputToCSV.h:21-30"]}
{"id": "C79", "title": "Dielectric constant of Fernandez 1997", "statement": "Above 228 K and below the limiting density epsilonF is the only positive solution of the Harris-Alder equation with its correlation factor; it exceeds 1 when that factor is not negative, is 1 at zero density and starts with the slope of a gas of polarisable dipoles.", "quantifier": "all temperatures and densities", "why_tests_cant": "A table of values cannot show that the closed form solves the equation everywhere.", "anchors": ["ThermoFun/Substances/Solvent/WaterElectroFernandez1997.cpp:9-42"]}
{"id": "C80", "title": "Calls of the Churakov-Gottschalk fluid", "statement": "Calculating a gas with this method reads only the parameters the record has; outside the range of the method the result is the ideal gas; inside it every pressure gives a number or an error.", "quantifier": "all parameter lists, temperatures and pressures", "why_tests_cant": "Reading past an array usually returns some number, so a test sees no failure.", "anchors": ["ThermoFun/Substances/Gases/GasCGF.cpp:9-36", "ThermoFun/Substances/Gases/s_solmod2_.cpp:1194-1228,2265-2303"]}
{"id": "C81", "title": "Density of the Churakov-Gottschalk fluid", "statement": "The density found has the pressure asked for, within the tolerance of the search, for every isotherm.", "quantifier": "all isotherms and pressures", "why_tests_cant": "The search is a heuristic with 20 rounds; tests cover a few isotherms only.", "anchors": ["ThermoFun/Substances/Gases/s_solmod2_.cpp:2051-2258"]}
{"id": "C82", "title": "Residual properties of the Churakov-Gottschalk fluid", "statement": "Fugacity coefficient, enthalpy and entropy are those of the fluid with the residual free energy F at the density of (T, P), and H - T S = R T ln(phi) for the departures.", "quantifier": "all free-energy functions, temperatures, pressures", "why_tests_cant": "A shift by RT looks like a different reference state in any single value.", "anchors": ["ThermoFun/Substances/Gases/s_solmod2_.cpp:1230-1347,2265-2303"]}
{"id": "C83", "title": "Reference fluid of Churakov-Gottschalk", "statement": "The hard-sphere diameter is a converged Newton iteration or the start value, the free energy vanishes at zero density, and results kept from the last call never show.", "quantifier": "all temperatures, densities, histories of calls", "why_tests_cant": "Static variables make results depend on the history, which is unbounded.", "anchors": ["ThermoFun/Substances/Gases/s_solmod2_.cpp:1576-1598,1688-1832"]}
{"id": "C84", "title": "Batches handed ready results", "statement": "A batch given records of properties computed elsewhere prints each record in the row of its symbol, temperature and pressure, and reports a wrong number of records.", "quantifier": "all lists of symbols, pairs, names and records, both loop orders", "why_tests_cant": "The mixing of rows only shows for more than one symbol and more than one pair in the other order.", "anchors": ["ThermoFun/Batch/ThermoBatch.cpp:301-317,381-412,469-500"]}
{"id": "C85", "title": "Derivatives carried by results of minerals and gases", "statement": "The derivatives with respect to T and P that each property of a result carries are the derivatives of the reported values as functions of T and P.", "quantifier": "all parameters, states and records handed in", "why_tests_cant": "Carried derivatives are computed by operator overloading along with the values; a plain double anywhere in the chain silently drops a term.", "anchors": ["ThermoFun/Substances/Solids/SolidMurnaghanHP98.cpp:8-64", "ThermoFun/Substances/Solids/SolidHPLandau.cpp:9-91", "ThermoFun/Substances/Solids/SolidBerman88.cpp:9-57", "ThermoFun/Substances/Gases/GasPRSV.cpp:25-31", "ThermoFun/ThermoModelsSubstance.cpp:498-505"]}
{"id": "C86", "title": "Derivatives carried by results of reactions", "statement": "The derivatives with respect to T and P that each property of a reaction result carries are the derivatives of the reported values, and within one result dG/dT = -S, dH/dT = Cp and d lnK/dT = H/(R T^2).", "quantifier": "all reaction records, methods, temperatures, pressures and waters", "why_tests_cant": "A test compares one number; that it is the derivative of the reported function needs all temperatures near it.", "anchors": ["ThermoFun/Reactions/LogK_function_of_T.cpp:8-187", "ThermoFun/Reactions/FrantzMarshall.cpp:6-59", "ThermoFun/Reactions/RyzhenkoBryzgalyn.cpp:5-79", "ThermoFun/Reactions/DolejsManning2010.cpp:6-51"]}
{"id": "C87", "title": "Derivatives carried by results for water", "statement": "Density, its derivatives, energies, entropy and molar properties of water carry the derivatives of the reported values; within one result dG = -S dT + V dP, dH/dT = cp and T dS/dT = cp.", "quantifier": "all Helmholtz energies, densities, temperatures, pressures", "why_tests_cant": "The relations between carried derivatives and reported derivatives hold through the implicit density, which no finite set of states determines.", "anchors": ["ThermoFun/Substances/Solvent/Reaktoro/WaterThermoStateUtils.cpp:48-96", "ThermoFun/Substances/Solvent/WaterHGKreaktoro.cpp:10-78", "ThermoFun/Substances/Solvent/WaterWP95reaktoro.cpp:9-83"]}
{"id": "C88", "title": "Water near the critical point follows one fundamental equation", "statement": "Where the Levelt Sengers equation is used, the reported A, G, U, H, S, Cv, Cp, alpha, beta, speed of sound and the pressure belong to one fundamental equation: dG = -S dT + V dP, dA = -S dT - P dV, dH = Cp dT + (V - T V alpha) dP, alpha and beta are the derivatives of the density.", "quantifier": "all states r, theta, all directions, all tables of constants that satisfy the scaling relations", "why_tests_cant": "The relations hold between functions of two parametric variables defined by implicit equations; a test sees single states.", "anchors": ["ThermoFun/Substances/Solvent/WaterHGK-JNgems.cpp:637-727", "ThermoFun/Substances/Solvent/WaterHGK-JNgems.cpp:730-797", "ThermoFun/Substances/Solvent/WaterHGK-JNgems.cpp:1193-1277"]}
{"id": "C89", "title": "Temperature derivative of the expansion coefficient near the critical point", "statement": "dAldT as reported near the critical point is the temperature derivative of the reported alpha at constant pressure.", "quantifier": "all states near the critical point", "why_tests_cant": "Whether a formula is the derivative of another needs all states.", "anchors": ["ThermoFun/Substances/Solvent/WaterHGK-JNgems.cpp:1284-1432"]}
{"id": "C90", "title": "Saturated water near the critical point", "statement": "The two saturated states have the same pressure and the same Gibbs energy, the vapour is the less dense, the slope used to find the saturation temperature is that of the saturation pressure, and the heat of vaporisation is the difference of the enthalpies and satisfies Clapeyron's equation.", "quantifier": "all temperatures below the critical one", "why_tests_cant": "Equality of Gibbs energies and a derivative along the whole coexistence curve cannot be tested point by point.", "anchors": ["ThermoFun/Substances/Solvent/WaterHGK-JNgems.cpp:637-727", "ThermoFun/Substances/Solvent/WaterHGK-JNgems.cpp:845-857", "ThermoFun/Substances/Solvent/WaterHGK-JNgems.cpp:1227-1245"]}
{"id": "C91", "title": "Searches near the critical point end with an answer", "statement": "The searches for saturation temperature, density and phase near the critical point end, and end with a state of the temperature and pressure asked for or with an error.", "quantifier": "all temperatures, pressures and equations", "why_tests_cant": "A test cannot observe that a loop never ends, nor all states from which it does not.", "anchors": ["ThermoFun/Substances/Solvent/WaterHGK-JNgems.cpp:802-858", "ThermoFun/Substances/Solvent/WaterHGK-JNgems.cpp:1088-1105", "ThermoFun/Substances/Solvent/WaterHGK-JNgems.cpp:1162-1187", "ThermoFun/Substances/Solvent/WaterHGK-JNgems.cpp:1539-1600", "ThermoFun/Substances/Solvent/WaterHGK-JNgems.cpp:1842-1850"]}
{"id": "C92", "title": "Parametric variables of a state", "statement": "Where the iteration of rtheta stands still, r and theta satisfy rho = k r^beta theta and Tee = r(1 - b^2 theta^2); the iteration is Newton's method for that equation and starts on the right side.", "quantifier": "all reduced densities and temperatures", "why_tests_cant": "The equations hold for real powers at all arguments.", "anchors": ["ThermoFun/Substances/Solvent/WaterHGK-JNgems.cpp:1966-2041"]}
{"id": "C93", "title": "Derivatives carried by results of HKFreaktoro", "statement": "The ddt and ddp members of the properties of an aqueous species computed with HKFreaktoro are the derivatives of the reported functions, through density, g function and Born coefficient; dG/dT is -S, dG/dP the volume, dH/dT and T dS/dT are Cp.", "quantifier": "all T > 228 K, P, densities, parameters and charges", "why_tests_cant": "A finite difference at some states does not settle an identity along the whole chain, least of all at the region limits.", "anchors": ["ThermoFun/Substances/Solute/SoluteHKFreaktoro.cpp:45-295"]}
{"id": "C94", "title": "Derivatives carried by results of HKFgems", "statement": "The ddt and ddp members of the Gibbs energy computed with HKFgems are -S and V.", "quantifier": "all T > 228 K, P, densities, parameters and charges", "why_tests_cant": "The values are right, so comparisons of values pass; the members differ for charged species at every state.", "anchors": ["ThermoFun/Substances/Solute/SoluteHKFgems.cpp:21-283"]}
{"id": "C95", "title": "Derivatives carried by results of the Akinfiev-Diamond and density models", "statement": "The ddt and ddp members of the properties computed with the Akinfiev-Diamond, Holland-Powell and Anderson models are the derivatives of the reported functions.", "quantifier": "all T, P, parameters and waters", "why_tests_cant": "Constants that carry derivatives cancel in G and show in S and H only.", "anchors": ["ThermoFun/Substances/Solute/SoluteADgems.cpp:9-158", "ThermoFun/Substances/Solute/SoluteHollandPowell98.cpp:10-71", "ThermoFun/Substances/Solute/SoluteAnderson91.cpp:10-46"]}
{"id": "C96", "title": "Vapour pressure of water", "statement": "The saturation pressure used when the caller asks for saturation is positive, rises continuously with temperature up to the critical point, and is not made up above it.", "quantifier": "all temperatures and pressures", "why_tests_cant": "Monotonicity and continuity are statements about all temperatures; the jump at 314 K is a millionth.", "anchors": ["ThermoFun/Substances/Solvent/WaterHGK-JNgems.cpp:386-432", "ThermoFun/Substances/Solvent/WaterHGK-JNgems.cpp:2712-2736"]}
{"id": "C97", "title": "The saturation solver", "statement": "pcorr ends with a liquid and a vapour density at one pressure and equal Gibbs energies; its correction of the pressure is a step of Newton's method.", "quantifier": "all temperatures, all numbers of rounds, any start", "why_tests_cant": "The loop has no limit and no error path; tests see only temperatures where it converges.", "anchors": ["ThermoFun/Substances/Solvent/WaterHGK-JNgems.cpp:2492-2506", "ThermoFun/Substances/Solvent/WaterHGK-JNgems.cpp:2741-2770"]}
{"id": "C98", "title": "Saturated states of water", "statement": "At saturation state 0 reports the liquid and state 1 the vapour, every property of a state belonging to its own density, and G of both agrees.", "quantifier": "all temperatures, triple point data, results of the saturation solver", "why_tests_cant": "Whether each property comes from the right record is a question of data flow, not of values at chosen states.", "anchors": ["ThermoFun/Substances/Solvent/WaterHGK-JNgems.cpp:10-92", "ThermoFun/Substances/Solvent/WaterHGK-JNgems.cpp:1717-1745"]}
{"id": "C99", "title": "Water near saturation", "statement": "For a given pressure each state reports properties of one density that solves the equation at that pressure, on both sides of the saturation curve.", "quantifier": "all T, P and saturation states", "why_tests_cant": "The windows in which it fails are narrower than any grid of a test.", "anchors": ["ThermoFun/Substances/Solvent/WaterHGK-JNgems.cpp:1603-1766"]}
{"id": "C100", "title": "Viscosity of water", "statement": "The dynamic viscosity is that of the cited correlation of Watson, Basu and Sengers at every temperature and density inside its limits; that of the liquid falls with temperature.", "quantifier": "all temperatures, pressures, densities and compressibilities", "why_tests_cant": "A value can only be compared at chosen states, and none of the tests compares it; the loss of five rows of a double sum is a property of the loop for all inputs.", "anchors": ["ThermoFun/Substances/Solvent/WaterHGK-JNgems.cpp:2314-2379"]}
{"id": "C101", "title": "Thermal conductivity of water", "statement": "The thermal conductivity is that of the cited correlation of Sengers and others, positive, with a critical enhancement that never lowers it.", "quantifier": "all temperatures, pressures, densities, expansivities and compressibilities", "why_tests_cant": "As C100.", "anchors": ["ThermoFun/Substances/Solvent/WaterHGK-JNgems.cpp:2381-2474"]}
{"id": "C102", "title": "Record of the transport properties", "statement": "Kinematic viscosity, thermal diffusivity and Prandtl number follow from viscosity, conductivity, density and heat capacity of the same record; a state beyond the limits of a correlation is not given a made-up value.", "quantifier": "all records, temperatures, pressures and densities", "why_tests_cant": "Relations between outputs for all states, and behaviour across limits.", "anchors": ["ThermoFun/Substances/Solvent/WaterHGK-JNgems.cpp:45-92", "ThermoFun/Substances/Solvent/WaterHGK-JNgems.cpp:526-550", "ThermoFun/Substances/Solvent/WaterHGK-JNgems.cpp:2686-2705"]}
{"id": "C103", "title": "Surface tension of water", "statement": "The surface tension is positive, falls with temperature, vanishes at the critical point, and is reported only where liquid and vapour coexist.", "quantifier": "all temperatures, pressures and saturation states", "why_tests_cant": "The interval in which it is not a number is 0.24 mK wide; which state carries it is a question of data flow.", "anchors": ["ThermoFun/Substances/Solvent/WaterHGK-JNgems.cpp:2245-2272", "ThermoFun/Substances/Solvent/WaterHGK-JNgems.cpp:1717-1766", "ThermoFun/Substances/Solvent/WaterHGK-JNgems.cpp:2692-2695"]}
{"id": "C104", "title": "Records of water near the critical point", "statement": "When the near-critical equation is used, each state that is asked for reports the record and the density of the phase it stands for, with a finite volume.", "quantifier": "all requests routed to the near-critical equation, all records and densities it may leave", "why_tests_cant": "The records are swapped and densities copied under a condition on temperature; no test has a state in the narrow band where the condition is wrong.", "anchors": ["ThermoFun/Substances/Solvent/WaterHGK-JNgems.cpp:10-92", "ThermoFun/Substances/Solvent/WaterHGK-JNgems.cpp:425-487", "ThermoFun/Substances/Solvent/WaterHGK-JNgems.cpp:990-1085", "ThermoFun/Substances/Solvent/WaterHGK-JNgems.cpp:1539-1600"]}
{"id": "C105", "title": "Requests the water model accepts", "statement": "A request is refused outside the range of the equation of state, in the field of ice, and for saturation outside the two-phase range; an accepted request gets all the properties.", "quantifier": "all temperatures and pressures", "why_tests_cant": "The limits are lines in a plane; completeness of the answer inside them concerns every state.", "anchors": ["ThermoFun/Substances/Solvent/WaterHGK-JNgems.cpp:386-432", "ThermoFun/Substances/Solvent/WaterHGK-JNgems.cpp:554-614", "ThermoFun/Substances/Solvent/WaterHGK-JNgems.cpp:863-985"]}
{"id": "C106", "title": "Files of a property grid", "statement": "toCSVPropertyGrid writes one file per property, where the given name says, and touches no other; read back at the separator, each cell below a column and beside a symbol and a row value is the value of the engine there.", "quantifier": "all separators, symbols, properties, temperatures and pressures, file names, files present before", "why_tests_cant": "The claim relates files on disk to every cell of a grid of any size and to all names; tests look at one grid in the working directory.", "anchors": ["ThermoFun/Batch/OutputBatch.cpp:66-79", "ThermoFun/Batch/OutputBatch.cpp:138-172", "ThermoFun/Batch/OutputBatch.cpp:295-355"]}
{"id": "C107", "title": "Derivatives carried by Birch-Murnaghan results", "statement": "The ddt and ddp of the properties of a solid computed by the Birch-Murnaghan model are the derivatives of these properties with respect to temperature and pressure.", "quantifier": "all coefficients, reference states, temperatures and pressures, incoming records", "why_tests_cant": "Derivatives at all states, through a Newton loop of up to 50 steps; tests compare values at a few states and read no derivative.", "anchors": ["ThermoFun/Substances/Solids/SolidBMGottschalk.cpp:14-146", "ThermoFun/Substances/Solids/SolidBMGottschalk.cpp:150-188", "ThermoFun/ThermoModelsSubstance.cpp:394-399"]}
{"id": "C108", "title": "The caller's pressure and the limits of the water models", "statement": "After a request for water the variable passed for the pressure holds the pressure of the answer in Pa (that asked, or the saturation pressure for 0), also when the request is refused with an exception; asking again gives the same answer; the dielectric properties of a request belong to the same state as its solvent properties; states outside the declared limits are refused.", "quantifier": "all temperatures, pressures, phases, names of triple points, all four water models", "why_tests_cant": "The effect on the variable after an exception and the repetition of a call concern every state; tests pass a pressure once and look at the result.", "anchors": ["ThermoFun/ThermoModelsSolvent.cpp:17-46", "ThermoFun/ThermoModelsSolvent.cpp:71-91", "ThermoFun/ThermoModelsSolvent.cpp:117-191", "ThermoFun/ThermoModelsSolvent.cpp:216-244", "ThermoFun/GlobalVariables.h:56-81", "ThermoFun/ThermoEngine.cpp:499-517", "ThermoFun/ElectroModelsSolvent.cpp:87-96"]}
{"id": "C109", "title": "Same record from both equations of water", "statement": "A state of water near the critical point is reported in the units and with the relations between the properties that hold for other states: equal states get equal records, saturated vapour and liquid have equal Gibbs energies and obey Clapeyron's equation, and each record belongs to one density.", "quantifier": "all temperatures, pressures, densities, all values of the underlying properties, both phases", "why_tests_cant": "A relation between two record builders for all states; the near-critical region is a narrow band that no test enters.", "anchors": ["ThermoFun/Substances/Solvent/WaterHGK-JNgems.cpp:1438-1500", "ThermoFun/Substances/Solvent/WaterHGK-JNgems.cpp:1539-1600", "ThermoFun/Substances/Solvent/WaterHGK-JNgems.cpp:2479-2490", "ThermoFun/Substances/Solvent/WaterHGK-JNgems.cpp:2667-2710"]}
{"id": "C110", "title": "Volume methods of reactions", "statement": "A reaction whose pressure method is a volume function of T and P (VKE, VBE) is reported with the volume its coefficients give, equal to the reference volume at the reference state, and with a log K and a Gibbs energy corrected consistently for pressure.", "quantifier": "all reactions with these methods, coefficient vectors of any length, temperatures, pressures, engine states", "why_tests_cant": "A statement about every data set; no test data use these methods.", "anchors": ["ThermoFun/Reactions/Volume_function_of_T.cpp:7-92", "ThermoFun/ThermoModelsReaction.cpp:191-200", "ThermoFun/ThermoEngine.cpp:728-738"]}
{"id": "C111", "title": "Charges taken from formulas", "statement": "setSubstancesChargeFromFromula gives every substance the charge of its formula and changes nothing else, or fails and changes nothing; each change is reported with the old and the new charge; a second call changes and reports nothing.", "quantifier": "all databases, formulas and charges", "why_tests_cant": "A statement about every record of a map of any size and about the state after an exception; no test calls the function.", "anchors": ["ThermoFun/Database.cpp:654-684", "ThermoFun/Substance.cpp:169-172"]}
{"id": "C112", "title": "Catalogue of methods", "statement": "availableSubstanceTPMethods and availableReactionTPMethods list every offered method with its parameter and do not throw; any of the listed lines, in any number and order, can be used as TPMethods of a record, selects the methods it names and leaves the coefficients of other entries alone.", "quantifier": "all tables, all lists of lines, all records", "why_tests_cant": "Agreement of three tables and a reader for all combinations of lines; no test reads a listed line back.", "anchors": ["ThermoFun/GlobalFunctions.cpp:6-61", "ThermoFun/GlobalVariables.h:148-266", "ThermoFun/Common/ParseJsonToData.cpp:305-408"]}
