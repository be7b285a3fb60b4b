{"id": "C01", "title": "Guarded arithmetic helpers never divide by zero and never change a well scaled quotient", "statement": "robust::ratio(a,b) has a non-zero denominator for every b (including 0), keeps the sign of b, and equals a/b in binary64 whenever |b| is not vanishingly small; make_positive is > 0; make_bounded(v,lo,hi) lies strictly inside (lo,hi), is the identity in the interior and monotone whenever 0 < hi and lo+EPS <= hi(1-EPS); safe_arg_exp is exp on the representable range and monotone across its cut-offs.", "quantifier": "all real arguments (all binary64 arguments for the absorption claim)", "why_tests_cant": "the guard matters exactly for the sparse set of near-zero/denormal operands that sampling never hits", "anchors": ["singularity-eos/base/robust_utils.hpp: SMALL, EPS, make_positive, make_bounded, sgn, ratio, safe_arg_exp"]}
{"id": "C02", "title": "Compile-time integer power is exact", "statement": "math_utils::pow<P>(x) equals x multiplied by itself P times for every P >= 0, and 1/x^|P| for P < 0 with x != 0; the template recursion terminates for every P.", "quantifier": "all integer exponents P and all real x", "why_tests_cant": "infinitely many template instantiations; a test instantiates a handful", "anchors": ["singularity-eos/base/math_utils.hpp: pow<P>, ipow10"]}
{"id": "C03", "title": "Argument sanity predicates flag exactly the bad values", "statement": "non_positive_value(v) reports true iff v <= 0; negative_value(v) reports true iff v < 0 for every v other than 0; bad_value accepts zero and every value of normal magnitude up to 1e-10 times the largest double.", "quantifier": "all values v", "why_tests_cant": "boundary value 0 decides the difference", "anchors": ["singularity-eos/base/error_utils.hpp: is_strictly_positive, is_non_negative, non_positive_value, negative_value, bad_value"]}
{"id": "C04", "title": "Hermite basis functions interpolate and are differentiated correctly", "statement": "Each function documented as a derivative of a quintic/cubic Hermite basis function is its exact derivative at every z; the 1D combination reproduces every polynomial of degree <= 5 (<= 3); h5/h3 at the cell corners return the stored nodal value, and evaluate any tensor-product polynomial of that degree exactly.", "quantifier": "all abscissae, all nodal data, all polynomials of the stated degree", "why_tests_cant": "identities over the continuum", "anchors": ["singularity-eos/base/hermite.hpp: psi0..ddpsi2, h5, xpsi0..xdpsi1, h3"]}
{"id": "C05", "title": "Not-quite-transcendental log and exponential are inverse, monotone and close to log2", "statement": "On positive reals the portable fast log2 and fast pow2 are exact mutual inverses, strictly increasing and continuous across powers of two, lg(2^n)=n, and |lg(x) - log2(x)| is bounded by a fixed constant; the second-order pair is continuously differentiable; the integer-aliased variants are monotone in the bit pattern, stay inside int64, are exact on integers in the exponential direction and invert each other up to a stated number of ulps.", "quantifier": "all positive reals / all 2^63 positive bit patterns", "why_tests_cant": "2^63 inputs; table grids rely on the inverse for every density and temperature", "anchors": ["singularity-eos/base/fast-math/logs.hpp: lg_o1_portable, pow2_o1_portable, lg_o1_aliased, pow2_o1_aliased, lg_o2_portable, pow2_o2_portable, lg_o2_aliased, pow2_o2_aliased"]}
{"id": "C06", "title": "Regula falsi returns an enclosed root when it reports success", "statement": "For exact arithmetic, 0 <= xtol, ytol and a continuous function that changes sign between a and the guess or between the guess and b: when regula_falsi reports SUCCESS the returned abscissa lies in [a,b] and in an interval [u,v] with a true root r, and either it is within xtol of r or one end of [u,v] has residual at most ytol and the other at most ytol times a power of two not exceeding the number of iterations. The iteration terminates, after at most 1000 counted steps, in every arithmetic where x-x is not above 2*xtol, whatever the function.", "quantifier": "all functions f, all targets, brackets, guesses, tolerances", "why_tests_cant": "quantifies over all functions and all iteration histories", "anchors": ["singularity-eos/base/root-finding-1d/root_finding.hpp: check_bracket, set_bracket, regula_falsi"]}
{"id": "C07", "title": "Newton-Raphson reports success only for a converged in-bounds root", "statement": "newton_raphson performs at most 100 updates; with fail_on_bound_root (the default) a SUCCESS result is inside [a,b] with residual below the relative tolerance; with target zero it never reports success.", "quantifier": "all functions with derivative, all targets, guesses, bounds", "why_tests_cant": "all functions and all trajectories", "anchors": ["singularity-eos/base/root-finding-1d/root_finding.hpp: newton_raphson"]}
{"id": "C08", "title": "findRoot/secant/bisect succeed only inside the bounds with the requested tolerance", "statement": "In exact arithmetic, for 0 < xtol, 3*xtol <= xmax and xmin+2*xtol <= xmax: if findRoot reports SUCCESS the root is in [xmin,xmax] and either its relative residual is below ytol or the function changes sign within xtol of it; if it fails, the output is still within bounds.", "quantifier": "all functions (including ones returning NaN), all bounds, guesses, tolerances", "why_tests_cant": "all functions and trajectories, including NaN propagation", "anchors": ["singularity-eos/base/root-finding-1d/root_finding.hpp: findRoot, secant, bisect"]}
{"id": "C09", "title": "Compile-time type lists enumerate exactly the intended EOS/modifier combinations", "statement": "flatten removes all nesting and preserves order; filtering removes exactly the doubly-nested modifiers; transform_variadic_list yields each modifier applied to each EOS once; GetIndexInTL(T) is the position of the first occurrence; contains is membership.", "quantifier": "all type lists and modifier lists", "why_tests_cant": "structural induction over arbitrary lists", "anchors": ["singularity-eos/base/variadic_utils.hpp: GetIndexInTL, flatten, filter_nested_variadic, transform_variadic_list, concat, contains", "singularity-eos/eos/eos_type_lists.hpp"]}
{"id": "C10", "title": "Type-indexed lambdas read and write exactly the named slot", "statement": "For an indexer over distinct index types, setting one named quantity and reading another never interferes and a read returns the last write; SafeGet/SafeSet succeed exactly when the slot exists (or numeric fall-back is legal) and otherwise leave everything unchanged; SafeMustGet agrees with SafeGet on indexers that declare themselves type-indexed; a null indexer is never dereferenced and no access leaves the storage.", "quantifier": "all indexer layouts, all sequences of gets/sets", "why_tests_cant": "all layouts and histories of accesses", "anchors": ["singularity-eos/base/indexable_types.hpp: SafeGet, SafeSet, SafeMustGetSet, VariadicIndexerBase", "singularity-eos/base/generic_indexer.hpp"]}
{"id": "C11", "title": "Serialising then deserialising one EOS restores it", "statement": "For an EOS with any amount of dynamic memory whose SetDynamicMemory follows the documented protocol, DeSerialize(Serialize(eos)) restores the object and its table data, both calls return SerializedSizeInBytes, and no byte outside that range is written or read; with shared memory the table data ends up in the shared buffer only.", "quantifier": "all objects, all table contents, all shared-memory settings", "why_tests_cant": "all byte contents and all sizes", "anchors": ["singularity-eos/eos/eos_base.hpp: Serialize, DeSerialize, SerializedSizeInBytes", "singularity-eos/eos/eos_variant.hpp: Serialize, DeSerialize"]}
{"id": "C12", "title": "Bulk serialisation restores every EOS in order and places shared tables disjointly", "statement": "BulkSerializer round-trips any container of EOS objects when shared memory is used, on the copying rank and on every other rank, and, without shared memory, any container in which at most one object has tables; the shared-memory segments handed to successive objects are consecutive, disjoint and inside the SharedMemorySizeInBytes buffer.", "quantifier": "all containers (any length), all mixes of EOS with/without tables", "why_tests_cant": "arbitrary container length", "anchors": ["singularity-eos/base/serialization_utils.hpp: BulkSerializer"]}
{"id": "C13", "title": "Vector calls equal scalar calls for every execution order", "statement": "Each vector API call writes, for every i < num and nothing else, exactly the value the scalar call returns on element i, whatever order (or interleaving) the parallel loop runs its iterations in.", "quantifier": "all sizes, all schedules, all element values, all EOS", "why_tests_cant": "all schedules of a parallel loop", "anchors": ["singularity-eos/eos/eos_base.hpp: SG_EOS_VEC_2IN_1OUT, MinInternalEnergyFromDensity, FillEos"]}
{"id": "C14", "title": "Modifier vector calls agree with their scalar calls", "statement": "For any nesting of Shifted, FlooredEnergy (with a floor independent of lambda) and BilinearRamp, over an EOS class with the default loops or over Scaled/UnitSystem layers placed directly on a class that applies the Transform, the vector overloads (raw-pointer ones with scratch) return elementwise the value of the scalar method and touch only the outputs and the advertised scratch; the advertised scratch grows with the size.", "quantifier": "all modifiers, all wrapped EOS, all sizes", "why_tests_cant": "all wrapped EOS and sizes", "anchors": ["singularity-eos/eos/modifiers/modifier_vector_macros.hpp", "singularity-eos/eos/modifiers/shifted_eos.hpp", "singularity-eos/eos/modifiers/scaled_eos.hpp", "singularity-eos/eos/modifiers/eos_unitsystem.hpp", "singularity-eos/eos/modifiers/ramps_eos.hpp", "singularity-eos/eos/modifiers/floored_energy.hpp"]}
{"id": "C15", "title": "Default density-energy-from-P,T and energy-from-density,P are inverses of the forward calls", "statement": "When the default inversions succeed (exact arithmetic), evaluating the forward EOS at the returned state reproduces the requested pressure within tolerance, or encloses an exact solution as in C06, and the returned density/energy is within the EOS bounds (energy: for a guess inside the range); the density is within bounds and the energy is the forward one even on failure; the energy search always terminates; the default minimum energy is the forward energy at the minimum temperature; finite-difference derivatives are mean values of the derivative over the documented steps.", "quantifier": "all EOS with default inversions, all states, all guesses", "why_tests_cant": "all pressure functions", "anchors": ["singularity-eos/eos/eos_base.hpp: DensityEnergyFromPressureTemperature, InternalEnergyFromDensityPressure, MinInternalEnergyFromDensity, PTDerivativesByFiniteDifferences"]}
{"id": "C16", "title": "Ideal gas is thermodynamically consistent", "statement": "Round trips T<->e, (P,T)->(rho,e), (rho,P)->e; both pressure entry points agree; bulk modulus is rho dP/drho at constant entropy; Gruneisen is (1/rho) dP/de; Cv is de/dT; de = T ds - P dv; the stored reference state and PT derivatives agree with the queries; FillEos from (rho,e), (rho,T), (P,T), (rho,P) equals the scalar calls and changes nothing else.", "quantifier": "all parameters admitted by CheckParams, all positive states", "why_tests_cant": "identities over a continuum of states and parameters", "anchors": ["singularity-eos/eos/eos_ideal.hpp"]}
{"id": "C17", "title": "Stiffened gas is thermodynamically consistent", "statement": "As C16 for the stiffened gas (Cv, gm1 > 0, Pinf >= 0), including its floors, minimum energy and reference state; FillEos in the four input modes.", "quantifier": "all admitted parameters and states", "why_tests_cant": "continuum identities", "anchors": ["singularity-eos/eos/eos_stiff.hpp"]}
{"id": "C18", "title": "Noble-Abel gas is thermodynamically consistent", "statement": "As C16 for the Noble-Abel gas below the covolume limit; FillEos from (rho,e), (rho,T) and (P,T).", "quantifier": "all admitted parameters and states", "why_tests_cant": "continuum identities", "anchors": ["singularity-eos/eos/eos_noble_abel.hpp"]}
{"id": "C19", "title": "Carnahan-Starling gas is thermodynamically consistent", "statement": "As C16 for Carnahan-Starling; for every P > 0, T > 0 exactly one density below the covolume limit has that pressure, the pressure increases with density, and the density returned from (P,T) is exact for b = 0 and otherwise within 1e-9 of the exact one or in a common interval with it one end of which has residual at most 1e-9; stored reference values other than the bulk modulus equal the queries at the reference state.", "quantifier": "all admitted parameters and states", "why_tests_cant": "continuum identities", "anchors": ["singularity-eos/eos/eos_carnahan_starling.hpp"]}
{"id": "C20", "title": "SAP polynomial pressure is the documented one and its derivative queries are its partial derivatives", "statement": "The pressure polynomial is the documented one and continuous; both entry points give it; the bulk-modulus query returns rho dP/drho at constant energy and the Gruneisen query dP/de at constant density, on both sides of compression; FillEos from (rho,e) equals the scalar calls.", "quantifier": "all coefficients and states", "why_tests_cant": "continuum identities", "anchors": ["singularity-eos/eos/eos_sap_polynomial.hpp"]}
{"id": "C21", "title": "JWL is thermodynamically consistent", "statement": "Pressure, energy, bulk modulus and Gruneisen of JWL satisfy the defining derivative identities and the first law; the pressure is Mie-Gruneisen about the reference isentrope; the two entry points agree; the pressure increases with density for A, B >= 0; the (P,T) inversion returns a density in the search range, in an interval that contains every exact solution and is narrower than 2e-8 or has an end within 1e-8 of P; the stored reference energy, specific heat, bulk modulus and dP/de are those of the queries; FillEos from (rho,e) equals the scalar calls.", "quantifier": "all admitted parameters and states", "why_tests_cant": "continuum identities", "anchors": ["singularity-eos/eos/eos_jwl.hpp"]}
{"id": "C22", "title": "Gruneisen EOS stays on its valid branch and is consistent", "statement": "Below the automatic maximum density of a linear or quadratic fit the Hugoniot denominator is positive; every Hugoniot state is on the EOS; the pressure, bulk modulus and energy/temperature relations satisfy their derivative identities on both branches and the pressure is continuous; beyond the maximum density every query is clipped; the advertised minimum pressure bounds the pressure in expansion; the (P,T) inversion encloses an exact solution in expansion and in compression; FillEos from (rho,e) with temperature or pressure requested equals the scalar calls.", "quantifier": "all admitted parameters, all densities below the limit", "why_tests_cant": "continuum identities and root location for all coefficients", "anchors": ["singularity-eos/eos/eos_gruneisen.hpp"]}
{"id": "C23", "title": "Vinet isotherm is thermodynamically consistent", "statement": "The isotherm is the documented one; pressure is the negative volume derivative of the free energy for any set of expansion coefficients and any array size; first law; T<->e round trip; bulk modulus is the isentropic one; reference state and thermal expansion; FillEos from (rho,e) with temperature requested and from (rho,T) equals the scalar calls.", "quantifier": "all parameters, all lengths of the expansion, all states", "why_tests_cant": "arbitrary coefficient list", "anchors": ["singularity-eos/eos/eos_vinet.hpp"]}
{"id": "C24", "title": "Davis reactants/products follow their reference isentropes", "statement": "Products: P_s = -dE_s/dv, first law, bulk modulus = isentropic derivative, round trip, entry points, (P,T) inversion encloses an exact solution, FillEos from (rho,e). Reactants: round trip, entry points, Gruneisen and Cv identities, dE_s/drho = (P_s+P0)/rho^2, temperature on the reference isentrope and first law in compression (P0 = 0), isentropic bulk modulus in expansion (P0 = 0), (P,T) inversion, FillEos from (rho,e).", "quantifier": "all admitted parameters and states", "why_tests_cant": "continuum identities", "anchors": ["singularity-eos/eos/eos_davis.hpp"]}
{"id": "C25", "title": "Mie-Gruneisen power series and linear Us-up EOS are consistent", "statement": "Hugoniot energies/pressures satisfy the jump conditions; T<->e round trips; Gruneisen, specific heat and isentropic bulk modulus through (rho,e); the first law holds up to an explicit remainder of the temperature series (exactly for the power series in expansion above Pmin); the series truncation error is below 1e-15 for G0 >= 0; no abort below the maximum density; constructors, reference states; FillEos from (rho,e) with temperature requested and from (rho,T).", "quantifier": "all admitted parameters and states", "why_tests_cant": "continuum identities", "anchors": ["singularity-eos/eos/eos_powermg.hpp", "singularity-eos/eos/eos_mgusup.hpp"]}
{"id": "C26", "title": "Ideal electron EOS is consistent", "statement": "Ideal electron pressure/energy/entropy identities for every ionisation Z > 0, floors for every Z, linear in Z, zero pressure contribution of a neutral gas, mean-ionisation lookup through the lambda, (P,T) inversion, FillEos in all its modes.", "quantifier": "all states and ionisations", "why_tests_cant": "continuum identities", "anchors": ["singularity-eos/eos/eos_electrons.hpp"]}
{"id": "C27", "title": "Shifted EOS is the wrapped EOS with a shifted energy origin", "statement": "Every query of ShiftedEOS equals the wrapped EOS's with energy inputs decreased and energy outputs increased by the shift; shifts compose; thermodynamic identities are inherited; FillEos from (rho,e) is the wrapped one seen through the shift.", "quantifier": "all wrapped EOS, all shifts, all states", "why_tests_cant": "all wrapped EOS", "anchors": ["singularity-eos/eos/modifiers/shifted_eos.hpp"]}
{"id": "C28", "title": "Scaled EOS is the wrapped EOS with scaled density", "statement": "The pressure, temperature, bulk-modulus and Gruneisen queries of ScaledEOS equal the wrapped EOS's at (s*rho, e/s) with outputs rescaled and inherit the derivative identities; when the wrapped energy does not depend on density, also the energy query, the round trip and the first law.", "quantifier": "all wrapped EOS, all scales, all states", "why_tests_cant": "all wrapped EOS", "anchors": ["singularity-eos/eos/modifiers/scaled_eos.hpp"]}
{"id": "C29", "title": "UnitSystem converts every quantity consistently", "statement": "Every query through UnitSystem equals: convert inputs to cgs, query, convert the result back; converting units and back is the identity; scalar and vector agree.", "quantifier": "all unit choices, all wrapped EOS, all states", "why_tests_cant": "all unit systems", "anchors": ["singularity-eos/eos/modifiers/eos_unitsystem.hpp"]}
{"id": "C30", "title": "Bilinear ramp gives continuous pressure and consistent bulk modulus", "statement": "The ramp is continuous, increasing, has the documented slopes and an exact inverse; the ramped pressure is the max of ramp and wrapped pressure and is continuous; the bulk modulus above r0 corresponds to the selected branch; the P-alpha constructor gives the documented break points; FillEos from (rho,e) with the bulk modulus requested equals the ramped queries.", "quantifier": "all ramp parameters, all wrapped EOS, all states", "why_tests_cant": "all wrapped EOS", "anchors": ["singularity-eos/eos/modifiers/ramps_eos.hpp"]}
{"id": "C31", "title": "Relativistic, floored-energy and Z-split modifiers obey their contracts", "statement": "Relativistic: bulk modulus is the wrapped one divided by the enthalpy factor, sound speed below c exactly when the stated inequality holds, in particular for ideal gases with gamma <= 2; all other queries unchanged. Floored: energies below the floor act as the floor, queries above it are unchanged, idempotent, continuous, round trip. ZSplit: every query is the rescaled one, the parts are thermodynamically consistent and electron plus ion parts add up to the unsplit EOS.", "quantifier": "all wrapped EOS, all states", "why_tests_cant": "all wrapped EOS", "anchors": ["singularity-eos/eos/modifiers/relativistic_eos.hpp", "singularity-eos/eos/modifiers/floored_energy.hpp", "singularity-eos/eos/modifiers/zsplit_eos.hpp"]}
{"id": "C32", "title": "Modify / GetUnmodifiedObject / variant dispatch are mutually consistent", "statement": "Stacking any number of modifiers and asking for the unmodified object returns the original; a variant call equals the call on the held object; modifying a variant never yields a type outside the variant.", "quantifier": "all stacks of modifiers, all held types", "why_tests_cant": "arbitrary depth of nesting", "anchors": ["singularity-eos/eos/eos_base.hpp: GetUnmodifiedObject, ConditionallyModify", "singularity-eos/eos/eos_variant.hpp", "singularity-eos/eos/eos_builder.hpp"]}
{"id": "C33", "title": "PTE solvers stay inside the scratch memory they advertise", "statement": "For every number of materials (as long as the reported size fits the int it is returned in) the arrays a pressure-temperature-equilibrium solver carves from its scratch are pairwise disjoint and lie inside the size reported by the corresponding RequiredScratch function, and no method of the solver writes outside that scratch.", "quantifier": "all material counts, all five solvers", "why_tests_cant": "unbounded material count", "anchors": ["singularity-eos/closure/mixed_cell_models.hpp: PTESolver*RequiredScratch, AssignIncrement, PTESolverBase ctor"]}
{"id": "C34", "title": "PTE solver bookkeeping conserves mass, volume and energy", "statement": "For each of the five systems and every iteration history the returned state keeps each material's mass, volume fractions and densities stay positive, temperatures agree where the system has a common one, and energies and pressures are those of the EOS at the returned state; the renormalisation helpers make fractions sum to the total, keep masses and make energies sum to the total.", "quantifier": "all material counts, all states", "why_tests_cant": "all iteration histories", "anchors": ["singularity-eos/closure/mixed_cell_models.hpp: Fixup, NormalizeVfrac, EnforceMassVolumesSum, EnforceEnergiesSum, Finalize"]}
{"id": "C35", "title": "PTESolver terminates and reports convergence truthfully", "statement": "The driver performs at most the configured number of iterations and line-search steps; when it reports converged and not slow, the returned state satisfies the solver's own convergence check; slow convergence means the state before the last step was acceptable; counters in the status are bounded; any invariant of init and of every test update holds of the returned state.", "quantifier": "all solvers, all parameter settings, all residual histories", "why_tests_cant": "all trajectories", "anchors": ["singularity-eos/closure/mixed_cell_models.hpp: PTESolver, MixParams, SolverStatus"]}
{"id": "C36", "title": "PTE updates keep volume fractions, densities and temperatures admissible", "statement": "With the step that ScaleDx returns (a factor in [0,1] applied to every component), in each of the five systems volume fractions stay positive, equilibrium temperatures stay positive (density-energy: predicted temperatures keep 90 percent), and for any fraction of the step a material that satisfies its bound still does: pressure above the minimum pressure (PT), density above that of minimum pressure at the current (FixedT) or at the old/trial temperature (FixedP, density-energy; RhoT when every material satisfies it).", "quantifier": "all materials, all Newton steps", "why_tests_cant": "all Newton steps", "anchors": ["singularity-eos/closure/mixed_cell_models.hpp: ScaleDx, TestUpdate"]}
{"id": "C37", "title": "Declared PTE convergence implies equilibrium and conservation", "statement": "For each PTE system, reporting converged (not slow) implies that pressures (and temperatures) agree and that volume is conserved (RhoT, PT, FixedT, FixedP also energy where the system has one) within the configured tolerances.", "quantifier": "all systems and states", "why_tests_cant": "all states", "anchors": ["singularity-eos/closure/mixed_cell_models.hpp: CheckPTE, Residual"]}
{"id": "C38", "title": "Kinetic phase transition updates move mass downhill and keep fractions admissible", "statement": "For every number of phases, rates and time step, SmallStepMFUpdate returns non-negative transfers and fractions, never creates mass, loses less than 1e-10 per phase above the lowest and nothing at all when no phase holds a trace below 1e-10; the highest phase never gains, the lowest never loses, the mixture's Gibbs energy never rises; composed with SortGibbs and LogRatesCGModel it satisfies the documented master equation whenever no phase is exhausted; LogMaxTimeStep is the largest step (at most e) with R*dt <= 1 for every active phase.", "quantifier": "all phase counts, all rates, all fractions, all time steps", "why_tests_cant": "arbitrary phase count and real-valued inputs", "anchors": ["singularity-eos/closure/kinetic_phasetransition_methods.hpp: SmallStepMFUpdate", "singularity-eos/closure/kinetic_phasetransition_models.hpp: LogMaxTimeStep", "singularity-eos/closure/kinetic_phasetransition_utils.hpp"]}
{"id": "C39", "title": "Gibbs sort orders phases by free energy and rates are filed under the documented index", "statement": "SortGibbs returns a permutation of the phases for any energies (NaN included), in decreasing order of Gibbs energy for reals and for finite doubles; the documented index jk numbers the pairs j<k one-to-one by 0..n(n-1)/2-1; LogRatesCGModel files the log of Greeff's documented rate of each pair there and a label that identifies the pair for up to ten phases.", "quantifier": "all phase counts, all Gibbs energies, all fitting constants", "why_tests_cant": "arbitrary length", "anchors": ["singularity-eos/closure/kinetic_phasetransition_utils.hpp: SortGibbs", "singularity-eos/closure/kinetic_phasetransition_models.hpp: LogRatesCGModel"]}
{"id": "C40", "title": "get_sg_eos gives every cell the same answer on every schedule, keeps inputs and masses, and reports averages of a consistent mixture state", "statement": "The scratch handed to a thread, its solver part and its cache stay inside the allocation and, for different materials, apart. For every order in which the threads run and reuse scratch rows the outputs of a cell are those of that cell alone and do not depend on what the scratch held, provided some material is above the cutoff ((P,T) input: provided the inversion does not depend on its guess); every schedule finishes. In each of the four input modes the two input quantities, the masses and the cell volume (not (P,T)) come back unchanged, whether or not host and device share memory; a cell with all its mass in one material above the cutoff gets exactly that EOS's values; a mixed cell gets bulk modulus, Gruneisen parameter and specific heat that are the volume- or mass-weighted averages over one set of material states with positive densities, unchanged masses, one temperature, EOS energies and pressures, volumes that sum to the cell's and energies that sum to the cell's (energy input: within the tolerance on convergence).", "quantifier": "all material counts, cells, input modes, schedules and scratch contents", "why_tests_cant": "ranges over all interleavings and all uninitialised scratch contents", "anchors": ["singularity-eos/eos/get_sg_eos.cpp", "singularity-eos/eos/get_sg_eos_functors.hpp", "singularity-eos/eos/get_sg_eos_rho_e.cpp", "singularity-eos/eos/get_sg_eos_rho_t.cpp", "singularity-eos/eos/get_sg_eos_rho_p.cpp", "singularity-eos/eos/get_sg_eos_p_t.cpp", "singularity-eos/eos/get_sg_eos.hpp: EOSAccessor_"]}
{"id": "C41", "title": "Energy transforms of tabulated EOS are undone by their inverses", "statement": "With the untransformed energy given as hint, the inverse of each tabulated-energy transform returns the energy that was transformed: always for the null, cold-curve-shift and temperature-scaling transforms (which also keep the order of energies), and for the transforms that divide by the specific heat exactly when 1e-8 <= dT/de <= 1e8 at that state.", "quantifier": "all energies, densities and tables", "why_tests_cant": "ranges over a continuum of energies and over all tables", "anchors": ["singularity-eos/eos/eos_spiner_sie_transforms.hpp"]}
{"id": "C42", "title": "Tabulated EOS answer from the documented branch at every state", "statement": "Density-temperature tables: above the table energy is linear in temperature and T -> e -> T, e -> T -> e come back up to the guard epsilon; below it the advertised minimum temperature and the cold-curve energy and pressure are returned; inside it the temperature lies in the table range for every guess and encloses a solution of sie(rho,T)=e when the search succeeds; energy is continuous at the top; off the table both pressure entry points agree; specific heats are positive. Density-energy tables: density from (P,T) follows the documented linear extrapolation above the table and is a table inversion inside it; with consistent tables both entry points agree under every energy transform. FillEos returns what the scalar queries return and refuses contradictory requests. Stored bulk moduli are positive.", "quantifier": "all tables, states, guesses, cached values and FillEos requests", "why_tests_cant": "a continuum of states and arbitrary tables", "anchors": ["singularity-eos/eos/eos_spiner_rho_temp.hpp", "singularity-eos/eos/eos_spiner_rho_sie.hpp"]}
{"id": "C43", "title": "Table bounds cover the requested range", "statement": "The Bounds helpers used to build table grids: after the offset the range is positive; the log range maps back exactly onto the requested range and stays inside it; sub-grids abut and run from the requested minimum to the requested maximum; each has at least two and at least the requested number of points; when there is room for the anchor (at least two points below it and two cells above) the anchor is a grid point and every sub-grid increases.", "quantifier": "all ranges, anchors, split points and resolutions", "why_tests_cant": "ranges over a continuum", "anchors": ["singularity-eos/base/spiner_table_utils.hpp: Bounds"]}
{"id": "C44", "title": "Constructor parameter checks accept exactly the documented domains", "statement": "Each analytic EOS's CheckParams accepts exactly the parameter sets satisfying its documented inequalities.", "quantifier": "all parameters", "why_tests_cant": "all parameters", "anchors": ["singularity-eos/eos/eos_ideal.hpp: CheckParams", "singularity-eos/eos/eos_noble_abel.hpp: CheckParams"]}
{"id": "C45", "title": "The C interface builds the modifier stack its flags describe", "statement": "init_sg_* stores Ramp(Scale(Shift(eos))) with exactly the enabled layers and the caller's parameters (or those of the P-alpha model), in a type the variant lists, and rejects inconsistent flags; un-modifying it returns the EOS asked for; the caller's arrays are left unchanged unless the P-alpha flag is set.", "quantifier": "all flag and parameter combinations, all EOS classes", "why_tests_cant": "all combinations of layers and any number of calls", "anchors": ["singularity-eos/eos/singularity_eos_init_utils.hpp", "singularity-eos/eos/singularity_eos.cpp: init_sg_*"]}
{"id": "C46", "title": "The constraints a PTE solver says it satisfies exactly hold for the state it returns", "statement": "For exact linear algebra: volume fractions returned by the density-temperature, fixed-temperature and fixed-pressure systems sum exactly to the requested total, each material keeps its mass exactly in all five systems, the fixed-temperature and density-energy Newton matrices are non-singular for the stated classes of EOS, and the density-energy system keeps the volume exact while its total energy error shrinks monotonically for caloric materials.", "quantifier": "all material counts, EOS, parameters, initial guesses, numbers of iterations, exact linear algebra", "why_tests_cant": "every Newton history", "anchors": ["singularity-eos/closure/mixed_cell_models.hpp: ExactlySum, PTESolverRhoT, PTESolverPT, PTESolverFixedT, PTESolverFixedP, PTESolverRhoU", "doc/sphinx/src/using-closures.rst"]}
{"id": "C47", "title": "The Newton matrix each PTE system assembles is the linearisation of its residual", "statement": "For every PTE system, every number of materials and every state, the assembled matrix times any step equals the decrease of that system's residual when volume fractions, temperatures/pressures/energies move by the step and every pressure, temperature and energy density responds linearly with the slopes computed by finite differences: every row, column, sign and index of the matrix is the right one.", "quantifier": "all systems, numbers of materials, states, EOS and steps", "why_tests_cant": "index arithmetic over every number of materials and every excluded material", "anchors": ["singularity-eos/closure/mixed_cell_models.hpp: PTESolver*::Jacobian, PTESolver*::Residual"]}
{"id": "C48", "title": "Mass-fraction updates conserve the total exactly for every input", "statement": "sum of newmfs = sum of massfractions for every admissible input of SmallStepMFUpdate (the documented master equation sums to zero).", "quantifier": "all phase counts and fractions", "why_tests_cant": "must hold for every input", "anchors": ["singularity-eos/closure/kinetic_phasetransition_methods.hpp: SmallStepMFUpdate"]}
{"id": "C49", "title": "Every energy transform is inverted exactly and keeps the order of energies", "statement": "For every energy, density and table, each of the six transforms composed with its inverse is the identity and the transform is strictly increasing in energy, so a sorted energy grid stays sorted.", "quantifier": "all energies, densities and tables", "why_tests_cant": "continuum", "anchors": ["singularity-eos/eos/eos_spiner_sie_transforms.hpp"]}
{"id": "C50", "title": "The anchor is always a grid point and grids always increase", "statement": "For every request with min < anchor < max the returned grids contain the anchor, end at the requested maximum, and increase.", "quantifier": "all requests", "why_tests_cant": "continuum of requests", "anchors": ["singularity-eos/base/spiner_table_utils.hpp: Bounds"]}
{"id": "C51", "title": "Log coordinates of tables round-trip", "statement": "The coordinate change used by every tabulated EOS (log10 with offset and a tiny guard) is monotone, its argument is always positive, and going forth and back changes a value x >= -offset by exactly the guard epsilon and nothing else.", "quantifier": "all values and offsets", "why_tests_cant": "continuum", "anchors": ["singularity-eos/eos/eos_spiner_common.hpp: to_log, from_log"]}
{"id": "C52", "title": "The density of minimum pressure is the argmin of the table", "statement": "At each temperature the stored density of minimum pressure is the grid density at which the tabulated pressure is lowest, or 0 if the pressure is positive everywhere; the reported minimum pressure is the minimum over the table; with the vapour-dome option the stored density never increases with temperature and lies at or above the last density with dP/drho below the threshold.", "quantifier": "all tables, any size", "why_tests_cant": "all tables", "anchors": ["singularity-eos/eos/eos_spiner_common.hpp: SetRhoPMin"]}
{"id": "C53", "title": "The entry points of a tabulated EOS are interchangeable", "statement": "For every state, every query gives the same answer from (rho,sie), (rho,T), (P,T) and through FillEos, is continuous across the table boundary, does not depend on leftover cache contents in reproducible mode, and DensityEnergyFromPressureTemperature inverts the pressure above the table too.", "quantifier": "all tables, states and histories of the lambda cache", "why_tests_cant": "continuum of states and histories", "anchors": ["singularity-eos/eos/eos_spiner_rho_temp.hpp", "singularity-eos/eos/eos_spiner_rho_sie.hpp"]}
{"id": "C54", "title": "Numeric helpers meet their contracts without side conditions", "statement": "make_bounded stays inside [lo,hi] for every hi; negative_value is right at zero; the aliased fast log2 is exact on powers of two; the phase-pair label of the kinetic rates is unambiguous for every number of phases.", "quantifier": "all arguments", "why_tests_cant": "boundary values", "anchors": ["singularity-eos/base/robust_utils.hpp: make_bounded", "singularity-eos/base/error_utils.hpp: negative_value", "singularity-eos/base/fast-math/logs.hpp: lg_o1_aliased", "singularity-eos/closure/kinetic_phasetransition_models.hpp: LogRatesCGModel"]}
{"id": "C55", "title": "Root finders always meet the requested tolerance and bounds", "statement": "For every function, bracket, guess and tolerance a reported SUCCESS means an abscissa inside [a,b] within xtol of a root or with residual at most ytol; failures also return an in-bounds abscissa; the loops terminate.", "quantifier": "all functions, brackets, guesses, tolerances", "why_tests_cant": "all functions and histories", "anchors": ["singularity-eos/base/root-finding-1d/root_finding.hpp: regula_falsi, set_bracket, newton_raphson, findRoot"]}
{"id": "C56", "title": "Lookup, serialisation and C-interface memory contracts hold without side conditions", "statement": "Indices that differ only in a run-time payload name different slots; SafeGet and SafeMustGet agree for every indexer; every EOS kind restores its tables from the given shared buffer; bulk de-serialisation without shared memory restores any number of tabulated objects; init_sg_* never writes to the caller's arrays.", "quantifier": "all indexers, objects, containers, flags", "why_tests_cant": "all histories", "anchors": ["singularity-eos/base/indexable_types.hpp", "singularity-eos/base/serialization_utils.hpp", "singularity-eos/eos/eos_helmholtz.hpp: SetDynamicMemory", "singularity-eos/eos/singularity_eos_init_utils.hpp"]}
{"id": "C57", "title": "Every modifier's vector call agrees with its scalar call and default inversions honour guess, bounds and lambda", "statement": "As C14 for every modifier stack and as C15 for every guess, in binary64, with lambda passed through.", "quantifier": "all modifier stacks, guesses, EOS", "why_tests_cant": "all wrapped EOS", "anchors": ["singularity-eos/eos/modifiers/scaled_eos.hpp", "singularity-eos/eos/modifiers/eos_unitsystem.hpp", "singularity-eos/eos/modifiers/floored_energy.hpp", "singularity-eos/eos/eos_base.hpp"]}
{"id": "C58", "title": "Every analytic EOS fills every FillEos request and stores a reference state equal to its queries", "statement": "For every analytic EOS, FillEos from every documented pair of inputs returns the values of the scalar queries and leaves unrequested arguments unchanged, and ValuesAtReferenceState returns the values of the queries at the reference state.", "quantifier": "all analytic EOS, all requests, all states", "why_tests_cant": "all requests and states", "anchors": ["singularity-eos/eos/eos_ideal.hpp", "singularity-eos/eos/eos_stiff.hpp", "singularity-eos/eos/eos_noble_abel.hpp", "singularity-eos/eos/eos_carnahan_starling.hpp", "singularity-eos/eos/eos_sap_polynomial.hpp", "singularity-eos/eos/eos_jwl.hpp", "singularity-eos/eos/eos_gruneisen.hpp", "singularity-eos/eos/eos_vinet.hpp", "singularity-eos/eos/eos_davis.hpp", "singularity-eos/eos/eos_mgusup.hpp", "singularity-eos/eos/eos_powermg.hpp", "singularity-eos/eos/eos_electrons.hpp"]}
{"id": "C59", "title": "Analytic EOS derivative queries are right on every branch", "statement": "Bulk modulus, Gruneisen parameter, reference curves and pressure limits are those of the pressure function on every branch, including expansion, cut-off and small-strain branches and non-zero reference pressure.", "quantifier": "all admitted parameters and states", "why_tests_cant": "continuum", "anchors": ["singularity-eos/eos/eos_sap_polynomial.hpp", "singularity-eos/eos/eos_gruneisen.hpp", "singularity-eos/eos/eos_davis.hpp", "singularity-eos/eos/eos_mgusup.hpp", "singularity-eos/eos/eos_powermg.hpp"]}
{"id": "C60", "title": "Modifiers are transparent for every query", "statement": "Every query of every modifier, FillEos and inversions included, is the wrapped query seen through the documented change of variables.", "quantifier": "all wrapped EOS, all states, all requests", "why_tests_cant": "all wrapped EOS", "anchors": ["singularity-eos/eos/modifiers/shifted_eos.hpp", "singularity-eos/eos/modifiers/scaled_eos.hpp", "singularity-eos/eos/modifiers/ramps_eos.hpp", "singularity-eos/eos/modifiers/relativistic_eos.hpp", "singularity-eos/eos/modifiers/floored_energy.hpp", "singularity-eos/eos/modifiers/zsplit_eos.hpp", "singularity-eos/eos/modifiers/eos_unitsystem.hpp"]}
{"id": "C61", "title": "The PTE solvers report truthfully and stay admissible in every case", "statement": "Convergence reported as true always means the returned state passes its check with the reported residual and that volume and energy are conserved; the step limiter keeps every material admissible whatever the others do; requested volume totals other than one are honoured; scratch sizes are right for every count and solver.", "quantifier": "all systems, counts, states", "why_tests_cant": "all histories", "anchors": ["singularity-eos/closure/mixed_cell_models.hpp"]}
{"id": "C62", "title": "Accepted parameters never lead to a zero denominator", "statement": "Every parameter set accepted by a constructor keeps all denominators used by the queries non-zero.", "quantifier": "all accepted parameters and states", "why_tests_cant": "all parameters", "anchors": ["singularity-eos/eos/eos_ideal.hpp", "singularity-eos/eos/eos_gruneisen.hpp", "singularity-eos/eos/eos_jwl.hpp", "singularity-eos/eos/eos_mgusup.hpp", "singularity-eos/eos/eos_powermg.hpp", "singularity-eos/eos/eos_sap_polynomial.hpp", "singularity-eos/eos/eos_stiff.hpp", "singularity-eos/eos/eos_vinet.hpp"]}
{"id": "C63", "title": "The automatic maximum density of a cubic Us-up fit is safe", "statement": "Below the maximum density computed for a cubic fit the Hugoniot denominator is positive.", "quantifier": "all cubic coefficients", "why_tests_cant": "all coefficients", "anchors": ["singularity-eos/eos/eos_gruneisen.hpp: ComputeRhoMax"]}
{"id": "C64", "title": "get_sg_eos accounts for every material and optional output and never reads stale scratch", "statement": "Material volumes and energies add up to the cell's also when a material is below the mass-fraction cutoff; the temperature of a cell whose materials share a temperature is that temperature; every optional array that is given is filled and none that is not given is written; outputs depend on the inputs only; the cache and solver scratch stay inside the allocation for every variable count.", "quantifier": "all cells, cutoffs and optional arguments", "why_tests_cant": "all cells", "anchors": ["singularity-eos/eos/get_sg_eos.cpp", "singularity-eos/eos/get_sg_eos_functors.hpp", "singularity-eos/eos/get_sg_eos_p_t.cpp", "singularity-eos/eos/eos_base.hpp: DensityEnergyFromPressureTemperature"]}
{"id": "C65", "title": "StellarCollapse queries are consistent", "statement": "For every loaded table: energies off the table give its lowest or highest temperature; at the table's own densities every energy gives a temperature of the table and a reported success encloses a temperature with that energy; where energy increases with temperature, the temperature of the energy of (rho, T) encloses T; queries by energy equal queries by the temperature they find; outputs respect their floors and the range of the table; mass fractions sum to one; the lambda keeps its electron fraction and caches the temperature; FillEos equals the single queries and refuses what it cannot do.", "quantifier": "all tables, densities, temperatures, energies, electron fractions, cached guesses", "why_tests_cant": "all tables and states, and every cached guess", "anchors": ["singularity-eos/eos/eos_stellar_collapse.hpp: StellarCollapse"]}
{"id": "C66", "title": "StellarCollapse represents the file it reads", "statement": "After reading a file: bounds are the file's (MeV converted to K); at every point of the internal grid, and at the corners exactly, each query is the file interpolated in its own axes; nothing overshoots the file; smoothing replaces an entry by the median of its neighbours only when it is off by more than ten medians; the bulk modulus is rho dP/drho + P/rho dP/de, floored; lowest and highest energies are attained; saving and loading gives the object back.", "quantifier": "all files with at least two points per axis", "why_tests_cant": "all files of all sizes", "anchors": ["singularity-eos/eos/eos_stellar_collapse.hpp: LoadFromStellarCollapseFile_, LoadFromSP5File_, Save, medianFilter_, dataBoxToFastLogs, computeBulkModulus_, computeColdAndHotCurves_"]}
{"id": "C67", "title": "StellarCollapse inverts the energy it tabulates everywhere, keeps temperatures in the table, and interpolates chemical potentials and reference state in the table's own units", "statement": "The temperature of the energy of (rho, T) is T for all densities of the table, not only its grid points; no temperature exceeds the maximum; chemical potentials at the file's points are the file's; FillEos writes the temperature when asked; the reference temperature is in kelvin.", "quantifier": "all tables and states", "why_tests_cant": "all tables and states", "anchors": ["singularity-eos/eos/eos_stellar_collapse.hpp: lTFromlRhoSie_, LoadFromStellarCollapseFile_, FillEos, setNormalValues_"]}
{"id": "C68", "title": "Helmholtz reads its table in the documented order and interpolates it with consistent derivatives", "statement": "Reading the table file needs exactly 21 numbers for each of the 101 temperatures and 271 densities, density fastest, and puts each number in its own table; a shorter file is refused. At every interior grid point the electron pressure, energy and entropy are those the file's numbers define, and everywhere inside the table the electron and radiation quantities and their reported derivatives belong together and obey the first law of thermodynamics.", "quantifier": "all files, all grid points, all densities, temperatures and compositions inside the table", "why_tests_cant": "all files and all states", "anchors": ["singularity-eos/eos/eos_helmholtz.hpp: HelmUtils::SetTablesFromFile, HelmElectrons::InitDataFile_, HelmElectrons::GetFromDensityTemperature, HelmRad::GetFromDensityTemperature"]}
{"id": "C69", "title": "Helmholtz queries are mutually consistent", "statement": "For every choice of options without Coulomb corrections: the specific heat is the temperature derivative of the energy, energy and pressure derive from one free energy, the Gruneisen parameter is (dP/de)/rho and the bulk modulus the adiabatic one. FillEos refuses exactly the unsupported requests, changes only what was asked, returns the scalar queries, and leaves the lambda's cached temperature alone unless temperature is an input; the energy entry points equal the temperature ones; pressure-temperature inversion returns a density enclosing a root, or aborts.", "quantifier": "all tables, options, states inside the table, output flags and lambdas", "why_tests_cant": "all tables, options and states", "anchors": ["singularity-eos/eos/eos_helmholtz.hpp: FillEos, ComputeGamma1_, ComputeGamma3_, GetFromDensityLogTemperature_, DensityEnergyFromPressureTemperature, ValuesAtReferenceState"]}
{"id": "C70", "title": "Helmholtz finds the temperature of a density and energy", "statement": "With a lambda that does not cache the temperature: the answer is always between 1e3 and 1e13 K; an energy between those of the ends of that range is inverted to 1e-10 of it, or a root is enclosed to 1e-14, unless the root finder itself reports failure; the energy is continuous in temperature over the whole range (Coulomb corrections included), so this applies to every such energy; without radiation, degeneracy and corrections the inversion is exact both ways.", "quantifier": "all tables, options, densities, energies, compositions and initial guesses", "why_tests_cant": "all tables, options, states and guesses", "anchors": ["singularity-eos/eos/eos_helmholtz.hpp: lTFromRhoSie_, lTAnalytic_"]}
{"id": "C71", "title": "Helmholtz: the cached temperature is only a guess, entropy obeys the first law with the gas enabled, and Coulomb corrections vanish at weak coupling and keep the specific heat consistent", "statement": "The temperature query depends on the energy whatever the lambda caches; entropy is compatible with energy and pressure and falls on isothermal compression; Coulomb corrections vanish as the coupling does and the specific heat stays the derivative of the energy.", "quantifier": "all tables, options and states", "why_tests_cant": "all tables, options and states", "anchors": ["singularity-eos/eos/eos_helmholtz.hpp: lTFromRhoSie_, GetFromDensityLogTemperature_, HelmCoulomb::GetFromDensityTemperature, HelmIon"]}
{"id": "C72", "title": "The approximate mixture temperature is in range and near the temperature of the energy", "statement": "For every number of materials, every EOS, every total energy and every cached guess the result is between 1e-9 and 1e9 K, the nearer end if the energy is outside the energies of that range; otherwise, if the energy is continuous in temperature, it is within 0.06 (in log2) of a temperature whose energy is the one asked for, and of the only one if energy increases with temperature.", "quantifier": "all material lists, EOS, energies and guesses", "why_tests_cant": "all material lists and energies", "anchors": ["singularity-eos/closure/mixed_cell_models.hpp: ApproxTemperatureFromRhoMatU"]}
{"id": "C73", "title": "sesame2spiner reads exactly what its input files say", "statement": "For every set of input files made of blank lines, comments, <name> headers and key=value lines, whatever the white space: one material per section, in order, with its material number and, for every key, its last setting; integers are read back exactly; a section without material number and an unclosed header are refused.", "quantifier": "all files of all lengths", "why_tests_cant": "all files", "anchors": ["sesame2spiner/parser.cpp: Params, MaterialReader", "sesame2spiner/generate_files.cpp: saveAllMaterials"]}
{"id": "C74", "title": "sesame2spiner stores every material once, under its number and an unambiguous name", "statement": "For every list of materials whose names cannot be mistaken for numbers or numbered copies: each distinct material number is written once, where it first occurs; every material of the input is found under its number; a name used k times is stored as name, name_2, ..., name_k; no two links have the same name, so no write fails. Plain names and missing names are never mistaken.", "quantifier": "all lists of materials, names and numbers", "why_tests_cant": "all lists", "anchors": ["sesame2spiner/generate_files.cpp: saveAllMaterials, saveMaterial"]}
{"id": "C75", "title": "The tables sesame2spiner writes hold the material's values and slopes in cgs units", "statement": "For every material EOS, grid and grid point: the stored pressure, temperature or energy, the slopes of P(rho,e), T(rho,e), e(rho,T) and the bulk modulus (clipped at zero) are those of the material at that point; the cold curves are its values and slopes at zero temperature; the mass fraction stored for a phase is that phase's.", "quantifier": "all materials with differentiable tables, all grids and grid points", "why_tests_cant": "all materials and grids", "anchors": ["sesame2spiner/io_eospac.cpp: eosDataOfRhoSie, eosDataOfRhoT, eosColdCurves, eosMassFraction", "eospac-wrapper/eospac_wrapper.hpp"]}
{"id": "C76", "title": "sesame2spiner's tables cover the requested ranges", "statement": "For every material and all settings for which bounds are made: density and temperature run from the larger of the requested (or the table's own) minimum and 1e-8 or 1e-2 to the requested (or own) maximum, energy between its limits; piecewise grids join without gap and, unless a shrink factor is given, begin and end exactly at the limits.", "quantifier": "all materials and settings", "why_tests_cant": "all settings", "anchors": ["sesame2spiner/generate_files.cpp: getMatBounds", "singularity-eos/base/spiner_table_utils.hpp: Bounds"]}
{"id": "C77", "title": "sesame2spiner refuses what it cannot do and honours every setting", "statement": "Any list of named materials can be written; a line that is no setting is refused; rhoFineMin and rhoFineMax are honoured; the fine part of the energy grid ends at the energy of the split temperature; a failed interpolation is reported.", "quantifier": "all inputs", "why_tests_cant": "all inputs", "anchors": ["sesame2spiner/parser.cpp", "sesame2spiner/generate_files.cpp: getMatBounds, saveAllMaterials", "eospac-wrapper/eospac_wrapper.cpp: eosSafeInterpolate"]}
{"id": "C78", "title": "The EOSPAC class gives one material's thermodynamics in cgs units, element by element in vector calls", "statement": "For every material and EOSPAC tables that are views of it: the energy, temperature, pressure, specific heat, Gruneisen and bulk modulus queries are the material's values and slopes in cgs units, with both entry points agreeing; entropy is given exactly when the table has it; the (P,T) call inverts and its derivatives are right; the reference state is that of the queries; FillEos answers from the state its inputs determine and changes nothing else, other requests being errors; every vector call gives each element the scalar answer under any Transform with positive density and input factors, within the advertised scratch, also through an energy shift.", "quantifier": "all materials, tables, states, output requests, array contents and lengths, storage layouts, Transforms", "why_tests_cant": "material, Transform, storage layout and array length are unbounded, and EOSPAC is not available to the tests", "anchors": ["singularity-eos/eos/eos_eospac.hpp:EOSPAC", "singularity-eos/eos/modifiers/shifted_eos.hpp:ShiftedEOS"]}
{"id": "C79", "title": "EOSPAC's FillEos answers from the requested inputs, touches only what was asked for, and stays within the advertised scratch", "statement": "FillEos from (rho,e) evaluates everything at the temperature of that energy and agrees with the vector FillEos; vector FillEos writes only requested arrays; vector minimum energy under modifiers stays inside the advertised scratch; vector entropy reports a table without entropy; the stored reference bulk modulus is the one the query gives.", "quantifier": "all states, requests and modifiers", "why_tests_cant": "a stale input temperature or a few cells past the scratch are invisible in single-state tests", "anchors": ["singularity-eos/eos/eos_eospac.hpp:FillEos", "singularity-eos/eos/modifiers/shifted_eos.hpp:MinInternalEnergyFromDensity", "singularity-eos/eos/modifiers/floored_energy.hpp:MinInternalEnergyFromDensity"]}
{"id": "C80", "title": "Calls from Python, C and Fortran act on the caller's elements", "statement": "A vector query from Python reads element i of the two argument arrays and row i of the lambda array and writes element i of the result, for numpy arrays of any stride (sliced, reversed); FillEos likewise, with explicit mask also by keyword; the C and Fortran queries address material and cell as the caller does (1-based in Fortran, column-major grid, lambda(:,i,j,k)), use no lambda when either optional argument is absent, touch nothing else; init changes exactly one material slot; a host program that owns Kokkos still has it after any history of creating and destroying EOS arrays.", "quantifier": "all arrays, strides, grids, materials, lambda widths, schedules of the loop, and all create/destroy histories", "why_tests_cant": "a test uses a few contiguous arrays; strides, negative steps, aliasing and histories are unbounded", "anchors": ["python/module.hpp: PyArrayHelper, LambdaHelper, EOS_VEC_FUNC_TMPL, FillEos", "singularity-eos/eos/singularity_eos.cpp: lambdaIndexer2D, get_sg_*, init_sg_eos, finalize_sg_eos", "singularity-eos/eos/singularity_eos.f90: *_f"]}
{"id": "C81", "title": "The bindings accept every array and call a user of the language would make", "statement": "A lambda array with one row works; lambda arrays in column-major order, record fields, non-contiguous arrays with scratch, read-only inputs and Fortran sections are addressed correctly; FillEos with keywords computes the other quantities from the given ones; large lambda arrays are indexed correctly; optional arguments can be left out; a Fortran program can destroy an EOS array and go on using Kokkos.", "quantifier": "all arrays, calls and histories", "why_tests_cant": "each failure needs a particular shape, stride, size or order of calls", "anchors": ["python/module.hpp: LambdaHelper, PyArrayHelper, FillEos keyword overload", "singularity-eos/eos/singularity_eos.cpp: lambdaIndexer2D", "singularity-eos/eos/singularity_eos.f90: init_sg_eospac_f, finalize_sg_eos_f, get_sg_*_f"]}
{"id": "C82", "title": "The documented closed forms are what the code evaluates", "statement": "For every parameter set and state in the documented domain, the pressure, energy, temperature, reference curve, Hugoniot temperature and other quantities returned by the ideal gas, stiff gas, Noble-Abel, Carnahan-Starling, ideal electrons, JWL, Gruneisen, Davis products and reactants, Vinet, MGUsup and PowerMG equations of state are those of the formulas printed in the manual (integrals included: the tabulated temperature of a Hugoniot solves the manual's integral equation up to a stated truncation error).", "quantifier": "all parameters and states", "why_tests_cant": "a formula can be tested at a few points only; agreement is needed everywhere", "anchors": ["doc/sphinx/src/models.rst", "singularity-eos/eos/eos_ideal.hpp", "singularity-eos/eos/eos_stiff.hpp", "singularity-eos/eos/eos_noble_abel.hpp", "singularity-eos/eos/eos_carnahan_starling.hpp", "singularity-eos/eos/eos_electrons.hpp", "singularity-eos/eos/eos_jwl.hpp", "singularity-eos/eos/eos_gruneisen.hpp", "singularity-eos/eos/eos_davis.hpp", "singularity-eos/eos/eos_vinet.hpp", "singularity-eos/eos/eos_mgusup.hpp", "singularity-eos/eos/eos_powermg.hpp"]}
{"id": "C83", "title": "The documentation matches the code in every default and every printed formula", "statement": "The manual's default reference temperature, the isentrope temperature of the Davis products, the series of the PowerMG Hugoniot temperature and the statement that ValuesAtReferenceState differs from the given entropy reference hold of the code.", "quantifier": "all parameters and states", "why_tests_cant": "a wrong default or exponent in a manual is not executed", "anchors": ["doc/sphinx/src/models.rst", "singularity-eos/eos/eos_ideal.hpp: IdealGas", "singularity-eos/eos/eos_davis.hpp: DavisProducts", "singularity-eos/eos/eos_powermg.hpp: PowerMG"]}
{"id": "C84", "title": "robust::ratio and integer powers are safe and accurate in double precision", "statement": "In IEEE double precision robust::ratio(a,b) of two finite doubles is never NaN, also for b = 0; it is the correctly rounded quotient by a denominator that is never smaller than SMALL, or the infinity of the right sign when that overflows; and as soon as |b| is at least 2^-960 it is bit for bit a/b. math_utils::pow<N>(x) differs from the exact power by at most N-1 relative rounding errors.", "quantifier": "every pair of finite doubles, zeros and subnormals included; every integer exponent and positive double whose powers neither underflow nor overflow", "why_tests_cant": "2^128 pairs of operands; unbounded exponent", "anchors": ["singularity-eos/base/robust_utils.hpp: ratio, sgn, SMALL", "singularity-eos/base/math_utils.hpp: pow"]}
{"id": "C85", "title": "The ideal gas in double precision: accurate, consistent, never NaN, monotone", "statement": "In IEEE double precision, with the operations in the order of the code: every ideal gas query differs from its exact value by at most one relative rounding error per operation; temperature-energy, pressure-energy and (P,T)->(rho,e) round trips return to the start within the stated number of rounding errors; no query of finite arguments is NaN or negative unless its coefficient overflows; and pressure, energy and temperature never decrease when their argument or the density grows.", "quantifier": "every finite double for gm1, Cv, density, temperature and energy (accuracy: results between 2^-1000 and 2^1000 or zero)", "why_tests_cant": "the space of five doubles; rounding depends on every bit", "anchors": ["singularity-eos/eos/eos_ideal.hpp: all lookups, DensityEnergyFromPressureTemperature, InternalEnergyFromDensityPressure"]}
{"id": "C86", "title": "The compensated sum of the PTE solver is accurate whatever the cancellation", "statement": "sum_neumaier of n doubles of any signs and magnitudes differs from the exact sum by at most one rounding of that sum plus 2 (n 2^-53)^2 times the sum of the absolute values, independently of order and cancellation, and by at most two rounding errors if the summands are nonnegative; hence after NormalizeVfrac every volume fraction is its exact share, and the fractions add up to the requested total, within four rounding errors for any number of materials.", "quantifier": "any number of summands up to a million, any finite doubles (absolute sum up to 2^1000), any skipped index and offset", "why_tests_cant": "all lists of doubles; the error bound is an inductive invariant over the loop", "anchors": ["singularity-eos/closure/mixed_cell_models.hpp: sum_neumaier, NormalizeVfrac"]}
{"id": "C87", "title": "The root finders keep their contract in double precision", "statement": "In IEEE double precision, for every function including one that returns NaN or infinities: regula_falsi terminates for every tolerance that is not negative (NaN included); newton_raphson (default flag) reports SUCCESS only with a computed residual below tolerance and a result in [a,b], or NaN if the function meets the target at NaN; findRoot reports SUCCESS only with a number in [xmin,xmax]. If moreover the function is finite on [xmin,xmax] and the target is neither zero nor tiny, a SUCCESS of findRoot has an exact residual within ytol (|f|+ytol) up to 8 rounding units, or lies between two doubles less than xtol apart at which the function is exactly on both sides of the target.", "quantifier": "every function from doubles to doubles, all tolerances, guesses and bounds", "why_tests_cant": "all functions and all 2^64 values of each argument; rounding inside up to 1000 iterations", "anchors": ["singularity-eos/base/root-finding-1d/root_finding.hpp: regula_falsi, newton_raphson, secant, bisect, findRoot"]}
{"id": "C88", "title": "The root finders never report SUCCESS for something that is no root in double precision", "statement": "In double precision SUCCESS always comes with a point where the function has a value, bracketed by a true sign change, and a bracketed sign change is always found.", "quantifier": "all functions and tolerances", "why_tests_cant": "absence of a bad case over all functions", "anchors": ["singularity-eos/base/root-finding-1d/root_finding.hpp: regula_falsi, newton_raphson, bisect, findRoot, check_bracket"]}
{"id": "C89", "title": "Bulk modulus, pressure, Gruneisen parameter and specific heat agree thermodynamically; states are stable", "statement": "For IdealGas, StiffGas, NobleAbel, Carnahan-Starling, JWL, Vinet, Davis products and MGUsup-power (linear expansion) the bulk modulus query minus rho times the derivative of the pressure query with density at fixed temperature is rho Gamma^2 Cv T, with Gamma and Cv the EOS's own queries; and where the parameters are physical the specific heat and the isothermal modulus are positive and the bulk modulus is not below the isothermal one, so the sound speed is real. Where an EOS has a query for the isothermal modulus or the expansion coefficient, it is the one of the pressure query.", "quantifier": "every density and temperature in the stated domain, every admissible parameter set", "why_tests_cant": "a relation between a value and a derivative of a different query at every point; tests compare a few stored numbers of each query", "anchors": ["singularity-eos/eos/eos_ideal.hpp", "singularity-eos/eos/eos_stiff.hpp", "singularity-eos/eos/eos_noble_abel.hpp", "singularity-eos/eos/eos_carnahan_starling.hpp", "singularity-eos/eos/eos_jwl.hpp", "singularity-eos/eos/eos_vinet.hpp", "singularity-eos/eos/eos_davis.hpp", "singularity-eos/eos/eos_powermg.hpp", "BulkModulusFromDensityTemperature, TBulkModulusFromDensityTemperature, TExpansionCoeffFromDensityTemperature"]}
{"id": "C90", "title": "Every accepted parameter set is thermodynamically stable at every density from MinimumDensity to MaximumDensity", "statement": "Every state an EOS accepts has a positive specific heat, pressure increasing with density along the isotherm and a positive bulk modulus that is the one of the pressure.", "quantifier": "every accepted parameter set, every density in the declared range", "why_tests_cant": "absence of a bad state over an infinite set", "anchors": ["singularity-eos/eos/eos_vinet.hpp", "singularity-eos/eos/eos_gruneisen.hpp", "singularity-eos/eos/eos_jwl.hpp", "CheckParams, BulkModulusFromDensityTemperature, MinimumDensity"]}
{"id": "C91", "title": "Pressure-temperature equilibrium is unique and converged solvers agree", "statement": "For materials that obey the first and second law with positive specific heat and pressure increasing along isotherms, the component masses, the cell volume and the total energy (or the temperature, or the pressure) determine one temperature, one pressure and one density per material. Consequently two runs of the density-temperature, pressure-temperature or fixed-temperature closure solver (of the same kind, or one of each of the first two), from any guesses, that report convergence for the same cell give the same answer up to their tolerances; for ideal gases the answer is the closed-form mixture state.", "quantifier": "every number and kind of well-behaved materials, every mass, volume and energy, every initial guess, every linear solver, every tolerance", "why_tests_cant": "tests compare solvers on a handful of cells and guesses; uniqueness over all states and the size of the disagreement allowed by the tolerances need a proof", "anchors": ["singularity-eos/closure/mixed_cell_models.hpp: PTESolverRhoT, PTESolverPT, PTESolverFixedT, PTESolver", "singularity-eos/eos/eos_ideal.hpp, eos_stiff.hpp, eos_noble_abel.hpp, eos_carnahan_starling.hpp, eos_jwl.hpp, eos_vinet.hpp, eos_powermg.hpp"]}
{"id": "C92", "title": "Scratch sizes asked for by name are right", "statement": "scratch_size(method, n) is the number of bytes the vector call of that name uses, for any stack of modifiers: eight bytes per element and temporary, EOSPAC's own buffers first, one more temporary for each energy-based layer (Shifted, Floored) if the name ends in FromDensityInternalEnergy and one for each ramp if it begins with BulkModulusFrom (and the text occurs nowhere else in it). max_scratch_size(n) is enough for every method name and is reached by one of them.", "quantifier": "every stack of modifiers, every element count whose bytes fit in 64 bits (32-bit element counts where the code has them), every method name except those of length 24 (no query has one)", "why_tests_cant": "all names, stacks and element counts; too small a number is an out-of-bounds write in the caller's buffer that a host test seldom notices", "anchors": ["singularity-eos/eos/modifiers/shifted_eos.hpp: scratch_size, max_scratch_size", "singularity-eos/eos/modifiers/floored_energy.hpp: scratch_size, max_scratch_size", "singularity-eos/eos/modifiers/ramps_eos.hpp: scratch_size, max_scratch_size", "singularity-eos/eos/eos_eospac.hpp: scratch_size, max_scratch_size, scratch_nbuffers", "singularity-eos/eos/eos_base.hpp: scratch_size, max_scratch_size"]}
{"id": "C93", "title": "The sesame2spiner command line does what its usage message says", "statement": "Every command line in which verbosity options rise gives the documented settings: the last -s names the output, materials.sp5 otherwise; -p prints metadata; -w, -v, -vv (-d) choose the verbosity; every other word is a parameter file, read in order. Without a file the program stops with a non-zero code before reading or writing; -h prints the help and exits with 0; and no accepted command line drops or invents a word.", "quantifier": "every list of words, every file system", "why_tests_cant": "all command lines", "anchors": ["sesame2spiner/parse_cli.cpp: parseCLI", "sesame2spiner/main.cpp: main", "sesame2spiner/parser.cpp: AddMaterials loop"]}
{"id": "C94", "title": "Every occurrence of a documented option acts as that option and every command line is accepted or refused with an exit code", "statement": "A documented option of sesame2spiner, wherever and however often it is given, acts as that option, and every command line is accepted or refused with an exit code.", "quantifier": "every list of words", "why_tests_cant": "absence of a bad line over an infinite set", "anchors": ["sesame2spiner/parse_cli.cpp: parseCLI"]}
{"id": "C95", "title": "What is built through the C or Fortran interface is the documented EOS", "statement": "A successful init_sg_X(_f) call for an analytic EOS puts into the named slot, and only there, the EOS of the manual with the parameters in the order of the call, rescaled, shifted and ramped as the modifier flags say; pressure queries through the C and Fortran query functions then return the manual's formula in every cell, on any grid and in any order of evaluation, its temperature is the manual's, and its bulk modulus is the isentropic one of that pressure (Davis reactants: in expansion). The call fails only for parameters the class rejects or a slot outside the array, and the Fortran caller's modifier arrays come back unchanged (except from init_sg_CarnahanStarling_f).", "quantifier": "nine analytic classes, all parameters, all combinations of absent or present modifier arrays (bulk modulus: states off the kinks of a ramp; P-alpha: reduced to a bilinear ramp with computed values), every slot, every array of EOS, every grid, all densities and energies in the domain of the formula, all schedules", "why_tests_cant": "eleven positional arguments through two languages and a stack of modifiers; a swap of two is invisible to a test with equal values, and no test covers all flags", "anchors": ["singularity-eos/eos/singularity_eos.cpp: init_sg_*", "singularity-eos/eos/singularity_eos.f90: init_sg_*_f", "singularity-eos/eos/singularity_eos_init_utils.hpp: applyShiftAndScaleAndBilinearRamp", "singularity-eos/eos/modifiers/: CheckParams and PressureFromDensityInternalEnergy"]}
