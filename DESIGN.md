# Formal model of lanl/singularity-eos in Rocq (Coq 8.16.1)

## 1. Approach

* `rocq/theories/*_Model.v` – executable/definitional model, one Gallina definition per C++ function,
  each with a comment `(* file:lines *)` citing /repo. No proofs there.
* `rocq/theories/*_Spec.v` (or the top of a Props file) – small independent specification vocabulary
  (derivatives, permutations, sums, "some schedule", ...), which does not use model helpers.
* `rocq/theories/*_Proofs.v` – lemmas.
* `rocq/theories/*_Props.v` – property theorems only: `Theorem … exact lemma. Qed. Print Assumptions …`,
  with a non-vacuity `Example` beside each conditional theorem.
* Suffix `_partial`: only part of the English property. Suffix `_refuted`: the English property is false of
  the faithful model; the theorem exhibits the counterexample (a finding about the code).

### Numbers
Three arithmetic levels are used, always stated in the file header:

1. **Exact reals `R`** for thermodynamic identities (floating-point rounding is *not* modelled there).
   `robust::ratio(a,b) = a/(b + sgn(b)*SMALL)` is modelled as `a/b` when `|b| >= 2^-960` and with the explicit
   `SMALL` below that; `Robust_Props` proves with Flocq that in binary64 round-to-nearest `b + sgn(b)*SMALL`
   *is* `b` in the first case, which justifies the model.
2. **Abstract arithmetic** (`Arith` record: carrier, +,-,*,/, comparisons, isnan): control-flow heavy code
   (root finders, PTE driver, kinetics) is written once over `Arith`. It is instantiated with `R`
   (theorems about exact arithmetic), and with Coq's primitive binary64 floats (executable; counterexamples
   are run by `vm_compute` in real IEEE arithmetic including NaN/Inf). Theorems that hold for *every* `Arith`
   need no arithmetic law at all and therefore hold for binary64 with NaNs.
3. **Integers `Z`/`nat`** with explicit wrap/overflow side conditions for bit tricks, offsets and scratch layout.

### Undefined behaviour / aborts
Memory accesses are modelled with explicit outcomes (`Abort`, `UB`/out-of-bounds) in the serialisation, scratch
layout and vector modules; `PORTABLE_ALWAYS_REQUIRE` becomes `Abort`, `PORTABLE_REQUIRE` (debug only) becomes a
precondition stated in the theorem.

## 2. Trusted base

* Coq 8.16.1's kernel, including its virtual machine (`vm_compute`) and its primitive 63-bit integers and binary64
  floats where those are used (the counterexamples that are run in binary64).
* The axioms `Print Assumptions` reports. Every theorem is followed by that command in its file, and
  `ASSUMPTIONS.md` lists the result for every theorem. Only standard-library names occur, in these sets:

  | set | names |
  |---|---|
  | closed | none (type lists, indexers, serialisation, schedules, scratch offsets, variant, driver, Gibbs sort) |
  | reals | `ClassicalDedekindReals.sig_forall_dec`, `FunctionalExtensionality.functional_extensionality_dep`, some also `ClassicalDedekindReals.sig_not_dec` |
  | reals + analysis | the same and `Classical_Prop.classic` (through Coquelicot and Flocq) |
  | binary64 runs | primitive types and operations of `PrimFloat` / `PrimInt63` only (they are kernel primitives, not propositions) |
  | binary64 + specification | the theorems of C84-C88 and one of C01 also use `FloatAxioms` (the standard library's specification of the primitive floats) |

  There are no axioms, functors, module types, admitted proofs or switched-off checks of our own.
* The reading of the C++: each definition cites the lines it models. The C++ is never run here.
* Specifications: `Thermo_Spec.v` (thermodynamic identities as Coquelicot derivatives, FillEos contract),
  `Vector_Spec.v`, `Mods_Spec.v`, `KPT_Spec.v`, `SpinerUtil_Spec.v`, `Spiner_Spec.v`, `SgEos_Spec.v`,
  `Stellar_Spec.v`, and the definitions at the top of the Props files. They are read together with the statements.

### Conventions of the model a reader must accept

* **Exact reals.** Thermodynamic claims, closure claims and table claims are about the formulas in exact
  arithmetic. Rounding, overflow, underflow and NaN are outside those theorems. They are inside the theorems over
  an arbitrary `Arith` (root-finder termination, iteration bounds and "what SUCCESS means", PTE driver, Gibbs sort)
  and inside the binary64 runs.
* **`ratio` and `+ SMALL`.** `robust::ratio(a,b)` and sums of the form `x + SMALL` absorb the guard in binary64 as soon
  as the other operand is at least `2^-960` (proved, C01). The exact-real model therefore returns `a/b` in
  that case and keeps the guard below it. Theorems that need it say `tiny < ...`.
* **Arrays** are functions from indices, with loops touching only indices below the count; the layout and bounds of
  the memory behind them are separate models (`PTE_Scratch_Model`, `SgEos_Scratch_Model`, `Serialization_Model`).
* **`PORTABLE_ALWAYS_REQUIRE`** is an abort; **`PORTABLE_REQUIRE`** (debug builds only) is not modelled, so that the
  theorems are about release builds; where one is needed it appears as a hypothesis.
* **Spiner** (DataBox, RegularGrid1D) is a library outside the repository: a DataBox is its `interpToReal` function
  in the Spiner EOS models; for StellarCollapse it is regular-grid multilinear interpolation, linearly continued.
* **FastMath logs** inside tabulated EOS are an abstract pair `L` with hypothesis `is_log_pair L` (strictly
  increasing, mutually inverse); the real `log10` is shown to be one, and C05 says how far each fast variant is one.
* **Linear algebra.** The PTE Newton step for n >= 3 materials uses an external solver (QR of Kokkos-Kernels /
  Eigen); it is a parameter `lin`. Results that need its answer to be right assume `exact_solver lin` and Gaussian
  elimination is given as a witness.
* **Vector calls of the base EOS** are a parameter `BaseT` of the modifier vector model; C13 discharges it for the default
  loops, C78_vector_calls and C78_shifted_vector_calls for the EOSPAC class.
* **EOS inside a solver** are records of functions; hypotheses about them (positive heat capacity, ideal-gas-like
  caloric part, ...) are stated in each theorem and met by concrete EOS in the examples.

## 3. Plan per property

| id | modelled | proof |
|---|---|---|
| C01 | robust_utils over R; absorption of SMALL over Flocq binary64 | case analysis; Flocq rounding lemma |
| C02 | template recursion as well-founded recursion on the exponent | strong induction |
| C03 | predicates over R | direct |
| C04 | all Hermite polynomials, cell interpolation of HelmElectrons | `auto_derive`, `ring` |
| C05 | portable versions over R (frexp/ldexp specification), aliased versions over Z bit patterns and rounded reals | real analysis, integer arithmetic |
| C06-C08 | root finders over `Arith` | loop invariants by induction on fuel; binary64 counterexamples in C55 |
| C09 | type lists as terms | structural induction |
| C10 | indexers as key list + data | induction on layouts / access histories |
| C11-C12 | byte-array serialisation with Abort/UB outcomes | induction over container, list lemmas |
| C13 | parallel for as interleaving of single loads and stores of its iterations | commutation of disjoint steps, for all schedules |
| C14 | modifier vector overloads | per modifier equality; C57 for those that disagree |
| C15 | default inversions over `Arith` on top of C06/C08 | corollaries |
| C16-C26 | analytic EOS over R | `auto_derive`/`field`, monotonicity, induction on coefficient lists |
| C27-C32 | modifiers as functions on an abstract EOS record; variant as tagged union | equational, structural induction over stacks |
| C33 | scratch carving as offset arithmetic | `nia`/`lia` for all n |
| C34-C37 | PTE driver over `Arith`; the five systems over R with any number of materials | induction on materials / fuel, driver invariant principle |
| C38-C39 | kinetics over R, any number of phases | induction; permutation/sortedness |
| C40 | get_sg_eos cell functors, scratch rows handed out by an arbitrary token schedule, offsets | schedule machine invariant; induction over materials |
| C41-C43 | energy transforms, query branches, table bounds over R | equational, monotonicity |
| C44 | CheckParams and constructors as boolean predicates over R | direct |
| C45 | init_utils macro as a function of its flag array, on the variant model | case analysis over all flags |
| C46 | exact solver hypothesis on the PTE systems | invariants through the driver |
| C47 | Jacobian assembly of all five systems | row/column sums by induction over materials |
| C48-C50, C53-C64, C67, C71, C77, C79, C81, C83 | statements users would expect in full generality and that the code does *not* meet | one theorem per counterexample; the part that does hold is the property named in the note |
| C51-C52 | to_log/from_log, SetRhoPMin | monotonicity, induction over table rows |
| C65-C66 | StellarCollapse: queries; file reading, smoothing, resampling, saving | interpolation lemmas, root-finder results of C06 |
| C68-C70 | Helmholtz: table reading, radiation, ions, Coulomb, electrons, their sum, queries, temperature search | induction over the file, derivatives of the piecewise Hermite interpolant through cell boundaries (C03), Newton and regula falsi results (C06, C07) |
| C72 | ApproxTemperatureFromRhoMatU: the bisection, for any list of energy functions and any log pair | interval halving, intermediate value theorem |
| C73-C74 | sesame2spiner's parser on strings, and the naming of the materials it writes | induction over lines, sections and materials; decimal printing is injective |
| C75-C76 | sesame2spiner's table entries and table bounds; EOSPAC is an arbitrary interpolator | chain rule in two variables; the bounds of C43 |
| C78 | the EOSPAC class on tables that are views of one material; vector calls as writes to memory with EOSPAC's unit options, all buffers aliased as in the code | chain rule and inverse functions in two variables; disjointness of buffers |
| C80 | numpy views, LambdaHelper, C pointers, Fortran descriptors as address arithmetic with 64/32-bit wrap; the loops are C13's; Kokkos life cycle as a state machine | modular arithmetic, C13, induction over histories |
| C82 | the manual's formulas transcribed in Doc_Spec, independently of the code | `field`, integrals (RInt), bounds on truncated series |
| C84-C86 | the same functions written once over any arithmetic (Float_Model); instantiated with primitive IEEE doubles | Flocq: value of each operation, Sterbenz/Fast2Sum exactness, relative-error calculus (factors (1-2^-53)^k), monotonicity of rounding; induction over exponent and list |
| C87, C88 | RootFinding_Model run with primitive IEEE doubles | ordering lemmas on doubles (NaN, infinities) for the unconditional parts; exact sign of residuals and products, midpoints and monotone rounding for the enclosure; counterexamples run by the kernel |
| C89, C90 | no new model: the public queries of the EOS models, related by Stability_Spec (isothermal modulus as a derivative, moduli identity, stability) | derivatives of the pressure queries from C16-C26, then field algebra and signs; counterexamples as concrete parameter sets or whole ranges |
| C91 | no new model: the PTE solver models (RhoT, PT, FixedT, RhoU) and the public queries, related by Equilibrium_Spec (equilibrium, near_equilibrium, well_behaved, gap) | convexity of Helmholtz energy / temperature in 1/rho and 1/T, one variable at a time (strict minima from signs of derivatives), summed over the materials; end states of the solvers from C34 and C37 |
| C92 | scratch_size/max_scratch_size with the string search of the code, 64- and 32-bit wrap | induction over the stack of modifiers; equality with the temporaries of the vector-call models |
| C93-C94 | argv as a list of words, the file system as a partial function, outcomes Parsed/Exit/Terminated/Undefined | every line is the spelling of a list of documented options; induction over the words; counterexamples evaluated for C94 |
| C95 | Fortran wrapper, C function, class constructor and modifiers as one function from positional arguments to the stored object | composition: C82 formulas through the modifiers, then the cell theorems of C80; bulk modulus (Init_Bulk_*): class derivative theorems (C16-C24) under a change of units |

Whatever a row cannot carry is recorded in MANIFEST.json as `partial` with the missing part named.

Not expressible here (no property claims them): performance, GPU memory spaces, thread safety of HDF5, the numerical
accuracy of published tables and fits, behaviour of EOSPAC.

## 4. Coverage by source file

| source | model | left out |
|---|---|---|
| base/robust_utils, math_utils, error_utils | Robust_Model; also in IEEE doubles: Float_Model | printing |
| base/hermite.hpp | Hermite_Model | - |
| base/fast-math/logs.hpp | FastLogs_Model | the preprocessor choice itself; single precision |
| base/root-finding-1d | RootFinding_Model (any arithmetic: reals and IEEE doubles) | RootCounts statistics, printf |
| base/indexable_types, generic_indexer, variadic_utils (null test, type lists) | Indexer_Model, TypeLists_Model | SFINAE details |
| base/serialization_utils; Serialize/DeSerialize of eos_base, eos_variant | Serialization_Model | EOSPAC objects |
| base/spiner_table_utils (Bounds) | SpinerUtil_Model | DataBox helpers |
| eos/eos_base.hpp | BaseDefaults_Model, Vector_Model | entropy/Gibbs error paths |
| eos/eos_variant, eos_builder, eos_type_lists, default_variant, variant_utils | Variant_Model, TypeLists_Model | visitor boilerplate |
| the analytic EOS (ideal, stiff, noble_abel, carnahan_starling, sap_polynomial, jwl, gruneisen, vinet, davis, mgusup, powermg, electrons) | one model each | PrintParams |
| eos/modifiers/* | Mods_Model, Vector_Model | printing |
| closure/mixed_cell_models.hpp | PTE_Model, PTE_Driver_Model, PTE_Scratch_Model | PORTABLE_REQUIRE, lambda caching, the external linear solver |
| closure/kinetic_phasetransition_* | KPT_Model | - |
| eos/eos_spiner_common, sie_transforms | SpinerUtil_Model | HDF5 |
| eos/eos_spiner_rho_sie, rho_temp | Spiner_Model | HDF5 loading except the tables computed from other tables |
| eos/eos_stellar_collapse.hpp | Stellar_Model | HDF5 (arrays under names), counters |
| eos/get_sg_eos*.cpp/.hpp | SgEos_Model, SgEos_Scratch_Model | non-Kokkos build, debug check_all_vals |
| eos/singularity_eos_init_utils.hpp, init_sg_* | Variant_Model, Bindings_Model | argument lists: see Init_Model below |
| eos/eos_helmholtz.hpp | Helm_Model (interpolation: Hermite_Model) | verbose output, GPU copies, MinimumDensity etc. constants |
| sesame2spiner (parser, generate_files, io_eospac, parse_cli, main), the eospac-wrapper functions it uses | Sesame_Model, CommandLine_Model | HDF5 writing of metadata, EOSPAC calls, std::stod, text of warnings and help |
| eos/singularity_eos.cpp, singularity_eos.f90: init_sg_* of the analytic EOS | Init_Model, Init_Bulk_Model | tabulated EOS |
| scratch_size, max_scratch_size by method name (base class, EOSPAC, modifiers) | ScratchName_Model | - |
| eos/eos_ideal.hpp and closure/mixed_cell_models.hpp: sum_neumaier, NormalizeVfrac, in IEEE doubles | Float_Model | fused multiply-add, reassociation, other rounding modes |
| closure/mixed_cell_models.hpp: ApproxTemperatureFromRhoMatU | ApproxT_Model | - |
| eos/eos_eospac.hpp, modifiers over it (energy shift; minimum energy of the floor) | Eospac_Model | EOSPAC itself (tables are arbitrary functions with derivatives; unit options as documented in the code), error codes, printing, the DumpMemory/SharedMemory functions |
| python/module.hpp, C query functions and Fortran wrappers | Bindings_Model | pybind11 overload resolution and conversions, Python constructors' argument lists, EOSState's printing |
| doc/sphinx/src/models.rst, closed forms of the analytic EOS | Doc_Spec | tabulated EOS, prose |
| examples, tests | - | all |

## 5. Findings

The `_refuted` theorems (listed in MANIFEST.json under C48-C50, C53-C64, C67, C71, C77, C79, C81, C83, C88, C90 and C94) are statements about the code that a
user would expect and that fail, each with a concrete counterexample in the model. The ones most likely to matter:

* Modifiers: `FillEos` of Shifted/Scaled does not translate the energy back or translates an input that was not given;
  ScaledEOS uses unscaled density or energy in four queries; Z-split does not scale the pressure in the energy-from-pressure
  inversion; the bilinear ramp writes unrequested outputs; UnitSystem's vector minimum energy applies the wrong factor.
* Analytic EOS: several `FillEos` overwrite inputs or leave requested outputs unwritten; bulk modulus or Gruneisen queries
  that are not derivatives of the pressure on some branch (SAP polynomial, Davis reactants, PowerMG, MGUsup);
  reference states that are not the values of the queries.
* Stability: below rho0/8 Vinet has a negative isothermal modulus and reports bulk modulus zero although MinimumDensity is
  far lower; Gruneisen's bulk modulus is not the one of its pressure off the reference density; JWL accepts parameters whose
  bulk modulus is negative (C90).
* Root finders: `regula_falsi` with a guess outside the bracket or a negative tolerance; Newton-Raphson reporting an
  out-of-bounds root.
* Root finders in doubles: a function value NaN is taken for an exact root (regula_falsi) or passes the residual test
  (findRoot); overflow makes regula_falsi return NaN with SUCCESS; the sign test `fa*fb <= 0` underflows; the absolute xtol
  below the spacing of doubles makes findRoot report FAIL at a root it has found (C88).
* Closure: PTESolver can report convergence and a residual that belong to another state; the density-temperature system
  ignores a requested volume total other than one; scratch of the density-energy system for one material.
* get_sg_eos: optional specific-heat array keyed on the wrong pointer; materials below the cutoff not accounted for;
  stale scratch used as a guess or as a density; the lambda cache and the solver scratch may overlap.
* Tabulated EOS: FillEos silent or clamped cases, pressure jump at the table edge, StellarCollapse temperature
  inversion and chemical potentials.
* Helmholtz: a lambda with the log-temperature slot fixes the answer of every energy-based query to the cached
  temperature (a get where a set is meant); the Sackur-Tetrode constant multiplies ln T in the ion entropy and the logarithm
  of the ionised gas is taken before dividing by density; the strong-coupling Coulomb fit is used at every coupling;
  the damping's density and temperature derivatives are exchanged.
* Helmholtz (continued): the temperature slope of the weak-coupling Coulomb entropy is multiplied by the coupling where the
  derivative divides by it (C71_coulomb_entropy_slope_refuted).
* EOSPAC class: scalar FillEos from (density, energy) evaluates other quantities at a stale temperature; vector FillEos
  overwrites caller energies or pressures; Shifted/Floored vector minimum energy needs more scratch than it advertises; a
  method name of 24 characters matches the suffix test by wrap-around (C92); the vector entropy ignores that entropy is unavailable; reference bulk modulus differs from the query.
* sesame2spiner: the anchor and split of the energy grid are in EOSPAC's units, 1e10 too small; rhoFineMin/Max are read as
  integers; a line without '=' is accepted; numbered names can collide; option resets hide a failed interpolation;
  a repeated verbosity option is read as a file name, a trailing -s is undefined behaviour (C94).
* Bindings: a Python lambda array with one row raises; lambda arrays are assumed row-contiguous; keyword FillEos without
  an explicit mask marks the *given* quantities as outputs; Fortran finalize always takes Kokkos down; the absent `split` of
  init_sg_eospac_f is passed on undefined; lambda indices are 32-bit; the modifier arrays of init_sg_CarnahanStarling_f are
  mandatory and overwritten with the ramp parameters when the P-alpha flag is set (C95_caller_values); a C++ overload of
  init_sg_eospac without modifier arrays is declared and never defined.
* Manual: default reference temperature 298 K printed, 293 K in the code for the ideal gas defaults; the isentrope temperature
  of the Davis products has another exponent; the indices of the PowerMG temperature series are off by one; the stiff,
  Noble-Abel and Carnahan-Starling gases report the given entropy reference as reference state where the manual says they do not.
* Serialisation: Helmholtz ignores the shared buffer it is given; `BulkSerializer` without shared memory.

## 6. Mutation tests

`seeded/LOG.jsonl`: one line per wrong program tried. Each mutation was applied to a scratch copy of the model, the listed
modules rebuilt, and the theorems that stopped proving recorded. Survivors led to the tightened theorems named there.
