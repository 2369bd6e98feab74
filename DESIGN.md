# Formal model of duanebyer/sidis — design

The model lives in `rocq/theories`. Each topic has up to four files:

* `XModel.v`  — Gallina transcription of the C++ (every definition cites file and lines in `/repo`), no proofs;
* `XSpec.v`   — small independent specification vocabulary (only what the English property needs);
* `XProofs.v` — lemmas;
* `XProps.v`  — the property theorems only, each closed by `exact lemma`, followed by a non-vacuity
  `Example` and `Print Assumptions`.

## Number models

* `Real` (double) is modelled as a mathematical real (`R`) where the property is an algebraic or
  analytic identity.  Rounding is *not* modelled there.
* Where NaN/infinity decides the behaviour (`Bound`, cuts, density filter, statistics total) the model
  uses extended reals `ext = Fin r | PInf | NInf | NaN` with IEEE comparison and arithmetic rules
  (no rounding, unsigned zero).
* Where rounding decides the behaviour (grid cell index) the model uses Flocq's binary64 rounding.
* Machine integers are `Z` with explicit range checks; undefined behaviour is a distinct outcome.

## Plan per property

| id | what is modelled | how it is proved |
|----|------------------|------------------|
| C01, C02 | `Bound` over extended reals with NaN | case analysis on ends; order reasoning |
| C03, C04, C05 | `prod_div_impl` over Z with range checks (UB = distinct outcome), progress loop | loop invariant `quot*K+rem = N*k_p`; refutations by computation |
| C06, C07, C08 | the six maps, `apply_map`, `take` over R | Coquelicot `is_derive`, sinh/arcsinh identities |
| C09–C16 | vectors and transforms over R | `ring`/`field`, norm lemmas |
| C17–C23 | `Kinematics`, `KinematicsRad`, `Final`, frames over R | an abstract event (four-vectors of a physical reaction) as specification; every field is named by an invariant of those vectors; `field` with square-root relations |
| C24–C28, C68, C69 | `cut.cpp` limits, cuts, validity tests and samplers, over extended reals | `region` = rest-frame kinematics (energies, square roots, missing mass); discriminants of the limit quadratics; limits proved exact, samplers sound and onto |
| C29 | `Particles` constructor over ext | case analysis |
| C30 | cell index in binary64 | Flocq rounding monotonicity |
| C31–C35, C70 | grids, interpolation, `read_grids` | induction on dimension; array model with explicit out-of-bounds outcome |
| C36–C41, C78–C80 | every leptonic and hadronic coefficient, Born/anomalous-moment/non-radiative/radiative cross-sections, dispatch on polarization, soft-photon terms, integrands (`LepModel.v`, `HadModel.v`, `XsModel.v`); the dilogarithm, the coupling, the hadronic vacuum polarization and the structure functions are parameters | `field` at an event; mirror-image kinematics; Taylor–Lagrange for the small-R formula; `XsSpec.v` states the textbook decomposition |
| C89–C91 | the leptonic coefficients and cross-sections of `LepModel.v`, `XsModel.v` against lowest-order quantum electrodynamics | `QedSpec.v`: explicit Dirac matrices, spin density matrix, propagators, lepton tensors as functions of two vectors, nine structures of the hadronic tensor, helicity vector; `QedXsSpec.v`: flux, photon measure, form factor F2 as an integral. Traces are reduced by the anticommutation rule (`QedAlg.v`, `QedWord.v`), contracted symbolically over a table of scalar products (`QedTensor.v`–`QedTab.v`), and compared with the code as polynomials in the invariants (`QedSym.v`–`QedPoint.v`); `QedFrame.v` instantiates at an event, `QedXs.v` adds the hadronic weights and normalizations |
| C92 | the hadronic coefficients of `HadModel.v` and the shift rotation of `FrameModel.v` against one hadronic tensor | `QedHadSpec.v`: axes built from the momenta, components from the structure functions, spin four-vector. Components of the code's tensor on the axes (`QedHad.v`), completeness of the axes by Cramer's rule, covariance and the rest frame of the target for the spin after the shift (`QedSpin.v`, `QedHadTensor.v`), bilinearity of the lepton tensors to replace one tensor by the other in the cross-sections (`QedBilin.v`) |
| C93, C94 | `delta_vac_lep`, `delta_vert_rad_0`, `delta_vert_rad_ir`, `delta_rad_ir_hard` of `XsModel.v` against one-loop quantum electrodynamics | `VirtSpec.v`: vacuum polarization, Dirac form factor and soft emission as integrals, regulated by a photon mass. Closed forms by explicit antiderivatives (`VirtVac.v`, `VirtVert.v`, `VirtSphi.v` by 't Hooft and Veltman's substitution, `VirtSoft.v`), error linear in the photon mass (`VirtSum.v`), comparison with the formula of the code (`VirtCode.v`), momenta (`VirtEvent.v`); the sum of inverse squares (`Basel.v`) gives the constants of the dilogarithm |
| C95 | `DefaultModel.v`: the overloads without phenomenological inputs (cross_section.cpp 449-463, phenom.cpp 83-88) | Lower bound of the running coupling from C67 (`DefaultProofs.v`, evolution time from m_e to Q), powers of the coupling, and one event with rational momenta where the six dilogarithms are bounded by hand (`DefaultWitness.v`) for the refutation |
| C96 | `FBoundModel.v`: bound.hpp 16-58 and bound.cpp 9-71 over Flocq's binary64, no fused operations | Each operation returns the rounding of the real result or the infinity it overflows to (`rounded`); monotonicity of rounding for shifts and scalings; half-ulp estimates on both sides for exactly complementary weights (`blend`, `FBoundLerp.v`); computed witnesses. |
| C97 | `GridFileModel.v`: prokudin.cpp 121-167 (find_file, load_grids) over the stream model of `TextModel.v`; files are a map from path to text | `GridFileSpec.v` states the numeral grammar and the lines independently; `scan_iff` shows the stream reader takes the longest number; each line is read, refused with all numbers written, or refused with one not written (`get_row_cases`); lines of a text are unique (`lines_fun`), giving both directions. Not modelled: encodings other than one byte per character, and read errors of the file system. |
| C98 | `FMathModel.v`: math.cpp 11-97 and math.hpp 49-51 with every operation rounded (`RN`), the C library's log, log1p and expm1 as parameters | Error of one rounding `RN_err` (Flocq's relative error with underflow); invariants of the loop for arguments of ordinary size and a separate argument for tiny ones (`FMathSeries.v`, `FMathSum.v`); the rounded number of terms still suffices (cell check of `DilogError.v`); per branch: exact differences by Sterbenz, products and half squares of logarithms, Lipschitz bound of the series (`FMathDilog.v`). |
| C99 | `FKinModel.v`: kinematics.cpp 48-98 (the part with hadron momenta) with every operation rounded, sqrt1p_1m from C98; the plain formula that the code's comment warns against | A calculus of relative errors with magnitudes kept in the normal range (`FKinRel.v`), the exact identity V_m = -K (sqrt(1+w)-1) and the Lipschitz bound of sqrt on w (`FKinProofs.v`, `FKinMore.v`); the NaN witness by a verified rounding of fractions (`FKinPoint.v`). |
| C100 | `ConstModel.v`: constant.hpp 10-47 as decimal literals rounded to long double and then to double, particle.hpp 72-211 (masses, charges, names) | Series of pi (Machin), e and the square root as Horner fractions bounding every digit (`ConstProofs.v`); nearest doubles by cross multiplication with room for the first rounding (`ConstNear.v`); tables by cases. |
| C101 | `FMapModel.v`: map.hpp 13-34, 49-60, 123-129 and bound.hpp 48-58 with every operation rounded, infinities and NaN kept; the uses in cut.cpp 397-400 | `FMapSpec.v` states the values drawn without rounding. Decay: 1 - u is known to 3 roundings of one, so the logarithm is to exp(4t) of them (`FMapProofs.v`); the largest double below one gives the ceiling. Inverse by the relative-error calculus of C99, and the degenerate interpolation of 1 and 1 (`FMapInv.v`). |
| C102 | `FLogModel.v`: map.hpp 36-47 with every operation rounded, logarithms of zero and of negative numbers kept; the use in cut.cpp 521-523 and 570-572 | `FLogSpec.v` states the value drawn as a product of two powers. Absolute error of the interpolated logarithm, then of its exponential (`FLogProofs.v`). Floor: two different doubles are at least one unit in the last place apart. The negative value: ln 2 to 19 digits (from the series of `DilogError.v`) decides the two roundings of log(1/2048) and its exponential (`FLogNeg.v`). Refuted: R never below its lower limit. |
| C103 | `IntegModel.v`: extra/integrate.hpp 26-137 with memory as a list of blocks and an oracle for failing allocations; cubature and the GSL routines are parameters that pass on the generator and the workspace | `IntegSpec.v` states reliability of the routines for an arbitrary integral. Case analysis over the methods; nested release of blocks by one lemma on a unique_ptr. |
| C104 | MsgModel: %f and %e formatting, exception messages, part::name, stream state (floatfield, precision), stream_write_integ, sequences of outputs | MsgSpec (tells, places, scientific), MsgProofs: rounding of the decimal, texts read back as numbers, witnesses for equal digits, induction over the outputs. Not modelled: sign of zero, integer base, locale |
| C105 | TensorModel: overloads of transform for tensors, bivec, vector times transform | TensorSpec (isometry, forms, antisymmetric), TensorProofs: algebra by components, invariants from trace and Pfaffian, cross product under isometries. Real numbers, no rounding |
| C106 | GridModel, binary64 instances of locate and of the linear view | FGridSpec (position, broken line), FGridProofs: relative error of the differences, quotient and product; the fractional part is exact; the broken line is Lipschitz; value by C96. Differences do not overflow (magnitudes at most 2^1022); the value is bounded for one-dimensional linear views only |
| C107 | GridModel, binary64 and exact instances of the cubic view | FCubicSpec (Hermite cubic, spline with zeros beyond the ends, product over axes, budget), FCubicProofs: forward error of each operation in units of 2^-53 times a scale; Lipschitz constant 4 M and bound 5/4 M of the spline; induction over the axes with C106 for the position. Values between 2^-900 and 2^1000 so that underflow and overflow do not enter |
| C108 | FPhenomModel (phenom.cpp in binary64; constants and log as parameters) | FPhenomSpec (accuracy asked of constants and log), FPhenomProofs: forward errors of beta and of a Runge-Kutta step, Lipschitz constant of the step, induction over the table, the rounded stopping test stops between rounds 300 and 2110, C107 for the interpolation; FPhenomFinal: same spline as the exact table even if it stops one entry earlier or later, constants of C100 and a nearest-double log meet the hypotheses |
| C109 | FVacModel (phenom.cpp 70-81 over the reals with explicit roundings to long double and double; overflow left out, argued in the file) | FVacSpec (accuracy of the log), FVacProofs: relative errors through the bracket, the factor and the two final roundings; gaps at the joints from C82; monotone because every rounding is |
| C110 | FVacLepModel (cross_section.cpp 515-531 with explicit roundings; library functions as parameters) | FVacLepProofs: relative errors through sq, sqrt, sqrt1p_1m (C98), log and quotient, absolute ones through the two differences; ranges of L_m on 1 <= Q^2 <= 10^4; sign from the electron term and C93 |
| C42–C45 | structure-function getters, masks, `alloc_sf` | finite enumeration lifted |
| C46 | built-in parameterization (`ProkModel.v`): both classes, tables as arbitrary functions | each convolution reduced to factor times flavor sum; moments compared; algebra; two functions refuted with the explicit factors |
| C47, C71, C72 | TMD sets, their convolutions and structure functions over R; the cubature routine is an arbitrary functional | Gaussian integrals over the plane as improper Coquelicot integrals (`GaussInt.v`) |
| C48, C81 | every integral and asymmetry of asymmetry.cpp over arbitrary integrators (`AsymModel.v`) | trigonometric integrals over a full turn (Coquelicot), affine dependence on the spin, textbook form C78 |
| C49–C56 | `Filter`, `Params`, parameter text format, `check_can_provide_foam`, `merge_params` over the full standard parameter table | list/set reasoning, computation for refutations |
| C57–C59, C73, C74 | rejection step, integrator arithmetic, total, event loop (`StatModel.v`, over extended reals; a statistic is the list of weights it pools) | Coquelicot integral, field algebra |
| C60, C75–C77 | the two densities, cuts from parameters, constructor checks (`GenModel.v`) | from C08, C26, C69 |
| C61, C62 | `split_lines`, tables, progress bar (`TermModel.v`, 32-bit unsigned wrap explicit) | induction on text |
| C63 | enabled event types | case analysis |
| C64 | efficiency conversion | exp/ln identities |
| C65 | life cycle of Dist and Generator (`LifeModel.v`): events on the engines, flags and tags, exceptions as parameters of each operation | trace discipline (`LifeSpec.v`); invariant flag = alive over operation sequences; refutations by evaluation |
| C67, C82 | the table-filling loop, Runge-Kutta step, interpolation and one-loop continuation of the coupling; the hadronic fits (`PhenomModel.v`) | Runge-Kutta step bounded in evolution time (Coquelicot, MVT), smallness of consecutive increments for the cubic cells, certified logarithm bounds |
| C83, C84 | ROOT directories as lists of named objects, the conversions of thirteen value types, the six arrays of statistics with double rounding (`RootModel.v`) | case analysis per type, Flocq rounding bounds; refutation by the count 2^53+1 |
| C85, C86 | the command line, the exit codes, and the commands as sequences of checks, file creations and object writes over an abstract file system (`CmdModel.v`) | case analysis along the order of the steps; refutation of `-i` and of rerunning after a failure |
| C87, C88 | the filling of a row of the event tree, the branch and leaf names, the initial state (`RowModel.v`) | the target frame of a target at rest is a rotation about the beam; invariants carried over from C19; rotations commute with cross products; refutation for a polarization off the y axis |
| C51, C52 | standard input and output streams over texts (`TextModel.v`), the parameter file reader and writer and the text form of each value type (`ParamTextModel.v`) | files described by concatenation (`ParamTextSpec.v`); induction over lines; decimal rounding and back with Flocq (midpoints, parity of ties); which powers of two survive 16 digits: integer test proved correct, evaluated for every exponent (`TextPower.v`, `TextExact.v`); refutations by evaluation |
| C66 | stable helper functions, dilogarithm with its decimal constant and its number of terms | exp/ln identities, derivative; Landen and reflection identities by uniqueness of the primitive, tail of the series, checked intervals for the number of terms |

Properties that turn out false of the code get a `…_refuted` theorem with a witness, plus the strongest
positive theorem that does hold.

## Trusted base

* Coq 8.16.1 kernel.
* Standard-library axioms of `Reals` (`ClassicalDedekindReals.sig_forall_dec`, `sig_not_dec`,
  `FunctionalExtensionality.functional_extensionality_dep`, and `Classical_Prop.classic` where Coquelicot
  or Flocq use it).  Each property theorem is followed by `Print Assumptions`.
* The reading of the C++ source: the model is hand-transcribed.
* `bubble::Stats` (an external header) is modelled as the list of weights it pools.
* Parameters of theorems that stand for unmodelled code: the dilogarithm inside the cross-sections (the function itself is C66), the running coupling and the hadronic
  vacuum polarization inside the cross-section model, the structure functions, the cubature routine.
* ROOT: `WriteObject` stores an object under a name or gives 0, `Get` finds the newest of the right class, `CREATE` refuses an existing file;
  objects of a file survive the process. `bubble::Stats` is rebuilt by its constructor from what its getters return.
* The specification files (`*Spec.v`), which state the physics the code is compared with.

## Not modelled

ROOT I/O below the level of named objects, the external `bubble` adaptive generator (only the interface it offers), Monte Carlo integration
(cubature), grids' numerical data files, floating-point rounding other than for C30.
