{"id": "C01", "title": "Bound intersection is set intersection", "statement": "For two intervals a and b (each possibly invalid, with infinite ends allowed), a real x is contained in (a & b) exactly when it is contained in both a and b; and (a & b) is invalid exactly when no extended-real point is contained in both.", "quantifier": "for every pair of intervals that the public constructors can produce, and every finite, infinite or NaN point x", "why_tests_cant": "Tests can only try finitely many endpoint configurations; NaN/infinite/touching-endpoint combinations are a case explosion and the 'iff' over all x is not testable.", "anchors": ["src/bound.cpp: Bound::operator&=", "include/sidis/bound.hpp: Bound::contains, Bound::valid"]}
{"id": "C02", "title": "Bound hull, shift, scale and lerp keep the interval meaning", "statement": "The union operator returns the smallest interval containing both operands; adding s / multiplying by s>0 maps contained points to contained points both ways; scaling by a negative number is invalid; lerp(p) for p in [0,1] stays inside a valid bounded interval, hits both ends, and is monotone.", "quantifier": "for all valid bounded intervals, all scalars s and all p in [0,1]", "why_tests_cant": "Universal statement over real endpoints; sampling cannot show minimality of the hull or monotonicity.", "anchors": ["src/bound.cpp: Bound::operator|=, +=, -=, *=, /=", "include/sidis/bound.hpp: Bound::lerp, Bound::size"]}
{"id": "C03", "title": "prod_div computes the exact truncated quotient and remainder of N*k/K", "statement": "Whenever prod_div terminates without signed overflow or division by zero, the returned quotient and remainder are exactly those of the truncated division of the mathematical product N*k by K, even when N*k does not fit in the type.", "quantifier": "for all integers N, k, K of the machine type for which no intermediate operation is undefined", "why_tests_cant": "2^192 input combinations for the 64-bit instance; the interesting path (overflow-avoiding loop) is only taken for huge values.", "anchors": ["src/math.cpp: prod_div_impl", "include/sidis/extra/math.hpp: prod_div"]}
{"id": "C04", "title": "prod_div is total on valid inputs", "statement": "A caller who passes K != 0 (and a representable result) gets a defined answer: in particular prod_div(0, k, K) is 0.", "quantifier": "for all N, k, K with K nonzero and N*k/K representable", "why_tests_cant": "Undefined behaviour does not reliably show up as a failing assertion.", "anchors": ["src/math.cpp: prod_div_impl"]}
{"id": "C05", "title": "Progress percentage during generation is floor(100*i/n)", "statement": "While generating n events, the percentage shown before event i is floor(100*i/n), independently of how large n is, and the computation never overflows.", "quantifier": "for all 1 <= n <= 2^63-1 and all 0 <= i < n", "why_tests_cant": "Exhaustive testing over n and i is impossible; the large-n path uses a different algorithm.", "anchors": ["app/sidisgen/main.cpp: command_generate (progress loop)", "src/math.cpp: prod_div_impl"]}
{"id": "C06", "title": "Variable maps are inverted correctly and report the true Jacobian", "statement": "For every integration map (linear, reciprocal, logarithmic, decaying exponential, single sigmoid, double sigmoid), mapping a coordinate forward and back gives the original, and the reported Jacobian is the derivative of the back-map.", "quantifier": "for all map parameters in their natural domain (positive widths/lengths, non-singular points) and all coordinates", "why_tests_cant": "The derivative/inverse identities are statements about real functions; tests sample points and tolerate error.", "anchors": ["include/sidis/extra/map.hpp: Linear, Inverse, Log, Decay, Sigmoid, Sigmoid2"]}
{"id": "C07", "title": "apply_map covers exactly the requested interval", "statement": "apply_map sends 0 to the lower end, 1 to the upper end, every p in [0,1] into the interval, is increasing in p, and its reported Jacobian is the derivative of the result with respect to p.", "quantifier": "for all maps with increasing forward function on the interval and all p in [0,1]", "why_tests_cant": "Quantifies over all intervals, all p and uses derivatives.", "anchors": ["include/sidis/extra/map.hpp: apply_map"]}
{"id": "C08", "title": "take() reports the exact phase-space Jacobian", "statement": "The Jacobian returned with a phase-space point equals the product of the one-dimensional derivatives of x, y, z, ph_t^2, phi_h, phi (and tau, phi_k, R) with respect to the unit-cube coordinates, i.e. the determinant of the (triangular) Jacobian matrix, and is nonnegative whenever all one-dimensional intervals are valid.", "quantifier": "for all particles, energies and unit-cube points", "why_tests_cant": "A Monte Carlo test only bounds the error of an integral statistically.", "anchors": ["src/cut.cpp: take"]}
{"id": "C09", "title": "3-vector parallel/perpendicular decomposition", "statement": "v.par(n)+v.perp(n)=v; par is parallel to n and perp is orthogonal to n; norm() is the Euclidean norm and unit() has norm 1 or is zero.", "quantifier": "for all 3-vectors v and n, including zero", "why_tests_cant": "Algebraic identity over all reals.", "anchors": ["src/vector.cpp: Vec3::par, Vec3::perp, Vec3::norm, Vec3::unit"]}
{"id": "C10", "title": "4-vector cross product is Minkowski-orthogonal and alternating", "statement": "cross(a,b,c) is orthogonal (in the Minkowski product) to a, b and c, and changes sign when two arguments are exchanged.", "quantifier": "for all 4-vectors a, b, c", "why_tests_cant": "Polynomial identity in 12 real variables.", "anchors": ["src/vector.cpp: cross(Vec4,Vec4,Vec4)"]}
{"id": "C11", "title": "4-vector construction from a length has that length", "statement": "from_length_and_r(m,p) has squared length m^2 and spatial part p; from_length_and_t(m,t,dir) has squared length m^2, time component t, and spatial part along dir.", "quantifier": "for all m, p, t, dir with |m|<=|t| and dir nonzero; not all of m, p zero", "why_tests_cant": "Real-number identity; NaN for the all-zero input is an edge case.", "anchors": ["src/vector.cpp: Vec4::from_length_and_r, Vec4::from_length_and_t"]}
{"id": "C12", "title": "Rotations are rotations", "statement": "rotate(dir, angle) and rotate_basis(z,y) produce matrices that preserve all dot products and have determinant +1; rotate leaves dir fixed; rotate_basis(z_axis, y_up) applied to z_axis gives the z direction.", "quantifier": "for all nonzero dir, all angles, all linearly independent z_axis, y_up", "why_tests_cant": "Universal over reals.", "anchors": ["src/transform.cpp: Transform3::rotate, Transform3::rotate_basis"]}
{"id": "C13", "title": "rotate_to rotates one direction onto the other", "statement": "rotate_to(a,b) is a proper rotation that takes the direction of a to the direction of b for all nonzero a, b.", "quantifier": "for all nonzero vectors a, b", "why_tests_cant": "The failing set (exactly antiparallel vectors) has measure zero so random tests never hit it.", "anchors": ["src/transform.cpp: Transform3::rotate_to"]}
{"id": "C14", "title": "Matrix product, transpose, determinant and inverse are consistent", "statement": "For 3- and 4-dimensional transforms: (A*B)*v = A*(B*v); det(A*B)=det A det B; A.inv()*A = A*A.inv() = identity when det is nonzero; the 4-dimensional inverse of a Lorentz transform equals its transpose.", "quantifier": "for all transforms with nonzero determinant and all vectors", "why_tests_cant": "Polynomial identities in up to 32 variables.", "anchors": ["src/transform.cpp: Transform3::inv, Transform4::inv, det, transpose", "include/sidis/transform.hpp: operator*"]}
{"id": "C15", "title": "Lorentz boosts and transform_to preserve the Minkowski product", "statement": "boost(dir, rapidity) and transform_to(a,b) preserve the Minkowski product; transform_to(a,b) maps the direction of a to the direction of b.", "quantifier": "for all nonzero dir and rapidities; for all a, b both timelike (or both spacelike) with nonvanishing denominator", "why_tests_cant": "Universal over reals.", "anchors": ["src/transform.cpp: Transform4::boost, Transform4::transform_to"]}
{"id": "C16", "title": "sym_prod is symmetric", "statement": "sym_prod(v1,v2) equals sym_prod(v2,v1) and is a symmetric matrix.", "quantifier": "for all vectors v1, v2", "why_tests_cant": "No test exists; only a universally quantified symmetry statement exposes the bug for generic inputs.", "anchors": ["include/sidis/transform.hpp: sym_prod"]}
{"id": "C17", "title": "Frame changes are mutually inverse isometries", "statement": "Each X_from_Y / Y_from_X pair (lab/target, target/lepton, target/hadron, target/virtual photon, target/real photon) composes to the identity and preserves the (Minkowski) product.", "quantifier": "for all physically valid kinematics and all initial states", "why_tests_cant": "Tests check sampled points within floating tolerance.", "anchors": ["src/frame.cpp"]}
{"id": "C18", "title": "Kinematic invariants agree with the four-vectors they name", "statement": "The scalars stored in Kinematics (Q^2, S_x, V_1, V_2, V_m, t, W^2, m_x^2, the lambda's, the longitudinal/transverse components, vol_phi_h) equal the corresponding invariants of explicit four-momenta p, k1, k2, q, ph, in any frame.", "quantifier": "for all particles, energies and physical phase-space points", "why_tests_cant": "Universal algebraic identity with square roots; the tests compare on random points with tolerance.", "anchors": ["src/kinematics.cpp: Kinematics::Kinematics"]}
{"id": "C19", "title": "Scattered lepton and hadron are on shell and momentum is conserved", "statement": "The lab-frame four-vectors returned in Final satisfy k2^2=m^2, ph^2=mh^2, q=k1-k2, and x, y, z, ph_t^2 computed from them return the original phase-space point.", "quantifier": "for all valid initial states, target polarizations and phase-space points", "why_tests_cant": "Universal over continuous variables.", "anchors": ["src/kinematics.cpp: Final::Final", "src/frame.cpp: target_from_lab"]}
{"id": "C20", "title": "The radiated photon is real and light-like", "statement": "The photon four-momentum built from (tau, phi_k, R) satisfies k^2=0, 2k.p=R, k.q relates to tau, and its stored components k_0, k_t, k_l, z_1, z_2, mu match it.", "quantifier": "for all valid kinematics and tau in [tau_min,tau_max], phi_k, R>=0", "why_tests_cant": "Universal over 9 continuous variables.", "anchors": ["src/kinematics.cpp: KinematicsRad::KinematicsRad"]}
{"id": "C21", "title": "Shifted kinematics are the kinematics with q replaced by q-k", "statement": "Every shift_* quantity equals the same invariant evaluated with q-k in place of q.", "quantifier": "for all valid radiative kinematics", "why_tests_cant": "Long algebraic identities (some marked TODO/unverified in the source).", "anchors": ["src/kinematics.cpp: KinematicsRad shift_*"]}
{"id": "C22", "title": "Radiative kinematics reduce to non-radiative at R=0", "statement": "With R=0 every shift_* quantity equals its unshifted counterpart, and project() always returns the original Kinematics unchanged.", "quantifier": "for all kinematics and all tau, phi_k", "why_tests_cant": "Universal; tests check one point.", "anchors": ["src/kinematics.cpp: KinematicsRad, project"]}
{"id": "C23", "title": "project_shift returns self-consistent kinematics", "statement": "The Kinematics returned by project_shift satisfy the same internal identities as freshly constructed ones (e.g. V_m=(V_1-V_2)/2, S_x=S-X).", "quantifier": "for all radiative kinematics with R>0", "why_tests_cant": "No test covers it; source carries a TODO asking for verification.", "anchors": ["src/kinematics.cpp: KinematicsRad::project_shift"]}
{"id": "C24", "title": "Kinematic limits are sound", "statement": "Every phase-space point accepted by valid() has x, y, z and ph_t^2 inside the intervals reported by x_bound, y_bound, z_bound, ph_t_sq_bound.", "quantifier": "for all particles, S and phase-space points accepted by valid", "why_tests_cant": "Requires quantifier elimination over real inequalities.", "anchors": ["src/cut.cpp: x_bound, y_bound, z_bound, ph_t_sq_bound, valid"]}
{"id": "C25", "title": "Points inside the nested limits are physical", "statement": "A phase-space point whose x, y, z, ph_t^2 lie inside the (nested) reported intervals has nonnegative lambda_1, ph_l real and missing mass at least the threshold, i.e. is accepted by valid().", "quantifier": "for all particles, S and nested points", "why_tests_cant": "Requires real quantifier elimination.", "anchors": ["src/cut.cpp: y_bound, ph_t_sq_bound, valid"]}
{"id": "C26", "title": "Generated points satisfy every requested cut", "statement": "When take(cut, ...) returns true, the returned kinematics are valid and every set cut contains its variable; an unset (invalid) cut imposes nothing.", "quantifier": "for all cuts, particles, energies and unit-cube points", "why_tests_cant": "Universal over 18 optional intervals and continuous inputs.", "anchors": ["src/cut.cpp: take, valid"]}
{"id": "C27", "title": "An upper-unbounded Q^2 cut only removes low-Q^2 points", "statement": "Setting the Q^2 cut to [Q0^2, +infinity) keeps every valid point with Q^2>=Q0^2 reachable.", "quantifier": "for all particles, S, Q0^2", "why_tests_cant": "Floating-point special value path that no test exercises.", "anchors": ["src/cut.cpp: x_bound(Cut,...)"]}
{"id": "C28", "title": "Photon limits are exactly the positivity of the missing mass", "statement": "R_bound's upper end is exactly the R at which the shifted missing mass squared equals Mth^2, so R in the interval implies shifted m_x >= Mth; tau_bound is exactly the set where the photon transverse momentum is real.", "quantifier": "for all valid kinematics, tau, phi_k", "why_tests_cant": "Universal over continuous variables.", "anchors": ["src/cut.cpp: tau_bound, R_bound"]}
{"id": "C29", "title": "Particle set construction enforces the threshold ordering", "statement": "Constructing a particle set succeeds exactly when M <= Mth <= M+mh, and otherwise reports an out-of-range threshold; NaN is rejected.", "quantifier": "for all real or NaN thresholds", "why_tests_cant": "Universal over reals/NaN.", "anchors": ["src/particle.cpp: Particles::Particles"]}
{"id": "C30", "title": "Interpolation never reads outside the grid", "statement": "For every query point the cell index used by linear and cubic interpolation satisfies idx+1 <= count-1 (and idx-1, idx+2 are only read when in range), including binary64 rounding of (count-1)*(x/width).", "quantifier": "for all grids with count in [2, 2^53] and all double query points", "why_tests_cant": "An off-by-one from rounding up to count-1 occurs, if at all, at isolated doubles.", "anchors": ["include/sidis/extra/interpolate.ipp: LinearView::operator(), CubicView::operator()"]}
{"id": "C31", "title": "Linear interpolation is exact at nodes, bounded by neighbours, and exact on affine data", "statement": "The linear view returns the stored value at nodes, a value between the surrounding values elsewhere, reproduces (multi-)affine data exactly, and is NaN outside [lower, upper).", "quantifier": "for all N-dimensional grids and all points", "why_tests_cant": "Universal over grid contents and dimension.", "anchors": ["include/sidis/extra/interpolate.ipp: LinearView", "include/sidis/extra/interpolate.hpp: linear"]}
{"id": "C32", "title": "Cubic interpolation is exact at nodes and reproduces smooth data", "statement": "The cubic view returns stored values at nodes, reproduces affine data exactly, and has matching derivatives across cell boundaries.", "quantifier": "for all grids and points", "why_tests_cant": "Universal over grid contents.", "anchors": ["include/sidis/extra/interpolate.ipp: CubicView", "include/sidis/extra/interpolate.hpp: cubic"]}
{"id": "C33", "title": "Grid row-major indexing is a bijection inside the data", "statement": "Nested indexing of an N-dimensional grid reads element sum(idx_i*stride_i), different multi-indices read different elements and every index is inside the data; constructors reject non-finite or reversed bounds and dimensions with fewer than two planes.", "quantifier": "for all dimensions, counts and multi-indices in range", "why_tests_cant": "Universal over dimension.", "anchors": ["include/sidis/extra/interpolate.ipp: GridView::operator[], GridView::GridView, Grid::Grid"]}
{"id": "C34", "title": "read_grids recovers the tabulated function for any axis order", "statement": "If the rows enumerate a full uniform grid with some order of the axes, read_grids returns grids whose value at each multi-index is the tabulated value, with the right counts and bounds.", "quantifier": "for all dimensions, counts >= 2 and axis permutations", "why_tests_cant": "Universal over sizes and permutations.", "anchors": ["include/sidis/extra/interpolate.ipp: read_grids"]}
{"id": "C35", "title": "read_grids never reads past the input", "statement": "On every input, read_grids either throws one of its documented errors or returns grids; it never accesses an out-of-range row.", "quantifier": "for all inputs", "why_tests_cant": "Out-of-bounds read is undefined behaviour, typically invisible to tests.", "anchors": ["include/sidis/extra/interpolate.ipp: read_grids"]}
{"id": "C36", "title": "Polarization dispatch computes the same cross-section as the full formula", "statement": "born/amm/nrad_ir/rad/rad_f, which skip hadronic and leptonic parts when beam or target polarization components vanish, give the same value as the full expression uu + eta.up + lambda_e (lu + eta.lp).", "quantifier": "for all kinematics, structure functions and polarizations", "why_tests_cant": "16 dispatch cases times continuous inputs.", "anchors": ["src/cross_section.cpp: born, amm, nrad_ir, rad, rad_f"]}
{"id": "C37", "title": "The subtracted and unsubtracted radiative cross-sections differ by exactly the infrared term", "statement": "rad - rad_f equals the soft-photon factor times the Born hadronic tensor at the unshifted point, divided by R.", "quantifier": "for all events, all photons with R at or above the switching value, all structure functions and polarizations", "why_tests_cant": "Identity between two separately coded formulas over continuous inputs.", "anchors": ["src/cross_section.cpp: rad_*, rad_f_*", "src/hadronic_coeff.cpp"]}
{"id": "C38", "title": "The soft-photon cutoff cancels between virtual and real parts", "statement": "delta_vert_rad_ir(k0) + delta_rad_ir_hard(k0) does not depend on the cutoff k0.", "quantifier": "for all kinematics and all k0>0", "why_tests_cant": "Universal over k0; tests would check a few values with tolerance.", "anchors": ["src/cross_section.cpp: delta_vert_rad_ir, delta_rad_ir_hard"]}
{"id": "C39", "title": "Radiative leptonic coefficients factorize into soft factor times Born coefficients", "statement": "The most infrared-singular radiative leptonic coefficient theta_0i1 equals 4 F_IR times the Born coefficient theta_i.", "quantifier": "for all radiative kinematics and every structure index", "why_tests_cant": "Identity over continuous inputs.", "anchors": ["src/leptonic_coeff.cpp: LepRad*, LepBorn*"]}
{"id": "C40", "title": "Small-R finite differences are exact on low-degree data", "statement": "The numerical 1/R subtraction used near R=0 is exact when the hadronic tensor is quadratic in R, and continuous matching is exact at the switching point.", "quantifier": "for all quadratic dependences and all R", "why_tests_cant": "Universal over polynomials.", "anchors": ["src/hadronic_coeff.cpp: HadRadF (diff_R)"]}
{"id": "C41", "title": "Reflection symmetry in phi_h", "statement": "Changing phi_h to -phi_h leaves the unpolarized Born cross-section unchanged and flips the sign of the single-spin beam and target terms associated with the out-of-plane volume.", "quantifier": "for all kinematics and structure functions", "why_tests_cant": "Universal symmetry.", "anchors": ["src/leptonic_coeff.cpp", "src/kinematics.cpp: vol_phi_h"]}
{"id": "C42", "title": "Structure-function group getters agree with the individual functions", "statement": "Every combined getter (uu, ul, ut, up, lu, ll, lt, lp, ...) returns exactly the individually named structure functions at the same point.", "quantifier": "for all structure-function sets and points", "why_tests_cant": "Universal over implementations (virtual functions).", "anchors": ["src/structure_function.cpp", "include/sidis/structure_function.hpp"]}
{"id": "C43", "title": "Masks select exactly the advertised structure functions", "statement": "A mask word keeps exactly the structure functions whose beam/target polarization letters match it and zeroes the others; several words combine to the intersection regardless of order and repetition; leading and subleading partition the 18 functions.", "quantifier": "for all lists of mask words and all structure-function sets", "why_tests_cant": "Exponentially many lists of words.", "anchors": ["include/sidis/sf_set/mask.hpp", "app/sidisgen/main.cpp: alloc_sf"]}
{"id": "C44", "title": "selectN keeps only structure function N", "statement": "The filter word select<N> with N<18 keeps exactly structure function N and select<N> with N>=18 is rejected.", "quantifier": "for all N", "why_tests_cant": "Never tested; depends on regex dialect semantics.", "anchors": ["app/sidisgen/main.cpp: alloc_sf"]}
{"id": "C45", "title": "A TMD plugin is evaluated with the specialisation of its own class", "statement": "A plugin class deriving from the Gaussian / WW / Gaussian-WW TMD base is evaluated with the matching structure-function set.", "quantifier": "for all plugin classes", "why_tests_cant": "Needs a plugin for each class; order of inheritance tests is a logical property.", "anchors": ["app/sidisgen/main.cpp: alloc_sf", "include/sidis/tmd.hpp"]}
{"id": "C46", "title": "Built-in parameterization is consistent between its TMD and structure-function forms", "statement": "The structure functions coded directly in the built-in parameterization equal those obtained from its TMD set through the Gaussian WW formulas.", "quantifier": "for all hadrons, x, z, Q^2, ph_t^2", "why_tests_cant": "Tests compare at sample points within tolerance.", "anchors": ["src/sf_set/prokudin.cpp: ProkudinSfSet, ProkudinTmdSet", "src/structure_function.cpp: GaussianWwTmdSfSet"]}
{"id": "C47", "title": "Gaussian convolution weights agree with the general weights", "statement": "Every weight used by the numerical convolution is the published one, and the closed form used for Gaussian TMD sets is exactly the integral over the transverse-momentum plane of the weighted product of the two Gaussians, so that a Gaussian set gives the same structure functions through either route.", "quantifier": "for all weights, Gaussian TMD sets, flavors and kinematics", "why_tests_cant": "An improper integral identity over all widths and kinematics; sampling with cubature tolerance hides a wrong coefficient in a small harmonic.", "anchors": ["src/structure_function.cpp"]}
{"id": "C48", "title": "Asymmetry weighting extracts exactly the requested harmonic", "statement": "The transverse-target weighted integral returns zero unless the spin-angle coefficient is +1 or -1, and otherwise the eta weights used are the analytic phi integrals of the requested sine harmonic times the transverse spin components, with and without radiative corrections. Without them and with exact integration every asymmetry is the amplitude of the requested harmonic of the textbook cross-section divided by the flat part: Sivers (f_T F_UTT + f_L F_UTL)/(f_T F_UUT + f_L F_UUL), Collins f_TT F_UT/(f_T F_UUT + f_L F_UUL).", "quantifier": "for all integer harmonics and offsets and all phi_h", "why_tests_cant": "Universal over integers and angles.", "anchors": ["src/asymmetry.cpp: ut_integ, ut_integ_h"]}
{"id": "C49", "title": "Parameter filters form a Boolean algebra of tag conditions", "statement": "A tag condition built with | and & accepts a tag set exactly when the corresponding or/and of its parts does; the reject-all and accept-all conditions are the identities. Nothing is stored twice, and what is stored does not depend on the order of the operands.", "quantifier": "for all filters and tag sets", "why_tests_cant": "Universal over nested filters.", "anchors": ["app/sidisgen/params.hpp: Filter", "app/sidisgen/params.cpp: Filter::operator&, |, check"]}
{"id": "C50", "title": "Strict mode reports every provided but unused parameter", "statement": "Reading a parameter returns the provided value or else the default, or fails if neither exists; the completeness check fails exactly when some provided parameter was never read since it was set.", "quantifier": "for all sequences of set/get/clear operations", "why_tests_cant": "Universal over operation histories.", "anchors": ["app/sidisgen/params.cpp: Params::get, set, check_complete"]}
{"id": "C51", "title": "Parameter files are read faithfully", "statement": "Reading a parameter file ignores comments and blank lines, assigns each recognized key its trimmed value, rejects unknown keys, duplicate keys and trailing garbage, and leaves other parameters untouched. Integers, enumeration words, strings, decimals and seed lists denote what they look like.", "quantifier": "for all files", "why_tests_cant": "Universal over text.", "anchors": ["app/sidisgen/params.cpp: Params::read_stream"]}
{"id": "C52", "title": "Writing then reading parameters is the identity", "statement": "Writing all set parameters and reading the text back restores the same values.", "quantifier": "for all parameter values, for all precisions; doubles that are nearest to a decimal of that many digits", "why_tests_cant": "Universal over values.", "anchors": ["app/sidisgen/params.cpp: Params::write_stream, read_stream", "app/sidisgen/params_format.cpp: TypeSeedGen"]}
{"id": "C53", "title": "A stored distribution is reused only for identical physics", "statement": "Generation accepts a previously initialized distribution only if every parameter that shapes that distribution (beam, cuts, cross-section options, initialization options) for each enabled event type is set to the same value in both runs.", "quantifier": "for all pairs of parameter sets", "why_tests_cant": "Universal over parameter tables.", "anchors": ["app/sidisgen/params_format.cpp: check_can_provide_foam"]}
{"id": "C54", "title": "Merging generator files keeps provenance", "statement": "Merging two compatible runs yields parameters whose number of events is the sum, whose seeds are the union, whose version is the later one, and refuses runs with a common seed.", "quantifier": "for all pairs/triples of parameter sets", "why_tests_cant": "Depends on the interaction of two set operations over the whole parameter table.", "anchors": ["app/sidisgen/params_format.cpp: merge_params", "app/sidisgen/main.cpp: command_merge_soft"]}
{"id": "C55", "title": "Merging refuses runs with different physics", "statement": "Two runs whose beam, target or cut parameters differ are never merged.", "quantifier": "for all pairs of parameter sets", "why_tests_cant": "Universal over parameter tables.", "anchors": ["app/sidisgen/params_format.cpp: merge_params"]}
{"id": "C56", "title": "Runs produced with identical settings can be merged", "statement": "Two runs with identical parameters apart from seed can always be merged.", "quantifier": "for all parameter sets", "why_tests_cant": "Universal over parameter tables.", "anchors": ["app/sidisgen/params_format.cpp: merge_params"]}
{"id": "C57", "title": "Rejection step leaves the expected weight unchanged", "statement": "Averaged over the uniform random number, the weight after the rejection step equals the weight before it.", "quantifier": "for all weights w>=0 and all rejection scales", "why_tests_cant": "Statistical tests only give confidence intervals.", "anchors": ["app/sidisgen/main.cpp: command_generate (rejection)"]}
{"id": "C58", "title": "Combining partial results is associative, commutative and normalisation-additive", "statement": "Merging integrator states gives the same result in any order and grouping, adds counts and normalisations, and gives the normalisation-weighted average estimate.", "quantifier": "for all integrator states", "why_tests_cant": "Universal over reals.", "anchors": ["app/sidisgen/utility.hpp: Integrator::operator+="]}
{"id": "C59", "title": "Reported total cross-section is the sum over event types", "statement": "The total entry of the statistics equals the sum of the per-event-type cross-sections.", "quantifier": "for all per-type integrator states", "why_tests_cant": "Needs a universally quantified identity; a test with balanced samples would pass.", "anchors": ["app/sidisgen/main.cpp: IntegratorArray::total"]}
{"id": "C60", "title": "Event weights are nonnegative and vanish outside the cuts", "statement": "The density evaluated by a generator is nonnegative and finite-by-construction, zero whenever the point fails the cuts or the cross-section is negative or not finite, and otherwise Jacobian times cross-section.", "quantifier": "for all unit-cube points and cross-section values including NaN and infinities", "why_tests_cant": "Universal over points and special values.", "anchors": ["app/sidisgen/generator.cpp: NradDensity::eval, RadDensity::eval"]}
{"id": "C61", "title": "Text tables wrap without losing text", "statement": "Wrapping a description at a column width preserves the sequence of words, and no output line is longer than the width.", "quantifier": "for all strings and positive widths", "why_tests_cant": "Universal over strings.", "anchors": ["app/sidisgen/terminal.cpp: split_lines, write_table"]}
{"id": "C62", "title": "Progress bar fills the terminal exactly", "statement": "The progress bar prints exactly `width` columns, its filled part grows monotonically with the percentage and is full exactly at 100.", "quantifier": "for all widths > 7 and percentages", "why_tests_cant": "Universal over integers.", "anchors": ["app/sidisgen/terminal.cpp: write_progress_bar"]}
{"id": "C63", "title": "Event-type enabling logic", "statement": "The set of event types produced is non-radiative only when radiative corrections are off, and otherwise exactly the enabled ones.", "quantifier": "for all parameter sets", "why_tests_cant": "Finite but combined with strict-mode bookkeeping across the parameter table.", "anchors": ["app/sidisgen/params_format.cpp: p_enabled_event_types"]}
{"id": "C64", "title": "Target efficiency converts to relative variance and back", "statement": "The displayed efficiency of a distribution that exactly reaches the requested relative variance equals the requested target efficiency.", "quantifier": "for all efficiencies in (0,1]", "why_tests_cant": "Universal over reals.", "anchors": ["app/sidisgen/generator.cpp: DistParams", "app/sidisgen/main.cpp"]}
{"id": "C65", "title": "Distribution storage is constructed and destroyed exactly once", "statement": "Under any sequence of build, read, move and destruction of a stored distribution, including failures, the active alternative is destroyed exactly once and never used after destruction.", "quantifier": "for all operation sequences with exceptions at any step", "why_tests_cant": "Lifetime errors are undefined behaviour and depend on rare failure paths.", "anchors": ["app/sidisgen/generator.ipp: Dist"]}
{"id": "C66", "title": "Numerically stable helpers equal their mathematical definition", "statement": "sqrt1p_1m(x)=sqrt(1+x)-1; clamp returns the nearest point of the interval; log_log1m(x)=log|x| log|1-x| on every branch; every dilogarithm branch maps its argument into [-1/2,1/2], and dilog(x), computed exactly apart from stopping the series, differs from the real dilogarithm (the function with Li2(x) = sum x^n/n^2 on (-1,1) and derivative -log|1-x|/x) by at most 2^-(d+1) + 2^-138 for each of the three floating point types (d = 24, 53, 64 mantissa bits).", "quantifier": "for all x in the domain", "why_tests_cant": "Universal over reals.", "anchors": ["src/math.cpp: sqrt1p_1m_impl, log_log1m, dilog_impl", "include/sidis/extra/math.hpp: clamp"]}
{"id": "C67", "title": "The running coupling solves its evolution equation", "statement": "Wherever alpha_qed(Q^2) is used, above the electron mass, it solves the two-loop one-flavour evolution equation with alpha(m_e^2) = 1/137.03599 up to Q^2 = 100 (to 1e-6 in ln Q^2) and the one-loop equation above, is continuous also where the two meet, and the default argument gives the value at rest.", "quantifier": "for all Q^2", "why_tests_cant": "A Runge-Kutta table with cubic interpolation looks right at any few points; its edges and the accumulated error need all Q^2.", "anchors": ["src/phenom.cpp: alpha_qed_grid, alpha_qed", "src/include/sidis/phenom.hpp: alpha_qed default argument"]}
{"id": "C68", "title": "A lower W^2 cut only removes low-W^2 points", "statement": "Setting the W^2 cut keeps every valid point that satisfies it reachable by take(cut, ...).", "quantifier": "for all particles, S, cuts with a W^2 interval", "why_tests_cant": "A wrong sign of a denominator at low energy silently empties the region; no test scans energies and cut ends.", "anchors": ["src/cut.cpp: x_bound(Cut,...), y_bound(Cut,...)"]}
{"id": "C69", "title": "The samplers produce the physical points, all of them and nothing else", "statement": "take() returns only physical points (with angles in [-pi, pi]); every physical point is the image of some unit-cube point; the same with a radiated photon off the degenerate edge.", "quantifier": "for all particles, S, phase-space points, photons", "why_tests_cant": "Surjectivity onto a continuous region cannot be observed by finitely many samples.", "anchors": ["src/cut.cpp: take"]}
{"id": "C70", "title": "Accepted tables are whole grids without repetition", "statement": "If read_grids accepts a table, the table lists each node of the grid exactly once; tables with repeated or missing nodes (ragged ends) are rejected with an error.", "quantifier": "for all tables", "why_tests_cant": "Which malformed tables slip through cannot be enumerated by tests.", "anchors": ["include/sidis/extra/interpolate.ipp: read_grids"]}
{"id": "C71", "title": "WW-type structure functions equal the general ones on a WW-type set", "statement": "For a WW-type TMD set each of the eighteen specialised structure functions equals the one the general set computes from the same distributions; likewise for Gaussian WW sets and the Gaussian set.", "quantifier": "for all WW-type sets, structure functions, hadrons and kinematics", "why_tests_cant": "Universal over user-provided distributions.", "anchors": ["src/structure_function.cpp: TmdSfSet, WwTmdSfSet, GaussianTmdSfSet, GaussianWwTmdSfSet", "src/tmd.cpp"]}
{"id": "C72", "title": "Gaussian sets are normalised and their moments are integrals", "statement": "The reduced distribution of a Gaussian TMD set is the integral over transverse momentum of the full one, and every distribution a Gaussian WW set derives is the integral of the WW-type expression in its base distributions.", "quantifier": "for all Gaussian (WW) TMD sets with positive widths", "why_tests_cant": "Improper integrals over all widths.", "anchors": ["src/tmd.cpp: GaussianTmdSet, GaussianWwTmdSet", "include/sidis/tmd.hpp"]}
{"id": "C73", "title": "The next event type is the one most wanted, and none starves", "statement": "From the second event on the loop picks the first of the types with the largest ratio of root-mean-square weight to normalisation (a type without draws counts as infinite); such a type always exists once a nonzero weight was accepted, so the index is never left unassigned, and no enabled type is left without draws while another with finite statistics is picked.", "quantifier": "for all event counts, cross-section estimates and event types", "why_tests_cant": "The choice depends on running floating averages over long runs.", "anchors": ["app/sidisgen/main.cpp: event loop, choice of the event type"]}
{"id": "C74", "title": "The event file reproduces the cross-section it reports", "statement": "The sum of the weights written for an event type divided by the reported normalisation is the reported cross-section, and no event of weight zero is written.", "quantifier": "for all sequences of drawn weights, random numbers and rejection scales", "why_tests_cant": "Holds between the whole file and its summary, not per event.", "anchors": ["app/sidisgen/main.cpp: event loop", "app/sidisgen/utility.hpp: Integrator, IntegratorAccum"]}
{"id": "C75", "title": "The photon energy separates radiative from non-radiative events without gap or overlap", "statement": "Every radiative event generated has a photon of at least the soft threshold, and inside the user's k_0_bar range, in the frame p+q-p_h=0 whatever frame the momenta are given in; when both event types are accepted by the constructors, of the energies asked for those up to the threshold are exactly the ones covered by non-radiative events and the rest exactly the ones radiative events may have.", "quantifier": "for all user cuts, thresholds, unit-cube points and frames", "why_tests_cant": "Double counting at the boundary is a set-level statement over all energies; tests see single events.", "anchors": ["app/sidisgen/generator.cpp: cut_rad_from_params, NradDensity, RadDensity", "src/cut.cpp: take, valid"]}
{"id": "C76", "title": "Angular cuts are in degrees, all other cuts are taken as they are", "statement": "An event passes the cuts built from the parameters if and only if its angles in degrees and its other quantities lie in the intervals the user wrote.", "quantifier": "for all cuts and momenta", "why_tests_cant": "A missing unit conversion on one of eight angles shows only for a cut on that angle.", "anchors": ["app/sidisgen/generator.cpp: cut_from_params, cut_rad_from_params"]}
{"id": "C77", "title": "An angular cut counts each event once", "statement": "Two points sampled under a cut on phi_h that are the same direction have the same phi_h: no event is produced from two different points of the unit cube because the interval exceeds a full turn.", "quantifier": "for all cuts, unit-cube points", "why_tests_cant": "The doubled cross-section looks like an ordinary number.", "anchors": ["src/cut.cpp: take(Cut,...)"]}
{"id": "C78", "title": "The Born cross-section is the textbook sum over azimuthal modulations", "statement": "At every physical point the Born cross-section equals the standard decomposition: eighteen structure functions, each times its harmonic of phi_h and phi_S, its polarization factor and the photon flux that feeds it; with a massless lepton the fluxes and the prefactor are the textbook ones in terms of epsilon.", "quantifier": "for all physical points, structure functions, beam and target polarizations, spin azimuths and lepton masses", "why_tests_cant": "A wrong sign or factor in one of nine hadronic combinations only shows for one polarization state at one harmonic; tests compare a few numbers with a paper.", "anchors": ["src/cross_section.cpp: born, born_base_*", "src/hadronic_coeff.cpp: HadBase*", "src/leptonic_coeff.cpp: LepBornBase*"]}
{"id": "C79", "title": "The non-radiative cross-section combines Born and anomalous-moment parts with the right corrections, independent of the cutoff together with the hard part", "statement": "nrad_ir equals (1 + alpha/pi (delta_vr + delta_vac_lep + delta_vac_had)) born + amm, and nrad_ir plus alpha/pi times the hard soft-photon term times born does not depend on the cutoff; a non-positive cutoff gives no value.", "quantifier": "for all kinematics, structure functions, polarizations and cutoffs", "why_tests_cant": "Cutoff independence is a statement over a continuum of cutoffs.", "anchors": ["src/cross_section.cpp: nrad_ir, delta_vert_rad_ir, delta_rad_ir_hard"]}
{"id": "C80", "title": "The radiative integrals integrate the right cross-section over the right photons", "statement": "The integrand of rad_f_integ at a sampled point is the sampling factor times rad_f at the photon sampled there (not-a-number counting as zero), only for photons at most as hard as the cutoff; that of rad_integ is the factor times rad, only for photons at least as hard as the cutoff.", "quantifier": "for all kinematics, cutoffs, points of the unit cube, structure functions and polarizations", "why_tests_cant": "The hadronic part is precomputed outside of the integrand; an inconsistency appears only in the integral.", "anchors": ["src/cross_section.cpp: rad_f_integ, rad_integ"]}
{"id": "C81", "title": "An asymmetry has a finite error", "statement": "The error of an asymmetry is the relative errors of the two integrals in quadrature times the asymmetry, and it is a number also when the asymmetry is zero.", "quantifier": "for all events, harmonics, structure functions and integrators", "why_tests_cant": "The zero case never appears with random structure functions.", "anchors": ["src/asymmetry.cpp: ut_asym"]}
{"id": "C82", "title": "The hadronic vacuum polarization is a positive, increasing, continuous function of Q^2", "statement": "delta_vac_had is positive and strictly increasing in Q^2 and the three parametrisations join continuously at Q^2 = 1 and 64.", "quantifier": "for all Q^2 >= 0", "why_tests_cant": "The three fits join at isolated points.", "anchors": ["src/phenom.cpp: delta_vac_had"]}
{"id": "C83", "title": "Parameters survive a ROOT file", "statement": "Every parameter value written by Params::write_root and read by read_root comes back unchanged, unset parameters come back unset, and none is marked as used; this covers everything a parameter file can set. Writing succeeds exactly when every set parameter could be stored, and reading exactly when no stored object is malformed for its parameter.", "quantifier": "for all parameter sets of the standard shape, all values without zero bytes in strings", "why_tests_cant": "Thirteen value types with their own encodings; a wrong enumerator number shows only for that particle.", "anchors": ["app/sidisgen/params.cpp: write_root, read_root", "app/sidisgen/params_format.cpp: convert_to_root_base, convert_from_root_base"]}
{"id": "C84", "title": "Statistics survive a ROOT file; incomplete statistics are refused", "statement": "Counts and weight moments written by root_write_integs come back exactly and the normalization within two roundings; a directory lacking any of the six arrays, or with one of another size, is refused; nothing is read out of range.", "quantifier": "for all statistics, all directories", "why_tests_cant": "Only huge event counts lose exactness; missing arrays only appear after interrupted runs.", "anchors": ["app/sidisgen/main.cpp: root_write_integs, root_read_integs"]}
{"id": "C85", "title": "Each command line runs exactly the command it names", "statement": "A command runs if and only if it is spelled with or without two dashes or by its short form, with the right number of arguments; anything else is an argument error that does nothing; no argument is read past its end; every failure has its own non-zero exit status.", "quantifier": "for all argument lists", "why_tests_cant": "The space of argument strings is unbounded; a test tries the documented spellings.", "anchors": ["app/sidisgen/main.cpp: main", "app/sidisgen/exception.hpp"]}
{"id": "C86", "title": "Commands never overwrite a file, success means a finished file, and the output of a failed run is not mistaken for one", "statement": "No command changes an existing file or creates one other than its output; after success the generator file has the parameters and all generators, the event file the parameters, the requested number of events and complete statistics, the merged file names all inputs, each complete; generate refuses what a failed initialize left behind and merge-soft what a failed generate left behind; initialize, generate and merge-soft succeed one after the other when what they check is in order; a failed command can be run again after correcting the parameters.", "quantifier": "for all command lines, file systems, parameter contents and write failures at any object", "why_tests_cant": "Failures in the middle of writing cannot be provoked in tests; the order of checks and file creation matters only in failing runs.", "anchors": ["app/sidisgen/main.cpp: command_initialize, command_generate, command_merge_soft, command_inspect"]}
{"id": "C87", "title": "Every written event is consistent: momenta, variables and structure functions belong together", "statement": "The momenta of a row of the event tree describe a target at rest and a beam of the requested energy along z; they are on shell, q is the momentum lost by the lepton, and x, y, z, ph_t_sq, phi_h, phi (and tau, phi_k, R with a massless photon for radiative events, zeros otherwise) are the invariants of exactly these momenta; the leaves of the branch sf carry the values of the structure functions they are named after, at the Q^2 of the row; the optional branches exist exactly when requested.", "quantifier": "for all physical phase-space points, beam energies, polarizations, weights, structure functions and option combinations", "why_tests_cant": "The columns are filled by separate code from separately computed quantities; a swapped leaf name or component is invisible unless every column is recomputed from the others.", "anchors": ["app/sidisgen/main.cpp: command_generate, convert_vec4", "include/sidis/kinematics.hpp: Initial", "src/kinematics.cpp: Final, FinalRad"]}
{"id": "C88", "title": "Events are sampled with the polarization of the event that is written", "statement": "The cross-section that is sampled is evaluated at the components of setup.target_pol along the hadron axes of the momenta written for the event.", "quantifier": "for all polarizations, physical points, cross-sections", "why_tests_cant": "A unit test fixes one polarization; the usual choices along y or z do not show a rotated frame.", "anchors": ["app/sidisgen/generator.cpp: Density::eval", "src/frame.cpp: target_from_lab, hadron_from_target", "app/sidisgen/main.cpp: command_generate"]}
{"id": "C89", "title": "The Born cross-section is lowest-order quantum electrodynamics", "statement": "born() is the flux factor times the lepton tensor of one-photon exchange (traces of Dirac matrices with the lepton mass, the momenta of the event and the helicity vector of the beam) contracted with the hadronic tensor made of the nine structures weighted by the hadronic coefficients; the nine leptonic coefficients are each the contraction with one structure, real, linear in the beam polarization.", "quantifier": "for all physical events in every Lorentz frame, lepton masses > 0, beam and target polarizations, couplings and structure functions", "why_tests_cant": "A comparison at points needs an independent implementation of the traces, and sign errors in one of nine coefficients can be masked by the structure functions chosen.", "anchors": ["src/leptonic_coeff.cpp: LepBornBaseUU, LepBornBaseUP, LepBornBaseLU, LepBornBaseLP", "src/cross_section.cpp: born, Born"]}
{"id": "C90", "title": "The radiative cross-section is one-photon emission in quantum electrodynamics", "statement": "rad() is flux times 4 pi alpha times the invariant measure of the photon in (tau, phi_k, R) times the lepton tensor of photon emission from the incoming and outgoing line (sum over photon polarizations, no soft-photon or small-mass approximation) contracted with the hadronic tensor at the shifted momentum transfer q - k; each of the leptonic radiative coefficients summed over the powers of R is the contraction with one structure.", "quantifier": "for all physical events and photons with R > 0 in every Lorentz frame, lepton masses > 0, polarizations, couplings and structure functions", "why_tests_cant": "The coefficients are long polynomials with four or more terms per power of R; a wrong term changes values by amounts that look like a correction.", "anchors": ["src/leptonic_coeff.cpp: LepRadBaseUU, LepRadBaseUP, LepRadBaseLU, LepRadBaseLP", "src/cross_section.cpp: rad, Rad"]}
{"id": "C91", "title": "The anomalous-moment term is the one-loop Pauli form factor", "statement": "amm() is flux times F2/(2m) times the interference of the vector vertex with the Pauli vertex i sigma q, contracted with the hadronic tensor, where F2 is the one-loop form factor alpha/(2 pi) times the integral of m^2/(m^2 + Q^2 x (1-x)) over x in [0,1].", "quantifier": "for all physical events in every Lorentz frame, lepton masses > 0, polarizations, couplings and structure functions", "why_tests_cant": "The term is of relative size m^2/Q^2 and is never visible next to the Born term in a test.", "anchors": ["src/leptonic_coeff.cpp: LepAmmBaseUU, LepAmmBaseUP, LepAmmBaseLU, LepAmmBaseLP", "src/cross_section.cpp: amm, Amm"]}
{"id": "C92", "title": "One hadronic tensor for scattering with and without radiation", "statement": "The hadronic side of born(), amm() and rad() is one and the same tensor: a function of the momentum transferred to the hadrons, the target momentum, the hadron momentum and the spin four-vector of the target, with Cartesian components (along axes built from these momenta) given by the eighteen structure functions at the invariants of these momenta. The tensor is conserved (orthogonal to the momentum transfer). After emission of a photon, only the momentum transfer changes: the target spin vector stays the one described by the polarization in the unshifted hadron frame.", "quantifier": "for all physical events with nonzero transverse momentum in every Lorentz frame, photons with R below S y, polarizations and structure functions", "why_tests_cant": "The rotation between the two hadron frames and the nine coefficients differ between the two code paths; an error in one shows only in polarized radiative corrections.", "anchors": ["src/hadronic_coeff.cpp: HadBaseUU, HadBaseUL, HadBaseUT, HadBaseLU, HadBaseLL, HadBaseLT, HadRadBaseUU, HadRadBaseUP, HadRadBaseLU, HadRadBaseLP", "src/frame.cpp: shift_from_hadron, hadron_from_shift", "src/cross_section.cpp: born, amm, rad"]}
{"id": "C93", "title": "The leptonic vacuum polarization is the one-loop integral", "statement": "The leptonic vacuum-polarization factor of nrad_ir() (in units of alpha/pi) is the sum over electron, muon and tau of 4 times the integral over x in [0,1] of x(1-x) ln(1 + x(1-x) Q^2/m^2). It is positive, at most 2/15 of the sum of Q^2/m^2 (the Uehling limit), and grows with Q^2.", "quantifier": "for all Q^2 > 0", "why_tests_cant": "The closed form cancels between terms of size m^2/Q^2 and 1; a wrong coefficient of the mass terms is invisible at the Q^2 of tests.", "anchors": ["src/cross_section.cpp: delta_vac_lep"]}
{"id": "C94", "title": "Vertex correction and soft photons are the one-loop integrals, with the photon mass cancelling", "statement": "For every cutoff k_0_bar > 0 the factor delta_vert_rad_ir (in units of alpha/pi) is the limit, for vanishing photon mass, of the sum of the one-loop Dirac form factor (integral over Feynman parameters, subtracted at zero transfer) and the emission of photons with momentum below the cutoff in the rest frame of the undetected hadrons (integral over directions, momenta and the Feynman parameter that joins the two propagators). delta_rad_ir_hard is the limit of the emission of photons between the cutoff and the largest possible energy. The dilogarithm of the code changes the factor by at most 6 times its own error times (Q^2+2m^2)/sqrt(Q^2(Q^2+4m^2)).", "quantifier": "for all physical events with lepton mass > 0 whose undetected hadrons have a time-like momentum not coplanar with the leptons, all thresholds below its mass, and all cutoffs k_0_bar > 0", "why_tests_cant": "The formula has six dilogarithms and three logarithms squared; the integrals diverge separately, so that no test computes the sum independently.", "anchors": ["src/cross_section.cpp: delta_vert_rad_0, delta_vert_rad_ir, delta_rad_ir_hard"]}
{"id": "C95", "title": "Without phenomenological inputs every loop correction is counted once", "statement": "The overloads of born(), amm(), nrad_ir(), rad() and rad_f() without a Phenom argument are those with the coupling at rest times powers 2, 3 and 3 of a = alpha(Q^2)/alpha(0), where a > 1.0115 at the scales of the generator. The part of nrad_ir() proportional to the lowest order should then be, to one percent, the lowest order with the coupling at rest times 1 + alpha/pi (vertex and soft photons + lepton loops + hadronic polarization), each taken once.", "quantifier": "for all physical events with 1 <= Q^2 <= 100, cutoffs k_0_bar > 0, polarizations and structure functions, and the dilogarithm of the code at every precision or the exact one", "why_tests_cant": "The two forms differ by two percent with the shape of a smooth logarithm, which looks like a normalisation; every regression test fixes the Phenom or compares the function with itself.", "anchors": ["src/cross_section.cpp: born, amm, nrad_ir, rad, rad_f (overloads without Phenom), Nrad", "src/phenom.cpp: Phenom::Phenom, alpha_qed"]}
{"id": "C96", "title": "In double arithmetic interval operations lose no point and lerp stays inside", "statement": "With every operation rounded to double, a point x contained in a Bound stays contained after adding the same finite number to both or scaling both by the same positive number, including overflow and infinite ends; contained sums come only from contained points; lerp(t) equals the ends at t = 0 and 1, is within 4 roundings of the exact value, never decreases across zero, and for every t in [0,1) lies in the Bound.", "quantifier": "for all doubles s, x, t and all Bounds of doubles", "why_tests_cant": "The excursions are one unit in the last place and need particular bit patterns of the ends or parameters of order 1e-16; equality tests with tolerances cannot see them.", "anchors": ["include/sidis/bound.hpp: Bound::lerp, Bound::contains", "src/bound.cpp: Bound::operator+=, -=, *=, /=", "include/sidis/extra/map.hpp: Map::eval", "include/sidis/extra/interpolate.ipp: linear"]}
{"id": "C97", "title": "Grid data files are found in order, and the rows loaded are exactly the numbers written", "statement": "A grid file is taken from the first of the five places where one exists, and reported missing exactly when none does. Its rows are loaded exactly when every line begins with as many decimal numbers in the range of double as there are columns, and each entry is the double nearest to the number written; a file running through a grid in any nesting of the axes is loaded as that grid. A file with other than that many columns, or with a line that cannot be read, is reported as a parse error, and never uses a number that was not written.", "quantifier": "for all file systems, data directories, names, texts, numbers of columns and grids", "why_tests_cant": "The texts are unbounded and the faults (a blank last line, an extra column, a number out of range in the middle of a line) are absent from the data files shipped; reading an unwritten number usually goes unnoticed.", "anchors": ["src/sf_set/prokudin.cpp: find_file, load_grids", "include/sidis/extra/interpolate.ipp: read_grids"]}
{"id": "C98", "title": "In double arithmetic the dilogarithm and sqrt1p_1m stay accurate for every argument", "statement": "With every operation rounded to double and a C library whose log, log1p and expm1 are within 2^-52 of the exact values: for every finite double x, dilog(x) is within 100*2^-53*(1 + ln(1+|x|)^2) of the dilogarithm, and for -1/2 < x <= 1/2 within 80*2^-53*|x| down to the smallest doubles; dilog(0) and dilog(1) are the doubles nearest to 0 and pi^2/6; between 16 and 49 terms of the series are summed; for every x > -1, sqrt1p_1m(x) is within (6 + 4*max(0, ln(1+x)/2))*2^-53 of sqrt(1+x)-1 relative to it, plus the least positive double.", "quantifier": "for all finite doubles x and all library functions with that accuracy", "why_tests_cant": "Six branches with cancellation at 1, overflow-sized and subnormal arguments; a reference of higher precision and a scan over all doubles would be needed to bound the error.", "anchors": ["src/math.cpp: dilog_impl, log_log1m, sqrt1p_1m_impl", "include/sidis/extra/math.hpp: dilog, sqrt1p_1m"]}
{"id": "C99", "title": "In double arithmetic the hadron's kinematic variables stay accurate, and ph_l is a number for every allowed event", "statement": "With every operation rounded to double and a C library accurate to 2^-52: for beam, masses, x, y, z and ph_t of moderate size away from the edge of the allowed region, the V_m of Kinematics is within 45*2^-53 of its exact value relative to its natural scale (not to the two large products that cancel in it), t, W_sq and mx_sq are within about 100 roundings of the scales of their terms, and ph_l is within 34*2^-53 relative; the rearranged V_m is right where the plain difference of products gives zero. For every allowed event (ph_t_sq + mh^2 < ph_0^2) ph_l is a number.", "quantifier": "for all doubles S, M, mh, x, y, z between 2^-50 and 2^50, ph_t_sq zero or between 2^-100 and 2^100, and all library functions with that accuracy", "why_tests_cant": "The cancellation grows with energy and needs a reference of higher precision; the events whose ph_l is NaN lie within a few units in the last place of the edge.", "anchors": ["src/kinematics.cpp: Kinematics::Kinematics (lines 44-98)", "src/math.cpp: sqrt1p_1m_impl"]}
{"id": "C100", "title": "The constants, particle masses, charges and names are right to the last digit", "statement": "Every digit written in constant.hpp of PI, E and SQRT_2 is right, the last being correctly rounded; with a long double of any format at least eleven bits wider than double (or the same as double) the value of each constant, rounded twice on the way, is the double nearest to the number it stands for. The mass of every lepton, nucleus and hadron agrees with the measured mass within the measurement's uncertainty, and is the double nearest to the decimal that the other properties use. Antiparticles have equal masses and opposite charges, the deuteron is lighter than its parts, the neutron heavier than proton plus electron, the phi heavier than two kaons. Different nuclei and hadrons have different names, and leptons differ in name except that both kinds of electron share one.", "quantifier": "for all constants, all particles of the three enumerations, and all formats of long double with at least 64 (or exactly 53) bits of precision", "why_tests_cant": "Constants are normally tested against themselves; a wrong digit past the fifteenth changes one bit only, and double rounding depends on the platform's long double.", "anchors": ["include/sidis/constant.hpp", "include/sidis/particle.hpp: mass, charge, name"]}
{"id": "C101", "title": "In double arithmetic sampling draws the intended values, and reaches every range of ph_t_sq with physical events", "statement": "With every operation rounded to double and a C library accurate to 2^-52: for every unit coordinate p the sampled x and y are within 8*2^-53 (relative to x + 1e-3, and to y) of the values drawn without rounding, z is within 4*2^-53 with the width of its range as Jacobian, and ph_t_sq = t, drawn from a range inside 0..8 GeV^2 at least 1/50 wide, is within 2^-53*(2 exp(4t) + 4t). The Jacobians are the derivatives of these with respect to p, within 20*2^-53*x'^2/a' for x and y (x' and a' being the value and the lower end plus the offset) and within 2^-53*exp(4t)*(2 + 11 J) for ph_t_sq. No finite ph_t_sq above 9.2 GeV^2 is ever drawn; above 9.5 GeV^2 a correctly rounded library gives infinity with a NaN weight for every p. Every range of ph_t_sq containing physical events is reached by some p.", "quantifier": "for all doubles p in [0,1) that are zero or at least 2^-100, all ranges of the stated kind and all library functions with that accuracy", "why_tests_cant": "At the usual beam energies ph_t_sq stays below the ceiling, and a range above it merely yields an integral of zero or NaN; the bound holds for all 2^53 coordinates at once.", "anchors": ["include/sidis/extra/map.hpp: map::Decay, map::Inverse, map::Linear, apply_map", "include/sidis/bound.hpp: lerp, size", "src/cut.cpp: take, PH_T_SQ_DECAY_WIDTH (lines 29, 395-402, 431-438)"]}
{"id": "C102", "title": "In double arithmetic the photon variable R is drawn within its limits and as intended", "statement": "For an offset r > 0 and limits 0 <= a < b (with a + r at most (1 - 2^-40)(b + r), and logarithms of a + r and b + r of size at most L <= 100), with every operation rounded to double and log and exp accurate to 2^-52: the R drawn for a unit coordinate p is within 2^-53*(5 + 6L)*(R + r) of (a+r)^(1-p)*(b+r)^p - r, and the Jacobian is within 2^-53*(R + r)*(3 + 7L + (5 + 6L)*ln((b+r)/(a+r))) of the derivative of that. R is never below a. The value returned is zero or at least 2^-54*r in size. Without an offset (a missing mass at its threshold) the value is 0 and the Jacobian NaN.", "quantifier": "for all doubles p in [0,1) that are zero or at least 2^-100, all offsets and limits of the stated kind and all library functions with that accuracy", "why_tests_cant": "R below zero needs a coordinate next to 0 and an offset for which exp(log(r)) rounds below r; random tests meet this with probability 2^-53 per event and the weight stays finite.", "anchors": ["include/sidis/extra/map.hpp: map::Log, apply_map", "src/cut.cpp: take (lines 521-523, 570-572)"]}
{"id": "C103", "title": "The integration wrapper returns the chosen routine's result, repeatably, and releases its memory on every path", "statement": "integrate() with any of the four methods returns an error bar that covers the integral whenever the underlying routine's does for num_evals evaluations, whatever the burn-in; the one-dimensional form integrates the function given. Every call uses a new generator in its default state, so a repeated call gives the same outcome. The burn-in matters to VEGAS only. std::bad_alloc is thrown exactly when the generator or the workspace cannot be allocated. On every path (value, exception of the integrand, failed allocation) the generator and the workspace are released once. A method outside the enumeration gives 0 with error 0.", "quantifier": "for all integrands, limits, parameters, integration routines and memory states", "why_tests_cant": "Tests cannot make the n-th allocation fail or observe a leak on an exception path, and agreement between methods is only statistical.", "anchors": ["include/sidis/extra/integrate.hpp: integrate", "include/sidis/integ_params.hpp: IntegMethod, IntegParams"]}
{"id": "C104", "title": "Messages and printed statistics say what they are about, to the printed digits", "statement": "The message of an exception is made of the values it is about: a number appears with six decimals and differs from the value by at most half of 10^-6; a nucleus, hadron, flavour index or file name can be recovered from the message. Statistics are printed with three decimals in scientific notation (relative error at most 5e-4), percentages with one decimal and between 0.0 and 100.0. Each part of the output of a run looks the same whatever was printed before it on the same stream. Refuted in part: a mass threshold refused for being below the limit can be reported with exactly the digits of the limit; an electron and a massless electron have the same name; printing statistics leaves the precision of the stream at 1.", "quantifier": "all finite values, all sets of particles, all sequences of outputs, all states of the stream", "why_tests_cant": "a test compares a few texts; the statements are about every number, every refused threshold and every order of outputs", "anchors": ["src/exception.cpp:3-57", "include/sidis/particle.hpp:157-208", "src/particle.cpp:8-23", "app/sidisgen/main.cpp:185-207", "app/sidisgen/main.cpp:454-460", "app/sidisgen/main.cpp:599-602"]}
{"id": "C105", "title": "Tensors are transformed consistently with vectors, and keep their invariants under Lorentz transforms", "statement": "Transform3::transform and Transform4::transform of a tensor give, for an outer product, the outer product of the transformed vectors; transforming by a product is transforming twice; trace, determinant, products and the action on vectors are respected by every Lorentz transform. Transform4::bivec gives exactly the antisymmetric tensors; Lorentz transforms take bivectors to bivectors and keep v^2 - bv^2 and (up to the determinant) v.bv; boosts and rotations are given by their generating bivectors. Refuted in part: transforming a spatial tensor with a four-dimensional transform is not linear, because the tensor is given a time component of one.", "quantifier": "all transforms, tensors, vectors, directions and rapidities", "why_tests_cant": "the laws hold for a continuum of transforms and tensors; a test evaluates a few with a tolerance", "anchors": ["src/transform.cpp:50-52", "src/transform.cpp:77-91", "src/transform.cpp:151-158", "src/transform.cpp:203-213", "include/sidis/transform.hpp:144-151"]}
{"id": "C106", "title": "Linear interpolation in double arithmetic finds the right place and value within a few roundings", "statement": "For finite grid bounds and query points (at most 2^1022) LinearView/CubicView put a point in a cell only if it lies between the bounds, with a place in [0, 1), and cell and place together differ from the exact position by at most 5 (count - 1) 2^-53 cells. Points outside get NaN, points inside get a cell unless they are within three roundings of the upper bound. The value of a one-dimensional linear view differs from the broken line through the data by at most 4 roundings of the largest value plus 5 (count - 1) roundings of the largest step. With a power of two of cells and exact differences the stored value is returned at nodes. Refuted in part: a point strictly inside, very near the upper bound, can get NaN; at a representable node of a grid with 49 cells the value of the neighbouring node leaks into the answer (129 instead of 1); finite bounds whose difference overflows are accepted and every point is put at the first node.", "quantifier": "all doubles x, lower, upper of magnitude at most 2^1022, all counts from 2 to 2^53 + 1, all finite data", "why_tests_cant": "the rounding of the position depends on every bit of bounds, point and count; tests with round numbers hit the exact cases", "anchors": ["include/sidis/extra/interpolate.ipp:88-108", "include/sidis/extra/interpolate.ipp:110-121", "include/sidis/extra/interpolate.ipp:69-87", "include/sidis/extra/interpolate.hpp:22-25"]}
{"id": "C107", "title": "Cubic interpolation in double arithmetic stays within a stated number of roundings of the exact spline", "statement": "CubicView on a grid with N axes of n_k cells, finite values of magnitude at most M (M between 2^-900 and about 2^1000, about 2^36 cells at most) and a point clearly inside returns a finite double that differs from the exact piecewise cubic with central-difference slopes, and zeros beyond the edges, by at most (5/4)^N (sum of 50 + 16 n_k) 2^-53 M. The interpolating expression alone contributes at most 62 roundings of the largest of its four values. In exact arithmetic the same code is that spline, and it never exceeds (5/4)^N M. Refuted in part: stored values are not returned at nodes in general (more than 65 instead of 1 on a grid with 49 cells and a large neighbour).", "quantifier": "all numbers of axes, counts, bounds, finite data and points clearly inside", "why_tests_cant": "the bound is about every table and every point; rounding in one axis is amplified by the others, and tests on smooth tables see only part of it", "anchors": ["include/sidis/extra/interpolate.ipp:110-133", "include/sidis/extra/interpolate.hpp:27-36", "src/phenom.cpp:24-62"]}
{"id": "C108", "title": "The running coupling computed in double arithmetic stays close to the exact one", "statement": "With constants within a few units of 2^-53 of pi, the electron mass and 1/137.03599 and a logarithm accurate to 4 units of 2^-53 of 1 + |ln x|, the loop that fills the coupling table ends after at most 2117 rounds. Entry k is finite and within (3 + 1.1 k) 2^-53 / 127 of the k-th exact Runge-Kutta value; one step costs at most 1.02 roundings of 1/127. The bounds of the table are within 100 and 100 + 25 n units of 2^-53 of 2 ln m_e and of 2 ln m_e + n/100, and the upper one lies between ln 100 + 0.07 and ln 100 + 0.08 up to 10^-9. For every double Q^2 from m_e^2 (1 + 2^-40) up to 100, alpha_qed returns a finite double within 2^-35 of what the same code gives with exact numbers (which C67 relates to the two-loop equation from one table spacing above the electron mass on). For every finite double from 100 on, where the one-loop expression takes over, the answer is finite and within 2^-31. For positive doubles up to m_e^2 (1 - 2^-40), and for the default argument 0 when log(0) is minus infinity, it is not a number. As with exact numbers (C67), there is a double between m_e^2 and m_e^2 exp(1/200) for which the answer is more than four percent above alpha_0. The doubles in the headers meet the hypotheses.", "quantifier": "all finite doubles Q^2 >= m_e^2 (1 + 2^-40) and all nonnegative ones up to m_e^2 (1 - 2^-40), all doubles for the three constants within the stated tolerances, all logarithm functions within the stated accuracy", "why_tests_cant": "the table accumulates up to 2117 Runge-Kutta steps and additions of 0.01, and the number of steps itself depends on a rounded comparison; tests see one library's logarithm at some points", "anchors": ["src/phenom.cpp:13-68", "include/sidis/phenom.hpp:22", "include/sidis/constant.hpp:14-25"]}
{"id": "C109", "title": "The hadronic vacuum polarization survives its mixed-precision arithmetic", "statement": "For every Q^2 >= 0 the value of delta_vac_had, computed with long double literals, a long double logarithm accurate to 4 units of 2^-53 of 1 + |ln x| and roundings to long double and double as written, differs from the fit evaluated exactly by at most 23 * 2^-53 * (delta + 3), for every long double format (double itself, x87 extended, quadruple). It is positive everywhere, also at Q^2 = 0, and never decreases with Q^2 if the logarithm never decreases. Refuted: continuity at the joints Q^2 = 1 and 64; rounding does not close the gaps, every value below a joint is more than 0.29% (0.59%) below the value at the joint.", "quantifier": "all Q^2 >= 0, all long double formats with at least 64 bits or equal to double, all logarithms of the stated accuracy", "why_tests_cant": "tests run on one platform with one long double and one logarithm, and compare with numbers rounded the same way", "anchors": ["src/phenom.cpp:70-81"]}
{"id": "C110", "title": "The leptonic vacuum polarization survives its cancellations in double arithmetic", "statement": "For 1 <= Q^2 <= 10000 GeV^2 the value of delta_vac_lep, computed with the roundings to double and long double as written, with the doubles for the lepton masses in the headers and a C library whose log, log1p and expm1 are within 2^-52 (relative), differs from the exact sum over electron, muon and tau by at most 2^-37, for every long double format (double itself, x87 extended, quadruple). The computed value exceeds 8, so it never has the wrong sign.", "quantifier": "all real Q^2 from 1 to 10000, all long double formats with at least 64 bits or equal to double, all libraries of the stated accuracy", "why_tests_cant": "the expression subtracts terms that grow as m^2/Q^2 and divides by sqrt1p_1m of a number as small as 10^-10; tests compare at a few points with one library and one long double", "anchors": ["src/cross_section.cpp:515-531", "src/math.cpp:11-14", "include/sidis/constant.hpp:25-27"]}
