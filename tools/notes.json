{
 "C01": {
  "note": "power and powers over the reals; powers needs a table of at least two cells (C01_powers_small_refuted)."
 },
 "C02": {
  "note": "for every strict weak order, with the real and binary64 instances."
 },
 "C06": {
  "note": "elementwise for every order; 'poly' in bounds for every number type and >=2 points; with one point a query below it reads out of bounds (C06_single_point_refuted)."
 },
 "C07": {
  "note": "the property is false of the code: counterexample on doubles, whatever libm."
 },
 "C08": {
  "note": "the property is false of the code for every table."
 },
 "C11": {
  "note": "the property is false of the code: counterexample table with a fixed gap."
 },
 "C14": {
  "note": "the property is false of the code: counterexample on doubles."
 },
 "C15": {
  "note": "Newton termination is a hypothesis (fuel)."
 },
 "C16": {
  "note": "reals. Also bounds the distance to the exact root; C93 has the sharper bounds and shows that all roots occur."
 },
 "C17": {
  "note": "exact roots; existence of the n roots proved for every n."
 },
 "C18": {
  "note": "reals, every number of nodes."
 },
 "C20": {
  "note": "for every arithmetic, every state and arguments; the effect on one setting is C19."
 },
 "C21": {
  "note": "refuted; C21_effect gives exactly what clear() resets."
 },
 "C22": {
  "note": "refuted for every state and argument."
 },
 "C23": {
  "note": "process model (Process.v): Python objects with reference counting, numpy buffers, the pointers of the library; statements of the API in any order. Every statement but set_precision, set_running_uvcutoff and clear keeps the settings, except that a run of the 2-loop terms fixes two ranges which were automatic (C23_range_refuted); results of a run depend on settings, spectrum and wavenumbers only (C23_values)."
 },
 "C26": {
  "note": "exact arithmetic; that the Newton iteration returns the nodes in ascending order is a hypothesis of C26_tables."
 },
 "C27": {
  "note": "exact arithmetic; the 1-loop gamma2 term needs the exchange symmetry of the 1-loop kernel (C56); for A the weights are exchanged, for B the components."
 },
 "C28": {
  "note": "exact arithmetic."
 },
 "C33": {
  "note": "for the six run_terms functions, any number of threads, any distribution of the wavenumbers and any interleaving of single memory accesses: termination, no fault, no race, and the same arrays. In run_terms_B threads do race on two static variables (C33_race_B_refuted), all writing the same value. Memory is sequentially consistent, so the effect of that race is not what the C standard guarantees."
 },
 "C34": {
  "note": "for every arithmetic, per file: any history of successful calls (any spectrum, flags and wavenumbers) followed by a call gives the outcome the call has on the initial tables. The 2-loop A term also for the table of gamma1_1loop.c it shares."
 },
 "C35": {
  "note": "Exchange: exact arithmetic. Shortcut: every Num. The copy of gamma1a_1loop made by run_terms_spectrum_1loop itself is covered by C33_run_terms."
 },
 "C36": {
  "note": "the threadprivate tables of the six run_terms functions; a fault of the model is a use or free of a table which is not allocated, or an allocation over an allocated table. C36_no_leak: no buffer which the library allocates for the spectra of B survives a statement, in any program."
 },
 "C37": {
  "note": "process model (Process.v): Python objects with reference counting, numpy buffers, the pointers of the library; statements of the API in any order. Exact effect for all four pairs of flags; ('delta','delta') sets the delta-theta spectrum; giving only one of the two has no effect on a run."
 },
 "C38": {
  "note": "process model (Process.v): Python objects with reference counting, numpy buffers, the pointers of the library; statements of the API in any order. The first run_terms_B computes both spectra itself; every second one uses freed memory."
 },
 "C39": {
  "note": "false of the code: an exact description of when more than 100 percent is reported, and a bound."
 },
 "C40": {
  "note": "process model (Process.v): Python objects with reference counting, numpy buffers, the pointers of the library; statements of the API in any order. Names, order, sizes and the pointers themselves, for every class with terms."
 },
 "C41": {
  "note": "process model (Process.v): Python objects with reference counting, numpy buffers, the pointers of the library; statements of the API in any order. What leaves an object alone (C41_left_alone) and three ways in which another object interferes."
 },
 "C42": {
  "note": "process model (Process.v): Python objects with reference counting, numpy buffers, the pointers of the library; statements of the API in any order. For each of the seven classes with terms, both orders of set_pk_lin and set_terms, any statements in between which leave the object alone; the values are those of C33."
 },
 "C43": {
  "note": "exact arithmetic; every accessor of every class, the 1- and 2-loop spectra and the damped bias terms, with the default displacement variance."
 },
 "C44": {
  "note": "the property is false of the code: C44_excess gives the factor for every object, C44_refuted a counterexample."
 },
 "C45": {
  "note": "exact arithmetic; both assemblies are the published formula."
 },
 "C46": {
  "note": "exact arithmetic."
 },
 "C47": {
  "note": "sigma3sq is the exception (declared order 2, true order 1); the 2-loop A term is not homogeneous and is excluded. For gamma3, Suave is assumed homogeneous."
 },
 "C48": {
  "note": "false of the code: proved when at least one wavenumber is appended to an object with 1-D columns; otherwise the exact effect is proved (C48_nothing_appended, C48_two_dimensional). PyRegPT.pad_k's recomputation of sigmad2 is in the process model."
 },
 "C49": {
  "note": "every arithmetic; NaN-freedom and idempotence for binary64."
 },
 "C50": {
  "note": "process model (Process.v): Python objects with reference counting, numpy buffers, the pointers of the library; statements of the API in any order. copy shares the table for ever; deepcopy is separated from everything and stays so under every program; it raises without spectrum_lin."
 },
 "C51": {
  "note": "exact arithmetic for the combination; the layout for every size."
 },
 "C52": {
  "note": "false of the code for B (C52_B_zero, C52_refuted); true for A (C52_A)."
 },
 "C53": {
  "note": "exact arithmetic."
 },
 "C54": {
  "note": "exact arithmetic; 0.045 <= omega_m <= 1, omega_b <= omega_m/3 for the range."
 },
 "C55": {
  "note": "false of the code for every argument."
 },
 "C56": {
  "note": "exact arithmetic; homogeneity of the dispatcher on triangles; exchange symmetry per branch, while the choice of branch is not symmetric (C56_branch_exchange_refuted)."
 },
 "C57": {
  "note": "exact arithmetic. Reflection and relabelling hold at every point. The exchange A <-> A~ holds when p and k' are on the same side of the switching thresholds and fails otherwise (C57_exchange_refuted)."
 },
 "C58": {
  "note": "refuted: the eight outputs of the first part are written after the zeroing. The second part does return zeros (C58_second_part)."
 },
 "C59": {
  "note": "exact arithmetic; the value of the integrand at every sample point, the half region, and the folding identity on mirror pairs. Suave itself is not modelled."
 },
 "C60": {
  "note": "process model (Process.v): Python objects with reference counting, numpy buffers, the pointers of the library; statements of the API in any order. For every string and every statement."
 },
 "C62": {
  "note": "exact arithmetic, away from the cut-offs (smooth3)."
 },
 "C63": {
  "note": "exact arithmetic; tolerances in SpecIntegrals.series_tolerance."
 },
 "C64": {
  "note": "for every arithmetic; polynomial interpolation, tables of at least two points, quadrature tables of any size including 0. The Suave integrands at every point; Suave itself is not modelled."
 },
 "C65": {
  "note": "gamma3 (only its kernel) and the 2-loop A term are excluded; the refuted theorems show why."
 },
 "C66": {
  "note": "exact arithmetic; the tables and lookups as made by the initialisation (C26_tables, C26_mu_table, C26_lookup)."
 },
 "C67": {
  "note": "proved for the named cutoffs; refuted for 'all'."
 },
 "C68": {
  "note": "false of the code: counterexample; C68_raises shows that an undeclared column always makes it raise."
 },
 "C69": {
  "note": "exact arithmetic; numpy.trapz modelled as written in its documentation."
 },
 "C70": {
  "note": "process model (Process.v): Python objects with reference counting, numpy buffers, the pointers of the library; statements of the API in any order. pointer_free lists the statements which do not follow a pointer of the library."
 },
 "C71": {
  "note": "process model (Process.v): Python objects with reference counting, numpy buffers, the pointers of the library; statements of the API in any order. for the classes other than B, whose run first recomputes its spectra."
 },
 "C72": {
  "note": "process model (Process.v): Python objects with reference counting, numpy buffers, the pointers of the library; statements of the API in any order. the property is false of the code for strided views; C72_plain gives the case in which it holds."
 },
 "C73": {
  "note": "process model (Process.v): Python objects with reference counting, numpy buffers, the pointers of the library; statements of the API in any order. the property is false of the code in every state."
 },
 "C74": {
  "note": "process model (Process.v): Python objects with reference counting, numpy buffers, the pointers of the library; statements of the API in any order. the property is false of the code in every state with verbosity 'info'; C42_prepare covers the others."
 },
 "C75": {
  "note": "process model (Process.v): Python objects with reference counting, numpy buffers, the pointers of the library; statements of the API in any order. the property is false of the code after every such program."
 },
 "C79": {
  "note": "real arithmetic; lookups not negative is a hypothesis, proved for linear interpolation and for two-point tables, refuted for polynomial interpolation; ascending quadrature nodes and the positivity of Suave on positive integrands are hypotheses."
 },
 "C80": {
  "note": "real arithmetic; hypotheses as for C79; for the 2-loop spectra the inequality is assumed of the values Suave returns for the gamma3 terms."
 },
 "C81": {
  "note": "partial arithmetic ONum (SpecDefined.v): an operation outside its domain has no value. Exact arithmetic, no rounding or overflow. Refuted for collinear wavenumbers."
 },
 "C82": {
  "note": "partial arithmetic ONum. Refuted for two-point tables outside their range and for k = 0."
 },
 "C83": {
  "note": "partial arithmetic ONum; the integrator Suave is assumed to evaluate the integrand in the unit cube only; that no Newton step of the quadrature nodes divides by zero is C93."
 },
 "C76": {
  "note": "QNum: every operation rounded, no overflow; FNum: primitive IEEE doubles, overflow included. 'lin' at the last wavenumber is C08. NaN on overflow of a slope: refuted."
 },
 "C77": {
  "note": "QNum (no overflow). The lookup needs pow >= 0 on non-negative arguments, an assumption on libm. Upper bound and monotonicity in the cutoff refuted with doubles."
 },
 "C78": {
  "note": "QNum with a relative error bound, which 53-bit arithmetic without underflow satisfies (C78_precision)."
 },
 "C84": {
  "note": "real arithmetic; the angular weights are pinned by C66_A_weights and the bispectra by C56, C59; in the first part the propagator and the vertex are any functions their tables stand for."
 },
 "C85": {
  "note": "real arithmetic, tables of at least two points, a range of positive wavenumbers (regular_run), polynomial interpolation where the linear one has the out-of-range fault of C08; Suave is a parameter. Independence of the number of threads is C34 and is inside [computes]."
 },
 "C86": {
  "note": "real arithmetic; hypotheses of C85; beta is the function of the code, pinned by C31 and C32; the constants 2, 3/5 of the remainder are not optimal."
 },
 "C87": {
  "note": "real arithmetic; hypotheses of C85. sigma^2 is the integral over the nodes of the propagator, not the running variance of the sigmad2 column, which uses the table."
 },
 "C88": {
  "note": "the value of the polynomial is in real arithmetic; exceptions, undefined behaviour and independence of the memory hold for every kind of numbers. An array is a one-dimensional view of a buffer."
 },
 "C89": {
  "note": "for every kind of numbers. Columns have the shape Terms.reshape gives them; a single integer as index is not modelled. That o[ix] resets the verbosity and shares memory with o is in the model of processes (Process.v)."
 },
 "C90": {
  "note": "for every kind of numbers; a pop which raises is caught by the program."
 },
 "C91": {
  "note": "real arithmetic. A sigmad2 given by the caller is an array of one value per wavenumber; a single number is broadcast by numpy to such an array."
 },
 "C92": {
  "note": "real arithmetic. Something must be appended: see C48 for the other case. The modes of numpy.pad other than 'constant' are not modelled."
 },
 "C93": {
  "note": "real arithmetic: in doubles the last Newton steps may be dominated by rounding. The fuel of the model counts the tests of the loop condition, so 7 allows six steps."
 },
 "C94": {
  "note": "real arithmetic. Suave is a parameter assumed to return when its integrand does. With linear interpolation a lookup may read out of bounds (C08)."
 },
 "C95": {
  "note": "real arithmetic. The bound 1/sqrt(2n-1) is the one Bernstein polynomials give for any Lipschitz integrand; the rules are in general better. The one-loop correction and the bias terms: C96."
 },
 "C96": {
  "note": "real arithmetic. The A and B terms: C100, C101; the other columns of the 2-loop terms are pinned as sums over nodes and weights (C85)."
 },
 "C97": {
  "note": "real arithmetic; the error term of polynomial interpolation is proved by repeated use of Rolle's theorem. The linear lookup at the last wavenumber fails (C08)."
 },
 "C98": {
  "note": "real arithmetic. Below the first wavenumber the running variance is zero (C12)."
 },
 "C99": {
  "note": "real arithmetic. The terms computed with Suave, an external integrator, and the A and B terms are not covered (B for its own tables: C100); nor are the two-loop propagator and vertices."
 },
 "C100": {
  "note": "real arithmetic; the dt and tt tables are arbitrary. The integrands are given by their azimuthal averages, which determine them."
 },
 "C101": {
  "note": "real arithmetic. With one node the code returns zero (C101_one_node)."
 },
 "C102": {
  "note": "real arithmetic. Spectrum1Loop only; the bias spectra are C107, the A and B columns C103 and C104; the two-loop spectra are not covered."
 },
 "C103": {
  "note": "real arithmetic. A tables: 1-loop; k inside the range, since P(k) enters."
 },
 "C104": {
  "note": "real arithmetic; k inside the range (A). The half of the q-space with |q| < |k-q| is counted twice in B, as in the code; in A the terms in P(|k-q|) are cut off where |k-q| leaves the range. The columns are those an object holds after run_terms (columns_of, SpecScale.v)."
 },
 "C105": {
  "note": "unbounded exponents: no overflow, no underflow. The columns are taken as given (the rounding of the integrals is not covered); the accuracy of exp and pow is a hypothesis on the C library."
 },
 "C106": {
  "note": "unbounded exponents: no overflow, no underflow. Inside the range of the table (outside it the code extrapolates with log and exp, C09-C11). C106_poly is for any table, with the factor given by the distances of the wavenumber from the points."
 },
 "C107": {
  "note": "real arithmetic. The constants lam, B and C of the bounds exist for every spectrum with a bounded derivative (C99_constants). The damped spectra are for dispersions left at None."
 },
 "C108": {
  "note": "C108_lin_refuted: SpectrumLin has no C_TYPE, which zeros reads. The dtype argument and the conversions of k to an array are not modelled."
 },
 "C109": {
  "note": "unbounded exponents: no overflow, no underflow. The order in which numpy adds is not modelled: C109_order, C109_sigmav_order and C109_sigmar_order hold for all orders, C109_sigmav and C109_sigmar for that of the model. The exact values are those of C98."
 },
 "C110": {
  "note": "over the reals; Euler's number is the decimal literal of numpy. The formula (C110_formula) needs only positive densities."
 },
 "C111": {
  "note": "unbounded exponents: no overflow, no underflow. numpy.interp is modelled as slope times distance plus left value, with its documented behaviour at the last point and outside."
 },
 "C112": {
  "note": "C112_shape holds for doubles with gradual underflow; C112_error for unbounded exponents."
 },
 "C113": {
  "note": "unbounded exponents; C113_undo_refuted on doubles, for a pow which squares and is 1 for the exponent 0."
 },
 "C114": {
  "note": "numpy.pad is modelled by its documented checks: an unknown mode or a keyword of another mode raises ValueError. A function as mode is not modelled."
 },
 "C115": {
  "note": "numpy broadcasting of scipy.integrate.trapz is modelled. The square root of a negative number, 0 here, is NaN in numpy."
 },
 "C116": {
  "note": "Exact arithmetic for the values; the exceptions in every arithmetic. The square root of a negative number, 0 here, is NaN in numpy. Several dispersions for one wavenumber are not modelled."
 },
 "C117": {
  "note": "Exact arithmetic for the values. numpy.interp of a number as table is modelled as ValueError."
 },
 "C118": {
  "note": "Exact arithmetic. The radius 0 in the arithmetic ONum, where an operation outside its domain has no value."
 },
 "C119": {
  "note": "Exact arithmetic. Strengthens C46 from small growth factors and the object's own dispersion to all, with explicit bounds."
 }
}
