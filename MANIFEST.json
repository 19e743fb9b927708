{
 "claims": [
  {
   "property": "C01",
   "status": "proved",
   "theorems": [
    "C01_power",
    "C01_powers",
    "C01_powers_small_refuted"
   ],
   "note": "power and powers over the reals; powers needs a table of at least two cells (C01_powers_small_refuted)."
  },
  {
   "property": "C02",
   "status": "proved",
   "theorems": [
    "C02_lookup",
    "C02_lookup_real",
    "C02_lookup_double",
    "C02_window_only"
   ],
   "note": "for every strict weak order, with the real and binary64 instances."
  },
  {
   "property": "C03",
   "status": "proved",
   "theorems": [
    "C03_interpol_poly",
    "C03_interpol_poly_in_bounds"
   ],
   "note": ""
  },
  {
   "property": "C04",
   "status": "proved",
   "theorems": [
    "C04_interpol_lin"
   ],
   "note": ""
  },
  {
   "property": "C05",
   "status": "proved",
   "theorems": [
    "C05_lookup_on_grid"
   ],
   "note": ""
  },
  {
   "property": "C06",
   "status": "proved",
   "theorems": [
    "C06_lookup_elementwise",
    "C06_lookup_elementwise_real",
    "C06_poly_in_bounds",
    "C06_single_point_refuted"
   ],
   "note": "elementwise for every order; 'poly' in bounds for every number type and >=2 points; with one point a query below it reads out of bounds (C06_single_point_refuted)."
  },
  {
   "property": "C07",
   "status": "proved",
   "theorems": [
    "C07_lookup_any_order_refuted"
   ],
   "note": "the property is false of the code: counterexample on doubles, whatever libm."
  },
  {
   "property": "C08",
   "status": "proved",
   "theorems": [
    "C08_lin_last_point_refuted"
   ],
   "note": "the property is false of the code for every table."
  },
  {
   "property": "C09",
   "status": "proved",
   "theorems": [
    "C09_power_law"
   ],
   "note": ""
  },
  {
   "property": "C10",
   "status": "proved",
   "theorems": [
    "C10_extrapolation_positive",
    "C10_low_zero",
    "C10_high_zero",
    "C10_high_continuous"
   ],
   "note": ""
  },
  {
   "property": "C11",
   "status": "proved",
   "theorems": [
    "C11_low_continuous_refuted"
   ],
   "note": "the property is false of the code: counterexample table with a fixed gap."
  },
  {
   "property": "C12",
   "status": "proved",
   "theorems": [
    "C12_sigmad2_integral",
    "C12_sigmad2_elementwise"
   ],
   "note": ""
  },
  {
   "property": "C13",
   "status": "proved",
   "theorems": [
    "C13_sigmad2_nonneg_mono",
    "C13_sigmad2_saturates"
   ],
   "note": ""
  },
  {
   "property": "C14",
   "status": "proved",
   "theorems": [
    "C14_sigmad2_any_order_refuted"
   ],
   "note": "the property is false of the code: counterexample on doubles."
  },
  {
   "property": "C15",
   "status": "proved",
   "theorems": [
    "C15_in_bounds",
    "C15_mirror",
    "C15_affine"
   ],
   "note": "Newton termination is a hypothesis (fuel)."
  },
  {
   "property": "C16",
   "status": "proved",
   "theorems": [
    "C16_recursion",
    "C16_slope",
    "C16_nodes"
   ],
   "note": "reals. Also bounds the distance to the exact root; C93 has the sharper bounds and shows that all roots occur."
  },
  {
   "property": "C17",
   "status": "proved",
   "theorems": [
    "C17_exactness",
    "C17_roots",
    "C17_newton_fixed"
   ],
   "note": "exact roots; existence of the n roots proved for every n."
  },
  {
   "property": "C18",
   "status": "proved",
   "theorems": [
    "C18_range",
    "C18_init_q",
    "C18_update_q",
    "C18_mu"
   ],
   "note": "reals, every number of nodes."
  },
  {
   "property": "C19",
   "status": "proved",
   "theorems": [
    "C19_set_precision"
   ],
   "note": ""
  },
  {
   "property": "C20",
   "status": "proved",
   "theorems": [
    "C20_groups",
    "C20_single",
    "C20_interpolation",
    "C20_unknown",
    "C20_angles"
   ],
   "note": "for every arithmetic, every state and arguments; the effect on one setting is C19."
  },
  {
   "property": "C21",
   "status": "proved",
   "theorems": [
    "C21_effect",
    "C21_refuted"
   ],
   "note": "refuted; C21_effect gives exactly what clear() resets."
  },
  {
   "property": "C22",
   "status": "proved",
   "theorems": [
    "C22_refuted"
   ],
   "note": "refuted for every state and argument."
  },
  {
   "property": "C23",
   "status": "proved",
   "theorems": [
    "C23_settings",
    "C23_values",
    "C23_range_refuted"
   ],
   "note": "process model (Process.v): Python objects with reference counting, numpy buffers, the pointers of the library; statements of the API in any order. Every statement but set_precision, set_running_uvcutoff and clear keeps the settings, except that a run of the 2-loop terms fixes two ranges which were automatic (C23_range_refuted); results of a run depend on settings, spectrum and wavenumbers only (C23_values)."
  },
  {
   "property": "C24",
   "status": "proved",
   "theorems": [
    "C24_tree",
    "C24_recursion",
    "C24_forms",
    "C24_symmetric",
    "C24_even",
    "C24_scale",
    "C24_rotation",
    "C24_momentum"
   ],
   "note": ""
  },
  {
   "property": "C25",
   "status": "proved",
   "theorems": [
    "C25_recursion",
    "C25_permutation",
    "C25_even",
    "C25_rotation",
    "C25_momentum"
   ],
   "note": ""
  },
  {
   "property": "C26",
   "status": "proved",
   "theorems": [
    "C26_range",
    "C26_tables",
    "C26_mu_table",
    "C26_lookup"
   ],
   "note": "exact arithmetic; that the Newton iteration returns the nodes in ascending order is a hypothesis of C26_tables."
  },
  {
   "property": "C27",
   "status": "proved",
   "theorems": [
    "C27_region",
    "C27_volume",
    "C27_gamma2_tree",
    "C27_gamma2_1loop",
    "C27_bias",
    "C27_bias_whole",
    "C27_A"
   ],
   "note": "exact arithmetic; the 1-loop gamma2 term needs the exchange symmetry of the 1-loop kernel (C56); for A the weights are exchanged, for B the components."
  },
  {
   "property": "C28",
   "status": "proved",
   "theorems": [
    "C28_kernel",
    "C28_integral"
   ],
   "note": "exact arithmetic."
  },
  {
   "property": "C29",
   "status": "proved",
   "theorems": [
    "C29_exact",
    "C29_truncated",
    "C29_converges"
   ],
   "note": ""
  },
  {
   "property": "C30",
   "status": "proved",
   "theorems": [
    "C30_middle",
    "C30_near_one",
    "C30_large"
   ],
   "note": ""
  },
  {
   "property": "C31",
   "status": "proved",
   "theorems": [
    "C31_symmetric",
    "C31_scale",
    "C31_inversion",
    "C31_middle",
    "C31_equal_momenta",
    "C31_hierarchical_delta"
   ],
   "note": ""
  },
  {
   "property": "C32",
   "status": "proved",
   "theorems": [
    "C32_gap_refuted",
    "C32_taylor_refuted",
    "C32_corrected"
   ],
   "note": ""
  },
  {
   "property": "C33",
   "status": "proved",
   "theorems": [
    "C33_run_terms",
    "C33_same_arrays",
    "C33_values_exist",
    "C33_race_B_refuted"
   ],
   "note": "for the six run_terms functions, any number of threads, any distribution of the wavenumbers and any interleaving of single memory accesses: termination, no fault, no race, and the same arrays. In run_terms_B threads do race on two static variables (C33_race_B_refuted), all writing the same value. Memory is sequentially consistent, so the effect of that race is not what the C standard guarantees."
  },
  {
   "property": "C34",
   "status": "proved",
   "theorems": [
    "C34_gamma2",
    "C34_bias",
    "C34_A_1loop",
    "C34_B",
    "C34_A_2loop_I",
    "C34_gamma1_1loop",
    "C34_gamma1_2loop",
    "C34_gamma1_terms",
    "C34_bispectrum",
    "C34_bispectrum_table",
    "C34_A_2loop_gamma1_table",
    "C34_tables",
    "C34_mu_tables"
   ],
   "note": "for every arithmetic, per file: any history of successful calls (any spectrum, flags and wavenumbers) followed by a call gives the outcome the call has on the initial tables. The 2-loop A term also for the table of gamma1_1loop.c it shares."
  },
  {
   "property": "C35",
   "status": "proved",
   "theorems": [
    "C35_exchange",
    "C35_spectrum",
    "C35_shortcut_1loop",
    "C35_shortcut_2loop"
   ],
   "note": "Exchange: exact arithmetic. Shortcut: every Num. The copy of gamma1a_1loop made by run_terms_spectrum_1loop itself is covered by C33_run_terms."
  },
  {
   "property": "C36",
   "status": "proved",
   "theorems": [
    "C36_no_leak",
    "C36_tables"
   ],
   "note": "the threadprivate tables of the six run_terms functions; a fault of the model is a use or free of a table which is not allocated, or an allocation over an allocated table. C36_no_leak: no buffer which the library allocates for the spectra of B survives a statement, in any program."
  },
  {
   "property": "C37",
   "status": "proved",
   "theorems": [
    "C37_given",
    "C37_effect",
    "C37_delta_delta_refuted",
    "C37_one_refuted"
   ],
   "note": "process model (Process.v): Python objects with reference counting, numpy buffers, the pointers of the library; statements of the API in any order. Exact effect for all four pairs of flags; ('delta','delta') sets the delta-theta spectrum; giving only one of the two has no effect on a run."
  },
  {
   "property": "C38",
   "status": "proved",
   "theorems": [
    "C38_twice_refuted"
   ],
   "note": "process model (Process.v): Python objects with reference counting, numpy buffers, the pointers of the library; statements of the API in any order. The first run_terms_B computes both spectra itself; every second one uses freed memory."
  },
  {
   "property": "C39",
   "status": "proved",
   "theorems": [
    "C39_exact",
    "C39_bound",
    "C39_over",
    "C39_refuted"
   ],
   "note": "false of the code: an exact description of when more than 100 percent is reported, and a bound."
  },
  {
   "property": "C40",
   "status": "proved",
   "theorems": [
    "C40_binding",
    "C40_names",
    "C40_sizes"
   ],
   "note": "process model (Process.v): Python objects with reference counting, numpy buffers, the pointers of the library; statements of the API in any order. Names, order, sizes and the pointers themselves, for every class with terms."
  },
  {
   "property": "C41",
   "status": "proved",
   "theorems": [
    "C41_left_alone",
    "C41_terms_refuted",
    "C41_spectrum_refuted",
    "C41_dropped_refuted"
   ],
   "note": "process model (Process.v): Python objects with reference counting, numpy buffers, the pointers of the library; statements of the API in any order. What leaves an object alone (C41_left_alone) and three ways in which another object interferes."
  },
  {
   "property": "C42",
   "status": "proved",
   "theorems": [
    "C42_prepare",
    "C42_run",
    "C42_look_up"
   ],
   "note": "process model (Process.v): Python objects with reference counting, numpy buffers, the pointers of the library; statements of the API in any order. For each of the seven classes with terms, both orders of set_pk_lin and set_terms, any statements in between which leave the object alone; the values are those of C33."
  },
  {
   "property": "C43",
   "status": "proved",
   "theorems": [
    "C43_reads",
    "C43_compose",
    "C43_identity"
   ],
   "note": "exact arithmetic; every accessor of every class, the 1- and 2-loop spectra and the damped bias terms, with the default displacement variance."
  },
  {
   "property": "C44",
   "status": "proved",
   "theorems": [
    "C44_excess",
    "C44_refuted"
   ],
   "note": "the property is false of the code: C44_excess gives the factor for every object, C44_refuted a counterexample."
  },
  {
   "property": "C45",
   "status": "proved",
   "theorems": [
    "C45_value_1loop",
    "C45_value_2loop",
    "C45_1loop",
    "C45_2loop"
   ],
   "note": "exact arithmetic; both assemblies are the published formula."
  },
  {
   "property": "C46",
   "status": "proved",
   "theorems": [
    "C46_1loop",
    "C46_2loop"
   ],
   "note": "exact arithmetic."
  },
  {
   "property": "C47",
   "status": "proved",
   "theorems": [
    "C47_rescale",
    "C47_bias_but_sigma3sq",
    "C47_terms"
   ],
   "note": "sigma3sq is the exception (declared order 2, true order 1); the 2-loop A term is not homogeneous and is excluded. For gamma3, Suave is assumed homogeneous."
  },
  {
   "property": "C48",
   "status": "proved",
   "theorems": [
    "C48_extends",
    "C48_nothing_appended",
    "C48_refuted",
    "C48_two_dimensional"
   ],
   "note": "false of the code: proved when at least one wavenumber is appended to an object with 1-D columns; otherwise the exact effect is proved (C48_nothing_appended, C48_two_dimensional). PyRegPT.pad_k's recomputation of sigmad2 is in the process model."
  },
  {
   "property": "C49",
   "status": "proved",
   "theorems": [
    "C49_effect",
    "C49_nan_free",
    "C49_idempotent",
    "C49_missing"
   ],
   "note": "every arithmetic; NaN-freedom and idempotence for binary64."
  },
  {
   "property": "C50",
   "status": "proved",
   "theorems": [
    "C50_copy",
    "C50_deepcopy",
    "C50_deepcopy_succeeds",
    "C50_deepcopy_refuted"
   ],
   "note": "process model (Process.v): Python objects with reference counting, numpy buffers, the pointers of the library; statements of the API in any order. copy shares the table for ever; deepcopy is separated from everything and stays so under every program; it raises without spectrum_lin."
  },
  {
   "property": "C51",
   "status": "proved",
   "theorems": [
    "C51_A",
    "C51_B",
    "C51_layout",
    "C51_component"
   ],
   "note": "exact arithmetic for the combination; the layout for every size."
  },
  {
   "property": "C52",
   "status": "proved",
   "theorems": [
    "C52_A",
    "C52_B_zero",
    "C52_refuted"
   ],
   "note": "false of the code for B (C52_B_zero, C52_refuted); true for A (C52_A)."
  },
  {
   "property": "C53",
   "status": "proved",
   "theorems": [
    "C53_value",
    "C53_window"
   ],
   "note": "exact arithmetic."
  },
  {
   "property": "C54",
   "status": "proved",
   "theorems": [
    "C54_range",
    "C54_zero",
    "C54_normalised"
   ],
   "note": "exact arithmetic; 0.045 <= omega_m <= 1, omega_b <= omega_m/3 for the range."
  },
  {
   "property": "C55",
   "status": "proved",
   "theorems": [
    "C55_refuted"
   ],
   "note": "false of the code for every argument."
  },
  {
   "property": "C56",
   "status": "proved",
   "theorems": [
    "C56_in_bounds",
    "C56_integral_in_bounds",
    "C56_scale",
    "C56_branch_scale",
    "C56_integral_scale",
    "C56_integral_linear",
    "C56_exchange",
    "C56_exchange_same_branch",
    "C56_branch_exchange_refuted"
   ],
   "note": "exact arithmetic; homogeneity of the dispatcher on triangles; exchange symmetry per branch, while the choice of branch is not symmetric (C56_branch_exchange_refuted)."
  },
  {
   "property": "C57",
   "status": "proved",
   "theorems": [
    "C57_value",
    "C57_value_pt",
    "C57_reflection",
    "C57_relabelling",
    "C57_first_part",
    "C57_exchange",
    "C57_exchange_refuted"
   ],
   "note": "exact arithmetic. Reflection and relabelling hold at every point. The exchange A <-> A~ holds when p and k' are on the same side of the switching thresholds and fails otherwise (C57_exchange_refuted)."
  },
  {
   "property": "C58",
   "status": "proved",
   "theorems": [
    "C58_refuted",
    "C58_second_part"
   ],
   "note": "refuted: the eight outputs of the first part are written after the zeroing. The second part does return zeros (C58_second_part)."
  },
  {
   "property": "C59",
   "status": "proved",
   "theorems": [
    "C59_value",
    "C59_half_region",
    "C59_symmetric",
    "C59_folding",
    "C59_pt"
   ],
   "note": "exact arithmetic; the value of the integrand at every sample point, the half region, and the folding identity on mirror pairs. Suave itself is not modelled."
  },
  {
   "property": "C60",
   "status": "proved",
   "theorems": [
    "C60_flag",
    "C60_verbosity",
    "C60_unknown_refuted"
   ],
   "note": "process model (Process.v): Python objects with reference counting, numpy buffers, the pointers of the library; statements of the API in any order. For every string and every statement."
  },
  {
   "property": "C61",
   "status": "proved",
   "theorems": [
    "C61_lin_value",
    "C61_poly_value"
   ],
   "note": ""
  },
  {
   "property": "C62",
   "status": "proved",
   "theorems": [
    "C62_regularised"
   ],
   "note": "exact arithmetic, away from the cut-offs (smooth3)."
  },
  {
   "property": "C63",
   "status": "proved",
   "theorems": [
    "C63_closed_form"
   ],
   "note": "exact arithmetic; tolerances in SpecIntegrals.series_tolerance."
  },
  {
   "property": "C64",
   "status": "proved",
   "theorems": [
    "C64_gamma1",
    "C64_gamma2_tree",
    "C64_gamma2_1loop",
    "C64_bias",
    "C64_A_1loop",
    "C64_B",
    "C64_A_2loop_I",
    "C64_gamma3",
    "C64_A_2loop_II_III"
   ],
   "note": "for every arithmetic; polynomial interpolation, tables of at least two points, quadrature tables of any size including 0. The Suave integrands at every point; Suave itself is not modelled."
  },
  {
   "property": "C65",
   "status": "proved",
   "theorems": [
    "C65_terms",
    "C65_terms_2loop",
    "C65_F3",
    "C65_F3_refuted",
    "C65_bispectrum_refuted"
   ],
   "note": "gamma3 (only its kernel) and the 2-loop A term are excluded; the refuted theorems show why."
  },
  {
   "property": "C66",
   "status": "proved",
   "theorems": [
    "C66_gamma2_vertex",
    "C66_gamma2_tree",
    "C66_gamma2_1loop",
    "C66_bias",
    "C66_B",
    "C66_A_weights"
   ],
   "note": "exact arithmetic; the tables and lookups as made by the initialisation (C26_tables, C26_mu_table, C26_lookup)."
  },
  {
   "property": "C67",
   "status": "proved",
   "theorems": [
    "C67_single",
    "C67_all_refuted"
   ],
   "note": "proved for the named cutoffs; refuted for 'all'."
  },
  {
   "property": "C68",
   "status": "proved",
   "theorems": [
    "C68_raises",
    "C68_refuted"
   ],
   "note": "false of the code: counterexample; C68_raises shows that an undeclared column always makes it raise."
  },
  {
   "property": "C69",
   "status": "proved",
   "theorems": [
    "C69_growth"
   ],
   "note": "exact arithmetic; numpy.trapz modelled as written in its documentation."
  },
  {
   "property": "C70",
   "status": "proved",
   "theorems": [
    "C70_sound",
    "C70_no_crash",
    "C70_settings"
   ],
   "note": "process model (Process.v): Python objects with reference counting, numpy buffers, the pointers of the library; statements of the API in any order. pointer_free lists the statements which do not follow a pointer of the library."
  },
  {
   "property": "C71",
   "status": "proved",
   "theorems": [
    "C71_stale_refuted"
   ],
   "note": "process model (Process.v): Python objects with reference counting, numpy buffers, the pointers of the library; statements of the API in any order. for the classes other than B, whose run first recomputes its spectra."
  },
  {
   "property": "C72",
   "status": "proved",
   "theorems": [
    "C72_window",
    "C72_plain",
    "C72_strided_refuted"
   ],
   "note": "process model (Process.v): Python objects with reference counting, numpy buffers, the pointers of the library; statements of the API in any order. the property is false of the code for strided views; C72_plain gives the case in which it holds."
  },
  {
   "property": "C73",
   "status": "proved",
   "theorems": [
    "C73_failed_refuted"
   ],
   "note": "process model (Process.v): Python objects with reference counting, numpy buffers, the pointers of the library; statements of the API in any order. the property is false of the code in every state."
  },
  {
   "property": "C74",
   "status": "proved",
   "theorems": [
    "C74_empty_refuted"
   ],
   "note": "process model (Process.v): Python objects with reference counting, numpy buffers, the pointers of the library; statements of the API in any order. the property is false of the code in every state with verbosity 'info'; C42_prepare covers the others."
  },
  {
   "property": "C75",
   "status": "proved",
   "theorems": [
    "C75_null_refuted"
   ],
   "note": "process model (Process.v): Python objects with reference counting, numpy buffers, the pointers of the library; statements of the API in any order. the property is false of the code after every such program."
  },
  {
   "property": "C76",
   "status": "proved",
   "theorems": [
    "C76_rounding",
    "C76_operations",
    "C76_tabulated",
    "C76_selection",
    "C76_table",
    "C76_doubles",
    "C76_doubles_table",
    "C76_overflow_refuted"
   ],
   "note": "QNum: every operation rounded, no overflow; FNum: primitive IEEE doubles, overflow included. 'lin' at the last wavenumber is C08. NaN on overflow of a slope: refuted."
  },
  {
   "property": "C77",
   "status": "proved",
   "theorems": [
    "C77_lin_nonneg",
    "C77_lin_order",
    "C77_lin_between_refuted",
    "C77_lookup",
    "C77_variance",
    "C77_variance_order_refuted"
   ],
   "note": "QNum (no overflow). The lookup needs pow >= 0 on non-negative arguments, an assumption on libm. Upper bound and monotonicity in the cutoff refuted with doubles."
  },
  {
   "property": "C78",
   "status": "proved",
   "theorems": [
    "C78_precision",
    "C78_power",
    "C78_lin",
    "C78_variance",
    "C78_figure"
   ],
   "note": "QNum with a relative error bound, which 53-bit arithmetic without underflow satisfies (C78_precision)."
  },
  {
   "property": "C79",
   "status": "proved",
   "theorems": [
    "C79_1loop",
    "C79_2loop",
    "C79_lookup_lin",
    "C79_lookup_poly_refuted",
    "C79_poly",
    "C79_poly_refuted",
    "C79_weights"
   ],
   "note": "real arithmetic; lookups not negative is a hypothesis, proved for linear interpolation and for two-point tables, refuted for polynomial interpolation; ascending quadrature nodes and the positivity of Suave on positive integrands are hypotheses."
  },
  {
   "property": "C80",
   "status": "proved",
   "theorems": [
    "C80_1loop",
    "C80_2loop"
   ],
   "note": "real arithmetic; hypotheses as for C79; for the 2-loop spectra the inequality is assumed of the values Suave returns for the gamma3 terms."
  },
  {
   "property": "C81",
   "status": "proved",
   "theorems": [
    "C81_kernel",
    "C81_collinear_refuted"
   ],
   "note": "partial arithmetic ONum (SpecDefined.v): an operation outside its domain has no value. Exact arithmetic, no rounding or overflow. Refuted for collinear wavenumbers."
  },
  {
   "property": "C82",
   "status": "proved",
   "theorems": [
    "C82_lookup",
    "C82_variance",
    "C82_two_points_refuted",
    "C82_zero_refuted"
   ],
   "note": "partial arithmetic ONum. Refuted for two-point tables outside their range and for k = 0."
  },
  {
   "property": "C83",
   "status": "proved",
   "theorems": [
    "C83_runs"
   ],
   "note": "partial arithmetic ONum; the integrator Suave is assumed to evaluate the integrand in the unit cube only; that no Newton step of the quadrature nodes divides by zero is C93."
  },
  {
   "property": "C84",
   "status": "proved",
   "theorems": [
    "C84_tree",
    "C84_first_part",
    "C84_second_part"
   ],
   "note": "real arithmetic; the angular weights are pinned by C66_A_weights and the bispectra by C56, C59; in the first part the propagator and the vertex are any functions their tables stand for."
  },
  {
   "property": "C85",
   "status": "proved",
   "theorems": [
    "C85_contents",
    "C85_propagator"
   ],
   "note": "real arithmetic, tables of at least two points, a range of positive wavenumbers (regular_run), polynomial interpolation where the linear one has the out-of-range fault of C08; Suave is a parameter. Independence of the number of threads is C34 and is inside [computes]."
  },
  {
   "property": "C86",
   "status": "proved",
   "theorems": [
    "C86_one_loop",
    "C86_two_loop",
    "C86_kernel"
   ],
   "note": "real arithmetic; hypotheses of C85; beta is the function of the code, pinned by C31 and C32; the constants 2, 3/5 of the remainder are not optimal."
  },
  {
   "property": "C87",
   "status": "proved",
   "theorems": [
    "C87_one_loop",
    "C87_two_loop"
   ],
   "note": "real arithmetic; hypotheses of C85. sigma^2 is the integral over the nodes of the propagator, not the running variance of the sigmad2 column, which uses the table."
  },
  {
   "property": "C88",
   "status": "proved",
   "theorems": [
    "C88_interpol_poly",
    "C88_raises",
    "C88_step_refuted",
    "C88_reversed_refuted",
    "C88_empty_refuted",
    "C88_interpol_lin",
    "C88_interpol_lin_tabulated_refuted",
    "C88_interpol_lin_empty",
    "C88_nodes",
    "C88_nodes_negative"
   ],
   "note": "the value of the polynomial is in real arithmetic; exceptions, undefined behaviour and independence of the memory hold for every kind of numbers. An array is a one-dimensional view of a buffer."
  },
  {
   "property": "C89",
   "status": "proved",
   "theorems": [
    "C89_inside",
    "C89_slices",
    "C89_select",
    "C89_spectra",
    "C89_rescale",
    "C89_nan_to_zero",
    "C89_assign"
   ],
   "note": "for every kind of numbers. Columns have the shape Terms.reshape gives them; a single integer as index is not modelled. That o[ix] resets the verbosity and shares memory with o is in the model of processes (Process.v)."
  },
  {
   "property": "C90",
   "status": "proved",
   "theorems": [
    "C90_history",
    "C90_iteration_refuted"
   ],
   "note": "for every kind of numbers; a pop which raises is caught by the program."
  },
  {
   "property": "C91",
   "status": "proved",
   "theorems": [
    "C91_named",
    "C91_sigma3sq",
    "C91_damped",
    "C91_given_1loop",
    "C91_given_2loop",
    "C91_bounds",
    "C91_decreasing"
   ],
   "note": "real arithmetic. A sigmad2 given by the caller is an array of one value per wavenumber; a single number is broadcast by numpy to such an array."
  },
  {
   "property": "C92",
   "status": "proved",
   "theorems": [
    "C92_keywords",
    "C92_recomputed",
    "C92_keeps",
    "C92_cutoff_refuted",
    "C92_spectrum_1loop",
    "C92_spectrum_2loop"
   ],
   "note": "real arithmetic. Something must be appended: see C48 for the other case. The modes of numpy.pad other than 'constant' are not modelled."
  },
  {
   "property": "C93",
   "status": "proved",
   "theorems": [
    "C93_ends",
    "C93_defined",
    "C93_rule",
    "C93_order",
    "C93_quadrature"
   ],
   "note": "real arithmetic: in doubles the last Newton steps may be dominated by rounding. The fuel of the model counts the tests of the loop condition, so 7 allows six steps."
  },
  {
   "property": "C94",
   "status": "proved",
   "theorems": [
    "C94_run",
    "C94_tables"
   ],
   "note": "real arithmetic. Suave is a parameter assumed to return when its integrand does. With linear interpolation a lookup may read out of bounds (C08)."
  },
  {
   "property": "C95",
   "status": "proved",
   "theorems": [
    "C95_lipschitz",
    "C95_radial",
    "C95_integrand",
    "C95_propagator",
    "C95_columns"
   ],
   "note": "real arithmetic. The bound 1/sqrt(2n-1) is the one Bernstein polynomials give for any Lipschitz integrand; the rules are in general better. The one-loop correction and the bias terms: C96."
  },
  {
   "property": "C96",
   "status": "proved",
   "theorems": [
    "C96_mode",
    "C96_integrands",
    "C96_one_loop",
    "C96_bias"
   ],
   "note": "real arithmetic. The A and B terms: C100, C101; the other columns of the 2-loop terms are pinned as sums over nodes and weights (C85)."
  },
  {
   "property": "C97",
   "status": "proved",
   "theorems": [
    "C97_cubic",
    "C97_all",
    "C97_linear",
    "C97_pk_interp"
   ],
   "note": "real arithmetic; the error term of polynomial interpolation is proved by repeated use of Rolle's theorem. The linear lookup at the last wavenumber fails (C08)."
  },
  {
   "property": "C98",
   "status": "proved",
   "theorems": [
    "C98_running",
    "C98_sigmav",
    "C98_sigmar"
   ],
   "note": "real arithmetic. Below the first wavenumber the running variance is zero (C12)."
  },
  {
   "property": "C99",
   "status": "proved",
   "theorems": [
    "C99_propagators",
    "C99_one_loop",
    "C99_bias",
    "C99_constants"
   ],
   "note": "real arithmetic. The terms computed with Suave, an external integrator, and the A and B terms are not covered (B for its own tables: C100); nor are the two-loop propagator and vertices."
  },
  {
   "property": "C100",
   "status": "proved",
   "theorems": [
    "C100_determined",
    "C100_integrands",
    "C100_columns"
   ],
   "note": "real arithmetic; the dt and tt tables are arbitrary. The integrands are given by their azimuthal averages, which determine them."
  },
  {
   "property": "C101",
   "status": "proved",
   "theorems": [
    "C101_columns",
    "C101_one_node",
    "C101_bounds"
   ],
   "note": "real arithmetic. With one node the code returns zero (C101_one_node)."
  },
  {
   "property": "C102",
   "status": "proved",
   "theorems": [
    "C102_total",
    "C102_formula"
   ],
   "note": "real arithmetic. Spectrum1Loop only; the bias spectra are C107, the A and B columns C103 and C104; the two-loop spectra are not covered."
  },
  {
   "property": "C103",
   "status": "proved",
   "theorems": [
    "C103_A",
    "C103_A_constants",
    "C103_B",
    "C103_B_constants",
    "C103_close"
   ],
   "note": "real arithmetic. A tables: 1-loop; k inside the range, since P(k) enters."
  },
  {
   "property": "C104",
   "status": "proved",
   "theorems": [
    "C104_A",
    "C104_A_constants",
    "C104_B",
    "C104_B_constants",
    "C104_components"
   ],
   "note": "real arithmetic; k inside the range (A). The half of the q-space with |q| < |k-q| is counted twice in B, as in the code; in A the terms in P(|k-q|) are cut off where |k-q| leaves the range. The columns are those an object holds after run_terms (columns_of, SpecScale.v)."
  },
  {
   "property": "C105",
   "status": "proved",
   "theorems": [
    "C105_1loop",
    "C105_2loop",
    "C105_damped",
    "C105_C_1loop",
    "C105_C_2loop",
    "C105_figure",
    "C105_sign",
    "C105_C_sign"
   ],
   "note": "unbounded exponents: no overflow, no underflow. The columns are taken as given (the rounding of the integrals is not covered); the accuracy of exp and pow is a hypothesis on the C library."
  },
  {
   "property": "C106",
   "status": "proved",
   "theorems": [
    "C106_poly",
    "C106_spaced",
    "C106_geometric",
    "C106_lin",
    "C106_figure"
   ],
   "note": "unbounded exponents: no overflow, no underflow. Inside the range of the table (outside it the code extrapolates with log and exp, C09-C11). C106_poly is for any table, with the factor given by the distances of the wavenumber from the points."
  },
  {
   "property": "C107",
   "status": "proved",
   "theorems": [
    "C107_named",
    "C107_damped",
    "C107_sigma3sq"
   ],
   "note": "real arithmetic. The constants lam, B and C of the bounds exist for every spectrum with a bounded derivative (C99_constants). The damped spectra are for dispersions left at None."
  },
  {
   "property": "C108",
   "status": "proved",
   "theorems": [
    "C108_effect",
    "C108_complete",
    "C108_forgets",
    "C108_spectra",
    "C108_lin_refuted"
   ],
   "note": "C108_lin_refuted: SpectrumLin has no C_TYPE, which zeros reads. The dtype argument and the conversions of k to an array are not modelled."
  },
  {
   "property": "C109",
   "status": "proved",
   "theorems": [
    "C109_order",
    "C109_model",
    "C109_sigmav",
    "C109_sigmav_order",
    "C109_sigmar",
    "C109_sigmar_order"
   ],
   "note": "unbounded exponents: no overflow, no underflow. The order in which numpy adds is not modelled: C109_order, C109_sigmav_order and C109_sigmar_order hold for all orders, C109_sigmav and C109_sigmar for that of the model. The exact values are those of C98."
  },
  {
   "property": "C110",
   "status": "proved",
   "theorems": [
    "C110_formula",
    "C110_decreasing",
    "C110_ends",
    "C110_amplitude",
    "C110_first",
    "C110_shape",
    "C110_raises"
   ],
   "note": "over the reals; Euler's number is the decimal literal of numpy. The formula (C110_formula) needs only positive densities."
  },
  {
   "property": "C111",
   "status": "proved",
   "theorems": [
    "C111_tabulated",
    "C111_outside",
    "C111_error",
    "C111_negative_refuted",
    "C111_A",
    "C111_B"
   ],
   "note": "unbounded exponents: no overflow, no underflow. numpy.interp is modelled as slope times distance plus left value, with its documented behaviour at the last point and outside."
  },
  {
   "property": "C112",
   "status": "proved",
   "theorems": [
    "C112_shape",
    "C112_error"
   ],
   "note": "C112_shape holds for doubles with gradual underflow; C112_error for unbounded exponents."
  },
  {
   "property": "C113",
   "status": "proved",
   "theorems": [
    "C113_rescale",
    "C113_compose",
    "C113_undo_refuted",
    "C113_named",
    "C113_reads"
   ],
   "note": "unbounded exponents; C113_undo_refuted on doubles, for a pow which squares and is 1 for the exponent 0."
  },
  {
   "property": "C114",
   "status": "proved",
   "theorems": [
    "C114_constant",
    "C114_other",
    "C114_other_regpt",
    "C114_refuted"
   ],
   "note": "numpy.pad is modelled by its documented checks: an unknown mode or a keyword of another mode raises ValueError. A function as mode is not modelled."
  },
  {
   "property": "C115",
   "status": "proved",
   "theorems": [
    "C115_sigmav_raises",
    "C115_sigmar_raises",
    "C115_sigmav_rows",
    "C115_sigmar_rows",
    "C115_sigmav_two",
    "C115_refuted",
    "C115_values_refuted"
   ],
   "note": "numpy broadcasting of scipy.integrate.trapz is modelled. The square root of a negative number, 0 here, is NaN in numpy."
  },
  {
   "property": "C116",
   "status": "proved",
   "theorems": [
    "C116_interp",
    "C116_sigmav",
    "C116_sigmar",
    "C116_sigma8",
    "C116_real",
    "C116_auto",
    "C116_bias",
    "C116_linear",
    "C116_refuted"
   ],
   "note": "Exact arithmetic for the values; the exceptions in every arithmetic. The square root of a negative number, 0 here, is NaN in numpy. Several dispersions for one wavenumber are not modelled."
  },
  {
   "property": "C117",
   "status": "proved",
   "theorems": [
    "C117_zero",
    "C117_A1",
    "C117_refuted",
    "C117_after"
   ],
   "note": "Exact arithmetic for the values. numpy.interp of a number as table is modelled as ValueError."
  },
  {
   "property": "C118",
   "status": "proved",
   "theorems": [
    "C118_smoothing",
    "C118_small_spheres",
    "C118_flow",
    "C118_zero_refuted"
   ],
   "note": "Exact arithmetic. The radius 0 in the arithmetic ONum, where an operation outside its domain has no value."
  },
  {
   "property": "C119",
   "status": "proved",
   "theorems": [
    "C119_1loop",
    "C119_2loop",
    "C119_bare_1loop",
    "C119_bare_2loop",
    "C119_fall",
    "C119_fall_2loop",
    "C119_fall_bias"
   ],
   "note": "Exact arithmetic. Strengthens C46 from small growth factors and the object's own dispersion to all, with explicit bounds."
  }
 ]
}