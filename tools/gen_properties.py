#!/usr/bin/env python3
"""Writes /verif/properties.jsonl (one JSON object per line)."""
import json, os
P = []
def p(id, title, statement, quantifier, why, anchors):
    P.append(dict(id=id, title=title, statement=statement, quantifier=quantifier,
                  why_tests_cant=why, anchors=anchors))

p("C01", "Fast exponentiation and power tables are exact powers",
  "power(x,n) returns x^n (0^0 = 1) after finitely many iterations, and powers(x,tab,n) with n>=2 leaves tab[i]=x^i in every slot i<n without touching anything outside tab.",
  "every real x and every size_t exponent / table size n",
  "The loop is driven by the bits of the exponent; a test samples finitely many exponents.",
  ["src/common.c:power", "src/common.c:powers"])
p("C02", "Table lookup brackets the query",
  "For a strictly increasing table and a query not below the first entry of the searched window, the dichotomy search terminates, reads only inside the window and returns the index i with tab[i] <= x and (x < tab[i+1] or i is the last index of the window).",
  "every table length, every window, every query, any strict total order of the entries (real numbers, or doubles without NaN)",
  "The search is recursive over table length; only finitely many lengths and positions can be sampled.",
  ["src/common.c:get_dichotomy_index"])
p("C03", "Polynomial interpolation is the unique interpolating polynomial",
  "interpol_poly(x,tabx,taby,n) with n>=1 pairwise distinct nodes returns the value at x of the unique polynomial of degree < n through the points, in any node order and wherever x lies; it never reads or writes outside its arrays although its index variable wraps below zero.",
  "every number of nodes n>=1, every list of distinct nodes, every ordinates, every x",
  "Neville's scheme has a data dependent path (closest node, up/down branch); sampled n and x do not cover it.",
  ["src/common.c:interpol_poly", "pyregpt/pyregpt.py:interpol_poly"])
p("C04", "Linear interpolation",
  "interpol_lin returns the ordinate of the chord: it reproduces both end points, is monotone between them and never leaves the interval spanned by the two ordinates when x lies between the abscissae.",
  "every pair of distinct abscissae, every ordinates, every x",
  "Universally quantified over a continuum.",
  ["src/common.c:interpol_lin", "pyregpt/pyregpt.py:interpol_lin"])
p("C05", "find_pk_lin reproduces the tabulated spectrum at the tabulated wavenumbers",
  "Looking up the table's own k array (or any ascending selection of it) returns the tabulated P exactly, in 'poly' mode for every point and in 'lin' mode for every point but the last.",
  "every strictly increasing table with at least two points and every ascending selection of its points",
  "Depends on every table length and on the window clipping at both ends.",
  ["src/common.c:find_pk", "src/common.c:find_pk_lin", "pyregpt/pyregpt.py:find_pk_lin"])
p("C06", "find_pk_lin is element-wise on ascending queries, and never out of bounds",
  "For ascending query arrays each output element depends only on its own query (same as querying it alone) although the search start is carried along the array; 'poly' mode never reads outside the table.",
  "every table, every ascending query array, both interpolation modes",
  "The carried search start makes each output depend on the history of the previous queries.",
  ["src/common.c:find_pk"])
p("C07", "find_pk_lin is element-wise for every query order (refuted)",
  "The result for a query should not depend on the queries that precede it in the array. This fails: after a larger query the search cannot go back.",
  "every query array, in any order",
  "Quantifies over all histories of queries.",
  ["src/common.c:find_pk"])
p("C08", "'lin' lookup at the last tabulated wavenumber stays inside the table (refuted)",
  "find_pk_lin(k[-1], interpol='lin') should only read the table. It reads one element past the end of both arrays.",
  "every table with at least one point",
  "An over-read normally goes unnoticed at run time.",
  ["src/common.c:find_pk", "src/common.c:get_dichotomy_index"])
p("C09", "Power-law spectra are extrapolated exactly",
  "If the tabulated spectrum is A*k^n at every tabulated k>0 (A>0, at least three points) then find_pk_lin returns A*k^n for every k below and above the table.",
  "every A>0, every real slope n, every strictly increasing positive grid with >=3 points, every k>0 outside it",
  "Averaged logarithmic slopes over a window clipped by the table size: all grids and slopes must be covered.",
  ["src/common.c:extrapol_pk_lowk", "src/common.c:extrapol_pk_highk", "src/common.c:find_pk"])
p("C10", "Extrapolation never turns negative and gives up on non-positive tables",
  "Outside the table the returned P is never negative when the table is positive; it is exactly 0 as soon as one entry used for the slope is <= 0; at the upper end the extrapolation is continuous with the last tabulated value.",
  "every table with >=3 points, every k outside it",
  "Universally quantified over tables.",
  ["src/common.c:extrapol_pk_lowk", "src/common.c:extrapol_pk_highk"])
p("C11", "Low-k extrapolation is continuous at the first tabulated k (refuted)",
  "The extrapolated spectrum should tend to the first tabulated value when k tends to the first tabulated k. It is anchored on the second table entry instead, so it jumps unless the table is a local power law.",
  "every positive table",
  "Continuity is a statement about a limit.",
  ["src/common.c:extrapol_pk_lowk"])
p("C12", "Running displacement variance is the trapezoidal integral up to the cutoff",
  "For an ascending query array, calc_running_sigmad2(k,uvcutoff)[i] is 1/(6 pi^2) times the integral of the piecewise linear interpolant of P from the first tabulated k to min(k[i]*uvcutoff, last tabulated k), and 0 when the cutoff is below the table.",
  "every table with >=1 point, every ascending query array, every non-negative cutoff factor",
  "The accumulator and position are carried over the queries; the integral statement ranges over all tables.",
  ["src/common.c:calc_running_sigmad2", "pyregpt/pyregpt.py:calc_running_sigmad2"])
p("C13", "Running displacement variance is non-negative, monotone and saturates",
  "For a non-negative spectrum sigmad2 is >= 0, non-decreasing in k and constant once k*uvcutoff exceeds the table, where it equals SpectrumLin.sigmav()^2.",
  "every non-negative table and every ascending query array",
  "Inequalities over all tables.",
  ["src/common.c:calc_running_sigmad2", "pyregpt/pyregpt.py:Terms.sigmav"])
p("C14", "calc_running_sigmad2 is element-wise for every query order (refuted)",
  "sigmad2 at a given k should not depend on preceding queries; for a descending array it does.",
  "every query array, in any order",
  "Quantifies over histories.",
  ["src/common.c:calc_running_sigmad2"])
p("C15", "Gauss-Legendre nodes and weights: coverage, symmetry, affine covariance",
  "nodes_weights_gauss_legendre writes every slot exactly within bounds; nodes are mirror images about the middle of the interval with equal weights; nodes and weights for [xmin,xmax] are the affine image of those for [-1,1].",
  "every n and every interval for which the Newton iterations stop",
  "All n and all intervals.",
  ["src/common.c:nodes_weights_gauss_legendre", "pyregpt/pyregpt.py:nodes_weights_gauss_legendre"])
p("C16", "Newton iteration targets the Legendre roots",
  "Inside nodes_weights_gauss_legendre the three-term recursion evaluates the Legendre polynomials P_n and P_{n-1}, the slope used is exactly P_n', and every returned node lies within EPS of a point where |P_n| <= EPS*|P_n'|.",
  "every n>=1, every node, whatever number of Newton steps is needed",
  "All n; relates a loop to a polynomial identity.",
  ["src/common.c:nodes_weights_gauss_legendre"])
p("C17", "The quadrature is exact on polynomials up to degree 2n-1",
  "With nodes at the exact Legendre roots, the weights computed by nodes_weights_gauss_legendre integrate every polynomial of degree <= 2n-1 exactly.",
  "every n and every polynomial of degree <= 2n-1",
  "All n and all polynomials.",
  ["src/common.c:nodes_weights_gauss_legendre"])
p("C18", "Momentum range selection and angular rescaling",
  "init_gauss_legendre_q uses the configured [min,max] when both are positive and the range of the linear spectrum otherwise; the q nodes stay inside that range and x=q/k after update; update_gauss_legendre_mu maps the reference nodes into [mumin,mumax] with weights scaled by the half-length.",
  "every precision setting, every linear spectrum, every k>0, every mu range",
  "All settings and ranges.",
  ["src/common.c:init_gauss_legendre_q", "src/common.c:update_gauss_legendre_q", "src/common.c:update_gauss_legendre_mu"])
p("C19", "set_precision changes exactly what was asked",
  "A precision setter changes n iff n>0, (min,max) iff max>=min, the interpolation iff it is 'poly' or 'lin', leaves the rest untouched, and restores the default when nothing valid is given; applying it twice is the same as once.",
  "every previous setting and every argument",
  "All states and arguments.",
  ["src/common.c:set_precision", "src/common.c:set_interpol"])
p("C20", "Group names in PyRegPT.set_precision reach exactly their members",
  "set_precision('all'|'all_q'|'all_mu'|'spectrum_1loop_q'|...) has the effect of one call on each member setting and on nothing else, although 'spectrum_1loop_q' falls through and applies gamma2_tree_q twice; angular settings never change the range.",
  "every group name, every argument, every prior state of the settings",
  "All prior states.",
  ["pyregpt/pyregpt.py:PyRegPT.set_precision"])
p("C21", "clear() resets all settings (refuted)",
  "After clear() all precision settings and cutoffs should equal the defaults of a fresh library. A_1loop_q, A_1loop_mu, every *_pk_lin interpolation and the B / A cutoffs keep their values.",
  "every history of setter calls",
  "Quantifies over histories.",
  ["pyregpt/pyregpt.py:PyRegPT.clear", "pyregpt/pyregpt.py:PyRegPT.set_precision"])
p("C22", "set_precision('all_pklin') sets all linear-spectrum interpolations (refuted)",
  "The call should succeed and set every *_pk_lin interpolation. It always raises AttributeError after having changed the first two.",
  "every state and argument",
  "A property of the whole state space of settings.",
  ["pyregpt/pyregpt.py:PyRegPT.set_precision"])
p("C23", "Results depend only on current settings, not on earlier runs (refuted for gamma3 and A 2-loop II/III)",
  "With an automatic range (min<=0), run_terms after set_pk_lin should use the range of the current linear spectrum. gamma3_tree and A_2loop_II_III freeze the range of the spectrum used in their first run; all Gauss-Legendre integrals are history independent.",
  "every history of set_pk_lin / set_precision / run_terms calls",
  "Quantifies over histories.",
  ["src/calc_pkcorr_from_gamma3.c:init_gamma3_tree", "src/calc_pkcorr_from_A_2loop_II_III.c:init_A_2loop_II_III", "src/common.c:init_gauss_legendre_q"])
p("C24", "Second order kernels: symmetry, parity, momentum conservation, consistent forms",
  "The second-order kernel is symmetric under exchange of the two momenta, even, scale invariant, vanishes when the momenta cancel, and its three implementations (by squared norms, by vectors, by norms and cosine) and gamma2_tree agree.",
  "every pair of non-zero momenta, both flags",
  "Algebraic identities over a continuum.",
  ["src/kernels.c:F2_sym_fast", "src/kernels.c:F2_sym_full", "src/kernels.c:F2_sym", "src/calc_pkcorr_from_gamma2.c:gamma2_tree"])
p("C25", "Third order kernel is fully symmetric, even and rotation invariant",
  "F3_sym is invariant under all six permutations of its momenta and under global sign change; on momenta away from the cut-off guard it is the standard recursion built from F2 with coefficients 7/18, 1/9, 1/6, 1/3.",
  "every triple of momenta, both flags",
  "Algebraic identities over a continuum including a guarded branch.",
  ["src/kernels.c:F3", "src/kernels.c:F3_sym", "src/kernels.c:sigmaab"])
p("C26", "The angular range covers exactly the allowed half of momentum space",
  "For every node the mu interval chosen is exactly the set of mu in [-1,1] for which |k-q| lies in the integration range and (halved integrals) |k-q| >= q; it is skipped iff that set has empty interior; every sampled mu is inside.",
  "every k>0 and every node of every ascending momentum grid",
  "All grids and k; includes the branch at x=1/2 that overwrites the upper bound.",
  ["src/calc_pkcorr_from_gamma2.c:set_mu_range", "src/calc_pkcorr_from_bias_1loop.c:set_mu_range", "src/calc_pkcorr_from_B.c:set_mu_range", "src/calc_pkcorr_from_A_1loop.c:set_mu_range", "src/calc_pkcorr_from_A_2loop_I.c:set_mu_range"])
p("C27", "Halved integrands are symmetric under q <-> k-q",
  "Every integrand that is integrated over the half region |k-q|>=q only (gamma2, bias b2/bs2, A 2-loop, B) is invariant under exchange of q and k-q including the volume element, so halving and doubling is legitimate (for B: after adding the two mirrored components).",
  "every k, q, mu with q and k-q non zero and every linear spectrum",
  "Rational function identities over a continuum.",
  ["src/calc_pkcorr_from_gamma2.c:kernel_pk_gamma2_tree", "src/spectrum_bias_1loop.c:kernel_b2", "src/calc_pkcorr_from_B.c:kernel_B", "src/calc_pkcorr_from_A_2loop_I.c:kernel_projection_A_tA"])
p("C28", "A 1-loop kernels are the tree-level limit of the A 2-loop construction",
  "The explicit 1-loop A kernels equal the projection kernels contracted with the tree-level bispectrum built from F2, component by component.",
  "every x>0, every mu with x^2+1-2 mu x > 0",
  "Rational function identities over a continuum.",
  ["src/calc_pkcorr_from_A_1loop.c:kernel_A_tA_1loop", "src/calc_pkcorr_from_A_1loop.c:kernel_a_1loop", "src/calc_pkcorr_from_A_2loop_I.c:kernel_projection_A_tA"])
p("C29", "Incomplete beta function closed forms",
  "betafunc(a,z) for a in {2,4,6} equals the sum over n>=0 of z^(a+n)/(a+n) exactly for 0.1<z<1 and within a relative truncation error of order z^7 for 0<=z<=0.1.",
  "every z in [0,1), a in {2,4,6}",
  "Series identity over a continuum.",
  ["src/kernels.c:betafunc"])
p("C30", "Branches of the 1-loop propagator kernels agree",
  "kernel_ff and kernel_gg: near x=1 and for x>10 the expansions used differ from the exact formula by a bounded small amount, so the kernel has no visible jump.",
  "every x>0",
  "Error bound over a continuum.",
  ["src/gamma1_1loop.c:kernel_ff", "src/gamma1_1loop.c:kernel_gg"])
p("C31", "2-loop propagator kernel: exchange symmetry and expansions",
  "beta, alpha and the 2-loop integrand are symmetric in (q1,q2); the exact beta is invariant under y->1/y and its expansions at y=0 and at y=1 are the Taylor polynomials of the exact formula.",
  "every q1,q2>0, both flags",
  "Taylor expansion statement (limit).",
  ["src/gamma1_2loop.c:beta", "src/gamma1_2loop.c:alpha", "src/gamma1_2loop.c:integ_gamma1_2loop"])
p("C32", "2-loop propagator: the THETA expansion at y=1 is the Taylor polynomial (refuted)",
  "The THETA branch near y=1 should be the order-4 Taylor polynomial of the exact formula as in the DELTA branch. Its cubic coefficient has the wrong sign.",
  "every y in (0.95,1.05)",
  "Limit statement.",
  ["src/gamma1_2loop.c:beta"])
p("C33", "run_terms does not depend on the number of threads or on scheduling",
  "For every driver the output arrays after run_terms are the same for any number of threads, any assignment of wavenumbers to threads and any interleaving of their memory accesses, and no two threads race on an output element.",
  "every nthreads, every schedule, every interleaving, every number of wavenumbers",
  "Schedules cannot be enumerated by tests.",
  ["src/spectrum_1loop.c:run_terms_spectrum_1loop", "src/spectrum_2loop.c:run_terms_spectrum_2loop", "src/spectrum_bias_1loop.c:run_terms_bias_1loop", "src/spectrum_A_1loop.c:run_terms_A_1loop", "src/spectrum_A_2loop.c:run_terms_A_2loop", "src/spectrum_B.c:run_terms_B"])
p("C34", "Quadrature scratch state never leaks between wavenumbers",
  "The value computed for a wavenumber does not depend on which wavenumbers were computed before on the same thread, although the quadrature tables are mutated in place.",
  "every history of calls on a thread",
  "Quantifies over histories.",
  ["src/calc_pkcorr_from_gamma2.c:calc_pk_gamma2_tree", "src/gamma1_1loop.c:gamma1_1loop", "src/calc_pkcorr_from_bias_1loop.c:calc_pk_bias_1loop", "src/calc_pkcorr_from_B.c:calc_pk_B"])
p("C35", "P_ab = P_ba and the a==b shortcut is transparent",
  "Exchanging the two field flags leaves the assembled spectrum unchanged; the shortcut that copies the first propagator when a==b gives the same terms as computing both.",
  "every linear spectrum, every flags, every k",
  "All inputs.",
  ["src/spectrum_1loop.c:run_terms_spectrum_1loop", "src/calc_pkcorr_from_gamma2.c:kernel_pk_gamma2_tree", "src/calc_pkcorr_from_gamma1.c:calc_pk_gamma1_2loop"])
p("C36", "Memory ledger of a run is balanced",
  "Every buffer allocated during run_terms / run_spectrum_1loop is freed exactly once, for any number of threads, and none is used after being freed within the run.",
  "every number of threads and wavenumbers",
  "All thread counts.",
  ["src/spectrum_1loop.c:run_spectrum_1loop", "src/common.c:init_gauss_legendre_q", "src/common.c:free_gauss_legendre_q"])
p("C37", "set_spectra_B stores the spectrum under the requested pair of fields (refuted)",
  "set_spectra_B(a,b,...) should set the delta-theta spectrum only for a delta-theta pair. ('delta','delta') overwrites it too because of an assignment in the condition.",
  "every pair of flags and every prior state",
  "State dependent.",
  ["src/spectrum_B.c:set_spectra_B"])
p("C38", "run_terms_B can be called repeatedly through the C API (refuted)",
  "Without explicit input spectra a second run_terms_B should recompute them. It uses the freed spectra of the first run.",
  "every history of C API calls",
  "Use after free depends on the history.",
  ["src/spectrum_B.c:run_terms_B", "src/spectrum_B.c:free_spectra_B"])
p("C39", "Progress report stays within 0..100 percent (refuted)",
  "The percentage printed during a run should never exceed 100. For nk=19 it reaches 180. It is within range when nk is a multiple of 10.",
  "every number of wavenumbers",
  "All sizes.",
  ["src/spectrum_1loop.c:run_terms_spectrum_1loop"])
p("C40", "Every C pointer receives the column of the same name",
  "set_terms of each class registers with the C library, for every named output, exactly the Python column of that name and of the size the C code writes.",
  "every class, every k array, any insertion order of extra columns",
  "The binding is positional; holds for all inputs only by construction.",
  ["pyregpt/pyregpt.py:Terms.tolist", "pyregpt/pyregpt.py:Spectrum1Loop.set_terms", "src/spectrum_1loop.c:set_terms_spectrum_1loop"])
p("C41", "Instances are independent (refuted)",
  "Configuring or running one object should not change what another object computes. All objects share the library's linear spectrum, output pointers, settings and verbosity: the last set_pk_lin / set_terms wins, and a dropped object leaves dangling pointers.",
  "every history of operations on any number of objects",
  "Quantifies over histories of several objects.",
  ["pyregpt/pyregpt.py:PyRegPT.set_spectrum_lin", "src/regpt.c:set_pk_lin", "src/spectrum_1loop.c:set_terms_spectrum_1loop"])
p("C42", "A single object used in the documented order is self-consistent",
  "For a single object of each class, set_pk_lin; set_terms; run_terms fills that object's own columns from its own linear spectrum; repeating run_terms gives the same columns.",
  "every linear spectrum, every k array, any settings in between",
  "All histories of one object.",
  ["pyregpt/pyregpt.py:Spectrum1Loop.run_terms", "pyregpt/pyregpt.py:PyRegPT.set_pk_lin"])
p("C43", "rescale(D) is equivalent to evaluating with Dgrowth=D",
  "After rescale(D), pk() equals pk(Dgrowth=D) before, for the 1-loop and 2-loop spectra, the A and B terms, the linear spectrum and all bias spectra except sigma3sq; two rescalings compose.",
  "every D, every contents of the columns",
  "Identities over all contents.",
  ["pyregpt/pyregpt.py:Terms.rescale", "pyregpt/pyregpt.py:Spectrum1Loop.pk", "pyregpt/pyregpt.py:Spectrum2Loop.pk", "pyregpt/pyregpt.py:scale_factor", "pyregpt/pyregpt.py:damping_factor"])
p("C44", "rescale is consistent for the sigma3sq bias term (refuted)",
  "rescale(D) followed by pk_sigma3sq() should equal pk_sigma3sq(Dgrowth=D). It is D^2 too large because sigma3sq is linear, not quadratic, in the linear spectrum.",
  "every D and contents",
  "Identity over all contents.",
  ["pyregpt/pyregpt.py:Bias1Loop.SCALE", "src/spectrum_bias_1loop.c:kernel_sigma3sq"])
p("C45", "The C and Python assemblies of the spectra agree",
  "spectrum_1loop and spectrum_2loop in C give the same numbers as Spectrum1Loop.pk() and Spectrum2Loop.pk() with Dgrowth=1 on the same terms.",
  "every contents of the term arrays",
  "Identity over all contents.",
  ["src/spectrum_1loop.c:spectrum_1loop", "src/spectrum_2loop.c:spectrum_2loop", "pyregpt/pyregpt.py:Spectrum1Loop.pk", "pyregpt/pyregpt.py:Spectrum2Loop.pk"])
p("C46", "Small-growth limit of the regularised spectra is standard perturbation theory",
  "pk(Dgrowth=D) = D^2 P_lin + D^4 (P_lin (gamma_a + gamma_b) + P_22) + O(D^6): the damping factor cancels to the order of the calculation.",
  "every contents of the term arrays",
  "Asymptotic statement.",
  ["pyregpt/pyregpt.py:Spectrum1Loop.pk", "pyregpt/pyregpt.py:Spectrum2Loop.pk"])
p("C47", "Terms computed from a rescaled linear spectrum rescale with their declared power",
  "Multiplying the linear spectrum by D^2 and running again gives the columns rescale(D) gives: every computed term is multiplied by D^(2*SCALE[term]) (1 and 2 loops, displacement variance, bias except sigma3sq, A at 1 loop, B).",
  "every linear spectrum, every s>0, every k",
  "Homogeneity over all inputs; ties the C integrals to the Python SCALE tables.",
  ["pyregpt/pyregpt.py:Terms.rescale", "src/gamma1_1loop.c:gamma1_1loop", "src/calc_pkcorr_from_gamma2.c:calc_pk_gamma2_tree"])
p("C48", "pad_k extends the wavenumber array (refuted when nothing is appended)",
  "pad_k(k) should prepend/append exactly the new wavenumbers outside the current range and keep the existing ones. It does when at least one value is appended to a 1-D object and k is sorted; when nothing is appended the slice [-0:] overwrites the whole k array or raises.",
  "every current k array and every new k array",
  "All pairs of arrays.",
  ["pyregpt/pyregpt.py:Terms.pad_k"])
p("C49", "nan_to_zero",
  "nan_to_zero replaces exactly the NaN entries of the declared columns by 0 and is idempotent. If a declared column is missing it raises KeyError, having treated the columns declared before it and no others.",
  "every contents, including NaN in any position",
  "All contents.",
  ["pyregpt/pyregpt.py:Terms.nan_to_zero"])
p("C50", "deepcopy isolates, copy shares",
  "After deepcopy no write through one object is visible in the columns of the other; copy() shares the column table, so writes are visible in both.",
  "every sequence of writes to the two objects",
  "All sequences.",
  ["pyregpt/pyregpt.py:PyRegPT.deepcopy", "pyregpt/pyregpt.py:Terms.copy", "pyregpt/pyregpt.py:PyRegPT.deepcopy"])
p("C51", "Redshift-space combination of A and B terms",
  "The flattened C output index ik*NCOMP+c and the Python (k, component) view address the same element, components never collide, and pk_interp weights component c with the power of mu and beta documented for it.",
  "every number of wavenumbers, every component",
  "All sizes.",
  ["src/spectrum_A_2loop.c:run_terms_A_2loop", "src/spectrum_B.c:run_terms_B", "pyregpt/pyregpt.py:A1Loop.pk_interp", "pyregpt/pyregpt.py:Terms.reshape"])
p("C52", "B pk_interp honours left and right (refuted)",
  "B1Loop.pk_interp(k,...,left=l,right=r) should return the combination of l (r) outside the range as A1Loop does. It always uses 0.",
  "every k outside the range and every left/right",
  "All arguments.",
  ["pyregpt/pyregpt.py:B1Loop.pk_interp"])
p("C53", "Shot-noise damping window",
  "shotnoise(kmin,kmax) is 1 inside [kmin,kmax], lies in (0,1] everywhere, is continuous and decreasing away from the window.",
  "every k>0 and every 0<kmin<=kmax",
  "Continuum.",
  ["pyregpt/pyregpt.py:Bias1Loop.shotnoise"])
p("C54", "No-wiggle transfer function",
  "transfer() lies in (0,1] and equals 1 at k=0 for every cosmology with a positive effective shape parameter; run_terms(pk) normalises the first entry to pk[0].",
  "every k>=0, every admissible parameters",
  "Continuum.",
  ["pyregpt/pyregpt.py:SpectrumNoWiggle.transfer", "pyregpt/pyregpt.py:SpectrumNoWiggle.run_terms"])
p("C55", "SpectrumNoWiggle.set_terms works (refuted)",
  "set_terms(k) should prepare the object. It always raises AttributeError (C_TYPE) and leaves the object without a pk column.",
  "every k",
  "All inputs.",
  ["pyregpt/pyregpt.py:SpectrumNoWiggle.set_terms", "pyregpt/pyregpt.py:Terms.zeros"])
p("C56", "1-loop gamma2 kernels: homogeneity and exchange symmetry of all branches",
  "Every branch of the 1-loop second-order kernels is a homogeneous function of degree 0 of (k1,k2,k3,q), so the integral is scale covariant and the branches are dimensionally consistent; the branch chosen is also scale invariant; the polynomial branches are symmetric under k1<->k2.",
  "every positive (k1,k2,k3,q) and every scaling factor",
  "Identities of rational/logarithmic functions with thousands of coefficients.",
  ["src/gamma2d_1loop.c:kernel_gamma2d", "src/gamma2t_1loop.c:kernel_gamma2t"])
p("C57", "Bispectrum pieces: reflection and relabelling symmetry",
  "bispectrum_1loop_II_III is invariant under q->-q and under simultaneous relabelling of (momentum, flag) pairs, and the A~ components are the A components with p and k-p exchanged.",
  "every momenta, flags and linear spectrum",
  "Algebraic identities over a continuum with guarded branches.",
  ["src/bispectrum_1loop.c:bispectrum_1loop_II_III", "src/bispectrum_1loop.c:bispectrum_1loop_I"])
p("C58", "bispectrum_1loop_I drops overdamped configurations (refuted)",
  "When the damping exponent exceeds 100 the eight outputs should be zero, as in the II/III part. The zeros are overwritten because the return is missing.",
  "every momenta and linear spectrum",
  "All inputs.",
  ["src/bispectrum_1loop.c:bispectrum_1loop_I"])
p("C59", "gamma3 integrand: half region and symmetry",
  "The restriction q.(k-p) <= |k-p|^2/2 in the gamma3 integrand is exactly |k-p-q|>=|q|, and the integrand density is symmetric under q <-> k-p-q, so doubling is legitimate.",
  "every p, q, k",
  "Continuum.",
  ["src/calc_pkcorr_from_gamma3.c:kernel_pk_gamma3_tree"])
p("C60", "Verbosity and flags",
  "Unknown flags silently mean delta; unknown verbosity modes leave the C verbosity unchanged while Python records the new name; creating (or slicing, or deep-copying) any object resets the global verbosity to 'info'.",
  "every string, every history",
  "All histories.",
  ["src/regpt.c:set_flag", "src/regpt.c:set_verbosity", "pyregpt/pyregpt.py:PyRegPT.__init__"])
p("C61", "Value of find_pk_lin between the tabulated points",
  "Inside the table, 'lin' mode returns the piecewise linear interpolant and 'poly' mode the value of the polynomial through the (at most five) tabulated points around the query: the bracketing entry, two before and two after, clipped at the ends of the table.",
  "every strictly increasing table with at least two points, every query inside it",
  "All tables and a continuum of queries.",
  ["src/common.c:find_pk", "src/common.c:interpol_poly", "src/common.c:interpol_lin"])
p("C62", "Exact and regularised gamma2 kernels are the same function",
  "The regularised form used near q=k1,k2,k3 and for nearly equal k1,k2 equals the exact form wherever its auxiliary functions are evaluated from their closed form, so switching between the two branches does not change the integrand.",
  "every positive (k1,k2,k3,q) away from the cut-offs of the auxiliary functions, both flags",
  "Identity between two expressions of several hundred lines each.",
  ["src/gamma2d_1loop.c:kernel_gamma2d_reg3rd", "src/gamma2d_1loop.c:kernel_gamma2d_exact", "src/gamma2t_1loop.c:kernel_gamma2t_exact"])
p("C63", "Accuracy of the closed forms of the 1-loop A terms",
  "The part of the 1-loop A terms without P(|k-q|), which the code evaluates by closed forms and series in x=q/k, equals the integral over the angle of the corresponding tree-level expression, up to a stated tolerance in the series regions and exactly elsewhere.",
  "every k>0, every node q, every linear spectrum, the five components",
  "A bound over a continuum, with five branches.",
  ["src/calc_pkcorr_from_A_1loop.c:kernel_a_1loop"])
p("C64", "The integrals never read or write outside their tables",
  "With a linear spectrum of at least two points and polynomial interpolation, every term of the 1- and 2-loop spectra, of the bias expansion and of A and B is computed without an access outside an array, whatever the values.",
  "every table and grid size, every output wavenumber, every arithmetic (NaN and infinities included)",
  "Depends on data through the number of angles, the skipped nodes and the interpolation indices.",
  ["src/calc_pkcorr_from_gamma2.c:calc_pk_gamma2_1loop", "src/calc_pkcorr_from_B.c:calc_pk_B", "src/calc_pkcorr_from_A_1loop.c:calc_pk_A_1loop", "src/calc_pkcorr_from_A_2loop_I.c:calc_pk_A_2loop_I"])
p("C65", "The terms do not depend on the unit of length",
  "If all wavenumbers are multiplied by s and the linear spectrum by 1/s^3 (a change of units), the propagators do not change and the terms with the dimension of a power spectrum are divided by s^3, at 1 loop, for the bias, A (1 loop) and B terms, and at 2 loops up to the gamma3 term. Constants with a unit break this for the gamma3 kernel and for the 1-loop bispectrum.",
  "every s>0, every linear spectrum and grid",
  "Holds for every unit, and fails wherever the code compares a wavenumber with a constant.",
  ["src/calc_pkcorr_from_gamma2.c:calc_pk_gamma2_tree", "src/calc_pkcorr_from_bias_1loop.c:calc_pk_bias_1loop", "src/bispectrum_1loop.c:gamma1_reg_1loop"])
p("C66", "The integrals are the quadratures of the integrands of perturbation theory",
  "The tree and 1-loop Gamma2, the six bias terms and the B terms returned are k^3/(2 pi^2) (or k^3/(4 pi^2)) times the iterated quadrature, over the allowed region, of the integrands given by the standard second-order kernels; the redshift-space weights are azimuthal averages of the couplings to the line of sight.",
  "every linear spectrum, grid and k>0",
  "Equality of two expressions for every grid and spectrum.",
  ["src/calc_pkcorr_from_gamma2.c:calc_pk_gamma2_tree", "src/calc_pkcorr_from_gamma2.c:calc_pk_gamma2_1loop", "src/calc_pkcorr_from_bias_1loop.c:calc_pk_bias_1loop", "src/calc_pkcorr_from_B.c:kernel_B"])
p("C67", "set_running_uvcutoff sets the cutoff it names; 'all' sets all of them (refuted for 'all')",
  "set_running_uvcutoff(name,u) sets the cutoff of that calculation and nothing else. 'all' should set the cutoff of every running variance: it misses B and both A terms, whose setters have another name that Python can only call with arguments of the wrong types.",
  "every name, every value, every prior state of the settings", "Quantifies over all states and names.",
  ["pyregpt/pyregpt.py:PyRegPT.set_running_uvcutoff", "src/spectrum_A_1loop.c:set_precision_A_1loop_sigmad2", "src/spectrum_B.c:set_running_uvcutoff_B"])
p("C68", "rescale either scales the whole object or nothing (refuted)",
  "A rescale that raises should leave the object as it was. A column the user added makes it raise KeyError after the columns before it were scaled.",
  "every object and growth factor", "All contents and orders of the columns.",
  ["pyregpt/pyregpt.py:Terms.rescale", "pyregpt/pyregpt.py:Terms.__setitem__"])
p("C69", "sigma_r of the linear spectrum",
  "sigmar(r) is the square root of the trapezoidal integral of P(k) (W(kr) k)^2 / (2 pi^2) with the top-hat window W, and sigmar(r,Dgrowth=D) is |D| times sigmar(r).",
  "every table of non-negative P, radius and D", "Identity over all tables.",
  ["pyregpt/pyregpt.py:Terms.sigmar", "pyregpt/pyregpt.py:Terms.sigma8"])
p("C70", "No program corrupts memory by the objects alone; settings can be changed at any time",
  "After any program, whatever it did and whichever statements raised, every array lies within its memory and every attribute leads to a live object. Statements which do not use what the library points to (constructors, column access and assignment, slices, copies, settings, verbosity, dropping) never crash, in any state; set_precision and clear always succeed and change the settings they name only.",
  "every program of any length over all statements of the API, every state it reaches",
  "Ranges over all histories, including those which leave dangling pointers in the library.",
  ["pyregpt/pyregpt.py:Terms.__setitem__", "pyregpt/pyregpt.py:Terms.__getitem__", "pyregpt/pyregpt.py:PyRegPT.deepcopy", "pyregpt/pyregpt.py:PyRegPT.set_precision", "pyregpt/pyregpt.py:PyRegPT.clear"])
p("C71", "The wavenumbers of an object may be replaced between set_terms and run_terms (refuted)",
  "Assigning obj['k'] or calling pad_k after set_terms should either be used by the next run_terms or be rejected. The library keeps a pointer to the old array, which has been freed: run_terms reads freed memory.",
  "every object which is ready to run, every new array",
  "The crash depends on which references survive, over all states.",
  ["pyregpt/pyregpt.py:Terms.__setitem__", "pyregpt/pyregpt.py:Terms.pad_k", "pyregpt/pyregpt.py:Spectrum1Loop.run_terms"])
p("C72", "set_spectrum_lin takes any table (refuted for slices with a step)",
  "set_spectrum_lin(l) should make the library use the elements of l['k'] and l['pk']. It uses the consecutive cells from the first element on: these are the elements if the arrays have no step; for lin[::2] they are others, and for lin[::-1] they lie beyond the memory of the array.",
  "every table, every slice, every state", "All slices of all arrays.",
  ["pyregpt/pyregpt.py:PyRegPT.set_spectrum_lin", "pyregpt/pyregpt.py:Terms.__getitem__"])
p("C73", "A set_pk_lin which raises changes nothing (refuted)",
  "If set_pk_lin raises because the arrays have different lengths, the object should keep its spectrum. It has the new one already, and the library points to the freed memory of the old one: find_pk_lin and calc_running_sigmad2 then read freed memory.",
  "every state, every valid spectrum, every pair of arrays of different lengths", "All states and arrays.",
  ["pyregpt/pyregpt.py:PyRegPT.set_pk_lin", "pyregpt/pyregpt.py:PyRegPT.set_spectrum_lin"])
p("C74", "Empty arrays are accepted (refuted with the default verbosity)",
  "set_pk_lin([],[]) and set_terms([]) should be accepted or rejected. With the verbosity 'info', which every constructor sets, the library prints the first and the last element and reads beyond the arrays, in every state.",
  "every state with verbosity info, every class", "An out-of-bounds read in every state.",
  ["src/spectrum_1loop.c:set_terms_spectrum_1loop", "src/regpt.c:set_pk_lin", "pyregpt/pyregpt.py:Spectrum1Loop.set_terms"])
p("C75", "Using the library before a linear spectrum was given is rejected (refuted)",
  "find_pk_lin, calc_running_sigmad2 and run_terms of an object should raise if no linear spectrum was ever given. After any program without set_pk_lin, set_spectrum_lin and the like they dereference a null pointer.",
  "every program which gives no linear spectrum, every object and class", "All programs.",
  ["pyregpt/pyregpt.py:PyRegPT.find_pk_lin", "pyregpt/pyregpt.py:Spectrum1Loop.run_terms", "src/common.c:find_pk_lin"])
p("C76", "The tabulated spectrum is returned exactly, rounding included",
  "find_pk_lin at a wavenumber of the table returns the tabulated value itself, not only up to rounding, in every mode of interpolation (except 'lin' at the last wavenumber): in every arithmetic with a monotonic rounding which never makes the difference of two distinct numbers zero, such as IEEE doubles. In doubles with overflow it returns the tabulated value or NaN; NaN occurs when the slope between two wavenumbers overflows (refuted).",
  "every table of increasing wavenumbers, every values (NaN and infinities included for doubles), every mode, every ascending choice of tabulated wavenumbers", "All tables of doubles.",
  ["src/common.c:find_pk", "src/common.c:interpol_poly", "src/common.c:interpol_lin", "pyregpt/pyregpt.py:PyRegPT.find_pk_lin"])
p("C77", "Rounding makes no lookup with 'lin' and no running variance negative",
  "For a table without negative values, rounded arithmetic gives find_pk_lin(k, interpol='lin') >= 0, rising with k between two tabulated wavenumbers where the table rises and falling where it falls, and calc_running_sigmad2 >= 0. The interpolation can however pass the larger of the two tabulated values, and the running variance can fall when the cutoff rises (both refuted, by one unit in the last place).",
  "every table, every list of wavenumbers, every rounding", "All tables and all roundings.",
  ["src/common.c:find_pk", "src/common.c:interpol_lin", "src/common.c:extrapol_pk_lowk", "src/common.c:extrapol_pk_highk", "src/common.c:calc_running_sigmad2"])
p("C78", "The running variance is computed to a relative error of (n + 17) units for n tabulated points",
  "In an arithmetic whose operations have relative errors of at most u, calc_running_sigmad2 differs from the integral of the interpolated spectrum, up to the cutoff as rounded, by a factor between (1-u)^(n+17) and its inverse, n being the length of the table: below 1e-12 for 53 bits and up to 5000 points. power(x,n) is within n such factors of x^n.",
  "every table without negative values, every ascending list of wavenumbers, every u up to 1/100", "A bound over all tables and roundings.",
  ["src/common.c:calc_running_sigmad2", "src/common.c:power", "src/common.c:interpol_lin"])
p("C79", "The spectrum of a field with itself is never negative",
  "If no lookup of the linear spectrum is negative, pk() of the 1-loop and 2-loop spectra with flag_a = flag_b is not negative, for every growth factor and damping. Lookups are not negative with linear interpolation of a table without negative values; with the default polynomial interpolation they can be, and then some growth factor makes pk() negative although the table is positive (refuted).",
  "every linear spectrum, precision setting, list of wavenumbers, growth factor and damping", "A property of sums over all nodes for every input.",
  ["pyregpt/pyregpt.py:Spectrum1Loop.pk", "pyregpt/pyregpt.py:Spectrum2Loop.pk", "src/calc_pkcorr_from_gamma2.c", "src/common.c:find_pk", "src/common.c:nodes_weights_gauss_legendre"])
p("C80", "The spectra of two fields satisfy the inequality of Cauchy and Schwarz",
  "pk() of the fields a and b squared is at most pk() of a times pk() of b, at every wavenumber, for the same wavenumbers, settings, linear spectrum, growth factor and damping (at 2 loops: if the integrals returned by Suave satisfy it).",
  "every linear spectrum without negative lookups, setting, list of wavenumbers, growth factor and damping", "Relates three runs, for all inputs.",
  ["pyregpt/pyregpt.py:Spectrum1Loop.pk", "pyregpt/pyregpt.py:Spectrum2Loop.pk", "src/calc_pkcorr_from_gamma2.c"])
p("C81", "The kernels of the second-order vertex never divide by zero",
  "For wavenumbers k1, k2, k3 > 0 which form a triangle and not a segment, and q > 0, the 1-loop kernel of gamma2 chosen by the code meets no division by zero, no logarithm of a number which is not positive and no root of a negative number, also at q = k1, k2, k3 and k1 = k2 where the exact form does. For three collinear wavenumbers it can be 0/0 (refuted).",
  "every triangle, every q > 0, both fields", "The denominators vanish on surfaces of the space of arguments.",
  ["src/gamma2d_1loop.c:kernel_gamma2d", "src/gamma2t_1loop.c:kernel_gamma2t", "src/kernels.c:WFunc", "src/kernels.c:big_beta"])
p("C82", "Lookups and running variances are numbers",
  "find_pk_lin at positive wavenumbers and calc_running_sigmad2 meet no 0/0, logarithm or power outside its domain, for every table of at least three increasing positive wavenumbers and any values of the spectrum, negative or zero ones included. Outside a table of two points, or at k = 0, they can (refuted).",
  "every table, mode of interpolation and list of wavenumbers", "All tables and all queries.",
  ["src/common.c:find_pk", "src/common.c:extrapol_pk_lowk", "src/common.c:extrapol_pk_highk", "src/common.c:interpol_poly", "src/common.c:calc_running_sigmad2", "pyregpt/pyregpt.py:PyRegPT.find_pk_lin"])
p("C83", "No column of a run contains NaN from an operation outside its domain",
  "For every class, run_terms() at positive wavenumbers computes all its columns without a division by zero, a logarithm of a number which is not positive, a root of a negative number or a power outside its domain: 1-loop and 2-loop spectra, bias, A and B terms, for every table of at least three increasing positive wavenumbers.",
  "every class, linear spectrum, list of positive wavenumbers and precision setting whose quadrature nodes exist", "Every node of every integral of every input.",
  ["pyregpt/pyregpt.py:run_terms", "src/calc_pkcorr_from_gamma2.c", "src/calc_pkcorr_from_gamma3.c", "src/calc_pkcorr_from_A_2loop_II_III.c", "src/bispectrum_1loop.c"])
p("C84", "The 2-loop A terms combine bispectra as the 1-loop ones do",
  "The five columns of the A terms are fixed combinations of angular weights and bispectra of the density and the velocity divergence: the tree-level bispectrum at 1 loop, the regularised bispectrum in the first part at 2 loops and the loop terms B_222 + B_321 in the second part (the integrand given to Suave, with its Jacobian). The combinations are the same in the three.",
  "every wavenumber, node, angle, point of the unit cube, linear spectrum and propagator", "An identity between integrands at every point.",
  ["src/calc_pkcorr_from_A_1loop.c", "src/calc_pkcorr_from_A_2loop_I.c", "src/calc_pkcorr_from_A_2loop_II_III.c"])
p("C85", "Every column is the named integral",
  "After run_terms() each column at each wavenumber is the integral its name stands for, evaluated with the quadrature nodes and weights of the settings: propagators at 1 and 2 loops, the second-order vertex at tree level and 1 loop, the third-order one by Suave, bias, A and B terms, linear spectrum and running variance. The 1-loop propagators computed are those of perturbation theory up to the error of the two series of the kernel.",
  "every class, linear spectrum, list of positive wavenumbers, setting and number of threads", "A statement about every row of every run.",
  ["pyregpt/pyregpt.py:run_terms", "src/spectrum_1loop.c", "src/spectrum_2loop.c", "src/spectrum_bias_1loop.c", "src/spectrum_A_1loop.c", "src/spectrum_A_2loop.c", "src/spectrum_B.c", "src/gamma1_1loop.c", "src/gamma1_2loop.c"])
p("C86", "On the largest scales the loop corrections of the propagators vanish as k^2 with the coefficients of perturbation theory",
  "After run_terms() of the 1-loop and 2-loop spectra at wavenumbers far below those of the integrals, the 1-loop propagator columns are -61/210 k^2 sigma^2 (density) and -9/10 k^2 sigma^2 (velocity divergence), sigma^2 being the displacement variance of the quadrature, and the 2-loop columns are half their squares minus k^2 times the integral of beta(q1,q2)/(q1^2+q2^2); the remainders are bounded by explicit constants times k^4.",
  "every linear spectrum, setting, wavenumber below a tenth of the nodes (1 loop) or any wavenumber (2 loops), both fields", "A limit, with a bound for every input.",
  ["src/gamma1_1loop.c", "src/gamma1_2loop.c", "src/calc_pkcorr_from_gamma1.c", "pyregpt/pyregpt.py:Spectrum2Loop"])
p("C87", "On the smallest scales the propagators expand the exponential damping",
  "At wavenumbers far above those of the integrals the 1-loop propagator columns of both fields are -k^2 sigma^2/2 up to a constant independent of k, and the 2-loop columns are half the squares of the 1-loop ones up to a constant times k^2, so that they are the first terms of exp(-k^2 sigma^2/2): this is what the resummed pk() relies on.",
  "every linear spectrum, setting, wavenumber above twice the nodes (1 loop) or any wavenumber (2 loops), both fields", "A limit, with a bound for every input.",
  ["src/gamma1_1loop.c", "src/gamma1_2loop.c", "src/calc_pkcorr_from_gamma1.c", "pyregpt/pyregpt.py:Spectrum1Loop.pk", "pyregpt/pyregpt.py:Spectrum2Loop.pk"])
p("C88", "The interpolation and quadrature helpers can be called with any numpy arrays",
  "interpol_poly(x, tabx, taby) is the value at x of the unique polynomial of lowest degree through the points of two arrays of doubles, wherever they begin in their buffers; different lengths raise AssertionError and another type ArgumentError. It is not so (refuted) for arrays with a step, such as a[::2] or a[::-1], or without elements. interpol_lin is the chord between the first and the last points, whatever is between. nodes_weights_gauss_legendre does not depend on what was in the memory of its new arrays.",
  "every pair of arrays, x, number of nodes and content of the uninitialised memory", "Every array layout and every content of uninitialised memory.",
  ["pyregpt/pyregpt.py:PyRegPT.interpol_poly", "pyregpt/pyregpt.py:PyRegPT.interpol_lin", "pyregpt/pyregpt.py:PyRegPT.nodes_weights_gauss_legendre", "src/common.c:interpol_poly", "src/common.c:interpol_lin", "src/common.c:nodes_weights_gauss_legendre"])
p("C89", "Choosing rows of an object commutes with everything computed from it",
  "o[ix], with a slice, a mask or an array of positions, has the columns of o with the chosen rows; every spectrum of o[ix] equals the chosen rows of that spectrum of o, bit by bit; rescale and nan_to_zero can be done before or after; o[ix] = e writes e to exactly the chosen rows of every column.",
  "every object, class, index, growth factor and damping", "All indices and all objects; the equality is exact.",
  ["pyregpt/pyregpt.py:Terms.__getitem__", "pyregpt/pyregpt.py:Terms.__setitem__", "pyregpt/pyregpt.py:Terms.rescale", "pyregpt/pyregpt.py:Terms.nan_to_zero", "pyregpt/pyregpt.py:Spectrum1Loop.pk", "pyregpt/pyregpt.py:Spectrum2Loop.pk", "pyregpt/pyregpt.py:Bias1Loop"])
p("C90", "An object is a dict of columns",
  "After any sequence of o[name] = v and o.pop(name), o[name], name in o, pop, as_dict and tolist give the column last assigned and not popped since, or KeyError; iteration yields the names of FIELDS which are there, in the order of FIELDS. Columns with other names are not iterated over (refuted).",
  "every history of assignments and pops", "All histories.",
  ["pyregpt/pyregpt.py:Terms.__getitem__", "pyregpt/pyregpt.py:Terms.__setitem__", "pyregpt/pyregpt.py:Terms.__contains__", "pyregpt/pyregpt.py:Terms.__iter__", "pyregpt/pyregpt.py:Terms.tolist", "pyregpt/pyregpt.py:Terms.pop", "pyregpt/pyregpt.py:Terms.as_dict"])
p("C91", "Each single spectrum is its column times the growth factors, and damping only reduces it",
  "o.pk_lin(D), o.pk_b2d(D), ..., o.pk(D) of the A, B and linear classes return the column of that name times D^2 per linear spectrum in it; pk_sigma3sq(D) is D^4 pk_lin sigma3sq. pk_b22_damp, pk_b2s2_damp and pk_bs22_damp are D^4 (exp(-f)(1+f))^2 times the column with f = k^2 D^2 sigmad2/2, where a sigmad2 given by the caller replaces that of the object, here and in pk of the one- and two-loop spectra. For sigmad2 >= 0 a damped spectrum has the sign of the undamped one, is not larger, differs by at most 2 f^2 of it, and decreases with sigmad2.",
  "every class, content of the columns, growth factor, given sigmad2", "All contents and growth factors.",
  ["pyregpt/pyregpt.py:scale_factor", "pyregpt/pyregpt.py:damping_factor", "pyregpt/pyregpt.py:Bias1Loop", "pyregpt/pyregpt.py:Spectrum1Loop.pk", "pyregpt/pyregpt.py:Spectrum2Loop.pk"])
p("C92", "pad_k gives the new wavenumbers linear theory",
  "After o.pad_k(k) with some k beyond the last wavenumber, the wavenumbers are those of k below the first one, the old ones and those of k above the last one; columns given by keyword, parallel to k, supply the values at the new wavenumbers and every other column gets the constant. For an object with a linear spectrum pk_lin and sigmad2 are recomputed at all wavenumbers, so that at the new ones pk(D) is the damped linear spectrum, D^2 P (exp(-f)(1+f))^2 for one loop and D^2 P (exp(-f)(1+f+f^2/2))^2 for two. The old rows keep pk_lin and sigmad2 if they were computed with 'poly' and the cutoff 1/2; with another cutoff sigmad2 changes (refuted).",
  "every object of a class with one-dimensional columns, wavenumbers, padding, keyword columns, linear spectrum, growth factor", "All contents and paddings.",
  ["pyregpt/pyregpt.py:Terms.pad_k", "pyregpt/pyregpt.py:PyRegPT.pad_k", "pyregpt/pyregpt.py:PyRegPT.calc_running_sigmad2"])
p("C93", "The Gauss-Legendre rules are right for every number of nodes",
  "For every number of nodes n >= 1 and every interval the computation of the quadrature rule ends, after at most six Newton steps for each node, without dividing by zero. The nodes are increasing and inside the interval and the weights are positive. The i-th node is the i-th root of the Legendre polynomial of degree n mapped to the interval, up to 7e-15 of its half-length (all roots occur, none twice), and each weight has a relative error of at most 6e-14 (n+1/2)^2. The quadrature of a function which is bounded by M, lam-Lipschitz and within eta of a polynomial of degree below 2n misses its integral by at most (b-a)(2 eta + 6e-14 (n+1/2)^2 M + lam (b-a) 3.4e-15).",
  "every number of nodes, interval, integrand", "All n, all intervals and all integrands; convergence of Newton's iteration from the initial guess of the code to the right root needs an argument on Legendre polynomials of every degree.",
  ["src/common.c:nodes_weights_gauss_legendre", "src/common.c:init_gauss_legendre_q", "src/common.c:init_gauss_legendre_mu"])
p("C94", "Every run ends and fills its columns",
  "With cubic interpolation, a linear spectrum of at least two points and any precision settings the setters accept (any number of nodes, any range), each of the six run_terms functions ends, whatever the wavenumbers, the number of threads and the interleaving: nothing goes wrong, every column of every row is filled with the values of its wavenumber, all tables are freed and nothing else is changed.",
  "every setting, spectrum, list of wavenumbers, number of threads, distribution of rows, interleaving", "All settings, inputs and schedules.",
  ["src/spectrum_1loop.c:run_terms_spectrum_1loop", "src/spectrum_2loop.c:run_terms_spectrum_2loop", "src/spectrum_bias_1loop.c:run_terms_bias_1loop", "src/spectrum_A_1loop.c:run_terms_A_1loop", "src/spectrum_A_2loop.c:run_terms_A_2loop", "src/spectrum_B.c:run_terms_B", "src/common.c:nodes_weights_gauss_legendre", "src/common.c:init_gauss_legendre_q", "src/common.c:find_pk"])
p("C95", "The propagators converge to the integrals of perturbation theory",
  "For every number of nodes n a Gauss-Legendre rule of the library misses the integral of a function bounded by M and lam-Lipschitz on [a, b] by at most (b-a)(lam (b-a)/sqrt(2n-1) + 6e-14 (n+1/2)^2 M + lam (b-a) 3.4e-15). The columns gamma1a_1loop and gamma1b_1loop at k are k^3/(2 pi^2) times the integral over ln q of the exact kernel of perturbation theory at q/k times the spectrum, between the ends of the range set for the table, up to this error with n nodes and 3e-5 times the largest |P(q)|, the length of the range and k^3/(2 pi^2) (the series of the kernels). For every spectrum, range inside it and k > 0 the integrand is bounded and Lipschitz.",
  "every number of nodes, spectrum, range, wavenumber and field", "All numbers of nodes and all spectra; the limit is an integral over a continuum.",
  ["src/common.c:nodes_weights_gauss_legendre", "src/common.c:init_gauss_legendre_q", "src/gamma1_1loop.c:gamma1_1loop", "src/spectrum_1loop.c:run_terms_spectrum_1loop", "src/spectrum_2loop.c:run_terms_spectrum_2loop"])
p("C96", "The one-loop correction and the bias terms converge to the integrals of perturbation theory",
  "For n nodes in q and m in the angle, the sums over q and, at each q, over the angles where |k-q| is between the first and last node, miss the integral over ln q and the angle where q and |k-q| are between the ends of the range by at most an explicit bound in n, m, k, the range and a bound and Lipschitz constant of the integrand, which goes as 1/sqrt(2n-1) + 1/sqrt(2m-1) until the tolerance of the Newton iteration is felt. So the tree x tree column of the 1-loop and of the 2-loop terms is k^3/(2 pi^2) times the integral of x^3 P(q) P(|k-q|) F_a F_b, and each of the eight columns of the bias terms is k^3/(4 pi^2) times its integral, twice that over q < |k-q| where the integrand is symmetric, up to this error. For every spectrum, range inside it and k > 0 such bounds of the integrands exist.",
  "every number of nodes in q and angle, spectrum, range, wavenumber and field", "All numbers of nodes and all spectra; the limit is an integral over a region whose ends depend on q, and the code replaces the ends of the range by the first and last node.",
  ["src/common.c:nodes_weights_gauss_legendre", "src/common.c:init_gauss_legendre_q", "src/common.c:init_gauss_legendre_mu", "src/calc_pkcorr_from_gamma2.c:set_mu_range", "src/calc_pkcorr_from_gamma2.c:calc_pk_gamma2_tree", "src/calc_pkcorr_from_bias_1loop.c:set_mu_range", "src/spectrum_1loop.c:run_terms_spectrum_1loop", "src/spectrum_2loop.c:run_terms_spectrum_2loop", "src/spectrum_bias_1loop.c:run_terms_bias_1loop"])
p("C97", "A lookup converges to the spectrum the table samples",
  "Let the table hold the values of a smooth function at increasing wavenumbers at most h apart. At every wavenumber between the first and the last one the 'poly' lookup differs from the function by at most M3 h^3/12, M4 h^4/16 or M5 h^5/40 (three, four or five samples in the window; M2 h^2/8 for a table of two), the 'lin' lookup, below the last wavenumber, and pk_interp of the Python objects by at most M2 h^2/8, where Mj bounds the j-th derivative. Outside the range pk_interp gives the values the caller chose.",
  "every smooth function, table of samples with any spacing, wavenumber", "All functions and all grids.",
  ["src/common.c:find_pk", "src/common.c:interpol_poly", "src/common.c:interpol_lin", "pyregpt/pyregpt.py:Terms.pk_interp"])
p("C98", "The variances converge to their integrals",
  "For a table of samples of a function with two derivatives at increasing wavenumbers at most h apart, calc_running_sigmad2 at k is the integral of the function from the first wavenumber to k times the cutoff (at most the last wavenumber) over 6 pi^2 up to M2 h^2/8 times the length of the range over 6 pi^2; sigmav() is the square root of the integral over the whole range over 6 pi^2, and sigmar(r) that of the integral of P(q) (W(q r) q)^2 over 2 pi^2, W the Fourier transform of a sphere, up to the square root of such an error.",
  "every smooth spectrum, table of samples, wavenumber, cutoff, radius", "All functions and all grids.",
  ["src/common.c:calc_running_sigmad2", "pyregpt/pyregpt.py:Terms.sigmav", "pyregpt/pyregpt.py:Terms.sigmar"])
p("C99", "The computed columns converge to the perturbation theory of the spectrum itself",
  "When the linear spectrum given to the library samples a smooth function P within the range of the tables, gamma1a_1loop, gamma1b_1loop, the tree x tree correction and the eight bias terms at k are the integrals of perturbation theory over P (not over its interpolation), up to the error of the quadrature (C95, C96) plus a constant times the interpolation error of C97. The constants depend on P, k and the range of the integrals only, not on the table or on the numbers of nodes, and exist for every P with a bounded derivative.",
  "every smooth spectrum, table of samples, numbers of nodes, range, wavenumber, field", "All spectra, grids and numbers of nodes; the limit is an integral over a continuum.",
  ["src/common.c:find_pk", "src/common.c:nodes_weights_gauss_legendre", "src/gamma1_1loop.c:gamma1_1loop", "src/calc_pkcorr_from_gamma2.c:calc_pk_gamma2_tree", "src/spectrum_1loop.c:run_terms_spectrum_1loop", "src/spectrum_2loop.c:run_terms_spectrum_2loop", "src/spectrum_bias_1loop.c:run_terms_bias_1loop"])
p("C100", "The B terms converge to their integrals",
  "Each of the nine columns of the B terms at k is, up to an error that goes to zero with the numbers of nodes until the tolerance of the Newton iteration is felt, k^3/(2 pi^2) times the integral over ln q and the angle, where q <= |k-q| and both are in the range of the table, of the coefficient of a power of the cosine to the line of sight in the average over the azimuth of the products of couplings and of the velocity-density and velocity-velocity spectra. These coefficients are determined by the averages, and are bounded and Lipschitz for every pair of tables which covers the range.",
  "every pair of spectra, numbers of nodes, range, wavenumber, column", "All spectra and numbers of nodes; the limit is an integral over a continuum.",
  ["src/common.c:nodes_weights_gauss_legendre", "src/calc_pkcorr_from_B.c:calc_pk_B", "src/spectrum_B.c:run_terms_B"])
p("C101", "The 1-loop A terms converge to their integrals",
  "Each of the five columns of the 1-loop A terms at k is, up to an error that goes to zero with the numbers of nodes until the tolerances of the Newton iteration and of the closed forms are felt, k^3/(4 pi^2) times the integral over ln q of q/k times the integral over the angle of the tree-level bispectra of perturbation theory with the weights of the powers of the cosine to the line of sight: over the angles where |k-q| is in the range for the terms in P(|k-q|), over all angles for the terms in P(k) P(q). This asks for at least two nodes in q and for k below the sum of the first and last node. With one node the columns are zero.",
  "every spectrum, numbers of nodes, range, wavenumber, column", "All spectra and numbers of nodes; the limit is an integral over a continuum.",
  ["src/common.c:nodes_weights_gauss_legendre", "src/calc_pkcorr_from_A_1loop.c:calc_pk_A_1loop", "src/spectrum_A_1loop.c:run_terms_A_1loop"])
p("C102", "The 1-loop spectrum returned is the RegPT spectrum of the sampled linear spectrum",
  "When the linear spectrum given to the library samples a smooth function P which is not negative, Spectrum1Loop.pk on the columns left by run_terms returns, at each requested k within the table, the 1-loop RegPT spectrum of P: D^2 P(k) times the two resummed propagators plus D^4 times the damped one-loop correction, with the integrals of perturbation theory over P itself and the variance of the displacements of P below the cutoff. The error is stated: those of the quadrature (C95, C96), the interpolation (C97) and the trapezoidal variance (C98), propagated through the formula, in which they are not amplified by the exponentials.",
  "every smooth non-negative spectrum, table of samples, numbers of nodes, range, cutoff, growth factor, wavenumber, pair of fields", "All spectra, grids, numbers of nodes and growth factors; the limit is made of integrals over a continuum.",
  ["pyregpt/pyregpt.py:Spectrum1Loop.pk", "src/spectrum_1loop.c:run_terms_spectrum_1loop", "src/common.c:calc_running_sigmad2", "src/common.c:find_pk"])
p("C103", "The A and B columns returned are the integrals over the sampled spectra themselves",
  "When the tables given to the library are within delta of smooth spectra on the range of integration, each of the five columns of the 1-loop A terms and of the nine columns of the B terms computed by run_terms is the integral of tree-level perturbation theory over those spectra themselves, rather than over the interpolated tables. The error is stated: that of the quadrature and of the closed forms for the exact spectra, plus a term proportional to delta. Its constants depend on the spectra, the range and k, not on the tables or the numbers of nodes, and exist for all differentiable spectra.",
  "every smooth spectrum, table within delta of it, numbers of nodes, range, wavenumber inside the range (A), column", "All spectra, tables and numbers of nodes; the limit is made of integrals over a continuum.",
  ["src/calc_pkcorr_from_A_1loop.c:calc_pk_A_1loop", "src/calc_pkcorr_from_B.c:calc_pk_B", "src/common.c:find_pk", "src/spectrum_A_1loop.c:run_terms_A_1loop", "src/spectrum_B.c:run_terms_B"])
p("C104", "A1Loop.pk_interp and B1Loop.pk_interp return the redshift-space corrections of Taruya, Nishimichi & Saito",
  "When the tables given to the library are within delta of smooth spectra on the range of integration, A1Loop.pk_interp and B1Loop.pk_interp called at a tabulated wavenumber, with any growth rate f, cosine nu to the line of sight and growth factor D, return D^4 A(k, nu) and D^4 B(k, nu). Here A and B are written as in Taruya, Nishimichi & Saito (2010), eqs. 19 and 20: integrals over the vector q of products with its component along the line of sight of the tree-level bispectrum of velocity and redshift-space density (A), and of two velocity spectra (B), with no reference to the five and nine components or their powers of f and nu. The error is stated: that of the quadrature, of the closed forms and of the tables, weighted like the components. Its constants exist for all differentiable spectra.",
  "every smooth spectrum, table within delta of it, growth rate, angle to the line of sight, growth factor, numbers of nodes, range, tabulated wavenumber", "All spectra, angles, growth rates and numbers of nodes; the limit is an integral over a continuum of vectors.",
  ["pyregpt/pyregpt.py:A1Loop.pk_interp", "pyregpt/pyregpt.py:B1Loop.pk_interp", "src/calc_pkcorr_from_A_1loop.c:calc_pk_A_1loop", "src/calc_pkcorr_from_B.c:calc_pk_B", "src/spectrum_A_1loop.c:run_terms_A_1loop", "src/spectrum_B.c:run_terms_B"])
p("C105", "Rounding changes the assembled spectra by a stated amount, and never makes a 1-loop auto-spectrum negative",
  "In any arithmetic whose operations have a relative error of at most u, with exp and pow right to e such errors, Spectrum1Loop.pk, Spectrum2Loop.pk and the C functions spectrum_1loop and spectrum_2loop return the published formula of their columns with an error of 4e+2m+23, 4e+2m+44, 2e+2m+23 and 2e+2m+44 errors u, relative to the same formula with the absolute values of the columns; m is 16 times the damping exponent. For the damped bias spectra the error is of 3e+m+17 errors relative to the value itself. With 53 bits all of these are less than 1e-12 up to 5017 errors. The 1-loop spectrum of one field is never negative, however coarse the rounding; in the C function even whatever exp returns.",
  "every arithmetic of relative error at most 1/100, every C library of stated accuracy, every content of the columns, growth factor >= 0 and velocity dispersion >= 0", "All roundings and all contents of the columns, with any cancellation between the terms.",
  ["pyregpt/pyregpt.py:Spectrum1Loop.pk", "pyregpt/pyregpt.py:Spectrum2Loop.pk", "pyregpt/pyregpt.py:damping_factor", "src/spectrum_1loop.c:spectrum_1loop", "src/spectrum_2loop.c:spectrum_2loop"])
p("C106", "Rounding changes a spectrum looked up between tabulated wavenumbers by a stated amount",
  "In any arithmetic whose operations have a relative error of at most u, a polynomial lookup inside the table succeeds and returns the value of the polynomial through the at most five points around the wavenumber, with an error of 21 errors u times the largest of their values times a factor depending on the spacings only: 1 + 6c + 18c^2 + 36c^3 + 54c^4 where the spacings around each point differ by at most a factor c (c = 1 for an evenly spaced table, r^3 for a table with ratio r between wavenumbers). A linear lookup returns the chord with 6 errors u times three times the largest value. With 53 bits and even spacing the polynomial lookup is right to 3e-13 of the largest tabulated value.",
  "every arithmetic of relative error below 1, every increasing table of at least two points, every ascending array of wavenumbers in its range", "All tables, all wavenumbers and all roundings, including those which change the point the algorithm starts from.",
  ["src/common.c:interpol_poly", "src/common.c:interpol_lin", "src/common.c:find_pk", "pyregpt/pyregpt.py:PyRegPT.find_pk_lin"])
p("C107", "The bias spectra returned are the integrals over the sampled linear spectrum itself",
  "When the linear spectrum given to the library samples a smooth function P, the methods of Bias1Loop, on the columns left by run_terms, return at each requested k within the table: D^4 times the integral of perturbation theory over P, for each of pk_b2d, pk_bs2d, pk_b2t, pk_bs2t, pk_b22, pk_b2s2 and pk_bs22; D^4 P(k) times the integral for pk_sigma3sq; and for pk_b22_damp, pk_b2s2_damp and pk_bs22_damp, when P is not negative, D^4 times the integral damped by the variance of the displacements of P below the cutoff. The error is stated: those of the quadrature, the interpolation and the trapezoidal variance, which the exponentials do not amplify.",
  "every smooth spectrum, table of samples, numbers of nodes, range, cutoff, growth factor, wavenumber, bias spectrum", "All spectra, grids, numbers of nodes and growth factors; the limit is made of integrals over a continuum.",
  ["pyregpt/pyregpt.py:Bias1Loop", "src/spectrum_bias_1loop.c:run_terms_bias_1loop", "src/common.c:calc_running_sigmad2", "src/common.c:find_pk"])
p("C108", "zeros leaves an empty object of the right shape, whatever it held before",
  "o.zeros(k) of every class of terms (all but the linear spectra) stores k, sets every other declared column to zeros, one per wavenumber and component, keeps columns which are not declared, and does not depend on what the declared columns held. The object is then complete: every method applies, and every spectrum read from it, for every growth factor, is zero and of the right length. For SpectrumLin the claim is refuted: zeros raises AttributeError after it has replaced k, so k and pk disagree in length.",
  "every class, previous content, k array, growth factor", "All previous contents and sizes.",
  ["pyregpt/pyregpt.py:Terms.zeros", "pyregpt/pyregpt.py:SpectrumLin", "pyregpt/pyregpt.py:Spectrum1Loop.set_terms"])
p("C109", "Rounding changes sigmav and sigmar by a stated amount, in whatever order numpy adds",
  "In any arithmetic whose operations have a relative error of at most u, with pow, sin and cos right to e such errors, sigmav() of a tabulated spectrum of n points without negative values is right to n + e + 10 relative errors u, and sigmar(r) to n + 5e + 32 errors u relative to the integral in which the two terms of the transform of the sphere are taken with their sizes: 3(2+x)/x^2 for x = k r, in place of 3(sin x - x cos x)/x^3. The trapezoidal sum itself is right to n + 4 relative errors, whatever the order and the bracketing in which its terms are added.",
  "every arithmetic of relative error at most 1/100, every C library of stated accuracy, increasing table, non-negative spectrum, radius, order of the additions", "All tables, spectra, roundings and orders of summation.",
  ["pyregpt/pyregpt.py:Terms.sigmav", "pyregpt/pyregpt.py:Terms.sigmar"])
p("C110", "The no-wiggle spectrum is that of Eisenstein & Hu, and has no wiggles",
  "SpectrumNoWiggle.transfer returns the published formula (Eisenstein & Hu 1998, eqs. 26, 28-31) of the densities, whether these are given as Omega, as omega = Omega h^2 or by default. It decreases strictly with k, from 1 with a difference of order k^2 on large scales, to 0, below a stated multiple of 1/k. run_terms stores k^n_s T(k)^2 times A or scaled to the first value of pk, changes no other column, and the spectrum divided by k^n_s is positive and decreases strictly. With neither pk nor A it raises TypeError; with an empty pk or no wavenumbers, IndexError.",
  "every combination of keywords with 0.045 <= Omega_m h^2 <= 1 and 0 < Omega_b <= Omega_m / 3, every array of wavenumbers, spectral index, reference spectrum", "A continuum of wavenumbers and cosmologies.",
  ["pyregpt/pyregpt.py:SpectrumNoWiggle.transfer", "pyregpt/pyregpt.py:SpectrumNoWiggle.run_terms"])
p("C111", "Rounding in pk_interp: exact at tabulated wavenumbers, a stated error between, and possibly a sign",
  "In any arithmetic whose operations have a relative error of at most u, pk_interp returns the tabulated spectrum itself at a tabulated wavenumber and left or right outside the table; between, the chord with an error of 6 errors u times three times the largest value. For the sums of A1Loop, A2Loop and B1Loop, B2Loop, with pow right to e errors, the errors are 2e+16 and 3e+21 relative to the same sums with the sizes of the weights and columns. That pk_interp of a spectrum without negative values is not negative, as the lookups of the library are (C77), is refuted: the value just below k = 0.8 of the table k = 0.07, 0.8 with pk = 3, 0 is negative in doubles.",
  "every arithmetic of relative error below 1, C library of stated accuracy, increasing table, content of the columns, wavenumber, angle, growth rate and growth factor", "All tables, wavenumbers and roundings.",
  ["pyregpt/pyregpt.py:Terms.pk_interp", "pyregpt/pyregpt.py:A1Loop.pk_interp", "pyregpt/pyregpt.py:B1Loop.pk_interp"])
p("C112", "Rounding leaves the shot-noise window its shape",
  "Whatever the rounding, shotnoise(kmin, kmax) returns values between 0 and 1, exactly 1 for wavenumbers from kmin to kmax, and never more for a wavenumber further from this range, provided exp of the C library is monotone and 1 at 0. With a relative error of at most u per operation and an exp right to e errors, the value differs from the window by at most e + 1 errors plus 5 errors times the square of the ratio of the wavenumbers plus one.",
  "every rounding (doubles with gradual underflow included), monotone exp, limits 0 < kmin <= kmax and array of wavenumbers in any order", "All limits, wavenumbers and roundings.",
  ["pyregpt/pyregpt.py:Bias1Loop.shotnoise"])
p("C113", "Rounding in rescale and in the spectra which are one column",
  "In any arithmetic whose operations have a relative error of at most u, with pow right to e errors, rescale(D) multiplies every element by D to twice the declared power up to e + 1 errors and leaves the wavenumbers unchanged bit for bit; rescale(D) followed by rescale(E) is rescale(D E) up to 2e + 2 errors; a spectrum which is one column is right to e + 1 errors; and reading it with Dgrowth = E after rescale(D) or with Dgrowth = D E differs by at most 3e + 3 errors. That rescale(1/D) undoes rescale(D) exactly is refuted: a spectrum of 1, rescaled by 10 and by 1/10 in doubles, is not 1.",
  "every arithmetic of relative error below 1, pow of stated accuracy, class, complete object, growth factors", "All objects, growth factors and roundings.",
  ["pyregpt/pyregpt.py:Terms.rescale", "pyregpt/pyregpt.py:scale_factor"])
p("C114", "pad_k accepts the modes of numpy.pad (refuted for all but 'constant')",
  "pad_k(k, mode='constant', ...) extends every column and takes the columns given by keyword at the new wavenumbers. With every other mode pad_k raises ValueError and leaves the object as it was, since it always hands constant_values to numpy.pad, which takes it in the mode 'constant' only.",
  "every class, object, mode, array of wavenumbers and keyword columns", "All modes and objects.",
  ["pyregpt/pyregpt.py:Terms.pad_k", "pyregpt/pyregpt.py:PyRegPT.pad_k"])
p("C115", "sigmav and sigmar of the A and B terms integrate over the wavenumbers (refuted)",
  "The column pk of the A terms (B terms) has 5 (9) components per wavenumber. sigmav and sigmar of these objects should be the integral of each component over the wavenumbers. They integrate over the last axis, that of the components: sigmav raises ValueError unless there are 2 or 5 (9) wavenumbers, sigmar unless there are 5 (9). Then the i-th value is the trapezoidal sum of the components at the i-th wavenumber, placed at the wavenumbers of the grid, or apart by the step of the two.",
  "every A and B class, complete object, number of wavenumbers, radius and growth factor", "All numbers of wavenumbers and objects.",
  ["pyregpt/pyregpt.py:Terms.sigmav", "pyregpt/pyregpt.py:Terms.sigmar", "pyregpt/pyregpt.py:Terms.reshape", "pyregpt/pyregpt.py:A1Loop", "pyregpt/pyregpt.py:B1Loop"])
p("C116", "pk_interp, sigmav, sigmar and sigma8 of every object are those of its spectrum (refuted for Bias1Loop)",
  "For a linear, a no-wiggle or a RegPT object, pk_interp(k, Dgrowth=D, sigmad2=s) is the piecewise linear function through the spectrum of the object at the growth factor D, with the dispersion of the object, a number or an array s, and left and right outside; sigmav, sigmar(r) and sigma8 with these keywords are the roots of its trapezoidal integrals, real if it is not negative, as for the 1-loop spectrum of one field. Bias1Loop inherits these methods but has no pk: all raise AttributeError. Linear and no-wiggle objects raise TypeError if sigmad2 is given.",
  "every class with a one-dimensional spectrum, complete object, wavenumber, radius, growth factor and dispersion", "All objects, growth factors and dispersions.",
  ["pyregpt/pyregpt.py:Terms.pk_interp", "pyregpt/pyregpt.py:Terms.sigmav", "pyregpt/pyregpt.py:Terms.sigmar", "pyregpt/pyregpt.py:Terms.sigma8", "pyregpt/pyregpt.py:Spectrum1Loop.pk", "pyregpt/pyregpt.py:Spectrum2Loop.pk", "pyregpt/pyregpt.py:Bias1Loop"])
p("C117", "After set_terms the A and B terms are zero and can be interpolated (refuted for A1Loop)",
  "Between set_terms and run_terms, pk_interp of A2Loop, B1Loop and B2Loop is 0 at every wavenumber, angle, growth rate and growth factor. For A1Loop it raises ValueError, as set_terms of this class leaves the array of the terms flat. After run_terms pk_interp of all four classes is the combination of the interpolated components.",
  "every A and B class, array of wavenumbers, wavenumber, angle, growth rate and growth factor", "All grids and arguments.",
  ["pyregpt/pyregpt.py:A1Loop.set_terms", "pyregpt/pyregpt.py:A1Loop.run_terms", "pyregpt/pyregpt.py:A1Loop.pk_interp", "pyregpt/pyregpt.py:A2Loop.set_terms", "pyregpt/pyregpt.py:B1Loop.set_terms", "pyregpt/pyregpt.py:Terms.reshape"])
p("C118", "sigmar and the radius: smoothing reduces the variance, and the displacements bound it",
  "For a linear, no-wiggle or RegPT object whose spectrum is not negative, sigmar(r) is at most the root of the variance of the field itself, for every radius; it is at least this root times 1 - (k_max r)^2 / 10, and so tends to it for small radii; and sigmar(r) is at most 3 sqrt(3) / 2 times sigmav / r, with the same keywords. That the radius 0 gives the field itself is refuted: sigmar(0) divides 0 by 0 and is not a number.",
  "every object with increasing positive wavenumbers, radius, growth factor and dispersion", "All objects, radii, growth factors and dispersions.",
  ["pyregpt/pyregpt.py:Terms.sigmar", "pyregpt/pyregpt.py:Terms.sigmav"])
p("C119", "RegPT is standard perturbation theory up to the next order, whatever the dispersion",
  "The spectrum of a 1-loop object differs from one-loop standard perturbation theory by at most D^6 times an explicit bound, and that of a 2-loop object from two-loop standard perturbation theory by at most D^8 times an explicit bound, for every growth factor D and every dispersion which is not negative, be it that of the object, a number or an array given as sigmad2. With sigmad2=0 the differences are exactly the products of the loops of higher order. Both spectra, and the damped terms of the bias, fall at least as the inverse square of a large dispersion, with explicit bounds.",
  "every 1-loop, 2-loop and bias object, growth factor and sigmad2, wavenumber by wavenumber", "All real growth factors, dispersions and values of the columns; the orders in D cannot be separated in a finite number of evaluations.",
  ["pyregpt/pyregpt.py:Spectrum1Loop.pk", "pyregpt/pyregpt.py:Spectrum2Loop.pk"])
out = os.path.join(os.path.dirname(os.path.abspath(__file__)), "..", "properties.jsonl")
with open(out, "w") as f:
    for o in P: f.write(json.dumps(o) + "\n")
print(len(P))
