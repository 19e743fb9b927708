# Formal model of adematti/pyregpt in Rocq (Coq 8.16.1)

`/repo` is a C library (`src/*.c`) driven through `ctypes` by one Python module
(`pyregpt/pyregpt.py`).  The model lives in `rocq/theories`; properties are listed in
`properties.jsonl`, their status in `MANIFEST.json`.

## Modelling decisions

* **Numbers.** Every C function is transcribed once over an abstract record `Num`
  (carrier, `+ - * /`, comparisons returning `bool`, literals, libm functions).
  Two instances: `RNum` (Coq's reals; theorems about numeric meaning) and `FNum`
  (primitive binary64 floats; concrete witnesses).  Theorems about control flow, memory
  safety, scheduling and state are stated for *every* `Num`, hence for doubles, NaN included.
  Theorems over `RNum` are about exact arithmetic: rounding is not modelled there.
  Two more instances are `ONum` (option R: an operation outside its domain has no value; C81-C83) and
  `QNum` (SpecRounded.v: every operation over the reals is followed by a rounding, any libm; C76-C78).
  Division by zero is `x * / 0` in Coq's reals, so theorems carry non-zero hypotheses wherever
  a C division could be by zero.
* **Undefined behaviour** is an outcome: computations live in `res A := Ok a | Err u` where `u`
  is an out-of-bounds access, a use after free, a null dereference, a Python exception, or the
  exhaustion of recursion fuel.  Array accesses are checked against the array length.
  `size_t` subtraction wraps modulo 2^64 where the code relies on it.
* **Loops** become the checked combinators `for_`/`for_brk` or structural recursion; the Newton
  `while` of the quadrature takes fuel, and theorems hold for every fuel for which it returns; C93 shows that 7 is enough in real arithmetic.
* **External code** (Cuba's Suave, libm, numpy/scipy primitives) are parameters or are given by
  a direct specification; see the trusted base.
* **Threads.** A parallel region is a list of programs whose only observable actions are reads
  and writes of shared cells; the semantics interleaves them arbitrarily.

## Plan per property

| id | what is modelled | how it is proved |
|----|------------------|------------------|
| C01 | `power`, `powers` | induction on the binary exponent / loop invariant |
| C02 | `get_dichotomy_index` over size_t indices | well-founded induction on window length, abstract strict order |
| C03 | `interpol_poly` with its arrays and wrapping index | Neville invariant; Lagrange form as specification; uniqueness by root counting |
| C04 | `interpol_lin` | algebra |
| C05,C06 | `find_pk`, `find_pk_lin` | from C02-C04, invariant on the carried start |
| C07,C08 | same | explicit counterexample on binary64 floats, and general statement for C08 |
| C09-C11 | `extrapol_pk_lowk/highk` | loop invariant (sum of equal slopes), `ln`/`Rpower` algebra |
| C12-C14 | `calc_running_sigmad2` | invariant relating (position, accumulator) to partial sums; integral spec |
| C15-C17 | `nodes_weights_gauss_legendre` | loop invariants; Legendre recurrence/derivative identities; Christoffel-Darboux for exactness |
| C18 | `init/update_gauss_legendre_q/mu` | algebra on the modelled tables |
| C19-C22, C67 | `set_precision`, setters, Python dispatcher, `clear` as a state machine | case analysis over the whole state |
| C23 | `init_*` against the precision registry | invariant / counterexample history |
| C24,C25 | `kernels.c` | `field`/`nra`, branch analysis of guards |
| C26 | `set_mu_range` variants | real analysis of a quadratic in mu |
| C27,C28 | integrand kernels | field identities |
| C29-C32 | `betafunc`, `kernel_ff/gg`, `beta` | power series, Taylor remainder |
| C33 | drivers as thread programs | generic non-interference theorem + footprint lemmas |
| C34 | histories of calls on a thread's tables, any arithmetic | outcome independent of the overwritten columns; a call changes nothing else |
| C35 | `computes` (the arrays of a run), the assembly in Python | lockstep of the two runs; the shortcut against a specification which computes everything, for every `Num` |
| C36 | allocation ledger of init/free pairs | induction on threads |
| C37-C39 | spectra state of `spectrum_B.c`, progress counter | state machine counterexamples, arithmetic |
| C40-C42 | Python objects + C pointers as a heap machine | invariants / counterexample histories |
| C43-C47, C68, C69 | Python `pk*`, `rescale`, C assembly | algebra; homogeneity lemmas of every kernel |
| C48-C50 | `Terms` methods on a heap of buffers | list lemmas, separation invariant |
| C51,C52 | flattened indices, `pk_interp` | arithmetic |
| C53-C55 | `shotnoise`, `transfer`, `SpectrumNoWiggle` | real analysis |
| C56 | generated expression trees of the gamma2 kernels | reflective degree checker proved sound |
| C57-C59 | bispectrum and gamma3 integrands | field identities, branch analysis |
| C60 | flag/verbosity state machine | case analysis |
| C61,C62 | interpolation; gamma2 kernels | Neville; field identities |
| C63 | `kernel_a_1loop` | integration in closed form, Taylor bounds |
| C64 | all integrals, any arithmetic | loop invariants |
| C65 | `computes` on a stretched spectrum, tables and settings | lockstep simulation of the two runs: every intermediate value has a fixed factor; refuted for the 2-loop A term and the guard of F3 |
| C70-C75 | the heap machine of C40-C42 | invariant of all statements; exact effect of each statement |
| C76 | `find_pk` over `QNum` and over `FNum` | Neville's scheme at a node: the columns keep the tabulated value because the correction is exactly 0; over `FNum` the value is that or NaN; the difference of distinct doubles is not 0 (gradual underflow, Flocq) |
| C77 | `interpol_lin`, `find_pk`, `calc_running_sigmad2` over `QNum` | monotonicity of the rounding; invariant of the loop; witnesses in doubles by evaluation |
| C78 | the same with relative errors | algebra of factors between (1-u)^n and its inverse; induction over the loop |
| C79,C80 | `computes`, the assembly in Python, on three runs (a,a), (a,b), (b,b) | lockstep of the three runs with the invariant x, z >= 0, y^2 <= x z; positive Gauss-Legendre weights by Christoffel-Darboux |
| C66 | integrals | invariants of the two loops, field identities |
| C81-C83 | the same definitions over `ONum`, the real numbers with a value None for operations outside their domain | lockstep with the run over the reals: every intermediate value is Some of the real one; the conditions of the generated expressions are collected by reflection and discharged branch by branch |
| C84 | `A_terms`, `calc_pk_A_2loop_I`, `kernel_A_tA_2loop_II_III` | one combination of weights and bispectra in SpecColumns.v; values of the three integrands |
| C85 | `computes` (the arrays of a run) | value of every integral by the invariants of its loops; composition along the row of each driver |
| C86,C87 | the propagator columns of a run (C85) | expansion of the 1-loop kernels with the remainder of artanh; bounds of the rational fits cc, dd, delta; sums over the nodes |
| C88 | PyHelpers.v: numpy views, `py_interpol_poly`, `py_interpol_lin`, `py_nodes_weights` | Neville's scheme on the window of the buffer (C03); structure of the node loop for any numbers |
| C89 | PyContainer.v: `positions`, `select`, `set_rows` | rows of a flattened array; element-wise functions commute with choosing rows |
| C90 | PyContainer.v: `iter`, `tolist`, `pop`, `as_dict`, `history` | induction on the history, against the last statement about each name |
| C91 | PyTerms.v: `accessor`, `pk_sigma3sq`, `pk_damped`, `pk_1loop`, `pk_2loop` | element by element; exp(-f)(1+f) decreases for f >= 0 from exp x >= 1 + x |
| C92 | PyPad.v: `pad_k_with`, `regpt_pad_k` | C48 for the padding; a loop over the keywords; lookups element by element (C06, C12); C45 for the spectra |
| C93 | Common.v: `newton`, `nodes_weights_gauss_legendre` | Pruefer phase of the Legendre equation puts the initial guess between a root and the next critical point, where Newton steps descend to the root (convexity); quadratic convergence gives six steps; Sonin's function bounds the weights; C17 for the exactness |
| C94 | Threads.v, Common.v | C93 for the tables, C33 for the interleavings, C06 for the lookups |
| C95 | Common.v, Kernels.v, SpecConv.v | Bernstein polynomials approximate a Lipschitz function; C93 for the rule; the kernels and the cubic lookup are Lipschitz |
| C96 | Common.v, Integrals.v, SpecConv.v | C95 twice: the inner rule on a range with ends depending on q, the outer one on a Lipschitz inner integral; distance of the extreme nodes from the ends by Bruns-type bounds on the roots |
| C97 | Common.v, PyTerms.v, SpecSamples.v | error term of interpolation by generalised Rolle; bound of the product of the distances to the samples |
| C98 | Common.v, PyTerms.v, SpecSamples.v | C97 for two points, integrated: the code integrates the piecewise linear function through the samples |
| C99 | Integrals.v, SpecConv.v, SpecSamples.v | the sums are Lipschitz in the spectrum (positive weights); triangle inequality with C95, C96 for the integrand of the spectrum itself |
| C100 | Integrals.v, SpecConv.v, SpecColumns.v | the azimuthal averages at four line-of-sight angles determine the components; C96's error of the two rules; the components are built from Lipschitz functions |
| C101 | Integrals.v, SpecConv2.v | C85 for the columns; the first and last node are close enough to the ends for every node to have an angle; C96's error of the two rules for the terms in P(\|k-q\|), C95's for the others, whose angular integrals are C63's closed forms |
| C102 | PyTerms.v, Integrals.v, SpecTotal.v | C99 for the propagators and the correction, C98 for the variance, C97 for the linear column; exp (-f) and exp (-f) (1 + f) have slopes of at most 1 for f >= 0 |
| C103 | Integrals.v, SpecConv3.v | the proofs of C101 and C100 with the sums of the table compared to the sums of the spectrum (C99), A and B components being bilinear in the spectra |
| C104 | PyTerms.v, Integrals.v, SpecRsd.v | azimuthal averages of the vector formulas are combinations of the tree-level components (the triangle does not depend on the azimuth); linearity of the integrals; C103 for the columns and C51 for pk_interp |
| C105 | PyTerms.v in QNum, SpecRounded2.v | errors relative to the sum of the sizes of the terms compose under rounded sums and products (`within`, ProofRounded9.v); exp turns an absolute error of the exponent into m factors; sign: the propagators of one field enter as a square |
| C106 | Common.v (interpol_poly, interpol_lin, find_pk) in QNum, SpecRounded3.v | invariant of Neville's tableau: column m is within 5m errors of the exact differences, whose size grows by 2 ratio(m) per column; the start point may differ from the exact run, which the invariant allows |
| C107 | PyTerms.v, Integrals.v, SpecTotal2.v | C99 for the eight columns, C97 and C98 for the linear column and the variance, C91 for the methods; the damping factor has values and slope of at most 1 |
| C108 | PyTerms.v (zeros) | induction over the declared names; the spectra by C45 and C91 |
| C109 | PyTerms.v (sigmav, sigmar, np_trapz) in QNum, SpecRounded4.v | induction on the bracketing of the sum: a sum of n terms of one sign has at most n - 1 more errors than its terms; for sigmar the cancelling terms are bounded by their sizes |
| C110 | PyTerms.v (transfer_row, run_terms_nowiggle), PyNoWiggle.v, SpecNoWiggle.v | ln (2e + 1.8 q) / q decreases (concavity), q C(q) increases, k / Gamma(k) increases as alpha <= 1 |
| C111 | PyTerms.v (interp, pk_interp, pk_interp_A, pk_interp_B) in QNum and FNum | induction over the table; errors relative to the sum of the sizes (C105); (refuted) for the sign, by evaluation on doubles |
| C112 | PyTerms.v (shotnoise) in QNum, SpecRounded5.v | every step is monotone; the error through exp(-a) - exp(-b) <= b - a |
| C113 | PyTerms.v (rescale, accessor) in QNum and FNum | products of relative errors; (refuted) for the exact inverse, by evaluation on doubles |
| C114 | PyPadMode.v | with the mode constant equal to the pad_k of C48 and C92; else (refuted) the first column raises |
| C115 | PyShaped.v | induction over a row; the cases of numpy broadcasting; (refuted) by 3 wavenumbers, and by the values at 5 |
| C116 | PyMethods.v, SpecMethods.v | the values of C45 and C91 under the trapezoidal rule and numpy.interp (C51); (refuted) for Bias1Loop |
| C117 | PyEarly.v | C108 for the zero columns, C51 for the combination; (refuted) for A1Loop |
| C118 | PyMethods.v, SpecSmooth.v | bounds of sin x - x cos x from its derivative x sin x; the trapezoidal rule is monotone; (refuted) at the radius 0 in ONum |
| C119 | PyMethods.v, SpecResum.v | exp(-f) against its Taylor sums, by derivatives; the triangle inequality on the expanded products; exp(f/2) >= 1 + f/2 and exp(f/3) >= 1 + f/3 for large f |

Properties marked "(refuted)" are violated by the code as it is; the model reproduces the
violation and a theorem `..._refuted` exhibits it.

## Not expressible / out of scope

* Convergence of Suave, hence accuracy of the integrals it does against the continuum value: the
  integrator is external code, present only as a parameter.  (Gauss-Legendre rules: C93, C95, C96, C99, C100, C101, C102, C103, C104, C107.)
* Rounding error of the double-precision evaluation, except where a theorem is stated for every
  `Num` and in C76-C78 (lookups and running variances), C105 (assembled spectra), C106 and C111 (interpolation), C109 (trapezoidal sums), C112 (shot noise) and C113 (rescaling).
* Timing, console output (except the progress percentage) and the build system.

## Trusted base

* Coq 8.16.1's kernel, `vm_compute` included (used for the reflective checks of the generated
  expressions and for witnesses on primitive floats).
* Axioms of the standard library only.  `Print Assumptions` stands under every theorem of the
  `Prop*.v` files.  The lists printed are subsets of: `ClassicalDedekindReals.sig_forall_dec`,
  `ClassicalDedekindReals.sig_not_dec`, `FunctionalExtensionality.functional_extensionality_dep`
  (the reals), `Classical_Prop.classic` (through Coquelicot's derivatives), and for the witnesses on
  doubles the primitive types and operations of `PrimFloat`/`Uint63` with their `FloatAxioms` and
  `Uint63Axioms` specifications.  No axiom of our own and none of another library.
* The transcription from C and Python, which is by hand except the expressions of
  `src/gamma2d_1loop.c` and `src/gamma2t_1loop.c`: these are printed by `tools/gen_gamma2.py` from
  the C text into `Gamma2dSrc.v` and `Gamma2tSrc.v` as terms of the syntax of `GExpr.v`.
* `pow` over the reals is `Rpow` (Num.v): the real power for a positive base, the integer power for
  an integer exponent of another base, and 0 elsewhere (C gives NaN there).  Likewise x / 0, `ln` and `sqrt` outside their domains
  have arbitrary values over the reals; C81-C83 show over the partial arithmetic `ONum` (SpecDefined.v) that none of these is met.

## Modelled code

| file | definitions | model |
|------|-------------|-------|
| `src/common.c` | all but the timers and `free_*` | Common.v |
| `src/kernels.c`, `src/gamma1_1loop.c`, `src/gamma1_2loop.c` | all | Kernels.v |
| `src/gamma2d_1loop.c`, `src/gamma2t_1loop.c` | all but the `*_iso*` functions, which nothing calls | GExpr.v, Gamma2dSrc.v, Gamma2tSrc.v, Gamma2.v |
| `pyregpt/pyregpt.py` `set_precision`, `set_running_uvcutoff`, `clear`; the setters of every C file | all | Registry.v |
| `pyregpt/pyregpt.py` the classes holding terms, on the values of their columns; `spectrum_1loop`, `spectrum_2loop` in C | all but I/O | PyTerms.v |
| the six `run_terms_*` of `spectrum_*.c`, the threadprivate tables, progress messages | all; a table is one cell, printing is left out | Threads.v |
| `pyregpt/pyregpt.py` `interpol_poly`, `interpol_lin`, `nodes_weights_gauss_legendre` | all | PyHelpers.v |
| `pyregpt/pyregpt.py` `SpectrumNoWiggle.transfer`, `run_terms` with their keywords | all | PyNoWiggle.v |
| `pyregpt/pyregpt.py` `Terms.pad_k` with keywords and mode, `PyRegPT.pad_k` | values of the columns; not a function as mode | PyPad.v, PyPadMode.v |
| `pyregpt/pyregpt.py` `sigmav`, `sigmar` of the A and B classes, `reshape` | all | PyShaped.v |
| `pyregpt/pyregpt.py` `pk_interp`, `sigmav`, `sigmar`, `sigma8` with the keywords of `pk` | one-dimensional spectra; not several dispersions for one wavenumber | PyMethods.v |
| `pyregpt/pyregpt.py` `pk_interp` of the A and B classes before and after `reshape` | all | PyEarly.v |
| `pyregpt/pyregpt.py` `Terms.__getitem__`, `__setitem__` with an index, `__contains__`, `__iter__`, `tolist`, `pop`, `as_dict` | values of the columns; not a single integer as index | PyContainer.v |
| `pyregpt/pyregpt.py` statements on objects (constructors, items, slices, `copy`, `deepcopy`, `set_pk_lin`, `set_spectrum_lin`, `set_terms`, `run_terms`, `pad_k`, `find_pk_lin`, `calc_running_sigmad2`, settings, verbosity), the C functions they call, `set_spectra_B` and `run_terms_B` of the C API | all but I/O; an unreachable numpy buffer is freed at once and never reused; a run is sequential (threads are in Threads.v) | Process.v |
| `src/calc_pkcorr_from_{gamma2,bias_1loop,A_1loop,B,A_2loop_I,gamma3,A_2loop_II_III}.c`, `src/bispectrum_1loop.c` | kernels, angular ranges, loops; `init_*`, `free_*` and the setters are in the state models; Suave is a parameter | Integrals.v |

## Findings

Theorems ending in `_refuted` show that the code as it is violates the property.

* C06 a one-point table is read out of bounds by a query below it.
* C07, C14 lookups and running variances in a non-increasing order of queries are wrong.
* C08 'lin' mode at the last tabulated point reads one past the end of the table.
* C11 the low-k extrapolation is discontinuous at the first tabulated point.
* C32 the cubic coefficient of the theta branch of `beta` at hierarchical momenta has the wrong sign.
* C56 `kernel_gamma2d/t` choose the elongated branch by a test that is not symmetric in (k1,k2).
* C57 the corrections of `gamma1_reg_1loop` switch on at 1/100 for p and at 3/100 for k', so A and A~ differ even for
  p = k'.
* C58 `bispectrum_1loop_I` zeroes its outputs for an exponent above 100 and then overwrites them.
* C21 `clear()` leaves the settings of the 1-loop A term, every `*_pk_lin` interpolation and the cutoffs of A and B.
* C22 `set_precision('all_pklin')` always raises AttributeError after changing two of the interpolations.
* C67 `set_running_uvcutoff('all')` misses the cutoffs of A and B.
* C44 `SCALE['sigma3sq']` is 2 although sigma3sq is linear in the spectrum and `pk_sigma3sq` multiplies it by pk_lin, so
  `rescale(D)` makes `pk_sigma3sq` D^2 too large.
* C48 `pad_k` with nothing to append assigns to `k[-0:]`, that is to the whole array: it raises or replaces all wavenumbers.
  With the 2-D columns of A and B it always raises, after padding the first columns.
* C52 `B1Loop.pk_interp` ignores `left` and `right`.
* C55 `SpectrumNoWiggle.set_terms` always raises.
* C108 `SpectrumLin.zeros` raises AttributeError (no `C_TYPE`) after it has replaced `k`.
* C68 `rescale` with a column that is not in SCALE raises after scaling the columns before it.
* C33 every thread of `run_terms_B` writes the static variables `pk_dt`, `pk_tt` of `calc_pkcorr_from_B.c`: a data race.
* C39 the progress messages exceed 100 percent for 12..19, 23..29, ..., 89 wavenumbers (180 percent for 19).
* C23 `init_gamma3_tree` and `init_A_2loop_II_III` replace an automatic range by the range of the first spectrum, for good:
  later runs with another spectrum use the old range.
* C37 `set_spectra_B('delta','delta')` sets the delta-theta spectrum (`flag=DELTA` in a condition); giving only one of the two
  spectra is ignored, as `run_terms_B` recomputes both if one is missing.
* C38 `run_terms_B` frees the spectra it has computed but keeps the pointers: the next call uses freed memory.
* C41 all objects share the pointers of the library: after `b.set_terms`, `a.run_terms` fills the columns of b; after
  `b.set_pk_lin`, a uses the spectrum of b; when b is dropped, a reads freed memory.
* C50 `copy()` shares the table of columns; `deepcopy()` raises for an object without spectrum_lin, and `run_terms` of a deep copy
  fills the original.
* C60 unknown flags mean delta; an unknown verbosity is recorded by Python but not by the library; constructing, slicing and
  copying an object set the verbosity to 'info'.
* C71 assigning `obj['k']` or `pad_k` after `set_terms` leaves the library with a pointer to freed memory.
* C72 `set_spectrum_lin` ignores the step of a slice: `lin[::2]` gives the wrong elements, `lin[::-1]` is read out of bounds.
* C73 `set_pk_lin` with arrays of different lengths raises after replacing `spectrum_lin`, so that the library points to freed memory.
* C74 with the verbosity 'info', empty arrays are read out of bounds when they are announced.
* C76 a lookup at a tabulated wavenumber is NaN when the slope to a neighbour overflows (wavenumbers 1 and 1 + 2^-52, value 1e300).
* C111 `pk_interp` of a spectrum without negative values can be negative: numpy multiplies the rounded slope (k = 0.07, 0.8, pk = 3, 0, just below 0.8).
* C113 `rescale(1/D)` does not undo `rescale(D)` exactly (pk = 1, D = 10).
* C77 in doubles the linear interpolation can exceed both tabulated values and the running variance can fall when the cutoff rises.
* C79 the default polynomial interpolation of a positive table can be negative (1, 1, 100 at k = 1, 2, 3 gives -91/8 at 3/2), and then
  the auto-spectrum is negative for small growth factors.
* C81 for collinear wavenumbers (1, 4, 3 and q = 2) the exact kernel of gamma2 is 0/0; the angular quadrature never reaches this, as
  its nodes lie inside the open interval.
* C82 outside a table of two points the logarithmic slope is 0/0, so `find_pk_lin` gives NaN; at k = 0 a decreasing spectrum is
  extrapolated to infinity.
* C75 without a linear spectrum `find_pk_lin`, `calc_running_sigmad2` and `run_terms` dereference NULL.
* C47 `sigma3sq`: a run on D^2 P gives D^2 sigma3sq, `rescale(D)` gives D^4 sigma3sq.  The 2-loop A term is declared of second
  order like the others; it contains factors 1 + k^2 sigma/2 + gamma1 and exponentials, so it has no order at all.  For gamma3 the
  theorem asks that Suave be homogeneous; it is called with an absolute tolerance (1e-13), which need not be.
* C65 the thresholds 1/100 and 3/100 of the 1-loop bispectrum and the guard 3e-14 of F3 are compared with wavenumbers: the 2-loop A
  term depends on the unit, the gamma3 term too where the guard acts.
* C88 `interpol_poly` ignores the step of its arrays: with `a[::2]` it interpolates other points, with `a[::-1]` it reads beyond the
  end of the buffer, and with empty arrays it reads one element.  `interpol_lin` uses only the first and last points and does not
  compare the lengths.
* C89 `o[ix] = e` also overwrites the wavenumbers of the chosen rows.
* C90 `for name in o`, `tolist` and `nan_to_zero` leave out columns with names not in FIELDS, which `rescale` rejects (C68).
* C92 `pad_k` recomputes sigmad2 at all wavenumbers with the cutoff 1/2, whatever `set_running_uvcutoff` had set for the run.
* C114 `pad_k` raises ValueError for every mode but 'constant', as it always passes `constant_values` to `numpy.pad`.
* C115 `sigmav` and `sigmar` of A and B objects raise ValueError, except for 5 (9) wavenumbers, or 2 for `sigmav`, where they integrate over the components.
* C116 `pk_interp`, `sigmav`, `sigmar` and `sigma8` of `Bias1Loop` raise AttributeError: the class has no `pk`. Linear spectra raise TypeError for `sigmad2=`.
* C117 `A1Loop.set_terms` does not reshape, so that `pk_interp` raises ValueError until `run_terms` was called; A2Loop, B1Loop and B2Loop give 0.
* C118 `sigmar(0)` is 0/0, NaN, not the limit of small radii.
