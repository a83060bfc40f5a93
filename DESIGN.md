# Formal model of Expander/polylogarithm in Coq: design

## What is modelled

The numeric code is transcribed **once**, over an abstract record `num` of the
scalar operations it uses (`theories/Num.v`): decimal literals, + - * / unary -,
`<` `<=` `==`, NaN/infinity/epsilon, and the libm functions.  The same Gallina
functions are then run with different arithmetics:

| instance | file | meaning |
|---|---|---|
| `RD RF RL RQ` | `NumR.v` | exact real arithmetic with a poison value (`None` for NaN/inf, division by 0, log/sqrt out of domain).  Literals are their exact decimal value.  Used for accuracy: what the *algorithm* computes. |
| `B64 L` (`B32 B80 B128`) | `NumB.v` | IEEE-754 binary floating point, round to nearest even (Flocq `binary_float`), literals correctly rounded, `fmod` exact; transcendental libm functions are an explicit oracle `L`, every theorem states what it needs from it.  Used for NaN, infinities, signed zeros, exact parity, range reduction, termination. |

Integers: `int64_t` operations are performed in Z and *checked*; a result outside
[-2^63,2^63) is the distinct outcome `Ub` (`Outcome.v`), as is an array access out
of bounds.  Loops without a static bound take fuel and return `NoFuel` when it
runs out (never identified with a C++ behaviour).

| source | model |
|---|---|
| horner.hpp, log.hpp, std::complex arithmetic | `Num.v` |
| zeta.cpp, eta.cpp, factorial.cpp, harmonic.cpp | `Model_Tables.v`, `Model_Zeta.v` |
| Cl1.cpp .. Cl6.cpp (double, long double) | `Model_Cl16.v` |
| Cl.cpp, Sl.cpp | `Model_Cl.v`, `Model_SlPoly.v` |
| Li2/Li3/Li4 real (float, double, both long double variants) | `Model_LiR.v` |
| Li2..Li6 complex (float, double, both long double variants) | `Model_LiC.v` |
| Li.cpp | `Model_Li.v` |
| src/c/*.c (real and complex functions) | `Model_C.v` |
| src/fortran/*.f90 (dummy arguments by reference, result variables with an `unset` state) | `Model_F.v` |

A third arithmetic, `NumQ` (`Unity.v`), runs the integer-index parts of Li.cpp over
formal values, to relate loop states to the terms of the series.

`Model_Cl16.v`, `Model_SlPoly.v`, `Model_LiR.v`, `Model_LiC.v`, `Model_Tables.v`
are transcribed expression by expression from the C++ text by
`tools/cpp2coq.py` (so that digits are not retyped); they are ordinary committed
Coq sources and cite file and lines for each definition.

### Not modelled / simplifications

* Annex-G recovery of NaN in complex multiplication and operand scaling in
  complex division (`Num.v`); complex `sqrt` in polar form, complex `pow` as
  libstdc++'s polar formula (`Model_Li.v`).
* NaN payload and sign; floating point exceptions and `errno`; excess precision
  or FMA contraction by the compiler.
* libm itself (oracle).  Compilation, linking, the Mathematica/benchmark/test code.

## Trusted base

* Coq 8.16.1 kernel (`coqc`, and `coqchk` in vcheck).  `vm_compute` is used for closed
  integer/bigZ computations (table comparisons, coefficient checks).
* Axioms: none of our own.  `Print Assumptions` lists, for the theorems about exact arithmetic and
  IEEE arithmetic, the standard library's axioms of the reals
  (`ClassicalDedekindReals.sig_forall_dec`, `sig_not_dec`),
  `functional_extensionality_dep`, `Classical_Prop.classic`,
  and -- through the `interval` tactic (Interval, Bignums) and bigZ -- the
  specifications of the primitive 63-bit integers and floats of the standard library (`Int63`/`Uint63` and
  `PrimFloat`/`FloatAxioms`).  `ASSUMPTIONS.md` gives the list per theorem.
* The faithfulness of the transcription (cited line by line; generated from the C++/C/Fortran text by
  `tools/`, the committed `.v` files are what is checked).
* The specifications: `Spec.v` (Csum, Cexp, is_Clog), `Polylog.v` (`ReLi`), `Fourier.v` (`cosser`, `sinser`),
  `Clausen*.v`, `CLi.v` (`CLi`), `Zeta_num.v`, `Bern.v`, `Harmonic.v`, `Libm.v` (contract of the C library).

## Proof technique by layer

* **Exact arithmetic, real functions** (C15-C19, C39, C40): functional equations and derivative recursions for the
  specification; each rational approximant against a truncated Chebyshev/Taylor reference polynomial with an a-priori
  remainder (`Cheb.v`, `Cheb_big.v`, `Poly_check.v`), coefficients checked by verified bigZ computation.
* **Exact arithmetic, complex functions** (C26, C27, C45): a calculus of complex-valued functions of a real variable
  (`Ccalc.v`); the principal branch `CLi n` by iterated integration along rays (`CLi.v`); power series in the
  disc (`CLi_disc.v`), inversion formula for all n (`CLi_inv.v`), expansion at unity with an explicit error obtained by
  integrating the error of the n=0 case (`CLi_unity.v`), expansion in u = -Log(1-z) with an explicit error by the same
  recursion (`CLi_T.v`); reference coefficients to 70 digits with verified residuals (`CLi_ref.v`); geometry of the
  branch regions (`CLi_region.v`); evaluation of the code (`CLi_code.v`, `CLi_eval.v`, `CLi2_inst.v`); comparison of the source tables
  with the reference (`CLi_dev.v`, `CLi_inst.v`), remainders (`CLi_rest.v`), assembly (`CLi_acc.v`, `CLi2_acc.v`).
  On the real axis (C26) the principal branch is continued onto the cut from below (`CLi_axis.v`: Lipschitz bound,
  existence of the limit) and every branch of the code is compared with that limit (`CLi_axis2.v`, `CLi_axis_inst.v`).
  General order (C46): unity expansion for all n with remainder (`CLi_gen.v`), stopping rule and tables (`Li_gen.v`,
  `Li_gen2.v`), non-vanishing of the remainder sums by a zero-free parabola argument (`Li_nz.v`); arithmetic `NumQ e q` = exact arithmetic with an abstract comparison used only to stop the loops.
* **IEEE arithmetic** (C09-C14, C38, C43, C44): Flocq `binary_float` instances; forward error analysis with a
  generic absolute/relative error calculus (`Ferr.v`, `FerrB.v`, `Fcalc.v`), exactness of fmod and of the two-part 2 pi
  reduction (`Fmod.v`), per-branch error by verified interval evaluation (`Cl_core_*.v`, `Li2_core.v`, `Li2_inst.v`).
* **Li(n,z)** (C28-C34): checked 64-bit integers, loop invariants by induction on iterations, recursion depth by a measure.

## Findings (defects of the code that the proofs exhibit)

* C04/C05/C34: for n at the ends of the int64 range the integer arithmetic overflows (the exact set of n is given).
* C13: the real Li2(-infinity) returns NaN.
* C33: the cut of the inversion remainder at m = 177 loses almost the whole value for large n and |z|.
* C37: the Fortran Clausen functions and dli4 overwrite the caller's argument.
* C42: Fortran cdli2 with z = NaN + 0i returns an unassigned result.
* C36: C cl4 and C++ Cl4 differ in the last bit (evaluation order), e.g. at x = 1.5.
* C19/C43: the long double Cl3..Cl6 reach only about 1e-25/1e-26; Sl polynomial literals are wrong from digit 33-37 on.

## Plan per property

| id | modelled / proved how |
|---|---|
| C01 | table entries against exact factorial by integer arithmetic; tail n>=178 by monotonicity of n! |
| C02 | zeta(n) := sum k^-n (Coquelicot series); telescoping bracket of the tail gives rational enclosures of each zeta(n), compared with the table; n>=34 by bounding 1/(1-2^-n) - zeta(n) |
| C03 | Bernoulli numbers by their recurrence, exact rationals; sign beyond the table by the positivity of tangent numbers |
| C04, C05 | checked-integer model: every n in int64, case analysis; failing n identified exactly (refuted + characterised) |
| C06, C07 | as C02, C03 |
| C08 | sum branch by induction; digamma branch by telescoping brackets on H_n - ln n - gamma; digamma itself at every positive integer, the recurrence below 7 included (`Properties_Z.v`) |
| C09 | equation on the model, for every `num` whose comparison/negation obey sign laws; instance B64 |
| C10 | exactness of fmod, then interval reasoning on the three steps, B64 and R |
| C11 | exact-real reduction lemma x = +-t + 2 pi k; equality of results |
| C12-C14 | case analysis on B64 with libm NaN contracts |
| C15-C18 | spec: unique continuous function with the power series on [-1,1] and the derivative recursion; functional equations by derivative comparison; rational approximants by power series remainder and verified polynomial bounds |
| C19 | spec: iterated integrals / Fourier series; same method |
| C20 | derivative recursion of the polynomials |
| C21 | Chebyshev recurrence by induction, tail bound by integral comparison |
| C22 | index bounds by case analysis; formula by term rearrangement |
| C23 | induction over coefficient lists of any length, in R (and any commutative ring) |
| C24 | exact complex arithmetic |
| C25 | induction over the expression structure: conjugation commutes with all operations of the exact instance |
| C26 | delegation to the real function by case analysis; the others: continuity of the expansions up to the cut, special values |
| C28, C35, C38 | case analysis on the model |
| C27 | evaluation of the code to a fixed expression per branch; region inequalities on z, Log z, Log(1-z) by `interval` and convexity along rays |
| C29 | exact arithmetic; derivative of the geometric series |
| C30 | measure: log|z| halves, |arg| <= pi |
| C31 | series rearrangement sum_{k even}; analytic for |z|<1 |
| C32 | loop invariants by induction over iterations, all n, z |
| C33 | index arithmetic; invariants |
| C34 | checked-integer model, failing n identified |
| C36 | equality of transcribed functions for every arithmetic |
| C37 | by-reference semantics of the dummy argument: refuted with witness |
| C39 | corollary of C15-C19 |
| C40 | positivity of denominators by interval arithmetic |
| C41 | equality of the transcribed Fortran and C++ functions in exact arithmetic; dli2 (different approximant) by the method of C15 |
| C42 | result variable as an option; case analysis on the double argument |
| C43 | error calculus on the IEEE instance, library oracle with a 2 ulp contract |
| C44 | as C43, all four precisions, relative to min(1,|x|)+log^2(1+|x|) |
| C45 | principal branch by iterated integrals; expansions with proved error; bigZ comparison of the source tables |
| C46 | the loops of Li(n,z) with an abstract stopping test: partial sums (C30-C33) against the expansions of CLi n with tails summed to the stopping point (`CLi_gen.v`, `Li_gen.v`, `Li_gen2.v`) |
| C47 | evaluation of the C and Fortran complex functions of `Model_C.v`/`Model_F.v` in exact arithmetic to the same closed forms as the C++ ones (`CLi_c_eval.v`, `CLi2_c_eval.v`, `CLi_f_eval.v`, `CLi2_f_eval.v`); where the helpers differ (pi literal in the logarithm, pi powers in the inversion polynomial) a perturbation bound; accuracy then follows from C26/C45 |
| C48 | expansion of Li_{-m}(e^v) around v = 0 proved from the cotangent series (`NegExp.v`): pole m!/(-v)^(m+1) plus sum zeta(-m-k) v^k/k!; term ratios and the stopping index of `Li_unity_neg` (`Li_negacc.v`): for m <= 15 a term below tolerance is followed by geometrically decreasing ones, for m = 60 it is not and the result is refuted; the power series k^m z^k by its own ratio bound; duplication by induction on the recursion depth (`Properties_Y.v`) |
| C49 | IEEE binary64 instance over any `libm_ok` library: a calculus of errors relative to a magnitude (`Li34_ieee.v`: E), numerators and denominators of the rational cores by the verified running-error checker of C41/C44 on grids (`Li34_core.v`), Lipschitz bounds of ReLi n for the rounded arguments 1/x, 1-1/x, exact subtractions by Sterbenz, one lemma per branch (`Li3_ieee.v`, `Li4_ieee.v`); the loss of digits between 1/2 and 4/5 by running the model on one double and comparing with the exact value (`Properties_ZA.v`) |
| C50 | IEEE instances over any `libm_ok` library: the real-axis prefix of each complex function evaluates to the real function and a product with the logarithm (for any `num`), a float above 1 is at least 1+2^-p, so its logarithm is far above the underflow threshold and the product has a relative error (`Li_axis_ieee.v`); real parts from C44 and C49, the C functions through C36 (`Properties_ZB.v`) |
| C51 | IEEE double over any `libm_ok` library. `Cieee.v`: a calculus of rounded complex operations in the modulus (product, sum, quotient, norm, logarithm). `CLi2_ieee.v`: Kahan's `log(1+z)` to 36 units away from z = -1 and, near 1, exact subtractions by Sterbenz; the Bernoulli polynomial, in the C++, the C and the Fortran order of operations, by the verified error checker over the box &#124;Re u&#124;, &#124;Im u&#124; <= 1.1. `CLi2_slack.v`: the exact-arithmetic error bounds with room for comparisons that were decided by rounded values. `CLi2_ieee2.v`: the branches and the function. Not modelled: the compiler's own complex multiplication and division (textbook formulas here), hence &#124;z&#124; <= 10^12. |
| C52 | IEEE double over any `libm_ok` library, the model of `Li` dispatched for an arbitrary arithmetic and evaluated in binary64. `CLi01_ieee.v`: 1-z has a relative error of one rounding in its real part and none in its imaginary part; a quotient bound relative to the quotient with an underflow term; the logarithm under a relative perturbation that stays on one side of the cut. z = 0 and z = -1 take the special-value branches. Not modelled: the scaling inside the compiler's complex division, hence the bounds on &#124;z&#124;. |
| C53 | IEEE double over any `libm_ok` library (`CSeries_ieee.v`). Loop invariant of `Li_series` at the state before pass k+1, k <= 2^46: real part of the term in [0,1], imaginary part at least a tabulated power of two that reaches 2^-1074 at k = 17 and stays there (0.502 * 2^-1074 rounds up), imaginary part of the sum below 2^-1022 by a potential that grows by at most 22 * 2^-1074 per pass; sums there are exact (`FLT_format_plus_small`), so the stopping test fails. Found while looking for a run-time bound to put in the place of the 2^63 of C32 |
| C54 | IEEE double over any `libm_ok` library (`CSeries2_ieee.v`). the larger of the absolute values of the components of the term shrinks by 81/100 in every pass: the factor has components below 0.2004, and by cases on the size of the term in units of 2^-1074 (both products vanish, both are at most one unit, or the rounding errors are absorbed); a term below one unit is zero and leaves the sum as it is; 0.81^3530 / 5 < 2^-1074 |
| C55 | IEEE double over any `libm_ok` library (`CSeries3_ieee.v`). Induction over the passes of the loop: the partial sum is within `DD k` of the exact partial sum of z^j/j^n, the term within `ee k` of the exact term. The error of pow(k/(1+k), n) is (2n)2^-53 relative, so the error of term k is k(3n+6)2^-53 of it, which k^-n more than absorbs for k >= 2; rounding in the sum is 1.04 * 2^-53 |z| for at most 15 passes, afterwards the sum errs by at most the added term. The loop is left only when the sum stands still, which bounds the last term and with it the rest of the series; termination as in C54. Orders above 10^6 (`CSeries4_ieee.v`): pow(1/2, n) is at most 1.1 * 2^-1074, its products with the components of z round to zero, and the loop returns z, which is within |z|/2^n |
| C56 | IEEE double over any `libm_ok` library. Accuracy (`CSeries6_ieee.v`): the invariants of C55 with the ratio 3/4 in place of 3/10 (40 passes before the terms are below one unit of the sum), for whatever is returned within 4000 passes. Termination on the real axis (`CSeries5_ieee.v`): the imaginary parts stay zero, the real term shrinks by 0.752 per pass after a first factor below 0.0091, the sum stays within 1/20 of x, and a term below 2^-60 leaves a sum above 1/8 as it is (both are multiples of 2^-56); |x| <= 1/5 is C55 |
