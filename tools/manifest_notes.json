{
 "C04": [
  "proved",
  "The model turns any out-of-bounds access into Ub; the theorems exclude it for every int64 n (the single remaining n, INT64_MIN+1, is the C05 overflow, which happens after the index was found outside the table)."
 ],
 "C05": [
  "proved",
  "The unrestricted claim is false; the exact set of overflowing n is proved: zeta and neg_eta at INT64_MIN+1, harmonic at INT64_MAX, inv_fac never."
 ],
 "C09": [
  "proved",
  "IEEE double instance, any libm meeting the contract Libm.libm_ok; up to the sign of a zero result."
 ],
 "C12": [
  "proved",
  ""
 ],
 "C13": [
  "proved",
  "Includes the defect: Li2(-inf) is NaN in the code, not the limit -inf."
 ],
 "C14": [
  "proved",
  ""
 ],
 "C23": [
  "proved",
  ""
 ],
 "C28": [
  "proved",
  ""
 ],
 "C35": [
  "proved",
  ""
 ],
 "C15": [
  "proved",
  "Exact-arithmetic instance RD (real numbers, decimals of the source), every real x; specification ReLi (iterated integrals, power series, uniqueness) independent of the code."
 ],
 "C16": [
  "proved",
  "Same as C15 for the float and both long double variants."
 ],
 "C17": [
  "proved",
  "Exact-arithmetic instance RD, every real x."
 ],
 "C18": [
  "proved",
  "Exact-arithmetic instance RD, every real x."
 ],
 "C19": [
  "proved",
  "Exact arithmetic (RD/RL), specification = the Fourier series. Cl1..Cl6 double and long double on |x|<=pi, and for every angle up to the relative error of the pi literals (double: outside the 3e-18 gap where p0+p1 < 2*pi literal). The long double Cl3..Cl6 are only good to 1e-25, so not to quad precision on platforms where long double is quad."
 ],
 "C39": [
  "proved",
  "Every point of the interval, hence every branch boundary: left and right values in an arbitrarily small neighbourhood differ by at most the stated bound (exact arithmetic)."
 ],
 "C40": [
  "proved",
  "Exact arithmetic, every denominator table of the rational approximants, on the interval where the branch uses it."
 ],
 "C11": [
  "proved",
  "Exact arithmetic: Cl(n,.) and Sl(n,.) for every n>=1 and the long double Cl2..Cl6. In double the two-part literal for 2 pi is 3e-18 below twice the pi literal; an angle in that gap reduces to a negative number > -4e-18 (hypothesis 0<=r)."
 ],
 "C21": [
  "proved",
  "Exact arithmetic; all n>=10, all real x."
 ],
 "C01": [
  "proved",
  "IEEE double: relative error <= 2 units of 2^-53 up to 170!, absolute error <= 2^-1074 beyond, zero exactly when 1/n! < 2^-1075, NaN for n < 0."
 ],
 "C02": [
  "proved",
  "IEEE double with libm contract: relative error <= 3 units of 2^-53 w.r.t. the limit of the series, every n in [2, INT64_MAX]."
 ],
 "C03": [
  "proved",
  "IEEE double; Bernoulli numbers are characterised by their recurrence; the overflow theorem also proves the exact value exceeds 2^1024 in magnitude with that sign. n = INT64_MIN+1 is undefined behaviour (C05)."
 ],
 "C06": [
  "proved",
  "IEEE double: relative error <= 2 units of 2^-53 w.r.t. the limit of the alternating series, every n >= 1."
 ],
 "C07": [
  "proved",
  "As C03."
 ],
 "C08": [
  "proved",
  "Exact arithmetic: exact below 20, 6e-18 from 20 on; IEEE double with libm contract: relative error <= 2 resp. 8 units of 2^-53, every n in [1, INT64_MAX-1] (INT64_MAX is undefined behaviour, C05)."
 ],
 "C24": [
  "proved",
  "log1p(z) is exactly the principal log of 1+z in exact arithmetic (z != -1); pos_log and Li's clog are the principal logarithm; in IEEE arithmetic every negative axis point (both signed zeros) gives imaginary part equal to the code's +pi and positive axis points keep a zero imaginary part."
 ],
 "C29": [
  "proved",
  "Exact arithmetic, every z in the domain; agreement with the limit of sum z^k k^-n inside the unit disk."
 ],
 "C34": [
  "proved",
  "No overflow for n in the stated range; the exact set of overflowing orders in each branch is proved (the property as stated fails at INT64_MIN..INT64_MIN+3 and for n >= 3037000498 except INT64_MAX-5..INT64_MAX-3: theorems C34_large_orders and C34_lowest_orders)."
 ],
 "C30": [
  "proved",
  "Exact arithmetic (libm replaced by the exact functions, literals as written): depth 11 suffices for every modulus a pair of doubles can have, and depth grows with log log |z| only."
 ],
 "C31": [
  "proved",
  "Li_neg m is (z d/dz)^m z/(1-z), shown to be the sum of k^m z^k inside the disk; the duplication identity for every m and z, and the code's step with error propagation."
 ],
 "C32": [
  "proved",
  "Exact real/complex arithmetic. Li_series (NumR): every returned value is a partial sum of z^k/k^n; the loop stops after at most 2^63 passes in any arithmetic. Li_unity_pos / Li_unity_neg (NumQ: exact arithmetic with an arbitrary loop-stopping equality test that is exact against zero): every returned value is a partial sum of the expansion about z=1 with the code's constants (close to the true zeta values, harmonic numbers, inverse factorials, logarithms), or - positive order only - not a number because the loop ran past the zeta table. Loops stop: Li_unity_neg within 131 passes in double arithmetic, Li_unity_pos within 2^63 in any arithmetic. Orders 2..3037000497 and -259..-1 (outside: C34). The bound for Li_series cannot be replaced by a practical one in double arithmetic: C53."
 ],
 "C25": [
  "proved",
  "IEEE model, every libm satisfying the parity laws stated as hypotheses of the theorems: conjugate argument gives the conjugate result for Li(n,z) at every order and every nonreal z, and for Li2..Li6 in every precision."
 ],
 "C26": [
  "proved",
  "IEEE instance for the delegating functions: zero imaginary part below 1 gives exactly the real function's value and the argument's own zero; above 1 the imaginary part is the code's -PI*log(x)^(n-1)/(n-1)!. Exact arithmetic: accuracy for every real x, all sixteen functions; the value on the cut is proved to be the limit of the principal branch from below (C26_limit_below)."
 ],
 "C33": [
  "proved",
  "Exact arithmetic. The formula holds for every n and z unless a partial sum is exactly 0 (stated in the hypothesis; impossible on the negative axis), with an explicit error bound; on the negative axis and n<=177 the relative error is 3e-16 against ReLi. 'Cutting the loop loses nothing' is false above n=177: refuted at n=200, z=-exp 690."
 ],
 "C38": [
  "proved",
  "IEEE double model, every libm satisfying libm_ok (Libm.v, non-vacuous there). Even orders: exactly zero at +-pi64 (the double nearest pi) and the argument itself at +-0, for all even n>=2. Order 1: +infinity at +-0. Odd orders 3,5,7,9: within the stated distance of zeta(n); odd orders n>=11: within the stated bound too (C38_zeta_value, C38_zeta_large)."
 ],
 "C36": [
  "proved",
  "li2f, li2, li3, li4, cl2, cl5, cl6 (all precisions in the C interface) perform the same operations as the C++ functions, so they are equal in every arithmetic; cl3/cl3l and li2l/li2q are bit-identical in IEEE arithmetic although written differently (log/2 vs 0.5*log, Horner from 0); cl4/cl4l are the same function in exact arithmetic, but not bit for bit: C36_cl4_bits_refuted shows a last-bit difference at x=3/2."
 ],
 "C37": [
  "proved",
  "the model returns (value, content of the caller's variable). Kept for dli2, dli3, cdli2..6; exact description of what the Clausen functions and dli4 leave behind in every arithmetic, iff-conditions in exact arithmetic, and refutations in double precision."
 ],
 "C41": [
  "proved",
  "equality in exact arithmetic with the C++ models (hence their accuracy theorems); dli2 by the accuracy theorem for the common shape with its own pi literal."
 ],
 "C42": [
  "proved",
  "C42_cdli2_nan_refuted documents the defect."
 ],
 "C20": [
  "proved",
  "Exact-arithmetic instance RD of the model (decimal literals exact, +,-,*,/ exact, no rounding).  n<=25: every literal coefficient is compared with the Bernoulli closed form (C20_bernoulli_closed_form, proved from the Fourier series); n>=26: truncation error of the series.  not_in_gap excludes real angles in (p0+p1, 2*PI_literal) modulo the literal period, an interval of width 3e-18."
 ],
 "C22": [
  "proved",
  "Every table read of the 7<=n<=9 branch is in range for every arithmetic; in exact arithmetic the assembled value is the Clausen sum within 2e-15 (all angles), via Eq. (2.13) proved from the Bernoulli series of cot with the 202 table entries compared with exact fractions (first 101) or bounded (rest). Not covered: IEEE rounding of this branch."
 ],
 "C10": [
  "proved",
  "every finite double angle; Cl(n,.)/Sl(n,.) reduction for every n; finiteness of Cl1..Cl6 in double and Cl2..Cl6 in x87 long double"
 ],
 "C43": [
  "proved",
  "error analysis by a verified checker (FerrB.v) over a partition of (0,pi]; the x87 constants are far from sharp because the far branches of Cl3/Cl5/Cl6 are ill-conditioned"
 ],
 "C44": [
  "proved",
  "For every finite argument, each of the four IEEE instances of Li2 is finite and within the stated multiple of the unit roundoff, over every C library meeting libm_ok (2 ulp); includes rounding of coefficients and PI, overflow-freedom and underflow."
 ],
 "C27": [
  "proved",
  "Off the real axis the code of each complex Li2..Li6 equals one of three (four for Li2) fixed polynomial expressions, and the series variable satisfies |w| < 1 resp. |u| <= 1.1 (radius of convergence 2 pi) in every branch. Truncation errors: C45. Real arguments: C11/C12 and the real functions."
 ],
 "C45": [
  "proved",
  "Exact arithmetic with the source literals; all nonreal z, all branches, against the principal branch defined by iterated integration (CLi.v). Rounding is not included here."
 ],
 "C46": [
  "proved",
  "Exact complex arithmetic with an abstract stopping test (rounding of the operations is not modelled here). Inversion region: the code compares each partial sum with a never-updated zero; that no partial sum vanishes exactly is proved for |Arg(-z)| <= 1.414 (even n) and <= 2.449 (odd n) and is an explicit hypothesis elsewhere. For |z| > 3/4 the argument is off the real axis."
 ],
 "C47": [
  "proved",
  "Exact arithmetic on the source literals. C vs C++: equal for every argument (Li2 all precisions, Li3/Li4 double), equal off the cut and within 2e-17/3e-36 on it (the rest). C and Fortran vs the principal branch: same form as C45/C26, argument unchanged in Fortran. Rounding is not part of the claim."
 ],
 "C48": [
  "proved",
  "exact arithmetic on the source literals with tolerance-t loop tests (NumQ, as C46), off the real axis; n = -60 refuted"
 ],
 "C49": [
  "proved",
  "double only (the other precisions have no real Li3/Li4); C library assumed accurate to libm_ok (a few ulp) as in C44; Li4 between 1/2 and 4/5 and between 6/5 and 3 with the larger constant, shown to be needed between 1/2 and 4/5."
 ],
 "C50": [
  "proved",
  "all delegating complex functions on the real axis in IEEE arithmetic; C real functions by bit equality with C++"
 ],
 "C51": [
  "proved",
  "all four branches, C++, C and Fortran; |z| <= 10^12, and Re z = 1 needs |Im z| >= 2^-1000"
 ],
 "C52": [
  "proved",
  "IEEE double, any libm_ok library, any depth and fuel: orders 0 and -1 with a relative bound up to the pole and to 0, order 1 off and on the cut, order 2 from C51. z = 0 and z = -1 included. Bounds on |z|: the textbook complex division of the model."
 ],
 "C53": [
  "proved",
  "IEEE double over any libm_ok library. The call is still running for every fuel up to 2^46 (C53_Li7_keeps_running), so a returning call has made more than 2^46 passes (C53_Li7_passes). A defect of the pinned code: the stopping rule of Li_series fails when the imaginary part is subnormal. C53_example exhibits the argument."
 ],
 "C54": [
  "proved",
  "IEEE double over any libm_ok library, all orders 7 <= n <= INT64_MAX. Finite result after at most 3531 passes; C54_example: arguments with the smallest double as imaginary part."
 ],
 "C55": [
  "proved",
  "All int64 orders n >= 7, IEEE double, every operation rounded, subnormals included, any library meeting libm_ok; absolute bound 19*2^-53*|z| + 2^-1057 and relative bound 20*2^-53 for |z| >= 2^-1000; fuel >= 3531 suffices and the call does not depend on more; see C54 for all orders (termination) and C32 for the remaining regions of the argument."
 ],
 "C56": [
  "proved",
  "IEEE double, every operation rounded, subnormals included, any library meeting libm_ok. C56_Li_real: returns and is accurate on the real segment; C56_Li_disc: whatever is returned within 4000 passes in the disc |z| <= 0.74 is accurate (unconditional return is false there, C53). C56_example shows a returning call."
 ]
}