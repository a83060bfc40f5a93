{"id": "C01", "title": "inv_fac is 1/n! for every n", "statement": "inv_fac(n) is NaN for n<0; for every n>=0 it is the reciprocal factorial 1/n! up to one rounding error (relative 2^-53-ish in the normal range, absolute below the smallest subnormal in the underflow range); it is exactly 0 only where 1/n! is below half of the smallest subnormal double.", "quantifier": "every 64-bit signed n", "why_tests_cant": "the domain has 2^64 points and the fallback branch covers almost all of them; tests check five values", "anchors": ["src/cpp/factorial.cpp: inv_fac, INVERSE_FACTORIALS"]}
{"id": "C02", "title": "zeta(n) is the Riemann zeta function for n>=2", "statement": "for every n>=2, zeta(n) agrees with the convergent sum over k of k^-n to a relative error of a few units of 2^-53, both in the tabulated range 2..33 and in the closed-form range n>=34.", "quantifier": "every 64-bit n>=2", "why_tests_cant": "the large-n formula must hold for unboundedly many n and each table digit matters; tests check seven entries", "anchors": ["src/cpp/zeta.cpp: zeta, ZETAS_POS"]}
{"id": "C03", "title": "zeta(n) at non-positive and singular arguments", "statement": "zeta(0) is -1/2, zeta(1) is +infinity, zeta of every negative even n is exactly 0, zeta of every tabulated negative odd n is -B_{1-n}/(1-n) to one rounding error, and outside the table (true magnitude above the largest double) it is the infinity with the mathematically correct sign.", "quantifier": "every 64-bit n<=1", "why_tests_cant": "unbounded family, alternating sign rule outside the table", "anchors": ["src/cpp/zeta.cpp: zeta, ZETAS_NEG"]}
{"id": "C04", "title": "zeta and neg_eta never index outside their tables", "statement": "for every n the table index computed from n is inside the array whenever the table branch is taken.", "quantifier": "every 64-bit signed n", "why_tests_cant": "an out-of-bounds read is silent on the sampled points; needs all n", "anchors": ["src/cpp/zeta.cpp: zeta", "src/cpp/eta.cpp: neg_eta", "src/cpp/factorial.cpp: inv_fac"]}
{"id": "C05", "title": "no signed integer overflow in zeta / neg_eta / inv_fac / harmonic", "statement": "for every 64-bit n the integer arithmetic on n stays inside int64, so the call has defined behaviour. (Expected to fail at the extreme ends; every failing n is to be identified.)", "quantifier": "every 64-bit signed n", "why_tests_cant": "overflow occurs at isolated extreme arguments no test samples", "anchors": ["src/cpp/zeta.cpp: zeta", "src/cpp/eta.cpp: neg_eta", "src/cpp/harmonic.cpp: harmonic, digamma"]}
{"id": "C06", "title": "neg_eta(n) is minus the Dirichlet eta function for n>=1", "statement": "for every n>=1, neg_eta(n) agrees with sum over k of (-1)^k k^-n to a relative error of about 2^-53; for n>=55 the value -1 is that good.", "quantifier": "every 64-bit n>=1", "why_tests_cant": "unbounded family; 54 table entries of which tests check five", "anchors": ["src/cpp/eta.cpp: neg_eta, NEG_ETA"]}
{"id": "C07", "title": "neg_eta(n) at non-positive n", "statement": "neg_eta(0) is -1/2, every negative even n gives exactly 0, every tabulated negative odd n gives -(1-2^{1-n}) zeta(n) to one rounding error, beyond the table the infinity with the mathematically correct sign.", "quantifier": "every 64-bit n<=0", "why_tests_cant": "unbounded family, alternating sign", "anchors": ["src/cpp/eta.cpp: neg_eta, NEG_ETA_NEG_N"]}
{"id": "C08", "title": "harmonic(n) is the n-th harmonic number", "statement": "harmonic(n) is NaN for n<=0 and agrees with 1+1/2+...+1/n for every n>=1, in both the summation branch n<20 and the asymptotic digamma branch n>=20.", "quantifier": "every 64-bit signed n (except where n+1 overflows)", "why_tests_cant": "asymptotic branch must hold for every n", "anchors": ["src/cpp/harmonic.cpp: harmonic, digamma"]}
{"id": "C09", "title": "Clausen/Glaisher parity is exact", "statement": "Cl(n,-x) equals -Cl(n,x) for even n and Cl(n,x) for odd n; Sl(n,-x) equals Sl(n,x) for even n and -Sl(n,x) for odd n - exactly, bit for bit (up to the sign of a zero result where stated), for every double x including zeros, infinities and NaN.", "quantifier": "every n and every double x", "why_tests_cant": "2^64 arguments times all orders", "anchors": ["src/cpp/Cl.cpp: Cl", "src/cpp/Cl1.cpp..Cl6.cpp", "src/cpp/Sl.cpp: Sl"]}
{"id": "C10", "title": "argument reduction lands in [0,pi], approximants stay finite", "statement": "for every finite double angle and every order, argument reduction of the Clausen functions ends at a finite angle in [0,pi] with a sign that is exactly 1 or -1, and that angle and sign are right for an angle within 4e-17|x|+2.3e-16 of x (for x itself when |x|<=3); the approximants are therefore only used on their interval of validity and never divide by zero: Cl2..Cl6 return a finite value for every finite double and long double angle, and Cl1 never returns NaN.", "quantifier": "every finite double x, every order", "why_tests_cant": "all angles up to 1e308; sampled tests stay near a few periods", "anchors": ["src/cpp/Cl.cpp: range_reduce_odd, range_reduce_even", "src/cpp/Sl.cpp: range_reduce_odd, range_reduce_even", "src/cpp/Cl2.cpp"]}
{"id": "C11", "title": "range reduction is reduction modulo 2 pi with reflection", "statement": "the value returned for angle x is the value returned for the reduced angle times the sign that the symmetry of the function demands: x -> |x| -> |x| mod 2pi -> min(t, 2pi-t), with sign flips exactly at the two reflections for the odd-symmetric functions and none for the even-symmetric ones; the functions are periodic with the period used in the code.", "quantifier": "every angle x and every whole number of periods", "why_tests_cant": "infinitely many periods", "anchors": ["src/cpp/Cl.cpp: range_reduce", "src/cpp/Sl.cpp: range_reduce", "src/cpp/Cl1.cpp..Cl6.cpp"]}
{"id": "C12", "title": "NaN propagates", "statement": "a NaN argument gives a NaN result from every real function (Li2, Li3, Li4, Cl1..Cl6, Cl, Sl) and {NaN,NaN} from Li(n,z) when either component is NaN, for every order n.", "quantifier": "every order n, every NaN position, every other component", "why_tests_cant": "all n; all companion components", "anchors": ["src/cpp/Li.cpp: Li", "src/cpp/Li2.cpp..Li4.cpp", "src/cpp/Cl*.cpp", "src/cpp/Sl.cpp"]}
{"id": "C13", "title": "infinite arguments", "statement": "Li(n,z) is {-inf,0} whenever a component of a NaN-free z is infinite, for every n; the real functions tend to -infinity at both ends: Li3 and Li4 return -infinity at +infinity and at -infinity, Li2 returns -infinity at +infinity but NaN at -infinity (a defect); the Clausen functions return NaN at infinity.", "quantifier": "every order n, every companion component", "why_tests_cant": "unbounded n; the -infinity case of the dilogarithm is not tested", "anchors": ["src/cpp/Li.cpp: Li", "src/cpp/Li2.cpp: Li2(double)", "src/cpp/Li3.cpp", "src/cpp/Li4.cpp"]}
{"id": "C14", "title": "zero and signed zero", "statement": "Li_n(+-0) returns its argument with the sign of each zero preserved, for the real functions and in both components for the complex ones, for every order n; even-order Cl and odd-order Sl preserve signed zero.", "quantifier": "every order n and every combination of zero signs", "why_tests_cant": "unbounded n", "anchors": ["src/cpp/Li.cpp: Li", "src/cpp/Li2.cpp", "src/cpp/Li3.cpp", "src/cpp/Li4.cpp", "src/cpp/Li5.cpp", "src/cpp/Li6.cpp", "src/cpp/Cl.cpp", "src/cpp/Sl.cpp"]}
{"id": "C15", "title": "real dilogarithm, double precision: accuracy", "statement": "in exact arithmetic the double precision Li2(x) is the real part of the dilogarithm, -Re int_0^x log(1-t)/t dt, within a few 1e-16 (absolute plus relative to the log terms), for every real x: the eight argument transformations are the right functional equations and the rational approximation is good on all of [0,1/2].", "quantifier": "every real x", "why_tests_cant": "accuracy at the worst point of a continuum; a wrong branch boundary or coefficient shows only between samples", "anchors": ["src/cpp/Li2.cpp: double Li2(double)"]}
{"id": "C16", "title": "real dilogarithm, single and long double precision: accuracy", "statement": "the float version is within 2e-7-level and the long double versions (both LDBL_DIG variants) within 1e-19-level / 1e-37-level of the dilogarithm in exact arithmetic for every real x.", "quantifier": "every real x", "why_tests_cant": "as above; the quadruple variant is not even compiled on the test platforms", "anchors": ["src/cpp/Li2.cpp: float Li2(float), long double Li2(long double)"]}
{"id": "C17", "title": "real trilogarithm: accuracy", "statement": "in exact arithmetic Li3(x) is the real part of the trilogarithm within a few 1e-16 scale for every real x, in all eleven branches.", "quantifier": "every real x", "why_tests_cant": "continuum of arguments", "anchors": ["src/cpp/Li3.cpp: Li3(double), li3_neg, li3_pos"]}
{"id": "C18", "title": "real 4-th order polylogarithm: accuracy", "statement": "in exact arithmetic Li4(x) is the real part of Li_4 within a few 1e-16 scale for every real x, in all branches.", "quantifier": "every real x", "why_tests_cant": "continuum of arguments", "anchors": ["src/cpp/Li4.cpp: Li4(double), li4_neg, li4_half, li4_mid, li4_one"]}
{"id": "C19", "title": "Clausen functions Cl1..Cl6, double: accuracy", "statement": "in exact arithmetic on the reduced interval (0,pi], Cl_k(x) is the Clausen function (iterated integral of -log(2 sin(t/2))) within a few 1e-16 scale, on both sides of pi/2.", "quantifier": "every x in [0,pi]", "why_tests_cant": "continuum of arguments", "anchors": ["src/cpp/Cl1.cpp", "src/cpp/Cl2.cpp", "src/cpp/Cl3.cpp", "src/cpp/Cl4.cpp", "src/cpp/Cl5.cpp", "src/cpp/Cl6.cpp"]}
{"id": "C20", "title": "Glaisher-Clausen polynomials", "statement": "for 1<=n<=25, Sl(n,x) on [0,pi] is the Bernoulli-polynomial closed form of sum cos(kx)/k^n (even n) or sum sin(kx)/k^n (odd n) within a 1e-16-scale error; for n>25 it is the partial sum of that series with a truncation error below a few epsilon.", "quantifier": "every n>=1, every x in [0,pi]", "why_tests_cant": "continuum of arguments, unbounded n, 160 long coefficients", "anchors": ["src/cpp/Sl.cpp: Sl, sl_series"]}
{"id": "C21", "title": "series branch of Cl", "statement": "for n>=10, Cl(n,x) in exact arithmetic is exactly the partial sum of sin(kx)/k^n or cos(kx)/k^n up to the cut-off, and the neglected tail is below a few machine epsilon.", "quantifier": "every n>=10 and every x", "why_tests_cant": "unbounded n; the three-term recurrence must be right at every step", "anchors": ["src/cpp/Cl.cpp: cl_series"]}
{"id": "C22", "title": "Cl for 7<=n<=9: tables and formula", "statement": "every index into binomial, inverse_factorial, zeta and B is inside the table, for every n that reaches the code and every loop iteration, and the assembled value is that of Eq.(2.13) of the cited paper.", "quantifier": "every n in 7..9, every x, every loop iteration", "why_tests_cant": "an out-of-bounds read is silent", "anchors": ["src/cpp/Cl.cpp: Cl, pcal, ncal, nsum"]}
{"id": "C23", "title": "Horner evaluation", "statement": "the real horner(x,c) equals sum c_i x^i and the complex two-term-recurrence horner<Nstart>(z,c) equals sum_{i>=Nstart} c_i z^{i-Nstart} in exact arithmetic.", "quantifier": "every coefficient array of every length, every start index and every argument", "why_tests_cant": "all degrees and all arguments", "anchors": ["src/cpp/horner.hpp: horner"]}
{"id": "C24", "title": "complex logarithm helpers", "statement": "log1p(z) equals log(1+z) in exact arithmetic for every z with 1+z != 0; pos_log and Li's clog return the principal logarithm, with imaginary part +pi on the whole negative real axis whatever the sign of the zero imaginary part, and imaginary part 0 on the positive axis.", "quantifier": "every complex z (every signed-zero variant)", "why_tests_cant": "all z; signed zero cases", "anchors": ["src/cpp/log.hpp: log1p, pos_log", "src/cpp/Li.cpp: clog"]}
{"id": "C25", "title": "conjugation symmetry", "statement": "Li_n(conj z) = conj(Li_n(z)) for every z off the real axis, for Li2..Li6 and for Li(n,z) with every n.", "quantifier": "every n, every z with nonzero imaginary part", "why_tests_cant": "all z and n", "anchors": ["src/cpp/Li.cpp", "src/cpp/Li2.cpp", "src/cpp/Li3.cpp", "src/cpp/Li4.cpp", "src/cpp/Li5.cpp", "src/cpp/Li6.cpp"]}
{"id": "C26", "title": "complex functions on the real axis", "statement": "for a complex argument with zero imaginary part, complex Li2 (all precisions) and the double Li3, Li4 return the real function's value as real part, the argument's own (signed) zero as imaginary part when Re z<=1, and -pi log(x)^{n-1}/(n-1)! when x = Re z>1. The other ten functions (long double and quadruple Li3, Li4; Li5, Li6), whose code has no such shortcut, return, in exact arithmetic with the source constants, Re Li_n(x) and that imaginary part (the limit of the principal branch from below the cut) within eps*|x| for |x| <= 1 and eps*(1+|Log(-x)|)^n outside, with the eps of C45, for every real x including the special points 0, 1, -1, 1/2.", "quantifier": "every real part", "why_tests_cant": "all x", "anchors": ["src/cpp/Li2.cpp", "src/cpp/Li3.cpp", "src/cpp/Li4.cpp", "src/cpp/Li5.cpp", "src/cpp/Li6.cpp"]}
{"id": "C27", "title": "complex polylogarithms: regions", "statement": "the case split of complex Li2..Li6 is total and each series variable stays inside the region where its series converges with the stated number of terms.", "quantifier": "every complex z", "why_tests_cant": "continuum of arguments", "anchors": ["src/cpp/Li2.cpp: Li2(complex)", "src/cpp/Li3.cpp..Li6.cpp"]}
{"id": "C28", "title": "Li(n,z): special points and dispatch", "statement": "Li(n,0)=z, Li(n,1)=zeta(n) for n>=1 and {inf,inf} for n<=0, Li(n,-1)=neg_eta(n), and for every other finite z and 2<=n<=6 Li(n,z) is exactly Li_n(z) of the dedicated function.", "quantifier": "every 64-bit n and every z", "why_tests_cant": "unbounded n", "anchors": ["src/cpp/Li.cpp: Li"]}
{"id": "C29", "title": "Li(n,z): closed forms for n=-1,0,1", "statement": "in exact arithmetic Li(0,z)=z/(1-z), Li(-1,z)=z/(1-z)^2 and Li(1,z)=-log(1-z), consistent with sum z^k k^-n inside the unit disk.", "quantifier": "every complex z != 1", "why_tests_cant": "all z", "anchors": ["src/cpp/Li.cpp: Li"]}
{"id": "C30", "title": "Li(n,z) for n<-1 terminates", "statement": "the square-root duplication recursion reaches one of the two series for every z, with a recursion depth bounded by a small constant over the whole double range.", "quantifier": "every n<-1 and every finite z", "why_tests_cant": "termination over all z", "anchors": ["src/cpp/Li.cpp: Li"]}
{"id": "C31", "title": "Li(n,z) for n<-1: duplication step is exact", "statement": "the recursion step 2^{n-1}(Li_n(sqrt z)+Li_n(-sqrt z)) equals Li_n(z).", "quantifier": "every n and every z", "why_tests_cant": "all z and n", "anchors": ["src/cpp/Li.cpp: Li"]}
{"id": "C32", "title": "series loops of Li terminate and sum the right series", "statement": "Li_series returns a partial sum of z^k/k^n for every n and z; Li_unity_pos and Li_unity_neg return partial sums of the expansion about z=1; every loop stops.", "quantifier": "every n and z", "why_tests_cant": "unbounded iteration counts", "anchors": ["src/cpp/Li.cpp: Li_series, Li_unity_pos, Li_unity_neg"]}
{"id": "C33", "title": "inversion formula remainder", "statement": "Li_rest(n,z) is the remainder in Li_n(z) = -(-1)^n Li_n(1/z) + Li_rest(n,z), i.e. 2 sum_k eta-terms - log(-z)^n/n!, for every n; cutting the loop when inv_fac underflows to 0 loses nothing.", "quantifier": "every n>=7 and |z|>=1.4", "why_tests_cant": "unbounded n", "anchors": ["src/cpp/Li.cpp: Li_rest"]}
{"id": "C34", "title": "Li(n,z): no signed overflow", "statement": "the integer arithmetic on n inside Li stays within int64 for every n. (Expected to fail at the ends of the range; every failing n is to be identified.)", "quantifier": "every 64-bit n", "why_tests_cant": "extreme arguments", "anchors": ["src/cpp/Li.cpp"]}
{"id": "C35", "title": "domain errors of Cl and Sl", "statement": "Cl(n,x) and Sl(n,x) return NaN for every n<1 and every x, and otherwise dispatch to exactly one branch.", "quantifier": "every n, every x", "why_tests_cant": "unbounded n", "anchors": ["src/cpp/Cl.cpp: Cl", "src/cpp/Sl.cpp: Sl"]}
{"id": "C36", "title": "C and C++ interfaces agree", "statement": "the C functions li2f/li2/li2l, li3, li4, cl2..cl6 compute the same function of their argument as the C++ overloads (same branches, same constants), for every argument.", "quantifier": "every argument", "why_tests_cant": "all arguments, all branches", "anchors": ["src/c/Li2.c", "src/c/Li3.c", "src/c/Li4.c", "src/c/Cl2.c..Cl6.c"]}
{"id": "C37", "title": "Fortran functions do not modify their argument", "statement": "a user expects a Fortran function to leave its argument variable unchanged. dli2, dli3 and cdli2..cdli6 do, for every argument. The Clausen functions and dli4 assign to their dummy argument (passed by reference): dcl2..dcl6 leave the reduced angle in the caller's variable, so the argument survives exactly when 0<=x<=pi, and dli4 leaves 1/x for |x|>1, so it survives exactly when |x|<=1 (a defect).", "quantifier": "every argument", "why_tests_cant": "tests pass copies", "anchors": ["src/fortran/Cl2.f90", "src/fortran/Cl3.f90", "src/fortran/Cl4.f90", "src/fortran/Cl5.f90", "src/fortran/Cl6.f90", "src/fortran/Li4.f90"]}
{"id": "C38", "title": "zeros and extremes of the Clausen functions", "statement": "even-order Clausen functions vanish at 0 and at pi, odd-order ones return zeta(n) at 0 (infinity for n=1).", "quantifier": "every order n", "why_tests_cant": "unbounded n", "anchors": ["src/cpp/Cl.cpp", "src/cpp/Cl1.cpp..Cl6.cpp"]}
{"id": "C39", "title": "branch boundaries do not jump", "statement": "at every branch boundary of the real functions the values of the two adjacent formulas differ by no more than the stated error (no visible discontinuity).", "quantifier": "every boundary point and its two one-sided neighbourhoods", "why_tests_cant": "only a proof covers every neighbour of a boundary", "anchors": ["src/cpp/Li2.cpp", "src/cpp/Li3.cpp", "src/cpp/Li4.cpp", "src/cpp/Cl2.cpp..Cl6.cpp"]}
{"id": "C40", "title": "denominators never vanish", "statement": "the denominator polynomial of every rational approximant is strictly positive on its whole interval of use, so no approximant produces an infinity or NaN from finite reduced arguments.", "quantifier": "every point of each interval", "why_tests_cant": "continuum", "anchors": ["src/cpp/Li2.cpp", "src/cpp/Li3.cpp: li3_neg, li3_pos", "src/cpp/Li4.cpp: li4_neg, li4_half, li4_mid", "src/cpp/Cl2.cpp..Cl6.cpp"]}
{"id": "C41", "title": "Fortran functions return the C++ values", "statement": "dcl2..dcl6, dli3 and dli4 compute in exact arithmetic the same function as the C++ Cl2..Cl6, Li3, Li4 (same branches, same constants), and dli2 has the accuracy of Li2: |dli2(x)-Li2(x)| <= 2e-16*min(1,|x|) for every real x.", "quantifier": "every real argument", "why_tests_cant": "the functions are written with different operations and, for dli2, another constant; agreement at all points of every branch is not a finite check", "anchors": ["src/fortran/Cl2.f90:dcl2", "src/fortran/Cl3.f90:dcl3", "src/fortran/Cl4.f90:dcl4", "src/fortran/Cl5.f90:dcl5", "src/fortran/Cl6.f90:dcl6", "src/fortran/Li2.f90:dli2", "src/fortran/Li3.f90:dli3", "src/fortran/Li4.f90:dli4"]}
{"id": "C42", "title": "Fortran cdli2 sets its result", "statement": "the value returned by cdli2(z) never depends on memory it did not set, for every double argument whose real part is a number; for z = NaN + 0i (a defect) the result variable is never assigned and the caller receives whatever it held.", "quantifier": "every pair of doubles and every initial content of the result variable", "why_tests_cant": "an uninitialised result may by luck look right in every test run", "anchors": ["src/fortran/Li2.f90:cdli2"]}
{"id": "C43", "title": "Clausen functions: end-to-end floating-point accuracy", "statement": "in IEEE double arithmetic, with a C library accurate to 2 ulp, Cl2..Cl6 return for every finite double x a value within 42, 26, 39, 23, 33 units of 2^-53 of the exact Clausen function at an angle within 4e-17|x|+2.3e-16 of x (at x itself when |x|<=3); Cl1 is accurate to a relative error 2^-51 plus 15 units of 2^-53 away from its poles; the x87 long double versions satisfy the same with larger constants.", "quantifier": "every finite double (long double) x, every library meeting the accuracy contract", "why_tests_cant": "2^64 arguments, and rounding errors of every intermediate operation", "anchors": ["src/cpp/Cl1.cpp", "src/cpp/Cl2.cpp", "src/cpp/Cl3.cpp", "src/cpp/Cl4.cpp", "src/cpp/Cl5.cpp", "src/cpp/Cl6.cpp"]}
{"id": "C44", "title": "Real dilogarithm: end-to-end floating-point accuracy", "statement": "in IEEE arithmetic, with a C library whose log and log1p are accurate to 2 ulp, Li2(float), Li2(double), Li2(long double, x87) and Li2(long double, quadruple) return for every finite x a finite value whose distance from Re Li2(x) is at most 90, 232, 208, 3438 units of 2^-24, 2^-53, 2^-64, 2^-113 times min(1,|x|)+log(1+|x|)^2, plus 100 times half the smallest subnormal number.", "quantifier": "every finite argument of each of the four floating-point types, every library meeting the accuracy contract", "why_tests_cant": "the bound must hold for all 2^32..2^128 arguments, on both sides of every branch boundary and for every conforming math library; tests compare a few hundred points with one libm", "anchors": ["src/cpp/Li2.cpp"]}
{"id": "C45", "title": "Complex Li2..Li6 off the real axis: accuracy of the formulas", "statement": "for every z with nonzero imaginary part, the formulas of complex Li2 (float, double, long double, quadruple) and Li3, Li4, Li5, Li6 (double, long double, quadruple), evaluated in exact arithmetic with the decimal constants of the source, return a value within eps*|z| of the principal branch Li_n(z) when |z| <= 1 and within eps*(1+|Log(-z)|)^n when |z| > 1, with eps = 5e-7 (float Li2), 2.7e-16, 1.1e-14, 8e-15, 1e-15, 3e-15 (double Li2..Li6), 5e-18, 9e-18, 4.5e-18, 1.8e-17, 4e-18 (long double) and 3e-35, 1e-34, 1e-34, 1e-34, 2e-34 (quadruple).", "quantifier": "every complex argument off the real axis, in every branch, all sixteen functions", "why_tests_cant": "a continuum of arguments in two dimensions; a wrong coefficient, sign of arg or misplaced branch boundary can be invisible at the test points", "anchors": ["src/cpp/Li2.cpp: Li2(complex)", "src/cpp/Li3.cpp: Li3(complex)", "src/cpp/Li4.cpp: Li4(complex)", "src/cpp/Li5.cpp", "src/cpp/Li6.cpp", "src/cpp/log.hpp"]}
{"id": "C46", "title": "Li(n,z) for orders n >= 7 against the principal branch", "statement": "for every order n >= 7, Li(n,z) returns the principal branch of the polylogarithm up to the errors that are not rounding: for |z| <= 3/4 the result is within 4t|z| of Li_n(z), where t is the relative difference at which the floating-point comparison of consecutive partial sums stops the loop (2^-52 or less in double precision); for 3/4 < |z| < 7/5 it is within 2e-15 + 0.4t|result|, or NaN when the comparison never succeeds within the tabulated zeta values, which does not happen when neither part of Li_n(z) is below 1e-14; for |z| >= 7/5 it is within 4t/|z| plus 3e-16 times the sum of |Log(-z)|^m/m! over m <= min(n,177), plus (n >= 178 only) the terms the code cuts off.", "quantifier": "every order 7 <= n (for the annulus n <= 3037000497), every complex z (off the real axis for |z| > 3/4), every stopping test exact against zero", "why_tests_cant": "infinitely many orders and a continuum of arguments; the number of passes through the loops depends on both and is decided by a floating-point comparison", "anchors": ["src/cpp/Li.cpp Li", "src/cpp/Li.cpp Li_series", "src/cpp/Li.cpp Li_unity_pos", "src/cpp/Li.cpp Li_rest", "src/cpp/zeta.cpp zeta", "src/cpp/harmonic.cpp harmonic", "src/cpp/eta.cpp neg_eta", "src/cpp/factorial.cpp inv_fac"]}
{"id": "C47", "title": "C and Fortran complex polylogarithms agree with C++ and are as accurate", "statement": "the C functions cli2..cli6 (float, double, long double, quadruple where they exist) return the same number as the C++ complex Li2..Li6 for every complex argument, except for real arguments x > 1 in the functions that take the imaginary part of a logarithm there, where the two differ by at most 2e-17 (double, long double) or 3e-36 (quadruple); C and Fortran (cdli2..cdli6) are within the same kind of bound of the principal branch of the polylogarithm as the C++ functions, off the real axis and on it, and the Fortran functions leave the caller's argument unchanged.", "quantifier": "every complex argument z of every C and Fortran complex polylogarithm of order 2 to 6, in exact arithmetic on the decimal literals of the sources", "why_tests_cant": "a continuum of arguments; the language versions are separate source texts with their own tables, literals and logarithm helpers, and the tests compare them at finitely many points", "anchors": ["src/c/Li2.c cli2", "src/c/Li3.c cli3", "src/c/Li4.c cli4", "src/c/Li5.c cli5", "src/c/Li6.c cli6", "src/c/log.c", "src/fortran/log.f90", "src/fortran/Li2.f90 cdli2", "src/fortran/Li3.f90 cdli3", "src/fortran/Li4.f90 cdli4", "src/fortran/Li5.f90 cdli5", "src/fortran/Li6.f90 cdli6"]}
{"id": "C48", "title": "Li(n,z) of moderately negative order is accurate off the real axis; very negative orders are not", "statement": "for n = -2, ..., -15 and every z off the real axis within the double range the call Li(n,z) returns, and the result differs from the rational function (z d/dz)^(-n) z/(1-z) by at most (8t + 7e-16) times the size of the quantities that are added up (sum k^|n| |z|^k in the disc, the pole |n|!/|log z|^(|n|+1) near 1, 2^(n-1) times the sizes at the two square roots elsewhere), t being the relative tolerance with which the loops compare successive sums (2^-53 in double precision). For n = -60 this fails: at z = exp(25/8 i) the loop of the expansion around 1 stops after its first pass and the result is wrong by more than 3 %.", "quantifier": "every order -15 <= n <= -2, every complex z off the real axis, every iteration limit, every relative stopping test of tolerance t <= 2^-52", "why_tests_cant": "a continuum of arguments and a data-dependent loop length; the stopping test may be satisfied before the terms have started to grow, which happens only for particular orders and arguments", "anchors": ["src/cpp/Li.cpp Li", "src/cpp/Li.cpp Li_unity_neg", "src/cpp/Li.cpp Li_series"]}
{"id": "C49", "title": "Real Li3 and Li4 are accurate in double precision arithmetic", "statement": "for every finite double x, Li3(x) and Li4(x) return a finite double; the result of Li3 differs from the real part of the trilogarithm by at most 300*2^-53*(min(1,|x|)+ln(1+|x|)^3) + 100*2^-1075, the result of Li4 from the real part of the tetralogarithm by at most 3000*2^-53*(min(1,|x|)+ln(1+|x|)^4) + 100*2^-1075, and with 300 in place of 3000 when x < 1/2, 4/5 < x <= 6/5 or x >= 3. Between 1/2 and 4/5 the larger constant is needed: some double there has an error above 200*2^-53.", "quantifier": "every finite double x (subnormals, both zeros and the largest magnitudes included) and every C library whose log and log1p are accurate to a few units in the last place", "why_tests_cant": "2^64 arguments with cancellation between rational approximation, reflections and logarithms that depends on the argument; tests sample a few hundred", "anchors": ["src/cpp/Li3.cpp Li3(double)", "src/cpp/Li4.cpp Li4(double)"]}
{"id": "C50", "title": "Complex polylogarithms at real arguments, and the C functions, in floating-point arithmetic", "statement": "Calling the complex Li2 (float, double, long double, quadruple), Li3 (double) or Li4 (double) of C++ or C with a finite real x and imaginary part +0 or -0 returns a finite real part with the accuracy of the real function (C44, C49); the imaginary part is the very zero that was passed when x <= 1, and when x > 1 it is -pi ln(x)^(n-1)/(n-1)! to within 8, 15 or 25 units of 2^-p relative (n = 2, 3, 4), however near 1 or large x is. The real C functions li2f, li2, li2l, li2q, li3, li4 have the accuracy of the C++ ones, and the C complex functions agree with the C++ ones bit for bit on the real axis.", "quantifier": "every finite float, double, long double or quadruple x, both signs of the zero imaginary part, and every C library whose log and log1p are accurate to a few units in the last place", "why_tests_cant": "the whole range of floats, including the arguments next to the branch point 1 where the logarithm is as small as one unit in the last place, and a contract for the library instead of one library", "anchors": ["src/cpp/Li2.cpp: Li2(std::complex<float>), Li2(std::complex<double>), Li2(std::complex<long double>), Li2(std::complex<__float128>)", "src/cpp/Li3.cpp: Li3(std::complex<double>)", "src/cpp/Li4.cpp: Li4(std::complex<double>)", "src/c/Li2.c: li2f, li2, li2l, li2q, cli2f, cli2, cli2l, cli2q", "src/c/Li3.c: li3, cli3", "src/c/Li4.c: li4, cli4"]}
{"id": "C51", "title": "Complex dilogarithm off the real axis in double arithmetic", "statement": "For a double-precision complex z with nonzero imaginary part and |z| <= 10^12, the C++ Li2(std::complex<double>), the C cli2 and the Fortran cdli2 return two finite components, and the value differs from Li2(z), the integral along the segment from 0 to z, by at most 2^-53 (400 + 40 |log(1-z)| + 30 ln(1+|z|)^2); so the C++ and the C result differ by at most twice that.", "quantifier": "every pair of finite doubles with |z| <= 10^12 and nonzero imaginary part (when the real part is exactly 1, imaginary part at least 2^-1000), and every C library whose elementary functions are accurate to two units in the last place", "why_tests_cant": "2^128 arguments, four regions whose boundaries are decided by rounded comparisons, cancellation in log(1+z), and a contract for the library instead of one library", "anchors": ["src/cpp/Li2.cpp: Li2(std::complex<double>)", "src/cpp/log.hpp: log1p", "src/c/Li2.c: cli2", "src/c/log.c: clog1p", "src/fortran/Li2.f90: cdli2", "src/fortran/log.f90: cdlog1p"]}
{"id": "C52", "title": "Li(n,z) of order -1, 0, 1 and 2 in double arithmetic", "statement": "Li(n,z) for n = 0 and n = -1 returns z/(1-z) and z/(1-z)^2 with a relative error of at most 10 and 15 units of 2^-53 (plus 2^-690 such units absolutely), however close z is to the pole or to 0; for n = 1 off the cut it returns -log(1-z) within 2^-53 (7 + 5 |log(1-z)|), on the cut z > 1 the real part is that accurate and the imaginary part is -pi within 1.25e-16; for n = 2 off the real axis the bound of C51 holds. Every such call terminates without recursion and returns finite components.", "quantifier": "every pair of finite doubles other than z = 1 with |z| <= 10^12 (n = 0, 2), 10^6 (n = -1), 10^28 (n = 1) (when the real part is exactly 1, imaginary part at least 2^-60 for n <= 0 and 2^-1000 for n = 1, 2), every fuel and depth of the model, and every C library whose elementary functions are accurate to two units in the last place", "why_tests_cant": "2^128 arguments; the relative error near the pole z = 1 and near 0 depends on an exact subtraction and on underflow that samples do not reach", "anchors": ["src/cpp/Li.cpp: Li(int64_t, std::complex<double>), clog", "src/cpp/eta.cpp: neg_eta"]}
{"id": "C53", "title": "A bounded argument on which Li(7,z) runs for more than 2^46 passes", "statement": "Li(n,z) does not finish in reasonable time on every argument with |z| about 3/4: at z = 3/4 + 2^-1028 i, for n = 7, the loop of the power series is still running after 2^46 (about 7*10^13) passes, each with one call of pow. The imaginary part of the term stops decreasing at the smallest double while the subnormal imaginary part of the partial sum keeps changing, so the stopping rule sum == old sum is not met. This is a defect of the pinned code, stated as a theorem about it; it shows that the bound of C32 on the number of passes is not a formality.", "quantifier": "every fuel of the model up to 2^46, every recursion depth, and every C library whose elementary functions are accurate to two units in the last place", "why_tests_cant": "a test that reaches the behaviour never returns, and a test with a time limit cannot tell 10^6 passes from 10^14", "anchors": ["src/cpp/Li.cpp: Li(int64_t, std::complex<double>), Li_series"]}
{"id": "C54", "title": "Li(n,z) with n >= 7 returns after at most 3531 passes in the square |Re z|, |Im z| <= 1/5", "statement": "For every order n from 7 to 2^63 - 1 and every double argument with |Re z| <= 1/5 and |Im z| <= 1/5, Li(n,z) returns after at most 3531 passes of its series loop, and both components of the result are finite. (C53 shows that no such bound holds up to |z| = 3/4.)", "quantifier": "every order 7 <= n <= INT64_MAX, every pair of finite doubles in the square, subnormal ones included, every recursion depth, and every C library whose elementary functions are accurate to two units in the last place", "why_tests_cant": "2^63 orders and 2^126 arguments; whether the loop stops depends on the underflow pattern of the two components, which samples do not reach", "anchors": ["src/cpp/Li.cpp: Li(int64_t, std::complex<double>), Li_series"]}
{"id": "C55", "title": "Li(n,z) with n >= 7 is accurate to 20 units in 2^-53 in the square |Re z|, |Im z| <= 1/5", "statement": "For every order n from 7 to 2^63 - 1 and every double argument with |Re z| <= 1/5 and |Im z| <= 1/5, Li(n,z) returns a finite value that differs from the polylogarithm of order n at z by at most 19 * 2^-53 * |z| + 2^-1057 in modulus; unless |z| < 2^-1000 the error is at most 20 * 2^-53 times the modulus of the polylogarithm. From order 2000 on the value returned equals z.", "quantifier": "every order 7 <= n <= INT64_MAX, every pair of finite doubles in the square, subnormal and zero components included, every recursion depth, and every C library whose elementary functions are accurate to two units in the last place", "why_tests_cant": "2^63 orders and 2^126 arguments; a test compares a few points with a tolerance, while the claim is a bound on the accumulated rounding error of every pass at every point, in the presence of underflow", "anchors": ["src/cpp/Li.cpp: Li(int64_t, std::complex<double>), Li_series"]}
{"id": "C56", "title": "Li(n,x) of a real argument |x| <= 3/4 returns and is accurate; what Li(n,z) returns in the disc |z| <= 0.74 is accurate", "statement": "For every order n from 7 to 10^6: (a) for every double z whose imaginary part is +0 or -0 and whose real part x satisfies |x| <= 3/4, Li(n,z) returns after at most 3531 passes (132 when |x| > 1/5) a finite value that differs from the polylogarithm by at most 53 * 2^-53 * |x| + 2^-1056; (b) for every double z with |z| <= 0.74, if Li(n,z) returns within 4000 passes, the value is finite and differs from the polylogarithm by at most 53 * 2^-53 * |z| + 2^-1056. ((b) is conditional because of C53.)", "quantifier": "every order 7 <= n <= 10^6, every double argument on the real segment or in the disc, subnormal and zero components included, every recursion depth, and every C library whose elementary functions are accurate to two units in the last place", "why_tests_cant": "a million orders and 2^126 arguments; a test compares a few points with a tolerance, while the claim bounds the accumulated rounding error of every pass, and that the loop ends, at every point", "anchors": ["src/cpp/Li.cpp: Li(int64_t, std::complex<double>), Li_series"]}
