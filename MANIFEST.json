{
 "claims": [
  {
   "property": "C01",
   "status": "proved",
   "theorems": [
    "C01_inv_fac_negative",
    "C01_inv_fac_normal",
    "C01_inv_fac_underflow",
    "C01_inv_fac_zero_iff"
   ],
   "note": "IEEE double: relative error <= 2 units of 2^-53 up to 170!, absolute error <= 2^-1074 beyond, zero exactly when 1/n! < 2^-1075, NaN for n < 0."
  },
  {
   "property": "C02",
   "status": "proved",
   "theorems": [
    "C02_zeta_positive"
   ],
   "note": "IEEE double with libm contract: relative error <= 3 units of 2^-53 w.r.t. the limit of the series, every n in [2, INT64_MAX]."
  },
  {
   "property": "C03",
   "status": "proved",
   "theorems": [
    "C03_zeta_0",
    "C03_zeta_1",
    "C03_zeta_negative_even",
    "C03_zeta_negative_odd_tabulated",
    "C03_zeta_negative_odd_overflow",
    "C03_C07_bernoulli_exists"
   ],
   "note": "IEEE double; Bernoulli numbers are characterised by their recurrence; the overflow theorem also proves the exact value exceeds 2^1024 in magnitude with that sign. n = INT64_MIN+1 is undefined behaviour (C05)."
  },
  {
   "property": "C04",
   "status": "proved",
   "theorems": [
    "C04_zeta_in_bounds",
    "C04_neg_eta_in_bounds",
    "C04_inv_fac_in_bounds",
    "C04_zeta_no_read_at_min"
   ],
   "note": "The model turns any out-of-bounds access into Ub; the theorems exclude it for every int64 n (the single remaining n, INT64_MIN+1, is the C05 overflow, which happens after the index was found outside the table)."
  },
  {
   "property": "C05",
   "status": "proved",
   "theorems": [
    "C05_zeta_overflow_iff",
    "C05_neg_eta_overflow_iff",
    "C05_inv_fac_no_overflow",
    "C05_harmonic_overflow_iff"
   ],
   "note": "The unrestricted claim is false; the exact set of overflowing n is proved: zeta and neg_eta at INT64_MIN+1, harmonic at INT64_MAX, inv_fac never."
  },
  {
   "property": "C06",
   "status": "proved",
   "theorems": [
    "C06_neg_eta_positive"
   ],
   "note": "IEEE double: relative error <= 2 units of 2^-53 w.r.t. the limit of the alternating series, every n >= 1."
  },
  {
   "property": "C07",
   "status": "proved",
   "theorems": [
    "C07_neg_eta_0",
    "C07_neg_eta_negative_even",
    "C07_neg_eta_negative_odd_tabulated",
    "C07_neg_eta_negative_odd_overflow"
   ],
   "note": "As C03."
  },
  {
   "property": "C08",
   "status": "proved",
   "theorems": [
    "C08_harmonic_nonpositive",
    "C08_harmonic_small_exact",
    "C08_harmonic_large_exact",
    "C08_harmonic_small",
    "C08_harmonic_large",
    "C08_digamma_exact",
    "C08_digamma_nonpositive"
   ],
   "note": "Exact arithmetic: exact below 20, 6e-18 from 20 on; IEEE double with libm contract: relative error <= 2 resp. 8 units of 2^-53, every n in [1, INT64_MAX-1] (INT64_MAX is undefined behaviour, C05)."
  },
  {
   "property": "C09",
   "status": "proved",
   "theorems": [
    "C09_Cl_even_order",
    "C09_Cl_odd_order",
    "C09_Sl_even_order",
    "C09_Sl_odd_order"
   ],
   "note": "IEEE double instance, any libm meeting the contract Libm.libm_ok; up to the sign of a zero result."
  },
  {
   "property": "C10",
   "status": "proved",
   "theorems": [
    "C10_reduced_angle_Cl",
    "C10_reduced_angle_Sl",
    "C10_finite_double",
    "C10_finite_long_double"
   ],
   "note": "every finite double angle; Cl(n,.)/Sl(n,.) reduction for every n; finiteness of Cl1..Cl6 in double and Cl2..Cl6 in x87 long double"
  },
  {
   "property": "C11",
   "status": "proved",
   "theorems": [
    "C11_reduction_total_double",
    "C11_reduction_total_long_double",
    "C11_Cl_reduction",
    "C11_Sl_reduction",
    "C11_Cl_long_double_reduction",
    "C11_periodic",
    "C11_periodic_long_double"
   ],
   "note": "Exact arithmetic: Cl(n,.) and Sl(n,.) for every n>=1 and the long double Cl2..Cl6. In double the two-part literal for 2 pi is 3e-18 below twice the pi literal; an angle in that gap reduces to a negative number > -4e-18 (hypothesis 0<=r)."
  },
  {
   "property": "C12",
   "status": "proved",
   "theorems": [
    "C12_real_NaN",
    "C12_real_NaN_float",
    "C12_real_NaN_long",
    "C12_real_NaN_quad",
    "C12_Cl_NaN",
    "C12_Sl_NaN",
    "C12_Li_NaN"
   ],
   "note": ""
  },
  {
   "property": "C13",
   "status": "proved",
   "theorems": [
    "C13_Li_infinite",
    "C13_real_infinite",
    "C13_Cl_infinite",
    "C13_Sl_infinite"
   ],
   "note": "Includes the defect: Li2(-inf) is NaN in the code, not the limit -inf."
  },
  {
   "property": "C14",
   "status": "proved",
   "theorems": [
    "C14_real_zero",
    "C14_real_zero_other_precisions",
    "C14_complex_zero",
    "C14_Li_zero",
    "C14_Cl_even_zero",
    "C14_Sl_odd_zero"
   ],
   "note": ""
  },
  {
   "property": "C15",
   "status": "proved",
   "theorems": [
    "C15_Li2_double_accuracy"
   ],
   "note": "Exact-arithmetic instance RD (real numbers, decimals of the source), every real x; specification ReLi (iterated integrals, power series, uniqueness) independent of the code."
  },
  {
   "property": "C16",
   "status": "proved",
   "theorems": [
    "C16_Li2_float_accuracy",
    "C16_Li2_long_double_accuracy",
    "C16_Li2_quad_accuracy"
   ],
   "note": "Same as C15 for the float and both long double variants."
  },
  {
   "property": "C17",
   "status": "proved",
   "theorems": [
    "C17_Li3_double_accuracy"
   ],
   "note": "Exact-arithmetic instance RD, every real x."
  },
  {
   "property": "C18",
   "status": "proved",
   "theorems": [
    "C18_Li4_double_accuracy"
   ],
   "note": "Exact-arithmetic instance RD, every real x."
  },
  {
   "property": "C19",
   "status": "proved",
   "theorems": [
    "C19_Cl1_double_accuracy",
    "C19_Cl2_double_accuracy",
    "C19_Cl3_double_accuracy",
    "C19_Cl4_double_accuracy",
    "C19_Cl5_double_accuracy",
    "C19_Cl6_double_accuracy",
    "C19_Cl2_long_double_accuracy",
    "C19_Cl3_long_double_accuracy",
    "C19_Cl4_long_double_accuracy",
    "C19_Cl5_long_double_accuracy",
    "C19_Cl6_long_double_accuracy",
    "C19_Cl2_double_all_angles",
    "C19_Cl3_double_all_angles",
    "C19_Cl4_double_all_angles",
    "C19_Cl5_double_all_angles",
    "C19_Cl6_double_all_angles",
    "C19_Cl2_long_double_all_angles",
    "C19_Cl3_long_double_all_angles",
    "C19_Cl4_long_double_all_angles",
    "C19_Cl5_long_double_all_angles",
    "C19_Cl6_long_double_all_angles"
   ],
   "note": "Exact arithmetic (RD/RL), specification = the Fourier series. Cl1..Cl6 double and long double on |x|<=pi, and for every angle up to the relative error of the pi literals (double: outside the 3e-18 gap where p0+p1 < 2*pi literal). The long double Cl3..Cl6 are only good to 1e-25, so not to quad precision on platforms where long double is quad."
  },
  {
   "property": "C20",
   "status": "proved",
   "theorems": [
    "C20_polynomials",
    "C20_polynomials_all_angles",
    "C20_series",
    "C20_bernoulli_closed_form"
   ],
   "note": "Exact-arithmetic instance RD of the model (decimal literals exact, +,-,*,/ exact, no rounding).  n<=25: every literal coefficient is compared with the Bernoulli closed form (C20_bernoulli_closed_form, proved from the Fourier series); n>=26: truncation error of the series.  not_in_gap excludes real angles in (p0+p1, 2*PI_literal) modulo the literal period, an interval of width 3e-18."
  },
  {
   "property": "C21",
   "status": "proved",
   "theorems": [
    "C21_term_count",
    "C21_partial_sum",
    "C21_Cl_series_accuracy"
   ],
   "note": "Exact arithmetic; all n>=10, all real x."
  },
  {
   "property": "C22",
   "status": "proved",
   "theorems": [
    "C22_table_reads_in_range",
    "C22_accuracy",
    "C22_all_angles"
   ],
   "note": "Every table read of the 7<=n<=9 branch is in range for every arithmetic; in exact arithmetic the assembled value is the Clausen sum within 2e-15 (all angles), via Eq. (2.13) proved from the Bernoulli series of cot with the 202 table entries compared with exact fractions (first 101) or bounded (rest). Not covered: IEEE rounding of this branch."
  },
  {
   "property": "C23",
   "status": "proved",
   "theorems": [
    "C23_horner",
    "C23_complex_horner"
   ],
   "note": ""
  },
  {
   "property": "C24",
   "status": "proved",
   "theorems": [
    "C24_log1p",
    "C24_pos_log",
    "C24_Li_clog",
    "C24_negative_axis",
    "C24_positive_axis",
    "C24_log1p_tiny"
   ],
   "note": "log1p(z) is exactly the principal log of 1+z in exact arithmetic (z != -1); pos_log and Li's clog are the principal logarithm; in IEEE arithmetic every negative axis point (both signed zeros) gives imaginary part equal to the code's +pi and positive axis points keep a zero imaginary part."
  },
  {
   "property": "C25",
   "status": "proved",
   "theorems": [
    "C25_Li",
    "C25_Li_value",
    "C25_Li2",
    "C25_Li3",
    "C25_Li4",
    "C25_Li5",
    "C25_Li6"
   ],
   "note": "IEEE model, every libm satisfying the parity laws stated as hypotheses of the theorems: conjugate argument gives the conjugate result for Li(n,z) at every order and every nonreal z, and for Li2..Li6 in every precision."
  },
  {
   "property": "C26",
   "status": "proved",
   "theorems": [
    "C26_ieee_below_1",
    "C26_ieee_above_1",
    "C26_Li2_double",
    "C26_Li2_float",
    "C26_Li2_long_double",
    "C26_Li2_quad",
    "C26_Li3_double",
    "C26_Li4_double",
    "C26_limit_below",
    "C26_value_below_1",
    "C26_Li5_double",
    "C26_Li6_double",
    "C26_Li3_long_double",
    "C26_Li4_long_double",
    "C26_Li5_long_double",
    "C26_Li6_long_double",
    "C26_Li3_quadruple",
    "C26_Li4_quadruple",
    "C26_Li5_quadruple",
    "C26_Li6_quadruple"
   ],
   "note": "IEEE instance for the delegating functions: zero imaginary part below 1 gives exactly the real function's value and the argument's own zero; above 1 the imaginary part is the code's -PI*log(x)^(n-1)/(n-1)!. Exact arithmetic: accuracy for every real x, all sixteen functions; the value on the cut is proved to be the limit of the principal branch from below (C26_limit_below)."
  },
  {
   "property": "C27",
   "status": "proved",
   "theorems": [
    "C27_Li3_double",
    "C27_Li3_long_double",
    "C27_Li3_quadruple",
    "C27_Li4_double",
    "C27_Li4_long_double",
    "C27_Li4_quadruple",
    "C27_Li5_double",
    "C27_Li5_long_double",
    "C27_Li5_quadruple",
    "C27_Li6_double",
    "C27_Li6_long_double",
    "C27_Li6_quadruple",
    "C27_Li2_float",
    "C27_Li2_double",
    "C27_Li2_long_double",
    "C27_Li2_quadruple"
   ],
   "note": "Off the real axis the code of each complex Li2..Li6 equals one of three (four for Li2) fixed polynomial expressions, and the series variable satisfies |w| < 1 resp. |u| <= 1.1 (radius of convergence 2 pi) in every branch. Truncation errors: C45. Real arguments: C11/C12 and the real functions."
  },
  {
   "property": "C28",
   "status": "proved",
   "theorems": [
    "C28_at_one",
    "C28_at_minus_one",
    "C28_at_zero",
    "C28_dispatch"
   ],
   "note": ""
  },
  {
   "property": "C29",
   "status": "proved",
   "theorems": [
    "C29_order_0",
    "C29_order_m1",
    "C29_order_1",
    "C29_series_0",
    "C29_series_m1",
    "C29_series_1"
   ],
   "note": "Exact arithmetic, every z in the domain; agreement with the limit of sum z^k k^-n inside the unit disk."
  },
  {
   "property": "C30",
   "status": "proved",
   "theorems": [
    "C30_depth_11",
    "C30_depth_any"
   ],
   "note": "Exact arithmetic (libm replaced by the exact functions, literals as written): depth 11 suffices for every modulus a pair of doubles can have, and depth grows with log log |z| only."
  },
  {
   "property": "C31",
   "status": "proved",
   "theorems": [
    "C31_spec_series",
    "C31_spec_theta",
    "C31_duplication",
    "C31_step"
   ],
   "note": "Li_neg m is (z d/dz)^m z/(1-z), shown to be the sum of k^m z^k inside the disk; the duplication identity for every m and z, and the code's step with error propagation."
  },
  {
   "property": "C32",
   "status": "proved",
   "theorems": [
    "C32_series_partial_sum",
    "C32_series_stops",
    "C32_unity_neg_stops",
    "C32_unity_pos_partial_sum",
    "C32_unity_neg_partial_sum",
    "C32_unity_pos_stops"
   ],
   "note": "Exact real/complex arithmetic. Li_series (NumR): every returned value is a partial sum of z^k/k^n; the loop stops after at most 2^63 passes in any arithmetic. Li_unity_pos / Li_unity_neg (NumQ: exact arithmetic with an arbitrary loop-stopping equality test that is exact against zero): every returned value is a partial sum of the expansion about z=1 with the code's constants (close to the true zeta values, harmonic numbers, inverse factorials, logarithms), or - positive order only - not a number because the loop ran past the zeta table. Loops stop: Li_unity_neg within 131 passes in double arithmetic, Li_unity_pos within 2^63 in any arithmetic. Orders 2..3037000497 and -259..-1 (outside: C34). The bound for Li_series cannot be replaced by a practical one in double arithmetic: C53."
  },
  {
   "property": "C33",
   "status": "proved",
   "theorems": [
    "C33_inversion_formula",
    "C33_formula",
    "C33_negative_axis",
    "C33_cut_refuted"
   ],
   "note": "Exact arithmetic. The formula holds for every n and z unless a partial sum is exactly 0 (stated in the hypothesis; impossible on the negative axis), with an explicit error bound; on the negative axis and n<=177 the relative error is 3e-16 against ReLi. 'Cutting the loop loses nothing' is false above n=177: refuted at n=200, z=-exp 690."
  },
  {
   "property": "C34",
   "status": "proved",
   "theorems": [
    "C34_no_overflow",
    "C34_negative_orders",
    "C34_large_orders",
    "C34_lowest_orders",
    "C34_minus_one",
    "C34_lowest_orders_annulus"
   ],
   "note": "No overflow for n in the stated range; the exact set of overflowing orders in each branch is proved (the property as stated fails at INT64_MIN..INT64_MIN+3 and for n >= 3037000498 except INT64_MAX-5..INT64_MAX-3: theorems C34_large_orders and C34_lowest_orders)."
  },
  {
   "property": "C35",
   "status": "proved",
   "theorems": [
    "C35_Cl_domain",
    "C35_Sl_domain",
    "C35_Cl_defined",
    "C35_Sl_defined"
   ],
   "note": ""
  },
  {
   "property": "C36",
   "status": "proved",
   "theorems": [
    "C36_same_operations",
    "C36_cl3_bits",
    "C36_cl3l_bits",
    "C36_li2l_bits",
    "C36_li2q_bits",
    "C36_cl4_exact",
    "C36_cl4_bits_refuted"
   ],
   "note": "li2f, li2, li3, li4, cl2, cl5, cl6 (all precisions in the C interface) perform the same operations as the C++ functions, so they are equal in every arithmetic; cl3/cl3l and li2l/li2q are bit-identical in IEEE arithmetic although written differently (log/2 vs 0.5*log, Horner from 0); cl4/cl4l are the same function in exact arithmetic, but not bit for bit: C36_cl4_bits_refuted shows a last-bit difference at x=3/2."
  },
  {
   "property": "C37",
   "status": "proved",
   "theorems": [
    "C37_dli2_dli3_keep",
    "C37_complex_keep",
    "C37_clausen_left",
    "C37_dli4_left",
    "C37_clausen_kept_iff",
    "C37_dli4_kept_iff",
    "C37_clausen_refuted",
    "C37_dli4_refuted"
   ],
   "note": "the model returns (value, content of the caller's variable). Kept for dli2, dli3, cdli2..6; exact description of what the Clausen functions and dli4 leave behind in every arithmetic, iff-conditions in exact arithmetic, and refutations in double precision."
  },
  {
   "property": "C38",
   "status": "proved",
   "theorems": [
    "C38_even_pi",
    "C38_even_zero",
    "C38_order_1",
    "C38_zeta_3_5",
    "C38_zeta_7_9",
    "C38_zeta_value",
    "C38_zeta_large"
   ],
   "note": "IEEE double model, every libm satisfying libm_ok (Libm.v, non-vacuous there). Even orders: exactly zero at +-pi64 (the double nearest pi) and the argument itself at +-0, for all even n>=2. Order 1: +infinity at +-0. Odd orders 3,5,7,9: within the stated distance of zeta(n); odd orders n>=11: within the stated bound too (C38_zeta_value, C38_zeta_large)."
  },
  {
   "property": "C39",
   "status": "proved",
   "theorems": [
    "C39_Li2_float",
    "C39_Li2_double",
    "C39_Li2_long_double",
    "C39_Li2_quad",
    "C39_Li3",
    "C39_Li4",
    "C39_Cl2_double",
    "C39_Cl3_double",
    "C39_Cl4_double",
    "C39_Cl5_double",
    "C39_Cl6_double",
    "C39_Cl2_long_double",
    "C39_Cl3_long_double",
    "C39_Cl4_long_double",
    "C39_Cl5_long_double",
    "C39_Cl6_long_double"
   ],
   "note": "Every point of the interval, hence every branch boundary: left and right values in an arbitrarily small neighbourhood differ by at most the stated bound (exact arithmetic)."
  },
  {
   "property": "C40",
   "status": "proved",
   "theorems": [
    "C40_Li2_float",
    "C40_Li2_double",
    "C40_Li2_long_double",
    "C40_Li2_quad",
    "C40_Li3_neg",
    "C40_Li3_pos",
    "C40_Li4_neg",
    "C40_Li4_half",
    "C40_Li4_mid",
    "C40_Cl2_double",
    "C40_Cl3_double",
    "C40_Cl4_double",
    "C40_Cl5_double",
    "C40_Cl6_double",
    "C40_Cl2_long_double",
    "C40_Cl3_long_double",
    "C40_Cl4_long_double",
    "C40_Cl5_long_double",
    "C40_Cl6_long_double"
   ],
   "note": "Exact arithmetic, every denominator table of the rational approximants, on the interval where the branch uses it."
  },
  {
   "property": "C41",
   "status": "proved",
   "theorems": [
    "C41_same_operations",
    "C41_values",
    "C41_dli2_accuracy",
    "C41_dli3_accuracy",
    "C41_dli4_accuracy"
   ],
   "note": "equality in exact arithmetic with the C++ models (hence their accuracy theorems); dli2 by the accuracy theorem for the common shape with its own pi literal."
  },
  {
   "property": "C42",
   "status": "proved",
   "theorems": [
    "C42_cdli2_defined_iff",
    "C42_cdli2_nan_refuted",
    "C42_cdli2_defined"
   ],
   "note": "C42_cdli2_nan_refuted documents the defect."
  },
  {
   "property": "C43",
   "status": "proved",
   "theorems": [
    "C43_Cl2_double",
    "C43_Cl3_double",
    "C43_Cl4_double",
    "C43_Cl5_double",
    "C43_Cl6_double",
    "C43_Cl2_long_double",
    "C43_Cl3_long_double",
    "C43_Cl4_long_double",
    "C43_Cl5_long_double",
    "C43_Cl6_long_double",
    "C43_Cl1_double"
   ],
   "note": "error analysis by a verified checker (FerrB.v) over a partition of (0,pi]; the x87 constants are far from sharp because the far branches of Cl3/Cl5/Cl6 are ill-conditioned"
  },
  {
   "property": "C44",
   "status": "proved",
   "theorems": [
    "C44_Li2_float",
    "C44_Li2_double",
    "C44_Li2_long_double",
    "C44_Li2_quadruple"
   ],
   "note": "For every finite argument, each of the four IEEE instances of Li2 is finite and within the stated multiple of the unit roundoff, over every C library meeting libm_ok (2 ulp); includes rounding of coefficients and PI, overflow-freedom and underflow."
  },
  {
   "property": "C45",
   "status": "proved",
   "theorems": [
    "C45_spec_series",
    "C45_spec_real",
    "C45_spec_derivative",
    "C45_spec_log",
    "C45_spec_inversion",
    "C45_Li2_float",
    "C45_Li2_double",
    "C45_Li2_long_double",
    "C45_Li2_quadruple",
    "C45_Li3_double",
    "C45_Li3_long_double",
    "C45_Li3_quadruple",
    "C45_Li4_double",
    "C45_Li4_long_double",
    "C45_Li4_quadruple",
    "C45_Li5_double",
    "C45_Li5_long_double",
    "C45_Li5_quadruple",
    "C45_Li6_double",
    "C45_Li6_long_double",
    "C45_Li6_quadruple"
   ],
   "note": "Exact arithmetic with the source literals; all nonreal z, all branches, against the principal branch defined by iterated integration (CLi.v). Rounding is not included here."
  },
  {
   "property": "C46",
   "status": "proved",
   "theorems": [
    "C46_series_region",
    "C46_unity_region",
    "C46_unity_region_returns",
    "C46_inversion_region",
    "C46_inversion_region_sector",
    "C46_series_region_returns",
    "C46_inversion_region_returns"
   ],
   "note": "Exact complex arithmetic with an abstract stopping test (rounding of the operations is not modelled here). Inversion region: the code compares each partial sum with a never-updated zero; that no partial sum vanishes exactly is proved for |Arg(-z)| <= 1.414 (even n) and <= 2.449 (odd n) and is an explicit hypothesis elsewhere. For |z| > 3/4 the argument is off the real axis."
  },
  {
   "property": "C47",
   "status": "proved",
   "theorems": [
    "C47_c_Li2_float",
    "C47_c_Li2_double",
    "C47_c_Li2_long_double",
    "C47_c_Li2_quadruple",
    "C47_c_Li3_double",
    "C47_c_Li4_double",
    "C47_c_Li3_long_double",
    "C47_c_Li3_quadruple",
    "C47_c_Li4_long_double",
    "C47_c_Li4_quadruple",
    "C47_c_Li5_double",
    "C47_c_Li5_long_double",
    "C47_c_Li5_quadruple",
    "C47_c_Li6_double",
    "C47_c_Li6_long_double",
    "C47_c_Li6_quadruple",
    "C47_c_accuracy",
    "C47_c_axis",
    "C47_f_accuracy",
    "C47_f_cdli2_axis",
    "C47_f_cdli3_axis",
    "C47_f_cdli4_axis",
    "C47_f_cdli5_axis",
    "C47_f_cdli6_axis",
    "C47_f_argument_unchanged"
   ],
   "note": "Exact arithmetic on the source literals. C vs C++: equal for every argument (Li2 all precisions, Li3/Li4 double), equal off the cut and within 2e-17/3e-36 on it (the rest). C and Fortran vs the principal branch: same form as C45/C26, argument unchanged in Fortran. Rounding is not part of the claim."
  },
  {
   "property": "C48",
   "status": "proved",
   "theorems": [
    "C48_accuracy_off_axis",
    "C48_off_axis_returns",
    "C48_order_60_refuted"
   ],
   "note": "exact arithmetic on the source literals with tolerance-t loop tests (NumQ, as C46), off the real axis; n = -60 refuted"
  },
  {
   "property": "C49",
   "status": "proved",
   "theorems": [
    "C49_Li3_double",
    "C49_Li4_double",
    "C49_Li4_double_outside",
    "C49_Li4_double_digit_loss"
   ],
   "note": "double only (the other precisions have no real Li3/Li4); C library assumed accurate to libm_ok (a few ulp) as in C44; Li4 between 1/2 and 4/5 and between 6/5 and 3 with the larger constant, shown to be needed between 1/2 and 4/5."
  },
  {
   "property": "C50",
   "status": "proved",
   "theorems": [
    "C50_cLi2_float",
    "C50_cLi2_double",
    "C50_cLi2_long_double",
    "C50_cLi2_quadruple",
    "C50_cLi3_double",
    "C50_cLi4_double",
    "C50_C_real",
    "C50_C_axis_bits"
   ],
   "note": "all delegating complex functions on the real axis in IEEE arithmetic; C real functions by bit equality with C++"
  },
  {
   "property": "C51",
   "status": "proved",
   "theorems": [
    "C51_Li2_complex_double",
    "C51_cli2_C",
    "C51_cdli2_Fortran",
    "C51_Cpp_vs_C"
   ],
   "note": "all four branches, C++, C and Fortran; |z| <= 10^12, and Re z = 1 needs |Im z| >= 2^-1000"
  },
  {
   "property": "C52",
   "status": "proved",
   "theorems": [
    "C52_Li_order_0",
    "C52_Li_order_m1",
    "C52_Li_order_1",
    "C52_Li_order_1_cut",
    "C52_Li_order_2"
   ],
   "note": "IEEE double, any libm_ok library, any depth and fuel: orders 0 and -1 with a relative bound up to the pole and to 0, order 1 off and on the cut, order 2 from C51. z = 0 and z = -1 included. Bounds on |z|: the textbook complex division of the model."
  },
  {
   "property": "C53",
   "status": "proved",
   "theorems": [
    "C53_Li7_keeps_running",
    "C53_Li7_passes"
   ],
   "note": "IEEE double over any libm_ok library. The call is still running for every fuel up to 2^46 (C53_Li7_keeps_running), so a returning call has made more than 2^46 passes (C53_Li7_passes). A defect of the pinned code: the stopping rule of Li_series fails when the imaginary part is subnormal. C53_example exhibits the argument."
  },
  {
   "property": "C54",
   "status": "proved",
   "theorems": [
    "C54_Li_returns"
   ],
   "note": "IEEE double over any libm_ok library, all orders 7 <= n <= INT64_MAX. Finite result after at most 3531 passes; C54_example: arguments with the smallest double as imaginary part."
  },
  {
   "property": "C55",
   "status": "proved",
   "theorems": [
    "C55_Li_square",
    "C55_Li_square_rel",
    "C55_Li_large_order"
   ],
   "note": "All int64 orders n >= 7, IEEE double, every operation rounded, subnormals included, any library meeting libm_ok; absolute bound 19*2^-53*|z| + 2^-1057 and relative bound 20*2^-53 for |z| >= 2^-1000; fuel >= 3531 suffices and the call does not depend on more; see C54 for all orders (termination) and C32 for the remaining regions of the argument."
  },
  {
   "property": "C56",
   "status": "proved",
   "theorems": [
    "C56_Li_disc",
    "C56_Li_real"
   ],
   "note": "IEEE double, every operation rounded, subnormals included, any library meeting libm_ok. C56_Li_real: returns and is accurate on the real segment; C56_Li_disc: whatever is returned within 4000 passes in the disc |z| <= 0.74 is accurate (unconditional return is false there, C53). C56_example shows a returning call."
  }
 ]
}