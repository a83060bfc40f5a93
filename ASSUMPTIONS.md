# Assumptions of every theorem (output of `Print Assumptions`)

Generated by `tools/gen_assumptions.sh` and `tools/gen_assumptions_md.py` from a finished build.
Every entry is from the Coq standard library: the axioms of the classical reals, functional
extensionality, classical logic, and the primitive 63-bit integers and floats (with the
specification axioms that the standard library states for them), which enter through `interval`,
Bignums and `vm_compute`.  No axiom is declared in this development.

## Axiom groups

* **R** — `ClassicalDedekindReals.sig_forall_dec`, `ClassicalDedekindReals.sig_not_dec`, `Classical_Prop.classic`, `FunctionalExtensionality.functional_extensionality_dep`
* **P** (primitive integers/floats) — `FloatAxioms.Prim2SF_SF2Prim`, `FloatAxioms.Prim2SF_valid`, `FloatAxioms.SF2Prim_Prim2SF`, `FloatAxioms.abs_spec`, `FloatAxioms.add_spec`, `FloatAxioms.classify_spec`, `FloatAxioms.compare_spec`, `FloatAxioms.div_spec`, `FloatAxioms.eqb_spec`, `FloatAxioms.frshiftexp_spec`, `FloatAxioms.ldshiftexp_spec`, `FloatAxioms.ltb_spec`, `FloatAxioms.mul_spec`, `FloatAxioms.next_down_spec`, `FloatAxioms.next_up_spec`, `FloatAxioms.normfr_mantissa_spec`, `FloatAxioms.of_uint63_spec`, `FloatAxioms.opp_spec`, `FloatAxioms.sqrt_spec`, `FloatAxioms.sub_spec`, `PrimFloat.abs`, `PrimFloat.add`, `PrimFloat.classify`, `PrimFloat.compare`, `PrimFloat.div`, `PrimFloat.eqb`, `PrimFloat.float`, `PrimFloat.frshiftexp`, `PrimFloat.ldshiftexp`, `PrimFloat.ltb`, `PrimFloat.mul`, `PrimFloat.next_down`, `PrimFloat.next_up`, `PrimFloat.normfr_mantissa`, `PrimFloat.of_uint63`, `PrimFloat.opp`, `PrimFloat.sqrt`, `PrimFloat.sub`, `PrimInt63.add`, `PrimInt63.addc`, `PrimInt63.addcarryc`, `PrimInt63.addmuldiv`, `PrimInt63.compare`, `PrimInt63.div`, `PrimInt63.diveucl`, `PrimInt63.diveucl_21`, `PrimInt63.eqb`, `PrimInt63.head0`, `PrimInt63.int`, `PrimInt63.land`, `PrimInt63.leb`, `PrimInt63.lor`, `PrimInt63.lsl`, `PrimInt63.lsr`, `PrimInt63.ltb`, `PrimInt63.lxor`, `PrimInt63.mod`, `PrimInt63.mul`, `PrimInt63.mulc`, `PrimInt63.sub`, `PrimInt63.subc`, `PrimInt63.subcarryc`, `PrimInt63.tail0`, `Uint63.add_spec`, `Uint63.addc_def_spec`, `Uint63.addcarryc_def_spec`, `Uint63.addmuldiv_def_spec`, `Uint63.compare_def_spec`, `Uint63.div_spec`, `Uint63.diveucl_21_spec`, `Uint63.diveucl_def_spec`, `Uint63.eqb_correct`, `Uint63.eqb_refl`, `Uint63.head0_spec`, `Uint63.land_spec`, `Uint63.leb_spec`, `Uint63.lor_spec`, `Uint63.lsl_spec`, `Uint63.lsr_spec`, `Uint63.ltb_spec`, `Uint63.lxor_spec`, `Uint63.mod_spec`, `Uint63.mul_spec`, `Uint63.mulc_spec`, `Uint63.of_to_Z`, `Uint63.sub_spec`, `Uint63.subc_def_spec`, `Uint63.subcarryc_def_spec`, `Uint63.tail0_spec`

## Per theorem

### Set 1 — Closed under the global context (no axioms)

`C04_inv_fac_in_bounds`, `C04_neg_eta_in_bounds`, `C04_zeta_in_bounds`, `C04_zeta_no_read_at_min`, `C05_harmonic_overflow_iff`, `C05_inv_fac_no_overflow`, `C05_neg_eta_overflow_iff`, `C05_zeta_overflow_iff`, `C08_digamma_nonpositive`, `C08_harmonic_nonpositive`, `C22_table_reads_in_range`, `C32_series_stops`, `C32_unity_pos_stops`, `C34_large_orders`, `C34_lowest_orders`, `C34_no_overflow`, `C35_Cl_domain`, `C35_Sl_domain`, `C36_same_operations`, `C37_clausen_left`, `C37_complex_keep`, `C37_dli2_dli3_keep`, `C37_dli4_left`, `C41_same_operations`, `C42_cdli2_defined_iff`, `C47_f_argument_unchanged`

### Set 2 — axioms: `ClassicalDedekindReals.sig_forall_dec`, `ClassicalDedekindReals.sig_not_dec`, `FunctionalExtensionality.functional_extensionality_dep`

`C29_series_0`, `C29_series_m1`

### Set 3 — axioms: `ClassicalDedekindReals.sig_forall_dec`, `ClassicalDedekindReals.sig_not_dec`, `Classical_Prop.classic`, `FunctionalExtensionality.functional_extensionality_dep`

`C01_inv_fac_negative`, `C02_zeta_positive`, `C03_C07_bernoulli_exists`, `C03_zeta_0`, `C03_zeta_1`, `C03_zeta_negative_even`, `C06_neg_eta_positive`, `C07_neg_eta_0`, `C07_neg_eta_negative_even`, `C08_harmonic_small`, `C08_harmonic_small_exact`, `C09_Cl_even_order`, `C09_Cl_odd_order`, `C09_Sl_even_order`, `C09_Sl_odd_order`, `C12_Cl_NaN`, `C12_Li_NaN`, `C12_Sl_NaN`, `C12_real_NaN`, `C12_real_NaN_float`, `C12_real_NaN_long`, `C12_real_NaN_quad`, `C13_Cl_infinite`, `C13_Li_infinite`, `C13_Sl_infinite`, `C13_real_infinite`, `C14_Cl_even_zero`, `C14_Li_zero`, `C14_Sl_odd_zero`, `C14_complex_zero`, `C14_real_zero`, `C14_real_zero_other_precisions`, `C20_bernoulli_closed_form`, `C23_complex_horner`, `C23_horner`, `C24_log1p`, `C24_log1p_tiny`, `C24_negative_axis`, `C24_pos_log`, `C24_positive_axis`, `C25_Li`, `C25_Li2`, `C25_Li3`, `C25_Li4`, `C25_Li5`, `C25_Li6`, `C25_Li_value`, `C26_ieee_above_1`, `C26_ieee_below_1`, `C26_value_below_1`, `C28_at_minus_one`, `C28_at_one`, `C28_at_zero`, `C28_dispatch`, `C29_order_0`, `C29_order_m1`, `C29_series_1`, `C31_duplication`, `C31_spec_series`, `C31_spec_theta`, `C31_step`, `C32_series_partial_sum`, `C32_unity_neg_stops`, `C33_inversion_formula`, `C34_minus_one`, `C34_negative_orders`, `C35_Cl_defined`, `C35_Sl_defined`, `C36_cl3_bits`, `C36_cl3l_bits`, `C36_cl4_exact`, `C36_li2l_bits`, `C36_li2q_bits`, `C37_clausen_kept_iff`, `C37_clausen_refuted`, `C37_dli4_kept_iff`, `C37_dli4_refuted`, `C38_even_pi`, `C38_even_zero`, `C38_order_1`, `C38_zeta_3_5`, `C38_zeta_7_9`, `C38_zeta_value`, `C41_values`, `C42_cdli2_defined`, `C42_cdli2_nan_refuted`, `C45_spec_derivative`, `C45_spec_inversion`, `C45_spec_log`, `C45_spec_real`, `C45_spec_series`, `C47_c_Li2_double`, `C47_c_Li2_float`, `C47_c_Li2_long_double`, `C47_c_Li2_quadruple`, `C47_c_Li3_double`, `C47_c_Li4_double`, `C50_C_axis_bits`, `C53_Li7_keeps_running`, `C53_Li7_passes`, `C56_Li_disc`

### Set 4 — axioms: `ClassicalDedekindReals.sig_forall_dec`, `ClassicalDedekindReals.sig_not_dec`, `Classical_Prop.classic`, `FunctionalExtensionality.functional_extensionality_dep`; of P: `add`, `addc`, `addcarryc`, `addmuldiv`, `compare`, `div`, `diveucl`, `diveucl_21`, `eqb`, `head0`, `int`, `land`, `leb`, `lor`, `lsl`, `lsr`, `ltb`, `lxor`, `mod`, `mul`, `mulc`, `sub`, `subc`, `subcarryc`, `tail0`, `add_spec`, `addc_def_spec`, `addcarryc_def_spec`, `addmuldiv_def_spec`, `compare_def_spec`, `div_spec`, `diveucl_21_spec`, `diveucl_def_spec`, `eqb_correct`, `eqb_refl`, `head0_spec`, `land_spec`, `leb_spec`, `lor_spec`, `lsl_spec`, `lsr_spec`, `ltb_spec`, `lxor_spec`, `mod_spec`, `mul_spec`, `mulc_spec`, `of_to_Z`, `sub_spec`, `subc_def_spec`, `subcarryc_def_spec`, `tail0_spec`

`C01_inv_fac_normal`, `C01_inv_fac_underflow`, `C01_inv_fac_zero_iff`, `C03_zeta_negative_odd_overflow`, `C03_zeta_negative_odd_tabulated`, `C07_neg_eta_negative_odd_overflow`, `C07_neg_eta_negative_odd_tabulated`, `C08_digamma_exact`, `C08_harmonic_large_exact`, `C10_reduced_angle_Cl`, `C10_reduced_angle_Sl`, `C11_Cl_long_double_reduction`, `C11_Cl_reduction`, `C11_Sl_reduction`, `C11_periodic`, `C11_periodic_long_double`, `C11_reduction_total_double`, `C11_reduction_total_long_double`, `C15_Li2_double_accuracy`, `C16_Li2_float_accuracy`, `C16_Li2_long_double_accuracy`, `C16_Li2_quad_accuracy`, `C17_Li3_double_accuracy`, `C19_Cl1_double_accuracy`, `C20_polynomials`, `C20_polynomials_all_angles`, `C24_Li_clog`, `C26_Li2_double`, `C26_Li2_float`, `C26_Li2_long_double`, `C26_Li2_quad`, `C26_Li3_double`, `C26_limit_below`, `C29_order_1`, `C32_unity_neg_partial_sum`, `C32_unity_pos_partial_sum`, `C33_formula`, `C33_negative_axis`, `C39_Li2_double`, `C39_Li2_float`, `C39_Li2_long_double`, `C39_Li2_quad`, `C39_Li3`, `C40_Cl2_double`, `C40_Cl2_long_double`, `C40_Cl3_double`, `C40_Cl3_long_double`, `C40_Cl4_double`, `C40_Cl4_long_double`, `C40_Cl5_double`, `C40_Cl5_long_double`, `C40_Cl6_double`, `C40_Cl6_long_double`, `C40_Li2_double`, `C40_Li2_float`, `C40_Li2_long_double`, `C40_Li2_quad`, `C40_Li3_neg`, `C40_Li3_pos`, `C40_Li4_half`, `C40_Li4_mid`, `C40_Li4_neg`, `C41_dli2_accuracy`, `C41_dli3_accuracy`, `C46_inversion_region`, `C46_inversion_region_returns`, `C46_inversion_region_sector`, `C46_series_region`, `C46_series_region_returns`, `C47_c_Li3_long_double`, `C47_c_Li3_quadruple`, `C47_c_Li4_long_double`, `C47_c_Li4_quadruple`, `C47_c_Li5_double`, `C47_c_Li5_long_double`, `C47_c_Li5_quadruple`, `C47_c_Li6_double`, `C47_c_Li6_long_double`, `C47_c_Li6_quadruple`, `C47_f_cdli2_axis`, `C47_f_cdli3_axis`, `C49_Li4_double_digit_loss`, `C52_Li_order_1`, `C52_Li_order_1_cut`

### Set 5 — axioms: `ClassicalDedekindReals.sig_forall_dec`, `ClassicalDedekindReals.sig_not_dec`, `Classical_Prop.classic`, `FunctionalExtensionality.functional_extensionality_dep`; of P: `Prim2SF_SF2Prim`, `Prim2SF_valid`, `SF2Prim_Prim2SF`, `abs_spec`, `add_spec`, `classify_spec`, `compare_spec`, `div_spec`, `eqb_spec`, `frshiftexp_spec`, `ldshiftexp_spec`, `ltb_spec`, `mul_spec`, `next_down_spec`, `next_up_spec`, `normfr_mantissa_spec`, `of_uint63_spec`, `opp_spec`, `sqrt_spec`, `sub_spec`, `abs`, `add`, `classify`, `compare`, `div`, `eqb`, `float`, `frshiftexp`, `ldshiftexp`, `ltb`, `mul`, `next_down`, `next_up`, `normfr_mantissa`, `of_uint63`, `opp`, `sqrt`, `sub`, `add`, `eqb`, `int`, `land`, `leb`, `lor`, `lsl`, `lsr`, `ltb`, `sub`, `add_spec`, `eqb_correct`, `eqb_refl`, `land_spec`, `leb_spec`, `lor_spec`, `lsl_spec`, `lsr_spec`, `ltb_spec`, `of_to_Z`, `sub_spec`

`C21_term_count`, `C52_Li_order_0`, `C52_Li_order_m1`, `C54_Li_returns`, `C55_Li_large_order`, `C55_Li_square`, `C55_Li_square_rel`, `C56_Li_real`

### Set 6 — axioms: `ClassicalDedekindReals.sig_forall_dec`, `ClassicalDedekindReals.sig_not_dec`, `Classical_Prop.classic`, `FunctionalExtensionality.functional_extensionality_dep`; of P: all of P

`C08_harmonic_large`, `C10_finite_double`, `C10_finite_long_double`, `C18_Li4_double_accuracy`, `C19_Cl2_double_accuracy`, `C19_Cl2_double_all_angles`, `C19_Cl2_long_double_accuracy`, `C19_Cl2_long_double_all_angles`, `C19_Cl3_double_accuracy`, `C19_Cl3_double_all_angles`, `C19_Cl3_long_double_accuracy`, `C19_Cl3_long_double_all_angles`, `C19_Cl4_double_accuracy`, `C19_Cl4_double_all_angles`, `C19_Cl4_long_double_accuracy`, `C19_Cl4_long_double_all_angles`, `C19_Cl5_double_accuracy`, `C19_Cl5_double_all_angles`, `C19_Cl5_long_double_accuracy`, `C19_Cl5_long_double_all_angles`, `C19_Cl6_double_accuracy`, `C19_Cl6_double_all_angles`, `C19_Cl6_long_double_accuracy`, `C19_Cl6_long_double_all_angles`, `C20_series`, `C21_Cl_series_accuracy`, `C21_partial_sum`, `C22_accuracy`, `C22_all_angles`, `C26_Li3_long_double`, `C26_Li3_quadruple`, `C26_Li4_double`, `C26_Li4_long_double`, `C26_Li4_quadruple`, `C26_Li5_double`, `C26_Li5_long_double`, `C26_Li5_quadruple`, `C26_Li6_double`, `C26_Li6_long_double`, `C26_Li6_quadruple`, `C27_Li2_double`, `C27_Li2_float`, `C27_Li2_long_double`, `C27_Li2_quadruple`, `C27_Li3_double`, `C27_Li3_long_double`, `C27_Li3_quadruple`, `C27_Li4_double`, `C27_Li4_long_double`, `C27_Li4_quadruple`, `C27_Li5_double`, `C27_Li5_long_double`, `C27_Li5_quadruple`, `C27_Li6_double`, `C27_Li6_long_double`, `C27_Li6_quadruple`, `C30_depth_11`, `C30_depth_any`, `C33_cut_refuted`, `C34_lowest_orders_annulus`, `C36_cl4_bits_refuted`, `C38_zeta_large`, `C39_Cl2_double`, `C39_Cl2_long_double`, `C39_Cl3_double`, `C39_Cl3_long_double`, `C39_Cl4_double`, `C39_Cl4_long_double`, `C39_Cl5_double`, `C39_Cl5_long_double`, `C39_Cl6_double`, `C39_Cl6_long_double`, `C39_Li4`, `C41_dli4_accuracy`, `C43_Cl1_double`, `C43_Cl2_double`, `C43_Cl2_long_double`, `C43_Cl3_double`, `C43_Cl3_long_double`, `C43_Cl4_double`, `C43_Cl4_long_double`, `C43_Cl5_double`, `C43_Cl5_long_double`, `C43_Cl6_double`, `C43_Cl6_long_double`, `C44_Li2_double`, `C44_Li2_float`, `C44_Li2_long_double`, `C44_Li2_quadruple`, `C45_Li2_double`, `C45_Li2_float`, `C45_Li2_long_double`, `C45_Li2_quadruple`, `C45_Li3_double`, `C45_Li3_long_double`, `C45_Li3_quadruple`, `C45_Li4_double`, `C45_Li4_long_double`, `C45_Li4_quadruple`, `C45_Li5_double`, `C45_Li5_long_double`, `C45_Li5_quadruple`, `C45_Li6_double`, `C45_Li6_long_double`, `C45_Li6_quadruple`, `C46_unity_region`, `C46_unity_region_returns`, `C47_c_accuracy`, `C47_c_axis`, `C47_f_accuracy`, `C47_f_cdli4_axis`, `C47_f_cdli5_axis`, `C47_f_cdli6_axis`, `C48_accuracy_off_axis`, `C48_off_axis_returns`, `C48_order_60_refuted`, `C49_Li3_double`, `C49_Li4_double`, `C49_Li4_double_outside`, `C50_C_real`, `C50_cLi2_double`, `C50_cLi2_float`, `C50_cLi2_long_double`, `C50_cLi2_quadruple`, `C50_cLi3_double`, `C50_cLi4_double`, `C51_Cpp_vs_C`, `C51_Li2_complex_double`, `C51_cdli2_Fortran`, `C51_cli2_C`, `C52_Li_order_2`

