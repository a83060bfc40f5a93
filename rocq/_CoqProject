-Q theories Verif
theories/Num.v
theories/Outcome.v
theories/Model_Tables.v
theories/Model_Zeta.v
theories/Model_Cl16.v
theories/Model_SlPoly.v
theories/Model_Cl.v
theories/Model_LiR.v
theories/Model_LiC.v
theories/Model_Li.v
theories/NumR.v
theories/NumB.v
theories/NumB_facts.v
theories/Proof_Int.v
theories/Spec.v
theories/Proof_Horner.v
theories/Libm.v
theories/Laws_nan.v
theories/Proof_NaN.v
theories/Proof_Float.v
theories/Proof_Special.v
theories/Proof_Parity.v
theories/Properties_A.v
theories/Polylog.v
theories/Polylog_series.v
theories/Cheb.v
theories/Polylog_eqs.v
theories/Fourier.v
theories/Poly_check.v
theories/Cheb_big.v
theories/Consts.v
theories/Eval_R.v
theories/Proof_Li2.v
theories/Proof_Li3.v
theories/Chain.v
theories/Proof_Li4.v
theories/Clausen.v
theories/Clausen_vals.v
theories/Clausen_log.v
theories/Clausen_ref.v
theories/Cl_shape.v
theories/Cl_ratio.v
theories/Cl_ratio_l.v
theories/Proof_Cl.v
theories/Cl_full.v
theories/Series.v
theories/Red.v
theories/Proof_Series.v
theories/Reduce.v
theories/Zeta_num.v
theories/Ieee.v
theories/Bern.v
theories/Bern_num.v
theories/Harmonic.v
theories/Properties_B.v
theories/Properties_C.v
theories/Properties_D.v
theories/Properties_E.v
theories/Properties_F.v
theories/Properties_G.v
theories/Proof_LiInt.v
theories/Cplx.v
theories/Clog_series.v
theories/Polyneg.v
theories/Properties_H.v
theories/Properties_I.v
theories/Conj.v
theories/Conj_Li.v
theories/Properties_J.v
theories/Rest.v
theories/Properties_K.v
theories/Properties_L.v
theories/Unity.v
theories/Properties_M.v
theories/Model_C.v
theories/CvsCpp.v
theories/Properties_N.v
theories/Model_F.v
theories/Properties_O.v
theories/Properties_P.v
theories/Sl_closed.v
theories/Properties_Q.v
theories/Cot.v
theories/Eq213.v
theories/Cl_mid.v
theories/Properties_R.v
theories/Ferr.v
theories/FerrB.v
theories/Fmod.v
theories/Cl_branch.v
theories/Cl_ieee.v
theories/Cl_pieces.v
theories/Cl_core_d.v
theories/Cl_core_l.v
theories/Properties_S.v
theories/Fcalc.v
theories/Li2_ieee.v
theories/Li2_core.v
theories/Li2_inst.v
theories/Properties_T.v
theories/Ccalc.v
theories/CLi.v
theories/CLi_disc.v
theories/CLi_inv.v
theories/Cpoly.v
theories/CLi_unity.v
theories/CLi_exp.v
theories/CLi_T.v
theories/CLi_ref.v
theories/CLi_region.v
theories/CLi_code.v
theories/CLi_eval.v
theories/CLi_dev.v
theories/CLi_rest.v
theories/CLi_acc.v
theories/CLi_inst.v
theories/CLi_axis.v
theories/CLi_axis2.v
theories/CLi_axis_inst.v
theories/CLi2_acc.v
theories/CLi2_inst.v
theories/Properties_U.v
theories/Properties_V.v
theories/CLi_gen.v
theories/Li_gen.v
theories/Li_gen2.v
theories/Li_nz.v
theories/Properties_W.v
theories/CLi_c_eval.v
theories/CLi2_c_eval.v
theories/CLi_f_eval.v
theories/CLi2_f_eval.v
theories/Properties_X.v
theories/NegExp.v
theories/Li_negacc.v
theories/Properties_Y.v
theories/Properties_Z.v
theories/Li34_ieee.v
theories/Li34_core.v
theories/Li3_ieee.v
theories/Li4_ieee.v
theories/Properties_ZA.v
theories/Li_axis_ieee.v
theories/Properties_ZB.v
theories/CLi2_slack.v
theories/Cieee.v
theories/CLi2_ieee.v
theories/CLi2_ieee2.v
theories/Properties_ZC.v
theories/CLi01_ieee.v
theories/Properties_ZD.v
theories/CSeries_ieee.v
theories/Properties_ZE.v
theories/CSeries2_ieee.v
theories/Properties_ZF.v
theories/CSeries3_ieee.v
theories/CSeries4_ieee.v
theories/Properties_ZG.v
theories/CSeries5_ieee.v
theories/CSeries6_ieee.v
theories/Properties_ZH.v
