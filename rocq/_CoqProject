-Q theories Verif
theories/Base.v
theories/Cplx.v
theories/M_tmm.v
theories/Spec_optics.v
theories/P_tmm.v
theories/P_tmm2.v
theories/P_tmm3.v
theories/P_tmm4.v
theories/P_flux.v
theories/P_flux2.v
theories/P_flux3.v
theories/P_psidelta.v
theories/P_psidelta2.v
theories/P_film.v
theories/P_examples.v
theories/Properties_tmm.v
theories/M_ema.v
theories/Spec_ema.v
theories/P_ema.v
theories/Properties_ema.v
theories/M_disp.v
theories/Spec_disp.v
theories/P_disp.v
theories/P_disp2.v
theories/M_materials.v
theories/P_materials.v
theories/Properties_disp.v
theories/Spec_kk.v
theories/P_kk.v
theories/P_kk2.v
theories/P_kk3.v
theories/Properties_kk.v
theories/M_struct.v
theories/Spec_struct.v
theories/P_struct.v
theories/P_struct2.v
theories/Properties_struct.v
theories/M_model.v
theories/P_model.v
theories/P_model2.v
theories/Properties_model.v
theories/Spec_whole.v
theories/P_whole.v
theories/P_whole2.v
theories/Properties_whole.v
theories/M_data.v
theories/Spec_data.v
theories/P_data.v
theories/Properties_data.v
theories/M_objective.v
theories/Spec_objective.v
theories/P_objective.v
theories/P_objective2.v
theories/P_objective3.v
theories/Properties_objective.v
theories/M_plot.v
theories/Spec_plot.v
theories/P_plot.v
theories/P_plot2.v
theories/P_plot3.v
theories/P_plot4.v
theories/Properties_plot.v
theories/M_ep4.v
theories/Spec_ep4.v
theories/P_ep4.v
theories/P_ep4b.v
theories/P_ep4c.v
theories/P_ep4d.v
theories/P_ep4e.v
theories/Properties_ep4.v
theories/M_instr.v
theories/Spec_instr.v
theories/P_instr.v
theories/P_instr2.v
theories/P_instr3.v
theories/P_instr4.v
theories/Properties_instr.v
theories/Spec_guard.v
theories/P_guard.v
theories/Properties_guard.v
theories/M_float.v
theories/Spec_float.v
theories/P_float.v
theories/P_float2.v
theories/Properties_float.v
theories/M_session.v
theories/Spec_session.v
theories/P_session.v
theories/P_session2.v
theories/Properties_session.v
theories/M_life.v
theories/Spec_life.v
theories/P_life.v
theories/P_life2.v
theories/P_life3.v
theories/Properties_life.v
theories/M_text.v
theories/Spec_text.v
theories/P_text.v
theories/M_summary.v
theories/P_summary.v
theories/Properties_text.v
theories/Mat.v
theories/M_covar.v
theories/Spec_covar.v
theories/P_covar.v
theories/P_covar2.v
theories/P_covar3.v
theories/P_covar4.v
theories/P_covar5.v
theories/P_covar6.v
theories/Properties_covar.v
theories/Spec_roles.v
theories/P_roles.v
theories/Properties_roles.v
theories/Spec_ident.v
theories/P_ident.v
theories/P_ident2.v
theories/P_ident3.v
theories/P_cont.v
theories/P_cont2.v
theories/P_cont3.v
theories/P_identex.v
theories/Properties_ident.v
theories/Spec_effect.v
theories/P_effect.v
theories/Spec_effect2.v
theories/P_effect2.v
theories/Properties_effect.v
theories/M_signature.v
theories/Spec_text2.v
theories/P_text2.v
theories/Properties_text2.v
theories/Spec_bad.v
theories/P_bad.v
theories/Properties_bad.v
theories/Spec_sumup.v
theories/P_sumup.v
theories/P_sumup2.v
theories/Properties_sumup.v
theories/Spec_accept.v
theories/P_accept.v
theories/Properties_accept.v
theories/M_anyfit.v
theories/Spec_anyfit.v
theories/P_anyfit.v
theories/P_anyfit2.v
theories/Properties_anyfit.v
theories/Spec_exact.v
theories/P_exact.v
theories/P_exact2.v
theories/P_exact3.v
theories/Properties_exact.v
theories/M_fresid.v
theories/Spec_fresid.v
theories/P_fresid.v
theories/P_fresid2.v
theories/P_fresid3.v
theories/Properties_fresid.v
theories/M_single.v
theories/Spec_single.v
theories/P_single.v
theories/Properties_single.v
theories/M_fit.v
theories/Spec_fit.v
theories/P_fit.v
theories/P_fit2.v
theories/P_fit3.v
theories/P_fit4.v
theories/Properties_fit.v
theories/Spec_diff.v
theories/P_diff.v
theories/P_diff2.v
theories/P_diff3.v
theories/Properties_diff.v
theories/Spec_jac.v
theories/P_jac.v
theories/Spec_smooth.v
theories/P_smooth.v
theories/P_smooth2.v
theories/P_smooth3.v
theories/P_smooth4.v
theories/P_jac2.v
theories/P_jac3.v
theories/Properties_jac.v
theories/P_jac4.v
theories/Properties_jac2.v
theories/M_float2.v
theories/Spec_float2.v
theories/P_float3.v
theories/P_float4.v
theories/P_float5.v
theories/Properties_float2.v
theories/M_anyfit2.v
theories/Spec_anyfit2.v
theories/P_anyfit3.v
theories/P_anyfit4.v
theories/Properties_anyfit2.v
theories/Spec_thick.v
theories/P_thick.v
theories/P_thick2.v
theories/P_thick3.v
theories/Properties_thick.v
theories/Spec_materials.v
theories/P_materials2.v
theories/P_copy.v
theories/Spec_round.v
theories/P_round.v
theories/P_round2.v
theories/Properties_round.v
theories/Spec_offset.v
theories/P_offset.v
theories/P_offset2.v
theories/P_offset3.v
theories/Properties_offset.v
theories/Spec_opaque.v
theories/P_opaque.v
theories/P_opaque2.v
theories/Properties_opaque.v
theories/M_array.v
theories/Spec_array.v
theories/P_array.v
theories/Properties_array.v
theories/Spec_points.v
theories/P_points.v
theories/Properties_points.v
theories/M_onepoint.v
theories/Spec_onepoint.v
theories/P_onepoint.v
theories/Properties_onepoint.v
theories/M_intwave.v
theories/Spec_intwave.v
theories/P_intwave.v
theories/Properties_intwave.v
theories/M_views.v
theories/Spec_views.v
theories/P_views.v
theories/P_views2.v
theories/P_views3.v
theories/P_views4.v
theories/Properties_views.v
theories/Spec_admit.v
theories/P_admit.v
theories/P_admit2.v
theories/P_admit3.v
theories/P_admit4.v
theories/Properties_admit.v
theories/Spec_nested.v
theories/P_nested.v
theories/M_tester.v
theories/Spec_tester.v
theories/P_tester.v
theories/Properties_tester.v
theories/Spec_offset2.v
theories/P_offset4.v
theories/Spec_coating.v
theories/P_coating.v
theories/P_coating2.v
theories/Properties_coating.v
theories/M_strides.v
theories/P_strides.v
theories/Properties_strides.v
theories/M_float3.v
theories/P_float6.v
theories/P_float7.v
theories/P_float8.v
theories/P_float9.v
theories/Properties_float3.v
theories/P_float10.v
theories/P_float11.v
theories/P_float12.v
theories/Spec_now.v
theories/P_now.v
theories/Properties_now.v
theories/P_headonly.v
theories/Properties_headonly.v
theories/P_order.v
theories/Properties_order.v
