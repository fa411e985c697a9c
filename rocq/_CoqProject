-Q theories Verif
theories/Num.v
theories/CoreOps.v
theories/Inst.v
theories/CoreDist.v
theories/CoreFlux.v
theories/CoreLin.v
theories/Ex_accuracy.v
theories/Ex_back.v
theories/Ex_bls.v
theories/Ex_call.v
theories/Ex_cite.v
theories/Ex_compose.v
theories/Ex_cont.v
theories/Ex_cont2.v
theories/Ex_cont3.v
theories/Ex_curve.v
theories/Ex_curve2.v
theories/Ex_delay.v
theories/Ex_depth.v
theories/Ex_dist.v
theories/Ex_durecc.v
theories/Ex_eclipse.v
theories/Ex_float.v
theories/Ex_float2.v
theories/Ex_float3.v
theories/Ex_float4.v
theories/Ex_float5.v
theories/Ex_float6.v
theories/Ex_float7.v
theories/Ex_float8.v
theories/Ex_front.v
theories/Ex_gridacc.v
theories/Ex_heap.v
theories/Ex_ident.v
theories/Ex_invar.v
theories/Ex_lip.v
theories/Ex_lomb.v
theories/Ex_orbit.v
theories/Ex_peaks.v
theories/Ex_period.v
theories/Ex_ravel.v
theories/Ex_reach.v
theories/Ex_regrid.v
theories/Ex_rv.v
theories/Ex_same.v
theories/Ex_split.v
theories/Ex_stack.v
theories/Ex_sym.v
theories/Ex_system.v
theories/Ex_ttvmove.v
theories/Ex_undef.v
theories/Ex_warn.v
theories/L_accept.v
theories/L_accuracy.v
theories/L_acf1.v
theories/L_acf2.v
theories/L_acorr1.v
theories/L_acorr2.v
theories/L_area.v
theories/L_array.v
theories/L_back.v
theories/L_back2.v
theories/L_back3.v
theories/L_back4.v
theories/L_bls.v
theories/L_call.v
theories/L_cite.v
theories/L_clock.v
theories/L_compat.v
theories/L_compose.v
theories/L_compose2.v
theories/L_cont.v
theories/L_cont2.v
theories/L_cont3.v
theories/L_cont4.v
theories/L_cont5.v
theories/L_cont6.v
theories/L_cont7.v
theories/L_curve.v
theories/L_curve2.v
theories/L_curve3.v
theories/L_curve4.v
theories/L_curve5.v
theories/L_delay.v
theories/L_delay2.v
theories/L_delay3.v
theories/L_depth.v
theories/L_depth2.v
theories/L_depth3.v
theories/L_depth4.v
theories/L_dist1.v
theories/L_dist2.v
theories/L_dist3.v
theories/L_dist4.v
theories/L_durecc.v
theories/L_durvars.v
theories/L_ecc1.v
theories/L_ecc2.v
theories/L_ecc3.v
theories/L_eclipse.v
theories/L_fl.v
theories/L_fl2.v
theories/L_fl3.v
theories/L_fl4.v
theories/L_float.v
theories/L_float10.v
theories/L_float11.v
theories/L_float12.v
theories/L_float13.v
theories/L_float14.v
theories/L_float15.v
theories/L_float16.v
theories/L_float17.v
theories/L_float18.v
theories/L_float19.v
theories/L_float2.v
theories/L_float20.v
theories/L_float21.v
theories/L_float22.v
theories/L_float23.v
theories/L_float24.v
theories/L_float25.v
theories/L_float26.v
theories/L_float27.v
theories/L_float28.v
theories/L_float29.v
theories/L_float3.v
theories/L_float30.v
theories/L_float31.v
theories/L_float32.v
theories/L_float33.v
theories/L_float34.v
theories/L_float35.v
theories/L_float36.v
theories/L_float4.v
theories/L_float5.v
theories/L_float6.v
theories/L_float7.v
theories/L_float8.v
theories/L_float9.v
theories/L_flux.v
theories/L_front.v
theories/L_gauss.v
theories/L_grid1.v
theories/L_grid2.v
theories/L_grid3.v
theories/L_grid4.v
theories/L_grid5.v
theories/L_gridacc.v
theories/L_heap.v
theories/L_ident.v
theories/L_ident2.v
theories/L_ident3.v
theories/L_interp.v
theories/L_interp2.v
theories/L_interp3.v
theories/L_interp4.v
theories/L_invar.v
theories/L_invar2.v
theories/L_invar3.v
theories/L_kepop.v
theories/L_kwargs.v
theories/L_kwargs2.v
theories/L_lens.v
theories/L_light1.v
theories/L_light2.v
theories/L_light3.v
theories/L_light4.v
theories/L_light5.v
theories/L_light6.v
theories/L_light7.v
theories/L_light8.v
theories/L_light9.v
theories/L_lin.v
theories/L_lip.v
theories/L_lip2.v
theories/L_lip3.v
theories/L_lomb.v
theories/L_massless.v
theories/L_mirror.v
theories/L_motion.v
theories/L_node.v
theories/L_norm.v
theories/L_orbit.v
theories/L_params.v
theories/L_params2.v
theories/L_params3.v
theories/L_params4.v
theories/L_params5.v
theories/L_pass.v
theories/L_pass2.v
theories/L_pass3.v
theories/L_pass4.v
theories/L_peaks1.v
theories/L_peaks2.v
theories/L_period.v
theories/L_pmotion.v
theories/L_pmotion2.v
theories/L_pmotion3.v
theories/L_pmotion4.v
theories/L_pmotion5.v
theories/L_posvel.v
theories/L_prior.v
theories/L_prior2.v
theories/L_ptransit.v
theories/L_ravel.v
theories/L_ravel2.v
theories/L_ravel3.v
theories/L_reach.v
theories/L_reach2.v
theories/L_reach3.v
theories/L_real.v
theories/L_regrid.v
theories/L_regrid2.v
theories/L_reshape.v
theories/L_round.v
theories/L_rv1.v
theories/L_rv2.v
theories/L_rv3.v
theories/L_rv4.v
theories/L_rv5.v
theories/L_rv6.v
theories/L_rv7.v
theories/L_rvmean.v
theories/L_same.v
theories/L_scale.v
theories/L_second.v
theories/L_second2.v
theories/L_shape.v
theories/L_shapeS.v
theories/L_simple.v
theories/L_simple2.v
theories/L_split.v
theories/L_split2.v
theories/L_stack.v
theories/L_start.v
theories/L_sym.v
theories/L_sym2.v
theories/L_tens.v
theories/L_transit.v
theories/L_transit2.v
theories/L_transit3.v
theories/L_transit4.v
theories/L_transit5.v
theories/L_transit6.v
theories/L_ttv1.v
theories/L_ttv2.v
theories/L_ttv3.v
theories/L_ttv4.v
theories/L_ttv5.v
theories/L_ttv6.v
theories/L_ttv7.v
theories/L_ttv8.v
theories/L_ttv9.v
theories/L_ttvlab.v
theories/L_ttvlist.v
theories/L_ttvlist2.v
theories/L_ttvlist3.v
theories/L_ttvmove.v
theories/L_ttvmove2.v
theories/L_ttvmove3.v
theories/L_ttvone.v
theories/L_undef.v
theories/L_undef2.v
theories/L_undef3.v
theories/L_undef4.v
theories/L_warn.v
theories/L_wedge.v
theories/L_wedge2.v
theories/L_wedge3.v
theories/L_wedge4.v
theories/L_wedge5.v
theories/M_acf.v
theories/M_acorr.v
theories/M_bls.v
theories/M_call.v
theories/M_cite.v
theories/M_citedata.v
theories/M_compat.v
theories/M_compose.v
theories/M_dist.v
theories/M_durecc.v
theories/M_durvars.v
theories/M_ecc.v
theories/M_fin.v
theories/M_grid.v
theories/M_heap.v
theories/M_interpolated.v
theories/M_kepler.v
theories/M_kwargs.v
theories/M_limbdark.v
theories/M_lomb.v
theories/M_peaks.v
theories/M_posvel.v
theories/M_rv.v
theories/M_secondary.v
theories/M_simple.v
theories/M_tensor.v
theories/M_ttv.v
theories/M_units.v
theories/M_warn.v
theories/P_accuracy.v
theories/P_acf.v
theories/P_afloat.v
theories/P_angle.v
theories/P_back.v
theories/P_bls.v
theories/P_call.v
theories/P_cite.v
theories/P_compat.v
theories/P_compose.v
theories/P_cont.v
theories/P_cont2.v
theories/P_cont3.v
theories/P_curve.v
theories/P_curve2.v
theories/P_delay.v
theories/P_depth.v
theories/P_dfloat.v
theories/P_dist.v
theories/P_durecc.v
theories/P_ecc.v
theories/P_eclipse.v
theories/P_float.v
theories/P_front.v
theories/P_gfloat.v
theories/P_grid.v
theories/P_gridacc.v
theories/P_heap.v
theories/P_ident.v
theories/P_interp.v
theories/P_invar.v
theories/P_kfloat.v
theories/P_lfloat.v
theories/P_light.v
theories/P_lip.v
theories/P_lomb.v
theories/P_motion.v
theories/P_norm.v
theories/P_params.v
theories/P_peaks.v
theories/P_period.v
theories/P_posvel.v
theories/P_prior.v
theories/P_ravel.v
theories/P_reach.v
theories/P_regrid.v
theories/P_rfloat.v
theories/P_rv.v
theories/P_rvmean.v
theories/P_same.v
theories/P_second.v
theories/P_sfloat.v
theories/P_simple.v
theories/P_split.v
theories/P_stack.v
theories/P_sym.v
theories/P_transit.v
theories/P_ttv.v
theories/P_ttvlight.v
theories/P_ttvlist.v
theories/P_ttvmove.v
theories/P_undef.v
theories/P_warn.v
theories/Spec_accuracy.v
theories/Spec_acf.v
theories/Spec_acorr.v
theories/Spec_array.v
theories/Spec_back.v
theories/Spec_bls.v
theories/Spec_call.v
theories/Spec_cite.v
theories/Spec_compat.v
theories/Spec_cont.v
theories/Spec_cont2.v
theories/Spec_curve.v
theories/Spec_curve2.v
theories/Spec_delay.v
theories/Spec_depth.v
theories/Spec_dist.v
theories/Spec_durecc.v
theories/Spec_durvars.v
theories/Spec_ecc.v
theories/Spec_float.v
theories/Spec_float2.v
theories/Spec_float3.v
theories/Spec_float4.v
theories/Spec_float5.v
theories/Spec_float6.v
theories/Spec_float7.v
theories/Spec_float8.v
theories/Spec_float9.v
theories/Spec_front.v
theories/Spec_grid.v
theories/Spec_gridacc.v
theories/Spec_heap.v
theories/Spec_ident.v
theories/Spec_interp.v
theories/Spec_invar.v
theories/Spec_kwargs.v
theories/Spec_light.v
theories/Spec_lip.v
theories/Spec_lomb.v
theories/Spec_norm.v
theories/Spec_orbit.v
theories/Spec_params.v
theories/Spec_peaks.v
theories/Spec_period.v
theories/Spec_plane.v
theories/Spec_posvel.v
theories/Spec_prior.v
theories/Spec_ravel.v
theories/Spec_reach.v
theories/Spec_regrid.v
theories/Spec_round.v
theories/Spec_rv.v
theories/Spec_same.v
theories/Spec_secondary.v
theories/Spec_simple.v
theories/Spec_split.v
theories/Spec_stack.v
theories/Spec_sym.v
theories/Spec_ttv.v
theories/Spec_ttvlist.v
theories/Spec_ttvmove.v
theories/Spec_undef.v
theories/Spec_warn.v
