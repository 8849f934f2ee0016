-Q theories Verif
theories/Num.v
theories/XR.v
theories/SF.v
theories/Res.v
theories/Arr.v
theories/M_numpy.v
theories/P_numpy.v
theories/M_fzero.v
theories/S_fzero.v
theories/XRlemmas.v
theories/P_fzero.v
theories/Ex_fzero.v
theories/Properties_fzero.v
theories/M_ppinterp.v
theories/ArrLemmas.v
theories/S_interp.v
theories/S_poly.v
theories/P_ppinterp.v
theories/P_pval.v
theories/P_pchip.v
theories/P_interp.v
theories/P_coeffs.v
theories/NumLaws.v
theories/P_interp2.v
theories/M_make_pp.v
theories/S_make_pp.v
theories/P_make_pp.v
theories/Ex_ppinterp.v
theories/Properties_ppinterp.v
theories/M_traj.v
theories/M_bfs.v
theories/S_graph.v
theories/S_labels.v
theories/S_wet.v
theories/P_bfs.v
theories/P_wet.v
theories/P_perim.v
theories/S_domain.v
theories/S_traj.v
theories/P_domain.v
theories/P_traj.v
theories/Ex_traj.v
theories/Ex_bfs.v
theories/P_wet_exact.v
theories/Ex_wet.v
theories/Properties_bfs.v
theories/Properties_traj.v
theories/Nd.v
theories/NdLemmas.v
theories/M_graph.v
theories/M_lib.v
theories/S_lib.v
theories/P_csr.v
theories/P_graph.v
theories/P_graph2.v
theories/P_lib.v
theories/P_div.v
theories/P_casts.v
theories/P_bottom.v
theories/P_pin.v
theories/Ex_graph.v
theories/Properties_graph.v
theories/Properties_lib.v
theories/M_grid.v
theories/S_grid.v
theories/P_tab.v
theories/P_grid.v
theories/P_edgedata.v
theories/P_tripolar.v
theories/M_xgcm.v
theories/S_xgcm.v
theories/P_select.v
theories/P_xgcm.v
theories/Ex_grid.v
theories/Properties_grid.v
theories/M_vertsolve.v
theories/S_vertsolve.v
theories/P_vertsolve.v
theories/P_isopycnal.v
theories/Ex_vertsolve.v
theories/S_args.v
theories/P_args.v
theories/P_knots.v
theories/Properties_vertsolve.v
theories/M_ntp.v
theories/S_ntp.v
theories/P_ntp.v
theories/P_ntp2.v
theories/Ex_ntp.v
theories/Properties_ntp.v
theories/M_matsolve.v
theories/M_omega.v
theories/S_omega.v
theories/S_matsolve.v
theories/P_linalg.v
theories/P_laplacian.v
theories/P_matsolve.v
theories/P_matsolve2.v
theories/Ex_matsolve.v
theories/Properties_matsolve.v
theories/P_case.v
theories/P_omega.v
theories/P_omega_exact.v
theories/P_omega_interp.v
theories/Ex_omega.v
theories/Properties_omega.v
theories/M_eos_base.v
theories/M_jmd95.v
theories/M_jmdfwg06.v
theories/M_gsw.v
theories/S_eos.v
theories/P_eos.v
theories/P_jmd95.v
theories/P_jmdfwg06.v
theories/P_gsw.v
theories/P_gsw2.v
theories/P_gsw3.v
theories/P_eosbound.v
theories/P_eosx.v
theories/P_eosocean.v
theories/P_eosocean2.v
theories/Ex_eos.v
theories/Properties_eos.v
theories/M_eostools.v
theories/S_eostools.v
theories/P_eostools.v
theories/M_cache.v
theories/S_cache.v
theories/P_cache.v
theories/Ex_eostools.v
theories/Properties_eostools.v
theories/M_label.v
theories/S_label.v
theories/P_quad.v
theories/P_label.v
theories/P_label2.v
theories/P_label3.v
theories/Ex_label.v
theories/Properties_label.v
theories/S_mixed_layer.v
theories/M_mixed_layer.v
theories/P_mixed_layer.v
theories/P_mixed_layer2.v
theories/P_mlnamed.v
theories/Ex_mixed_layer.v
theories/Properties_mixed_layer.v
theories/M_stability.v
theories/S_stability.v
theories/P_stability.v
theories/P_stability2.v
theories/P_stability3.v
theories/P_stability4.v
theories/Ex_stability.v
theories/Properties_stability.v
theories/M_synthocean.v
theories/S_synthocean.v
theories/P_synthocean.v
theories/P_synthocean2.v
theories/P_synthgeom.v
theories/Ex_synthocean.v
theories/Properties_synthocean.v
theories/S_named.v
theories/P_named.v
theories/M_surfaces.v
theories/S_surfaces.v
theories/P_surfaces.v
theories/P_surfaces2.v
theories/P_surfaces3.v
theories/Ex_surfaces.v
theories/Properties_surfaces.v
theories/S_float.v
theories/P_float.v
theories/P_floaterr.v
theories/P_eosfloat.v
theories/P_eosfloat2.v
theories/P_eosfloat3.v
theories/Ex_eosfloat.v
theories/Properties_float.v
theories/P_fl.v
theories/S_fzero64.v
theories/P_brent64.v
theories/P_gtb64.v
theories/P_fzero64.v
theories/Ex_fzero64.v
theories/Properties_root64.v
theories/S_vert64.v
theories/P_holds.v
theories/P_linear64.v
theories/P_eosfloat4.v
theories/P_vert64.v
theories/P_surf64.v
theories/P_pchip64.v
theories/P_pchip64b.v
theories/P_pchip64c.v
theories/P_pchip64d.v
theories/P_traj64.v
theories/Ex_vert64.v
theories/Properties_vert64.v
theories/S_entry64.v
theories/P_entry64.v
theories/Ex_entry64.v
theories/Properties_entry64.v
theories/M_wrap.v
theories/S_wrap.v
theories/P_wrap.v
theories/Properties_wrap.v
theories/S_ntp64.v
theories/P_eosfloat5.v
theories/P_ntp64.v
theories/P_sum64.v
theories/P_norms64.v
theories/P_ntpnorms64.v
theories/P_ntpnan64.v
theories/P_ntp64b.v
theories/P_surfdiag64.v
theories/Ex_ntp64.v
theories/Properties_ntp64.v
theories/P_sign64.v
theories/S_omega64.v
theories/P_lost64.v
theories/P_wet64.v
theories/Ex_wet64.v
theories/Properties_wet64.v
theories/P_fly64.v
theories/Ex_fly64.v
theories/Properties_fly64.v
theories/S_system64.v
theories/P_system64.v
theories/P_system64b.v
theories/Ex_system64.v
theories/Properties_system64.v
theories/S_run64.v
theories/P_mean64.v
theories/P_omega64.v
theories/P_omega64b.v
theories/Ex_omega64.v
theories/Properties_omega64.v
theories/M_trajentry.v
theories/S_trajentry.v
theories/P_trajentry.v
theories/P_trajentry64.v
theories/Ex_trajentry.v
theories/Properties_trajentry.v
theories/S_ml64.v
theories/P_ml64.v
theories/P_ml64b.v
theories/P_ml64c.v
theories/Ex_ml64.v
theories/Properties_ml64.v
theories/S_stability64.v
theories/P_stability64.v
theories/P_stability64b.v
theories/P_stability64c.v
theories/Ex_stability64.v
theories/Properties_stability64.v
theories/P_quad64.v
theories/P_linspace64.v
theories/P_label64.v
theories/P_label64b.v
theories/S_label64.v
theories/P_label64c.v
theories/P_label64d.v
theories/P_jet.v
theories/P_jeteos.v
theories/P_label64e.v
theories/P_label64f.v
theories/Ex_label64.v
theories/Ex_label64b.v
theories/Properties_label64.v
