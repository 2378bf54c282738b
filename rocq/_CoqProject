-Q theories Verif
theories/PyMath.v
theories/L_PyMath.v
theories/M_ellipsoid.v
theories/M_ecef.v
theories/M_frames.v
theories/M_enu.v
theories/M_aer.v
theories/M_ned.v
theories/M_nwu.v
theories/M_sez.v
theories/M_dca.v
theories/M_utils.v
theories/M_body.v
theories/M_rcurve.v
theories/Spec.v
theories/Spec_geodesic.v
theories/L_poly.v
theories/L_ell.v
theories/L_ecef.v
theories/L_ecef2geo.v
theories/L_ecefrt.v
theories/L_ecefsurj.v
theories/L_ecefprops.v
theories/L_ecefarr.v
theories/P_ecef.v
theories/L_frames.v
theories/L_aer.v
theories/L_body.v
theories/P_frames.v
theories/M_latitude.v
theories/M_rsphere.v
theories/L_rcurve.v
theories/L_rsphere.v
theories/L_utils.v
theories/P_radii.v
theories/L_latitude.v
theories/L_latitude2.v
theories/L_latitude3.v
theories/L_latitude4.v
theories/P_latitude.v
theories/M_haversine.v
theories/M_nvector.v
theories/L_nvector.v
theories/P_sphere.v
theories/M_time.v
theories/M_earth.v
theories/M_eci.v
theories/M_sidereal.v
theories/Spec_time.v
theories/L_time.v
theories/L_earth.v
theories/L_eci.v
theories/Spec_eop.v
theories/L_eci2.v
theories/L_sidereal.v
theories/P_time.v
theories/P_eci.v
theories/M_lox.v
theories/L_lox.v
theories/P_lox.v
theories/M_los.v
theories/Spec_los.v
theories/L_los.v
theories/P_los.v
theories/M_spherical.v
theories/L_spherical.v
theories/P_spherical.v
theories/M_vincenty.v
theories/L_vincenty.v
theories/L_vincenty2.v
theories/L_vincenty3.v
theories/L_vincenty4.v
theories/L_vincenty5.v
theories/P_vincenty.v
theories/M_karney.v
theories/L_karney.v
theories/L_karney2.v
theories/L_karney3.v
theories/L_karney4.v
theories/L_karney5.v
theories/L_karney6.v
theories/L_karney7.v
theories/L_karney8.v
theories/L_karney9.v
theories/P_karney.v
theories/L_series1.v
theories/L_series2.v
theories/L_series3.v
theories/L_geodesic1.v
theories/L_geodesic2.v
theories/L_geodesic3.v
theories/L_geodesic4.v
theories/L_geodesic5.v
theories/L_geodesic6.v
theories/L_geodesic7.v
theories/L_geodesic8.v
theories/L_geodesic9.v
theories/L_geodesic10.v
theories/L_geodesic11.v
theories/L_geodesic12.v
theories/L_geodesic13.v
theories/P_geodesic.v
theories/P_inverse.v
theories/M_caches.v
theories/P_caches.v
theories/P_modes.v
theories/M_arrays.v
theories/P_arrays.v
theories/M_cli.v
theories/Spec_cli.v
theories/L_cli.v
theories/P_cli.v
theories/M_float.v
theories/P_float.v
theories/L_ecefacc.v
theories/L_ecefacc2.v
theories/P_accuracy.v
theories/L_vin1.v
theories/L_vin2.v
theories/L_vin3.v
theories/L_vin4.v
theories/L_vin5.v
theories/L_vin6.v
theories/L_vin7.v
theories/P_vinacc.v
theories/L_newton1.v
theories/L_newton2.v
theories/L_newton3.v
theories/L_newton4.v
theories/L_newton5.v
theories/P_converge.v
theories/Spec_aux.v
theories/L_aux1.v
theories/L_aux2.v
theories/L_aux3.v
theories/L_aux4.v
theories/L_aux5.v
theories/L_aux6.v
theories/L_aux7.v
theories/L_aux8.v
theories/L_aux9.v
theories/L_aux10.v
theories/P_auxlat.v
theories/L_area.v
theories/P_area.v
theories/Spec_cliout.v
theories/M_cliout.v
theories/L_cliout.v
theories/P_cliout.v
theories/L_dist1.v
theories/P_distance.v
theories/L_pole1.v
theories/L_pole2.v
theories/P_pole.v
theories/L_short1.v
theories/L_short2.v
theories/L_short3.v
theories/L_short4.v
theories/L_short5.v
theories/L_short6.v
theories/L_short7.v
theories/L_short8.v
theories/L_short9.v
theories/P_shortest.v
theories/P_azimuth.v
theories/P_agree.v
theories/P_agree2.v
theories/P_reverse.v
theories/M_floatenu.v
theories/M_floatgeo.v
theories/Spec_float.v
theories/L_float.v
theories/P_rounding.v
theories/L_float2.v
theories/L_floatpi.v
theories/L_floatgeo.v
theories/P_stable.v
theories/P_roundgeo.v
theories/L_floatpole.v
theories/P_roundpole.v
theories/M_floataer.v
theories/P_lookangles.v
theories/P_roundaer.v
theories/M_floathav.v
theories/Spec_hav.v
theories/L_floathav.v
theories/P_roundhav.v
theories/M_floattime.v
theories/P_roundtime.v
theories/P_roundsid.v
theories/M_floatsid.v
theories/M_floateci.v
theories/M_floateci2.v
theories/P_roundsid2.v
theories/P_roundeci.v
theories/P_roundeci2.v
theories/P_roundeci3.v
theories/P_roundeci4.v
theories/P_models.v
