-Q theories Verif
theories/GoFloat.v
theories/GoInt.v
theories/GoMath.v
theories/L_alias.v
theories/L_angle.v
theories/L_apparent.v
theories/L_apparent2.v
theories/L_apparent3.v
theories/L_apparent4.v
theories/L_apparent5.v
theories/L_apsis.v
theories/L_areas.v
theories/L_b64.v
theories/L_base.v
theories/L_bisect64.v
theories/L_circle.v
theories/L_conjunction.v
theories/L_coord.v
theories/L_deltat.v
theories/L_distance.v
theories/L_easter.v
theories/L_eclipse.v
theories/L_elements.v
theories/L_ellipse.v
theories/L_ephem.v
theories/L_epoch64.v
theories/L_eqtime.v
theories/L_event.v
theories/L_event2.v
theories/L_event3.v
theories/L_fit.v
theories/L_fk5.v
theories/L_globe.v
theories/L_globe2.v
theories/L_horner64.v
theories/L_interp.v
theories/L_interp64.v
theories/L_interp_row.v
theories/L_interp_zero.v
theories/L_iterate.v
theories/L_jewish.v
theories/L_jm.v
theories/L_jm_month.v
theories/L_jm_moslem.v
theories/L_jm_moslem2.v
theories/L_julian64.v
theories/L_julian_R.v
theories/L_julian_int.v
theories/L_julian_inv.v
theories/L_jupitermoons.v
theories/L_jupitermoons2.v
theories/L_jupitermoons3.v
theories/L_kepler.v
theories/L_kepler2.v
theories/L_kepler3.v
theories/L_kepler4.v
theories/L_lagrange.v
theories/L_length64.v
theories/L_length64b.v
theories/L_light.v
theories/L_line.v
theories/L_meanmotion.v
theories/L_meanmotion2.v
theories/L_meanmotion3.v
theories/L_meanmotion4.v
theories/L_meanmotion5.v
theories/L_minsep.v
theories/L_moon.v
theories/L_moon2.v
theories/L_moon3.v
theories/L_moon4.v
theories/L_moon5.v
theories/L_moon6.v
theories/L_moon7.v
theories/L_moonconst.v
theories/L_nearpar.v
theories/L_nearpar2.v
theories/L_nutation2.v
theories/L_orbit.v
theories/L_orbit2.v
theories/L_parallactic.v
theories/L_parallax.v
theories/L_parallax2.v
theories/L_perihelion.v
theories/L_physical.v
theories/L_physical2.v
theories/L_physical3.v
theories/L_planetelements.v
theories/L_pluto.v
theories/L_precess.v
theories/L_precess2.v
theories/L_refraction.v
theories/L_refraction2.v
theories/L_refraction3.v
theories/L_refraction4.v
theories/L_refraction5.v
theories/L_rise.v
theories/L_rise2.v
theories/L_rise3.v
theories/L_rise4.v
theories/L_rise5.v
theories/L_rotation.v
theories/L_round.v
theories/L_saturnmoons.v
theories/L_saturnmoons2.v
theories/L_saturnmoons3.v
theories/L_season.v
theories/L_season2.v
theories/L_solar.v
theories/L_solardisk.v
theories/L_stdalt.v
theories/L_sun2000.v
theories/L_sundial.v
theories/L_tac.v
theories/L_taylor.v
theories/L_torus.v
theories/L_trig.v
theories/L_values.v
theories/L_vec.v
theories/L_vsop.v
theories/M_angle.v
theories/M_apparent.v
theories/M_base.v
theories/M_conjunction.v
theories/M_coord.v
theories/M_deltat.v
theories/M_easter.v
theories/M_eclipse.v
theories/M_ephem.v
theories/M_fit.v
theories/M_interp.v
theories/M_iterate.v
theories/M_jm.v
theories/M_julian.v
theories/M_jupitermoons.v
theories/M_kepler.v
theories/M_length.v
theories/M_light.v
theories/M_lunar.v
theories/M_minsep.v
theories/M_moon.v
theories/M_moonconst.v
theories/M_orbit.v
theories/M_parallactic.v
theories/M_parallax.v
theories/M_physical.v
theories/M_planetary.v
theories/M_planetelements.v
theories/M_pluto.v
theories/M_precess.v
theories/M_refraction.v
theories/M_rise.v
theories/M_saturnmoons.v
theories/M_season.v
theories/M_semidiameter.v
theories/M_solar.v
theories/M_solardisk.v
theories/M_sundial.v
theories/M_vsop.v
theories/P_angle.v
theories/P_apparent.v
theories/P_apparent2.v
theories/P_apsis.v
theories/P_areas.v
theories/P_base.v
theories/P_conjunction.v
theories/P_coord.v
theories/P_deltat.v
theories/P_distance.v
theories/P_easter.v
theories/P_eclipse.v
theories/P_ephem.v
theories/P_eqtime.v
theories/P_event.v
theories/P_fit.v
theories/P_fk5.v
theories/P_float64.v
theories/P_globe.v
theories/P_interp.v
theories/P_iterate.v
theories/P_jm.v
theories/P_jm2.v
theories/P_julian.v
theories/P_julian64.v
theories/P_jupitermoons.v
theories/P_kepler.v
theories/P_length64.v
theories/P_light.v
theories/P_meanmotion.v
theories/P_minsep.v
theories/P_moon.v
theories/P_nearpar.v
theories/P_orbit.v
theories/P_parallactic.v
theories/P_parallax.v
theories/P_physical.v
theories/P_planetelements.v
theories/P_pluto.v
theories/P_precess.v
theories/P_precess2.v
theories/P_refraction.v
theories/P_rise.v
theories/P_rise2.v
theories/P_rise3.v
theories/P_rise4.v
theories/P_saturnmoons.v
theories/P_season.v
theories/P_season2.v
theories/P_solar.v
theories/P_solardisk.v
theories/P_stdalt.v
theories/P_sun2000.v
theories/P_sundial.v
theories/P_values.v
theories/P_vsop.v
theories/S_Calendar.v
theories/S_Easter.v
theories/S_Jewish.v
theories/S_Moslem.v
theories/S_Plane.v
theories/S_Sphere.v
theories/S_apparent.v
theories/S_base.v
theories/S_conic.v
theories/S_conjunction.v
theories/S_deltat.v
theories/S_eclipse.v
theories/S_ellipse.v
theories/S_eqtime.v
theories/S_event.v
theories/S_fit.v
theories/S_fk5.v
theories/S_float64.v
theories/S_globe.v
theories/S_interp.v
theories/S_iterate.v
theories/S_julian.v
theories/S_jupitermoons.v
theories/S_kepler.v
theories/S_light.v
theories/S_meanmotion.v
theories/S_minsep.v
theories/S_moon.v
theories/S_moonconst.v
theories/S_parallactic.v
theories/S_parallax.v
theories/S_physical.v
theories/S_planetelements.v
theories/S_precess.v
theories/S_rise.v
theories/S_rotation.v
theories/S_saturnmoons.v
theories/S_season.v
theories/S_solar.v
theories/S_solardisk.v
theories/S_stdalt.v
theories/S_sundial.v
theories/S_vsop.v
