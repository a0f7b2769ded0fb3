(** Property theorems: satellites of Saturn (C90). *)
From Coq Require Import ZArith Reals List.
From Verif Require Import GoFloat GoMath S_Sphere S_precess S_physical S_solar S_moon S_saturnmoons M_base M_coord M_precess M_vsop M_solar M_physical M_saturnmoons L_pluto L_saturnmoons L_saturnmoons2 L_saturnmoons3.
Import ListNotations.
Local Open Scope R_scope.

(** The frame of the satellites is that of the plane of the ring, node 168.8112 and inclination 28.0817 degrees. *)
Theorem C90_frame : satN = degrees 168.8112 /\ satJ = degrees 28.0817 /\ forall v, plane_coords satN satJ (from_plane satN satJ v) = v.
Proof. exact sat_frame. Qed.
Print Assumptions C90_frame.
(** The four inner satellites are on orbits slightly inclined to that plane. *)
Theorem C90_inner : forall J, let place m inc := exists th node, vec_of (sat_xyz m) = on_orbit node (degrees inc) th (r4_r m) in
  place (mimas J) 1.563 /\ place (enceladus J) 0.0262 /\ place (tethys J) 1.0976 /\ place (dione J) 0.0139.
Proof. exact inner_moons. Qed.
Print Assumptions C90_inner.
(** The four outer satellites are on ellipses referred to the ecliptic, moving by the equation of the
    centre, with elements inside the ranges shown, for five centuries around 1885. *)
Theorem C90_outer : forall J, Rabs (q_t11 J) <= 5 -> let place m a1 a2 e1 e2 i1 i2 o1 o2 := exists a e p Om i M C, a1 <= a <= a2 /\ e1 <= e <= e2 /\ degrees i1 <= i <= degrees i2 /\ degrees o1 <= Om <= degrees o2 /\
    Rabs (C - centre_series M e) <= 0.000000001 /\ from_plane satN satJ (vec_of (sat_xyz m)) = ellipse_place a e p Om i (M + C) in
  place (rhea J) 8.725924 8.725924 0 0.00127 27.67 28.41 168.02 169.59 /\ place (titan J) 20.216193 20.216193 0.0286 0.0296 27.12 27.79 167.96 169.38 /\
  place (hyperion J) 24.41 24.6 0.07 0.1335 26.34 28.33 166.51 170.85 /\ place (iapetus J) 58.87 59 0.0194 0.0372 11.17 23.95 122.3 167.
Proof. exact outer_moons. Qed.
Print Assumptions C90_outer.
(** The satellites keep their order of distance from the planet and the orbits do not meet. *)
Theorem C90_order : forall J, Rabs (q_t11 J) <= 5 ->
  3.01 <= r4_r (mimas J) /\ r4_r (mimas J) <= 3.13 /\ 3.92 <= r4_r (enceladus J) /\ r4_r (enceladus J) <= 3.97 /\ r4_r (tethys J) = 4.880998 /\ 6.23 <= r4_r (dione J) /\ r4_r (dione J) <= 6.27 /\
  8.71 <= r4_r (rhea J) /\ r4_r (rhea J) <= 8.74 /\ 19.61 <= r4_r (titan J) /\ r4_r (titan J) <= 20.82 /\ 21.15 <= r4_r (hyperion J) /\ r4_r (hyperion J) <= 27.89 /\ 56.67 <= r4_r (iapetus J) /\ r4_r (iapetus J) <= 61.2.
Proof. exact sat_order. Qed.
Print Assumptions C90_order.
(** The two resonances of the inner satellites hold for a thousand years around 1889. *)
Theorem C90_resonance_mimas_tethys : forall J, Rabs (q_t2 J) <= 1000 -> near_turns (4 * r4_l (tethys J) - 2 * r4_l (mimas J) - r4_O (mimas J) - r4_O (tethys J)) (degrees 117).
Proof. exact mimas_tethys. Qed.
Print Assumptions C90_resonance_mimas_tethys.
Theorem C90_resonance_enceladus_dione : forall J, Rabs (q_t2 J) <= 1000 -> exists v p, r4_r (enceladus J) = 3.94118 / (1 + 0.00485 * cos v) /\ r4_l (enceladus J) = v + p /\ near_turns (2 * r4_l (dione J) - r4_l (enceladus J) - p) (degrees 1.7).
Proof. exact enceladus_dione. Qed.
Print Assumptions C90_resonance_enceladus_dione.
(** The direction of the planet is that of its place when the light left it, reduced to the equinox of 1950. *)
Theorem C90_light_time : forall jde earth saturn, let '(s, b, R0) := TrueVSOP87 earth jde in let sun := mkvec (R0 * cos s) (R0 * sin s) (R0 * sin b) in
  let place D v := exists l b r l' b', PlanetPosition saturn (jde - LightTime D) = (l, b, r) /\ ToFK5 l b (jde - LightTime D) = (l', b') /\ v = vadd sun (scale r (dir l' b')) in
  let '(l0, b0, Delta, J) := sat_direction jde earth saturn in
  exists v1 v2 la be, place 9 v1 /\ place (norm v1) v2 /\ Delta = norm v2 /\ J = jde - LightTime (norm v1) /\ - (PI / 2) <= b0 <= PI / 2 /\
    (vx v2 <> 0 \/ vy v2 <> 0 -> dir la be = unit_of v2) /\
    let p := NewEclipticPrecessor (JDEToJulianYear (fl := RFlt) jde) (JDEToJulianYear (fl := RFlt) 2433282.4235) in dir l0 b0 = ecliptic_precession (epeta p) (eppi p) (epp p) (dir la be).
Proof. exact sat_direction_value. Qed.
Print Assumptions C90_light_time.
(** What is returned, in order, for the eight satellites: the offset in the sky towards the west and along
    the projected north pole of the plane of the ring, in perspective from the Earth at the distance of the
    planet (2475 radii to the unit times Delta), X advanced by the differential light time. *)
Theorem C90_view : forall jde earth saturn, let '(l0, b0, Delta, J) := sat_direction jde earth saturn in Rabs (q_t11 J) <= 5 -> Rabs (sin b0) < 0.5 -> 1 <= Delta ->
  Forall2 (fun mk xy => let '(m, k) := mk in let place := from_plane satN satJ (vec_of (sat_xyz m)) in
    exists h X Y Z W X', 0 < h /\ sky_axes l0 b0 (orbit_pole satJ satN) place h X Y Z /\ xy = (X' * W, Y * W) /\ W * (Delta + Z / 2475) = Delta /\ 0 < W /\
      X' = X + Rabs Z / k * sqrt (1 - X / r4_r m * (X / r4_r m)) /\ 0 <= 1 - X / r4_r m * (X / r4_r m) /\ X <= X' <= X + r4_r m / k)
    [(mimas J, 20947); (enceladus J, 23715); (tethys J, 26382); (dione J, 29876); (rhea J, 35313); (titan J, 53800); (hyperion J, 59222); (iapetus J, 91820)] (SaturnPositions jde earth saturn).
Proof. exact SaturnPositions_seen. Qed.
Print Assumptions C90_view.
(** The dates of the last theorems include the standard epoch. *)
Example C90_epoch : q_t2 2411093 = 0 /\ q_t11 2409786 = 0.
Proof. unfold q_t2, q_t1, q_t11, q_t10, Rdiv. split; ring. Qed.
(** The hypotheses of the view are met by an Earth and a Saturn at rest at distances 1 and 10. *)
Example C90_nonvacuous : forall L, let '(l0, b0, Delta, J) := sat_direction 2451545 (fixed L 1) (fixed 0 10) in Rabs (q_t11 J) <= 5 /\ Rabs (sin b0) < 0.5 /\ 1 <= Delta.
Proof. exact fixed_saturn. Qed.
