(** Property theorems: apparent place of a planet (C93), rising and setting of a planet (C94). *)
From Coq Require Import ZArith Reals List.
From Verif Require Import GoFloat GoMath S_Calendar S_julian S_Sphere S_precess S_solar S_physical S_rise S_moon M_base M_julian M_coord M_precess M_vsop M_solar M_physical M_rise M_deltat M_ephem L_ephem L_rise3.
Import ListNotations.
Local Open Scope R_scope.

(** The apparent place: the planet where the light left it, seen from the Earth of the date; moved by
    aberration to first order; reduced to FK5 (a tenth of an arc second); moved by nutation and turned to the
    true equator of the date. *)
Theorem C93_apparent_place : forall p earth jde, let '(L0, B0, R0) := PlanetPosition earth jde in let e := scale R0 (dir L0 B0) in
  let place t v := exists L B r, PlanetPosition p t = (L, B, r) /\ v = vsub (scale r (dir L B)) e in
  let '(dpsi, deps) := Nutation jde in let '(ra, dec) := EllipticPosition p earth jde in
  0 <= ra < 2 * PI /\ - (PI / 2) <= dec <= PI / 2 /\ exists v1 v2, place jde v1 /\ place (jde - LightTime (norm v1)) v2 /\
    (vx v2 <> 0 \/ vy v2 <> 0 -> exists lam be dl db l5 b5, dir lam be = unit_of v2 /\ - (PI / 2) < be < PI / 2 /\ moved_by lam be dl db (earthV jde) /\
      Rabs (b5 - (be + db)) <= arcsec 0.0554 /\ (Rabs (be + db) <= PI / 4 -> Rabs (l5 - (lam + dl)) <= arcsec 0.1458) /\
      (- (PI / 2) < b5 < PI / 2 -> equatorial_of (l5 + dpsi) b5 (MeanObliquity jde + deps) ra dec)).
Proof. exact EllipticPosition_value. Qed.
Print Assumptions C93_apparent_place.
(** An Earth at rest at distance 1 and a planet at rest at distance 5. *)
Example C93_nonvacuous : forall L v1 v2, let '(L0, B0, R0) := PlanetPosition (fixed L 1) 2451545 in let place t v := exists L1 B1 r, PlanetPosition (fixed 0 5) t = (L1, B1, r) /\ v = vsub (scale r (dir L1 B1)) (scale R0 (dir L0 B0)) in
  place 2451545 v1 -> place (2451545 - LightTime (norm v1)) v2 -> 3.9 <= vx v2 <= 6.1.
Proof. exact fixed_apparent. Qed.

(** Times of a planet for a date of the Gregorian calendar: with the apparent place of 0h and the apparent
    sidereal time of 0h (nutation of the noon after), transit at hour angle 0, rising and setting at altitude
    -34 minutes of arc, or an error when that altitude is never reached. *)
Theorem C94_approximate : forall x pos e pl, valid_date Gregorian x = true -> smally (d_y x) -> (0 <= jdn Gregorian x)%Z -> - (PI / 2) < Lat pos < PI / 2 ->
  let jd := IZR (jdn Gregorian x) - / 2 in let '(a, d) := EllipticPosition pl e jd in - (PI / 2) < d < PI / 2 ->
  exists Th0, same_time Th0 (sidereal0 ((jd - 2451545) / 36525) + TimeFromRad (NutationInRA (jd + 1 / 2))) /\
  let HA := hour_angle 1 Th0 (Lon pos) a in
  match ApproxPlanet (d_y x) (d_m x) (d_d x) pos e pl with
  | None => forall H, sin_alt (Lat pos) d H <> sin (- degrees (34 / 60))
  | Some (tr, tm, ts) => 0 <= tr < 86400 /\ 0 <= tm < 86400 /\ 0 <= ts < 86400 /\ (exists k : Z, HA tm = IZR k * (2 * PI)) /\
      sin_alt (Lat pos) d (HA tr) = sin (- degrees (34 / 60)) /\ sin (HA tr) <= 0 /\ sin_alt (Lat pos) d (HA ts) = sin (- degrees (34 / 60)) /\ 0 <= sin (HA ts)
  end.
Proof. exact ApproxPlanet_times. Qed.
Print Assumptions C94_approximate.
(** rise.Planet never panics, has an error exactly when ApproxPlanet has one, and otherwise corrects its times
    with the parabolas through the places of the day before, the day and the day after and with delta-T. *)
Theorem C94_corrected : forall unspec x pos e pl, valid_date Gregorian x = true -> smally (d_y x) -> (0 <= jdn Gregorian x <= 1000000000000000)%Z ->
  let jd := IZR (jdn Gregorian x) - / 2 in let '(a0, d0) := EllipticPosition pl e (jd - 1) in let '(a1, d1) := EllipticPosition pl e jd in let '(a2, d2) := EllipticPosition pl e (jd + 1) in
  exists DT Th0, Interp10A (fl := RFlt) unspec jd = Some DT /\ same_time Th0 (sidereal0 ((jd - 2451545) / 36525) + TimeFromRad (NutationInRA (jd + 1 / 2))) /\
  let h0 := - degrees (34 / 60) in let RA := table3 a0 a1 a2 in let dec := table3 d0 d1 d2 in
  RisePlanet unspec (d_y x) (d_m x) (d_d x) pos e pl =
    match ApproxPlanet (d_y x) (d_m x) (d_d x) pos e pl with
    | None => Fail
    | Some (tr, tm, ts) => Ret (adjustRS pos DT h0 Th0 RA dec tr, adjustTransit pos DT Th0 RA tm, adjustRS pos DT h0 Th0 RA dec ts)
    end.
Proof. exact RisePlanet_value. Qed.
Print Assumptions C94_corrected.
(** What is left after the correction, for a planet that moves at most A in right ascension and D in
    declination from day to day, HA and dec being its hour angle and declination on the parabolas: the transit
    is moved by a bounded amount up to whole days, and the hour angle there and the altitudes at rising and
    setting are right to second order. *)
Theorem C94_error : forall unspec x pos e pl A D, valid_date Gregorian x = true -> smally (d_y x) -> (0 <= jdn Gregorian x)%Z -> - (PI / 2) < Lat pos < PI / 2 ->
  let jd := IZR (jdn Gregorian x) - / 2 in let '(a0, d0) := EllipticPosition pl e (jd - 1) in let '(a1, d1) := EllipticPosition pl e jd in let '(a2, d2) := EllipticPosition pl e (jd + 1) in
  - (PI / 2) < d1 < PI / 2 -> Rabs (a1 - a0) <= A -> Rabs (a2 - a1) <= A -> Rabs (d1 - d0) <= D -> Rabs (d2 - d1) <= D ->
  forall DT, Interp10A (fl := RFlt) unspec jd = Some DT -> Rabs DT <= 3600 ->
  exists Th0, same_time Th0 (sidereal0 ((jd - 2451545) / 36525) + TimeFromRad (NutationInRA (jd + 1 / 2))) /\
  forall r0 t0 s0 tr tm ts, ApproxPlanet (d_y x) (d_m x) (d_d x) pos e pl = Some (r0, t0, s0) -> RisePlanet unspec (d_y x) (d_m x) (d_d x) pos e pl = Ret (tr, tm, ts) ->
  let HA t := hour_angle (360.985647 / 360) Th0 (Lon pos) (table3 a0 a1 a2 (t + DT)) t in let dec t := table3 d0 d1 d2 (t + DT) in
  let B A := 173 / 10000 + 21 / 10 * A in
  near_time (B A * (43200 / PI)) tm t0 /\
  (A <= 1 -> Rabs (tm - t0) <= 40000 -> near_turns (HA tm) ((275 / 100000 + A / 2) * B A)) /\
  forall m m', m = r0 /\ m' = tr \/ m = s0 /\ m' = ts -> let g := Rabs (cos (dec m) * cos (Lat pos) * sin (HA m)) in let q := B (A + D) / g in
    B (A + D) <= 1 / 10 -> B (A + D) <= 9 / 10 * g ->
    Rabs (sin_alt (Lat pos) (dec m') (HA m') - sin (- degrees (34 / 60))) <= 55 / 100 * q * q + 4 / 100 * B (A + D) + 104 / 100 * (275 / 100000 + (A + D) / 2) * q.
Proof. exact RisePlanet_error. Qed.
Print Assumptions C94_error.
Example C94_nonvacuous : let x := mkdate 2000 1 1 in valid_date Gregorian x = true /\ smally (d_y x) /\ (0 <= jdn Gregorian x <= 1000000000000000)%Z.
Proof. vm_compute. repeat split; discriminate. Qed.
