(** What is left after the one correction of rise.Planet. *)
From Coq Require Import ZArith Reals List Lra.
From Verif Require Import GoFloat GoMath S_Calendar S_julian S_Sphere S_precess S_solar S_physical S_rise S_moon M_base M_julian M_coord M_precess M_vsop M_solar M_physical M_rise M_deltat M_ephem L_trig L_rise L_ephem L_rise2.
Import ListNotations.
Local Open Scope R_scope.

Lemma RisePlanet_error unspec x pos e pl A D : valid_date Gregorian x = true -> smally (d_y x) -> (0 <= jdn Gregorian x)%Z -> - (PI / 2) < Lat pos < PI / 2 ->
  let jd := IZR (jdn Gregorian x) - / 2 in let '(a0, d0) := EllipticPosition pl e (jd - 1) in let '(a1, d1) := EllipticPosition pl e jd in let '(a2, d2) := EllipticPosition pl e (jd + 1) in
  - (PI / 2) < d1 < PI / 2 -> Rabs (a1 - a0) <= A -> Rabs (a2 - a1) <= A -> Rabs (d1 - d0) <= D -> Rabs (d2 - d1) <= D ->
  forall DT, Interp10A (fl := RFlt) unspec jd = Some DT -> Rabs DT <= 3600 ->
  exists Th0, same_time Th0 (sidereal0 ((jd - 2451545) / 36525) + TimeFromRad (NutationInRA (jd + 1 / 2))) /\
  forall r0 t0 s0 tr tm ts, ApproxPlanet (d_y x) (d_m x) (d_d x) pos e pl = Some (r0, t0, s0) -> RisePlanet unspec (d_y x) (d_m x) (d_d x) pos e pl = Ret (tr, tm, ts) ->
  let HA t := hour_angle sidRate Th0 (Lon pos) (table3 a0 a1 a2 (t + DT)) t in let dec t := table3 d0 d1 d2 (t + DT) in
  let B A := 173 / 10000 + 21 / 10 * A in
  near_time (B A * (43200 / PI)) tm t0 /\
  (A <= 1 -> Rabs (tm - t0) <= 40000 -> near_turns (HA tm) ((275 / 100000 + A / 2) * B A)) /\
  forall m m', m = r0 /\ m' = tr \/ m = s0 /\ m' = ts -> let g := Rabs (cos (dec m) * cos (Lat pos) * sin (HA m)) in let q := B (A + D) / g in
    B (A + D) <= 1 / 10 -> B (A + D) <= 9 / 10 * g ->
    Rabs (sin_alt (Lat pos) (dec m') (HA m') - sin (- degrees (34 / 60))) <= 55 / 100 * q * q + 4 / 100 * B (A + D) + 104 / 100 * (275 / 100000 + (A + D) / 2) * q.
Proof.
  intros V Y P HL jd. destruct (planet_day x V Y P) as (E & _ & _ & S0). unfold RisePlanet, ApproxPlanet. set (j := CalendarGregorianToJD _ _ _) in *. fold jd in E. rewrite E in *. clearbody j. cbv zeta.
  destruct (EllipticPosition pl e (jd - 1)) as [a0 d0]. destruct (EllipticPosition pl e jd) as [a1 d1]. destruct (EllipticPosition pl e (jd + 1)) as [a2 d2].
  intros HD Ha1 Ha2 Hd1 Hd2 DT ED HDT. exists (Apparent0UT NutationInRA jd). split; [exact S0|]. rewrite ED.
  assert (EH : - degrees (34 / 60) = Stdh0Stellar) by (unfold degrees, Stdh0Stellar, AngleFromMin; field). rewrite EH.
  assert (HH : Rabs Stdh0Stellar <= 5 / 100).
  { rewrite <- EH, Rabs_Ropp. unfold degrees. pose proof PI_bounds. rewrite Rabs_right; lra. }
  set (h0 := Stdh0Stellar) in *. set (Th0 := Apparent0UT NutationInRA jd) in *. clearbody h0 Th0.
  intros r0 t0 s0 tr tm ts EA ET.
  split; [exact (Times_transit_days pos DT h0 Th0 a0 a1 a2 d0 d1 d2 A tr tm ts r0 t0 s0 HL HD Ha1 Ha2 HDT EA ET)|]. split.
  - intros HA Hs. exact (proj2 (Times_transit pos DT h0 Th0 a0 a1 a2 d0 d1 d2 A tr tm ts r0 t0 s0 HL HD Ha1 Ha2 HA HDT EA ET Hs)).
  - intros m m' Hm HB Hg. exact (proj2 (Times_riseset pos DT h0 Th0 a0 a1 a2 d0 d1 d2 A D tr tm ts r0 t0 s0 HL HD Ha1 Ha2 Hd1 Hd2 HDT HH EA ET m m' Hm HB Hg)).
Qed.
