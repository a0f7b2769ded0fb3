(** Property theorems: planetary series, nutation, solar coordinates, equation of time
    (C63, C73, C74, C75, C76). *)
From Coq Require Import ZArith Bool List Reals Lra Lia Ascii.
From Verif Require Import GoFloat GoMath M_base M_coord M_precess M_light M_vsop M_solar.
From Verif Require Import S_base S_Sphere S_precess S_vsop S_solar L_precess L_light L_vsop L_solar L_nutation2.
Import ListNotations.
Local Open Scope R_scope.

(** ** C63 *)
Theorem C63_sun : forall T jde (v : @V87Planet R),
  0 <= fst (solarTrue T) < 2 * PI /\ 0 <= snd (solarTrue T) < 2 * PI /\
  0 <= fst (TrueEquatorial jde) < 2 * PI /\ - (PI / 2) <= snd (TrueEquatorial jde) <= PI / 2 /\
  0 <= fst (ApparentEquatorial jde) < 2 * PI /\ - (PI / 2) <= snd (ApparentEquatorial jde) <= PI / 2 /\
  0 <= fst (fst (TrueVSOP87 v jde)) < 2 * PI /\ 0 <= fst (fst (ApparentEquatorialVSOP87 v jde)) < 2 * PI /\
  0 <= LongitudeJ2000 v jde < 2 * PI /\ 0 <= fst (fst (Position2000 v jde)) < 2 * PI.
Proof. exact sun_ranges. Qed.
Print Assumptions C63_sun.

Theorem C63_equation_of_time : forall jde (v : @V87Planet R), - PI <= EqTime jde v < PI.
Proof. exact EqTime_range. Qed.
Print Assumptions C63_equation_of_time.

(** Within 20 centuries of 2000 the approximate equation of time is below 23 minutes. *)
Theorem C63_equation_of_time_smart : forall jde, Rabs ((jde - 2451545) / 36525) <= 20 -> Rabs (ESmart jde) <= 0.1.
Proof. exact ESmart_bound. Qed.
Print Assumptions C63_equation_of_time_smart.

Theorem C63_limb : forall al de al0 de0, 0 <= Limb al de al0 de0 < 2 * PI.
Proof. exact Limb_range. Qed.
Print Assumptions C63_limb.

Example C63_nonvacuous : (2451545 + 36525 * 3 - 2451545) / 36525 = 3 /\ Rabs 3 <= 20.
Proof. split; [field|rewrite Rabs_pos_eq; lra]. Qed.

(** ** C73 *)

(** From the file to the position: the sums of the series in the file. *)
Theorem C73_position_of_file : forall (pf : list ascii -> option R) ibody ss1 ss2 ss3 rest lines fuel jde, (0 <= ibody < 8)%Z ->
  (forall s, In s ss1 -> well_formed pf (b7 ibody) "1"%char s) -> (forall s, In s ss2 -> well_formed pf (b7 ibody) "2"%char s) ->
  (forall s, In s ss3 -> well_formed pf (b7 ibody) "3"%char s) ->
  NoDup (map s_power ss1) -> NoDup (map s_power ss2) -> NoDup (map s_power ss3) ->
  (forall l, hd_error rest = Some l -> (length l < 132)%nat) ->
  lines = lines_of ss1 ++ lines_of ss2 ++ lines_of ss3 ++ rest -> lines <> [] -> (forall l, In l lines -> ~ In line_feed l) ->
  (length lines < fuel)%nat ->
  let tau := (jde - 2451545) / 365250 in
  exists v, LoadPlanetPath pf fuel ibody (Some (file_of lines)) = Some (LPlanet v) /\
    let '(L, B, r) := Position2000 v jde in
    0 <= L < 2 * PI /\ same_angle L (theory tau ss1) /\ B = theory tau ss2 /\ r = theory tau ss3.
Proof. exact Load_position. Qed.
Print Assumptions C73_position_of_file.

(** The position of date is the position of 2000, precessed. *)
Theorem C73_position_of_date : forall v jde, let '(L, B, R0) := Position2000 v jde in let '(l, b, r) := PlanetPosition v jde in
  let y := 2000 + (jde - 2451545) / 365.25 in let p := NewEclipticPrecessor 2000 y in
  r = R0 /\ - (PI / 2) <= b <= PI / 2 /\ dir l b = ecliptic_precession (epeta p) (eppi p) (epp p) (dir L B).
Proof. exact PlanetPosition_value. Qed.
Print Assumptions C73_position_of_date.

(** Seen from the Earth the Sun is opposite, in the FK5 frame; the apparent place adds nutation
    and aberration and is expressed in the true equator. *)
Theorem C73_sun : forall v jde, let '(l, b, r) := PlanetPosition v jde in let '(s, beta, R0) := TrueVSOP87 v jde in
  let T := (jde - 2451545) / 36525 in let l' := l + PI - degrees (1.397 * T + 0.00031 * T ^ 2) in
  R0 = r /\ 0 <= s < 2 * PI /\ same_angle s (l + PI - arcsec 0.09033) /\ beta = - b + arcsec (0.03916 * (cos l' - sin l')).
Proof. exact TrueVSOP87_value. Qed.
Print Assumptions C73_sun.
Theorem C73_apparent_sun : forall v jde, let '(s, b, r) := TrueVSOP87 v jde in let '(dpsi, deps) := Nutation jde in
  let '(ra, dec, r') := ApparentEquatorialVSOP87 v jde in
  r' = r /\ 0 <= ra < 2 * PI /\ ApparentVSOP87 v jde = (s + dpsi - arcsec 20.4898 / r, b, r) /\
  (- (PI / 2) < b < PI / 2 -> equatorial_of (s + dpsi - arcsec 20.4898 / r) b (MeanObliquity jde + deps) ra dec).
Proof. exact ApparentEquatorialVSOP87_value. Qed.
Print Assumptions C73_apparent_sun.

(** A file of one header and one line. *)
Example C73_nonvacuous : well_formed one_number (b7 2) "1"%char ex_sR /\ forall jde, theory ((jde - 2451545) / 365250) [ex_sR] = cos (1 + (jde - 2451545) / 365250).
Proof. exact ex_sR_wf. Qed.

(** ** C74 *)
Theorem C74_bounded : forall jde, let T := (jde - 2451545) / 36525 in
  Rabs (fst (Nutation jde)) <= arcsec (19.4316 + 0.01823 * Rabs T) /\ Rabs (snd (Nutation jde)) <= arcsec (10.0733 + 0.00141 * Rabs T).
Proof. exact Nutation_bound. Qed.
Print Assumptions C74_bounded.

(** The documented 0.5 and 0.1 seconds, from 1950 to 2050. *)
Theorem C74_approximate : forall jde, Rabs ((jde - 2451545) / 36525) <= 1 / 2 ->
  Rabs (fst (ApproxNutation jde) - fst (Nutation jde)) <= arcsec 0.5 /\ Rabs (snd (ApproxNutation jde) - snd (Nutation jde)) <= arcsec 0.1.
Proof. intros jde H. exact (conj (proj1 (Approx_close jde H)) (Approx_obliquity jde H)). Qed.
Print Assumptions C74_approximate.

Theorem C74_obliquity : forall jde, let T := (jde - 2451545) / 36525 in
  MeanObliquity jde = arcsec (84381.448 - 46.815 * T - 0.00059 * T ^ 2 + 0.001813 * T ^ 3) /\
  (Rabs T <= 10 -> Rabs (MeanObliquity jde - MeanObliquityLaskar jde) <= arcsec 1) /\
  (Rabs T <= 20 -> Rabs (MeanObliquity jde - MeanObliquityLaskar jde) <= arcsec 10).
Proof. exact obliquities. Qed.
Print Assumptions C74_obliquity.
Theorem C74_obliquity_range : forall jde, Rabs ((jde - 2451545) / 36525) <= 20 -> degrees 22 <= MeanObliquity jde <= degrees 25.
Proof. exact obliquity_range. Qed.
Print Assumptions C74_obliquity_range.

(** 1987 April 10 is in the range. *)
Example C74_nonvacuous : Rabs ((2446895.5 - 2451545) / 36525) <= 1 / 2.
Proof. exact example_1987. Qed.

(** ** C75 *)

(** The true rectangular coordinates of date differ from the rotated direction of the Sun, at its
    distance, by the missing cosine of the latitude only. *)
Theorem C75_of_date : forall v jde, let '(s, b, r) := TrueVSOP87 v jde in let eps := MeanObliquity jde in
  vec_of (XYZ v jde) = app (rot_x (- eps)) (mkvec (r * cos s) (r * sin s) (r * sin b)) /\
  Rabs (vx (vsub (vec_of (XYZ v jde)) (app (rot_x (- eps)) (scale r (dir s b))))) <= Rabs r * (b * b / 2) /\
  Rabs (vy (vsub (vec_of (XYZ v jde)) (app (rot_x (- eps)) (scale r (dir s b))))) <= Rabs r * (b * b / 2) /\
  Rabs (vz (vsub (vec_of (XYZ v jde)) (app (rot_x (- eps)) (scale r (dir s b))))) <= Rabs r * (b * b / 2).
Proof. exact XYZ_value. Qed.
Print Assumptions C75_of_date.

(** Opposite to the heliocentric Earth, at its distance. *)
Theorem C75_opposite : forall v jde, let '(L, B, r) := Position2000 v jde in
  vec_of (xyz v jde) = scale r (dir (L + PI) (- B)) /\ dot (vec_of (xyz v jde)) (vec_of (xyz v jde)) = r * r.
Proof. exact xyz_value. Qed.
Print Assumptions C75_opposite.
Theorem C75_longitude : forall v jde, let '(L, B, r) := Position2000 v jde in
  0 <= LongitudeJ2000 v jde < 2 * PI /\ same_angle (LongitudeJ2000 v jde) (L + PI - arcsec 0.09033).
Proof. exact LongitudeJ2000_value. Qed.
Print Assumptions C75_longitude.

(** The frame matrices keep the distance, to twelve and to almost ten digits. *)
Theorem C75_distance : forall v jde, let '(_, _, r) := Position2000 v jde in
  Rabs (dot (vec_of (PositionJ2000 v jde)) (vec_of (PositionJ2000 v jde)) - r * r) <= 1 / 10 ^ 12 * (r * r) /\
  Rabs (dot (vec_of (PositionB1950 v jde)) (vec_of (PositionB1950 v jde)) - r * r) <= 2 / 10 ^ 10 * (r * r).
Proof. exact J2000_norm. Qed.
Print Assumptions C75_distance.

(** Coordinates for any equinox are those of 2000 under the precession that moves star places. *)
Theorem C75_equinox : forall v jde epoch, let p := NewPrecessor 2000 epoch in
  vec_of (PositionEquinox v jde epoch) = precession (pzeta p) (pz p) (ptheta p) (vec_of (PositionJ2000 v jde)).
Proof. exact PositionEquinox_value. Qed.
Print Assumptions C75_equinox.

(** ** C76 *)
Theorem C76_true_longitude : forall T, let '(s, nu) := solarTrue T in
  let M := degrees (357.52911 + 35999.05029 * T - 0.0001537 * T ^ 2) in
  let C := degrees ((1.914602 - 0.004817 * T - 0.000014 * T ^ 2) * sin M + (0.019993 - 0.000101 * T) * sin (2 * M) + 0.000289 * sin (3 * M)) in
  0 <= s < 2 * PI /\ 0 <= nu < 2 * PI /\ same_angle s (degrees (280.46646 + 36000.76983 * T + 0.0003032 * T ^ 2) + C) /\ same_angle nu (M + C).
Proof. exact solarTrue_value. Qed.
Print Assumptions C76_true_longitude.

Theorem C76_true_place : forall jde, equatorial_of (fst (solarTrue ((jde - 2451545) / 36525))) 0 (MeanObliquity jde) (fst (TrueEquatorial jde)) (snd (TrueEquatorial jde)).
Proof. exact TrueEquatorial_value. Qed.
Print Assumptions C76_true_place.

Theorem C76_apparent_place : forall jde, let T := (jde - 2451545) / 36525 in
  let omega := degrees (125.04 - 1934.136 * T) in
  ApparentLongitude T = fst (solarTrue T) - degrees 0.00569 - degrees 0.00478 * sin omega /\
  equatorial_of (ApparentLongitude T) 0 (MeanObliquity jde + degrees 0.00256 * cos omega) (fst (ApparentEquatorial jde)) (snd (ApparentEquatorial jde)).
Proof. exact ApparentEquatorial_value. Qed.
Print Assumptions C76_apparent_place.

(** The distance is on the ellipse, between perihelion and aphelion, for a hundred centuries. *)
Theorem C76_radius : forall T, Rabs T <= 100 -> let e := solarEccentricity T in 0.01 <= e <= 0.021 /\
  Radius T * (1 + e * cos (snd (solarTrue T))) = 1.000001018 * (1 - e ^ 2) /\ 1.000001018 * (1 - e) <= Radius T <= 1.000001018 * (1 + e).
Proof. exact Radius_ellipse. Qed.
Print Assumptions C76_radius.

(** Equation of time: mean longitude minus apparent right ascension; Smart's formula. *)
Theorem C76_equation_of_time : forall v jde, let '(s, b, r) := TrueVSOP87 v jde in let '(dpsi, deps) := Nutation jde in
  let eps := MeanObliquity jde + deps in let tau := (jde - 2451545) / 365250 in
  let L0 := degrees (280.4664567 + 360007.6982779 * tau + 0.03032028 * tau ^ 2 + tau ^ 3 / 49931 - tau ^ 4 / 15300 - tau ^ 5 / 2000000) in
  - PI <= EqTime jde v < PI /\
  (- (PI / 2) < b < PI / 2 -> exists ra dec, equatorial_of (s + dpsi - arcsec 20.4898 / r) b eps ra dec /\
    same_angle (EqTime jde v) (L0 - degrees 0.0057183 - ra + dpsi * cos eps)).
Proof. exact EqTime_value. Qed.
Print Assumptions C76_equation_of_time.
Theorem C76_smart : forall jde, let T := (jde - 2451545) / 36525 in let tau := T / 10 in
  let L0 := degrees (280.4664567 + 360007.6982779 * tau + 0.03032028 * tau ^ 2 + tau ^ 3 / 49931 - tau ^ 4 / 15300 - tau ^ 5 / 2000000) in
  let e := solarEccentricity T in let M := degrees (357.52911 + 35999.05029 * T - 0.0001537 * T ^ 2) in
  let y := (tan (MeanObliquity jde / 2)) ^ 2 in
  ESmart jde = y * sin (2 * L0) - 2 * e * sin M + 4 * e * y * sin M * cos (2 * L0) - / 2 * y ^ 2 * sin (4 * L0) - 5 / 4 * e ^ 2 * sin (2 * M).
Proof. exact ESmart_value. Qed.
Print Assumptions C76_smart.
