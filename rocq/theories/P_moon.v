(** Property theorems: position of the Moon (C86), its physical ephemeris (C87), sunrise on the Moon (C88). *)
From Coq Require Import ZArith Reals.
From Verif Require Import GoFloat GoMath S_Sphere S_precess S_solar S_physical S_moon M_base M_coord M_precess M_vsop M_light M_moonconst M_solar M_moon
  L_moon L_moon2 L_moon3 L_moon4 L_moon5 L_moon6 L_moon7.
From Verif Require Import S_solar.
Local Open Scope R_scope.

(** ** Position *)
(** The four arguments of the theory are the angles they are named after: argument of latitude from
    the published node, anomaly from the published perigee, solar anomaly of package solar, and
    elongation from the mean Sun. *)
Theorem C86_arguments : forall jde, let T := (jde - 2451545) / 36525 in Rabs T <= 20 ->
  near_turns (dmf_F T - (moonL T - Node jde)) (degrees 0.021) /\ near_turns (dmf_N T - (moonL T - Perigee jde)) (degrees 0.11) /\
  near_turns (dmf_M T - MeanAnomaly T) (degrees 0.001) /\ near_turns (dmf_D T - (moonL T - degrees (280.46646 + 36000.76983 * T + 0.0003032 * T ^ 2))) (degrees 0.002).
Proof. exact mean_arguments. Qed.
Print Assumptions C86_arguments.
(** For every date within twenty centuries of 2000 the place is that given by the great inequalities
    — equation of the centre, evection, variation — up to a bounded rest. *)
Theorem C86_leading_terms : forall jde, let T := (jde - 2451545) / 36525 in Rabs T <= 20 -> let '(lam, be, r) := MoonPosition jde in let D := dmf_D T in let N := dmf_N T in let F := dmf_F T in
  near_turns (lam - (moonL T + degrees (6.288774 * sin N + 1.274027 * sin (2 * D - N) + 0.658314 * sin (2 * D) + 0.213618 * sin (2 * N)))) (degrees 0.7905) /\
  Rabs (be - degrees (5.128122 * sin F + 0.280602 * sin (N + F) + 0.277693 * sin (N - F) + 0.173237 * sin (2 * D - F))) <= degrees 0.2295 /\
  Rabs (r - (385000.56 - 20905.355 * cos N - 3699.111 * cos (2 * D - N) - 2955.968 * cos (2 * D) - 569.925 * cos (2 * N))) <= 1592.5.
Proof. exact MoonPosition_leading. Qed.
Print Assumptions C86_leading_terms.
Theorem C86_range : forall jde, let T := (jde - 2451545) / 36525 in Rabs T <= 20 -> let '(lam, be, r) := MoonPosition jde in
  355277 <= r <= 414724 /\ Rabs be <= degrees 6.09 /\ near_turns (lam - moonL T) (degrees 9.2251).
Proof. exact MoonPosition_range. Qed.
Print Assumptions C86_range.
(** The parallax is the angle whose sine is the Earth's equatorial radius over the distance. *)
Theorem C86_parallax : forall r, 6378.14 <= r -> 0 <= MoonParallax r <= PI / 2 /\ r * sin (MoonParallax r) = 6378.14.
Proof. exact MoonParallax_value. Qed.
Print Assumptions C86_parallax.
Theorem C86_parallax_range : forall jde, let T := (jde - 2451545) / 36525 in Rabs T <= 20 -> let '(_, _, r) := MoonPosition jde in degrees 0.881 <= MoonParallax r <= degrees 1.029.
Proof. exact parallax_range. Qed.
Print Assumptions C86_parallax_range.
Theorem C86_true_node : forall jde, Rabs (TrueNode jde - Node jde) <= degrees 1.9682.
Proof. exact TrueNode_near. Qed.
Print Assumptions C86_true_node.
(** The range of dates is met by the standard epoch. *)
Example C86_epoch : Rabs ((2451545 - 2451545) / 36525) <= 20.
Proof. replace ((2451545 - 2451545) / 36525) with 0 by field. rewrite Rabs_R0. apply IZR_le. discriminate. Qed.

(** ** Physical ephemeris *)
(** Longitude and latitude of the point of the Moon facing the Earth: the direction to the Earth in the
    frame of the mean lunar equator, turned to first order by the physical libration. *)
Theorem C87_librations : forall m lam be, let '(l, b) := lib m lam be in exists l1 b1 dl db, same_angle l (l1 + dl) /\ b = b1 + db /\ - (PI / 2) <= b1 <= PI / 2 /\
  dir l1 b1 = selenographic moonI (m_Om m) (m_F m) (opposite (dir lam be)) /\
  (0 < cos b1 -> moved_by l1 b1 dl db (cross (app (rot_z (m_F m + PI)) (mkvec (m_rho m) (m_sig m) (- m_tau m))) (dir l1 b1))).
Proof. exact lib_frame. Qed.
Print Assumptions C87_librations.
(** They are those of the Moon's place, for the Earth, and of the Moon's heliocentric place, for the Sun. *)
Theorem C87_places : forall jde earth, let '(lam, be, r) := MoonPosition jde in let '(l, b, P, l0, b0) := MoonPhysical jde earth in let m := newMoon jde in
  (l, b) = lib m lam be /\ exists lH bH, helio_moon m lam be r earth = (lH, bH) /\ (l0, b0) = lib m lH bH.
Proof. exact Physical_lib. Qed.
Print Assumptions C87_places.
(** The state the librations start from: mean node and argument, nutation, obliquity, small rotations. *)
Theorem C87_state : forall jde, let T := (jde - 2451545) / 36525 in let m := newMoon jde in
  m_Om m = AngleFromDeg (nodeDeg T) /\ m_F m = AngleFromDeg (argF T) /\ m_dpsi m = fst (Nutation jde) /\
  m_se m = sin (MeanObliquity jde + snd (Nutation jde)) /\ m_ce m = cos (MeanObliquity jde + snd (Nutation jde)) /\ m_jde m = jde /\
  (Rabs T <= 20 -> Rabs (m_rho m) <= degrees 0.062 /\ Rabs (m_sig m) <= degrees 0.0633 /\ Rabs (m_tau m) <= degrees 0.052).
Proof. exact newMoon_value. Qed.
Print Assumptions C87_state.
(** The Moon always turns nearly the same face to the Earth. *)
Theorem C87_same_face : forall jde, let T := (jde - 2451545) / 36525 in Rabs T <= 20 -> let '(lam, be, _) := MoonPosition jde in let '(l, b) := lib (newMoon jde) lam be in
  Rabs l <= degrees 9.52 /\ Rabs b <= degrees 7.76.
Proof. exact lib_range. Qed.
Print Assumptions C87_same_face.
(** The position angle of the lunar axis at the Moon's place on the celestial sphere. *)
Theorem C87_axis : forall jde earth, let T := (jde - 2451545) / 36525 in Rabs T <= 20 -> let '(lam, be, _) := MoonPosition jde in let m := newMoon jde in let '(_, b, P, _, _) := MoonPhysical jde earth in
  let '(dpsi, deps) := Nutation jde in let eps := MeanObliquity jde + deps in
  let pole := app (rot_x (- eps)) (lunar_pole (moonI + m_rho m) (m_Om m + dpsi + m_sig m / sin moonI)) in
  (0 <= P <= PI / 2 \/ 3 * (PI / 2) <= P < 2 * PI) /\ exists a d, equatorial_of (lam + dpsi) be eps a d /\ sin P * cos b = dot pole (east a d) /\ 0 < dot pole (north a d).
Proof. exact moon_pole. Qed.
Print Assumptions C87_axis.
(** The Sun's direction from the Moon: the Sun's geocentric direction reversed and displaced, to first order,
    by the Moon's offset in units of the Sun's distance. *)
Theorem C87_sun : forall m lam be r earth, let '(l0, _, R0) := ApparentVSOP87 earth (m_jde m) in let '(lH, bH) := helio_moon m lam be r earth in let q := r / (R0 * 149597870) in
  exists dl, lH = l0 + PI + dl /\ bH = q * be /\ moved_by (l0 + PI) 0 dl (q * sin be) (scale q (dir lam be)).
Proof. exact helio_moved. Qed.
Print Assumptions C87_sun.

(** ** Sun over the lunar horizon *)
Theorem C88_altitude : forall eta theta l0 b0, - (PI / 2) <= SunAltitude eta theta l0 b0 <= PI / 2 /\ sin (SunAltitude eta theta l0 b0) = dot (dir eta theta) (dir l0 b0).
Proof. exact SunAltitude_value. Qed.
Print Assumptions C88_altitude.
(** A time at which the Sun is on the horizon is returned unchanged … *)
Theorem C88_fixed_partial : forall eta theta jde earth, (let '(_, _, _, l0, b0) := MoonPhysical jde earth in SunAltitude eta theta l0 b0 = 0) -> MoonSunrise eta theta jde earth = jde /\ MoonSunset eta theta jde earth = jde.
Proof. exact horizon_fixed. Qed.
Print Assumptions C88_fixed_partial.
(** … by both functions, so that rising and setting are not told apart. *)
Theorem C88_distinct_refuted : forall jde earth, exists eta, MoonSunrise eta 0 jde earth = jde /\ MoonSunset eta 0 jde earth = jde.
Proof. exact sunrise_sunset. Qed.
Print Assumptions C88_distinct_refuted.
(** Started at jde when, out to that distance from a sunrise at t0, the Sun climbs in proportion to the
    time at 12.19075 cos(theta) degrees a day up to the fraction q, Sunrise returns a time q^2 times as
    far from the sunrise; likewise Sunset. *)
Theorem C88_sunrise_converges_partial : forall eta theta jde earth t0 q,
  let alt t := let sun := MoonPhysical t earth in SunAltitude eta theta (snd (fst sun)) (snd sun) in
  let rate := degrees 12.19075 * cos theta in
  0 < cos theta -> 0 <= q <= 1 ->
  (forall t, Rabs (t - t0) <= Rabs (jde - t0) -> Rabs (alt t - rate * (t - t0)) <= q * rate * Rabs (t - t0)) ->
  Rabs (MoonSunrise eta theta jde earth - t0) <= q * q * Rabs (jde - t0).
Proof. exact sunrise_approaches. Qed.
Print Assumptions C88_sunrise_converges_partial.
Theorem C88_sunset_converges_partial : forall eta theta jde earth t0 q,
  let alt t := let sun := MoonPhysical t earth in SunAltitude eta theta (snd (fst sun)) (snd sun) in
  let rate := degrees 12.19075 * cos theta in
  0 < cos theta -> 0 <= q <= 1 ->
  (forall t, Rabs (t - t0) <= Rabs (jde - t0) -> Rabs (alt t + rate * (t - t0)) <= q * rate * Rabs (t - t0)) ->
  Rabs (MoonSunset eta theta jde earth - t0) <= q * q * Rabs (jde - t0).
Proof. exact sunset_approaches. Qed.
Print Assumptions C88_sunset_converges_partial.
(** From near a sunset, Sunrise goes away from it. *)
Theorem C88_sunrise_leaves_sunset_partial : forall eta theta jde earth t0 q,
  let alt t := let sun := MoonPhysical t earth in SunAltitude eta theta (snd (fst sun)) (snd sun) in
  let rate := degrees 12.19075 * cos theta in
  0 < cos theta -> 0 <= q <= 1 ->
  (forall t, Rabs (t - t0) <= 3 * Rabs (jde - t0) -> Rabs (alt t + rate * (t - t0)) <= q * rate * Rabs (t - t0)) ->
  (2 - q) * (2 - q) * Rabs (jde - t0) <= Rabs (MoonSunrise eta theta jde earth - t0).
Proof. exact sunrise_leaves_sunset. Qed.
Print Assumptions C88_sunrise_leaves_sunset_partial.
(** The hypothesis is met at least by a start at the crossing itself. *)
Example C88_converges_nonvacuous : forall jde earth, exists eta,
  forall t, Rabs (t - jde) <= Rabs (jde - jde) ->
    Rabs (SunAltitude eta 0 (snd (fst (MoonPhysical t earth))) (snd (MoonPhysical t earth)) - degrees 12.19075 * cos 0 * (t - jde)) <= 1 / 2 * (degrees 12.19075 * cos 0) * Rabs (t - jde).
Proof. exact crossing_example. Qed.
(** The Sun overhead. *)
Example C88_overhead : sin (SunAltitude 1 0 1 0) = 1.
Proof. destruct (C88_altitude 1 0 1 0) as [_ ->]. unfold dot, dir. cbn [vx vy vz]. rewrite sin_0, cos_0. transitivity (sin 1 * sin 1 + cos 1 * cos 1); [ring|]. apply (sin2_cos2 1). Qed.
