(** Property theorems: physical ephemerides of Mars (C83), Jupiter (C84) and Saturn's ring (C85). *)
From Coq Require Import ZArith Reals.
From Verif Require Import GoFloat GoMath S_Sphere S_precess S_solar S_physical S_rotation M_base M_coord M_precess M_vsop M_light M_solar M_physical
  L_physical L_physical2 L_physical3 L_rotation.
Local Open Scope R_scope.

(** ** Mars *)
(** The planet is taken where the light left it: at the date less the light time of a first
    estimate of the distance, itself obtained from the starting value D0. *)
Theorem C83_light_time : forall earth planet jde D0, let g := geocentric earth planet jde D0 in
  gvec g = vsub (scale (gr g) (dir (gl g) (gb g))) (evec (earth_place earth jde)) /\ gD g = norm (gvec g) /\
  exists D1 l1 b1, PlanetPosition planet (jde - LightTime D1) = (l1, b1, gr g) /\ ToFK5 l1 b1 jde = (gl g, gb g) /\
    exists l2 b2 r2 l3 b3, PlanetPosition planet (jde - LightTime D0) = (l2, b2, r2) /\ ToFK5 l2 b2 jde = (l3, b3) /\
      D1 = norm (vsub (scale r2 (dir l3 b3)) (evec (earth_place earth jde))).
Proof. exact geocentric_value. Qed.
Print Assumptions C83_light_time.

(** The Earth seen from Mars, in the frame of Mars' equator, has declination DE and stands over the
    meridian w, counted against the rotation mars_W. *)
Theorem C83_center : forall jde earth mars, let g := geocentric earth mars jde (5 / 10) in let eps := MeanObliquity jde in let T := (jde - 2451545) / 36525 in
  let w := app (rot_x (- eps)) (gvec g) in let m := MarsPhysical jde earth mars in
  - (PI / 2) < mars_beta0 T < PI / 2 -> gx g <> 0 \/ gy g <> 0 -> vx w <> 0 \/ vy w <> 0 ->
  exists a0 d0, equatorial_of (mars_lambda0 T) (mars_beta0 T) eps a0 d0 /\ 0 <= mOmega m < 2 * PI /\ - (PI / 2) <= mDE m <= PI / 2 /\
    equator_frame a0 d0 (opposite (unit_of w)) = dir (mars_W (jde - LightTime (gD g)) - mOmega m) (mDE m).
Proof. exact mars_center. Qed.
Print Assumptions C83_center.
(** Mars rotates once in 24h37m22.66s; pole in the ecliptic of date. *)
Theorem C83_rotation : turns_in mars_W (24 * 3600 + 37 * 60 + 22.66) /\ mars_W 2433282.5 = degrees 11.504.
Proof. exact mars_rotation. Qed.
Print Assumptions C83_rotation.
Theorem C83_axis : forall T, mars_lambda0 T = degrees (352.9065 + 1.1733 * T) /\ mars_beta0 T = degrees (63.2818 - 0.00394 * T).
Proof. exact mars_pole_value. Qed.
Print Assumptions C83_axis.
(** The Sun is seen from Mars where it was when the light left. *)
Theorem C83_sun_place : forall T l b r, mars_sun T l b r = (l - degrees 0.00697 / r, b - degrees 0.000225 * cos (l - degrees (49.5581 + 0.7721 * T)) / r).
Proof. exact mars_sun_value. Qed.
Print Assumptions C83_sun_place.
Theorem C83_light_unit : LightTime 1 = 0.0057755183.
Proof. exact light_time_value. Qed.
Print Assumptions C83_light_unit.
Theorem C83_sun : forall jde earth mars, let g := geocentric earth mars jde (5 / 10) in let T := (jde - 2451545) / 36525 in let '(l, b) := mars_sun T (gl g) (gb g) (gr g) in
  let m := MarsPhysical jde earth mars in - (PI / 2) <= mDS m <= PI / 2 /\ sin (mDS m) = dot (dir (mars_lambda0 T) (mars_beta0 T)) (opposite (dir l b)).
Proof. exact mars_sun_declination. Qed.
Print Assumptions C83_sun.
(** P is the position angle of the pole at the apparent place (aberration, nutation). *)
Theorem C83_pole : forall jde earth mars, let g := geocentric earth mars jde (5 / 10) in let T := (jde - 2451545) / 36525 in let '(l0, _, _) := earth_place earth jde in
  let '(dpsi, deps) := Nutation jde in let eps := MeanObliquity jde + deps in let m := MarsPhysical jde earth mars in
  - (PI / 2) < mars_beta0 T < PI / 2 -> gx g <> 0 \/ gy g <> 0 ->
  exists lam be dl db, dir lam be = unit_of (gvec g) /\ - (PI / 2) < be < PI / 2 /\ moved_by lam be dl db (earth_motion l0) /\ 0 <= mP m < 2 * PI /\
    (- (PI / 2) < be + db < PI / 2 -> (dot (dir (mars_lambda0 T + dpsi) (mars_beta0 T)) (dir (lam + dl + dpsi) (be + db))) ^ 2 <> 1 ->
     exists a0 d0 a d, equatorial_of (mars_lambda0 T + dpsi) (mars_beta0 T) eps a0 d0 /\ equatorial_of (lam + dl + dpsi) (be + db) eps a d /\ position_angle a d (dir a0 d0) (mP m)).
Proof. exact mars_pole. Qed.
Print Assumptions C83_pole.
(** The defect of illumination is greatest on the side away from the Sun. *)
Theorem C83_defect : forall jde earth mars, let g := geocentric earth mars jde (5 / 10) in let '(l0, b0, R0) := earth_place earth jde in
  let '(dpsi, deps) := Nutation jde in let eps0 := MeanObliquity jde in let eps := eps0 + deps in let w := app (rot_x (- eps0)) (gvec g) in
  let sun := app (rot_x (- eps)) (dir (l0 + PI) 0) in let m := MarsPhysical jde earth mars in vx w <> 0 \/ vy w <> 0 ->
  0 < mQ m <= 2 * PI /\ exists a d, dir a d = unit_of w /\ - (PI / 2) < d < PI / 2 /\ ((dot sun (dir a d)) ^ 2 <> 1 -> position_angle a d (opposite sun) (mQ m)).
Proof. exact mars_defect. Qed.
Print Assumptions C83_defect.
Theorem C83_diameter : forall jde earth mars, let g := geocentric earth mars jde (5 / 10) in let '(l0, b0, R0) := earth_place earth jde in let m := MarsPhysical jde earth mars in
  md m = arcsec 9.36 / gD g /\ mq m = md m * (1 - mk m) /\
  (0 < gr g -> 0 < gD g -> 0 <= R0 -> 0 <= mk m <= 1 + R0 ^ 2 * sin b0 ^ 2 / (4 * gr g * gD g)).
Proof. exact mars_diameter. Qed.
Print Assumptions C83_diameter.
Example C83_nonvacuous : (forall r D0, 2 <= r <= 20 -> 0 <= D0 <= 50 -> let g := geocentric (fixed (PI / 2) 1) (fixed 0 r) 2451545 D0 in 0 < gx g /\ 0 < gr g /\ 0 < gD g /\ 0 < cos (gb g)) /\
  (forall T, Rabs T <= 20 -> degrees 60 <= mars_beta0 T <= degrees 66) /\
  (forall a0 d0 a d, degrees 60 <= d0 <= degrees 66 -> Rabs d <= degrees 10 -> (dot (dir a0 d0) (dir a d)) ^ 2 <> 1).
Proof. exact (conj fixed_example (conj mars_beta0_range not_aligned)). Qed.
Print Assumptions C83_nonvacuous.

(** ** Jupiter *)
Theorem C84_center : forall jde earth jupiter, let g := geocentric earth jupiter jde 4 in let eps := MeanObliquity jde in let '(a0, d0) := jup_pole jde in let '(l0, b0, R0) := earth_place earth jde in
  let w := app (rot_x (- eps)) (gvec g) in let C := jup_C l0 R0 g in let j := JupiterPhysical jde earth jupiter in vx w <> 0 \/ vy w <> 0 ->
  0 <= jW1 j < 2 * PI /\ 0 <= jW2 j < 2 * PI /\ - (PI / 2) <= jDE j <= PI / 2 /\
  equator_frame a0 d0 (opposite (unit_of w)) = dir (jup_W1 jde - degrees 5.07033 * gD g + C - jW1 j) (jDE j) /\
  equator_frame a0 d0 (opposite (unit_of w)) = dir (jup_W2 jde - degrees 5.02626 * gD g + C - jW2 j) (jDE j).
Proof. exact jup_center. Qed.
Print Assumptions C84_center.
(** System I rotates once in 9h50m30.003s, system II in 9h55m40.632s; pole in the equator. *)
Theorem C84_rotation : turns_in jup_W1 (9 * 3600 + 50 * 60 + 30.003) /\ jup_W1 2433282.5 = degrees 17.71 /\
  turns_in jup_W2 (9 * 3600 + 55 * 60 + 40.632) /\ jup_W2 2433282.5 = degrees 16.838.
Proof. exact jup_rotation. Qed.
Print Assumptions C84_rotation.
Theorem C84_axis : forall jd, let T := (jd - 2433282.5) / 36525 in jup_pole jd = (degrees (268 + 0.1061 * T), degrees (64.5 - 0.0164 * T)).
Proof. exact jup_pole_value. Qed.
Print Assumptions C84_axis.
(** The terms in the distance are the rotation of each system during the light time. *)
Theorem C84_light : forall D jde, 0 <= D -> Rabs (jup_W1 jde - degrees 5.07033 * D - jup_W1 (jde - LightTime D)) <= degrees 0.00001 * D /\
  Rabs (jup_W2 jde - degrees 5.02626 * D - jup_W2 (jde - LightTime D)) <= degrees 0.00001 * D.
Proof. exact jup_light. Qed.
Print Assumptions C84_light.
(** The phase correction is the dark fraction of the disk, with the sign of sin (l - l0). *)
Theorem C84_phase : forall l0 R0 g, gr g <> 0 -> gD g <> 0 ->
  jup_C l0 R0 g = (if Rlt_dec (sin (gl g - l0)) 0 then -1 else 1) * (1 - Fraction (gr g) (gD g) R0).
Proof. exact jup_C_value. Qed.
Print Assumptions C84_phase.
Theorem C84_sun : forall jde earth jupiter, let g := geocentric earth jupiter jde 4 in let '(a0, d0) := jup_pole jde in let j := JupiterPhysical jde earth jupiter in 0 < cos (gb g) ->
  - (PI / 2) <= jDS j <= PI / 2 /\ sin (jDS j) = dot (dir a0 d0) (opposite (app (rot_x (- MeanObliquity jde)) (dir (gl g) (gb g)))).
Proof. exact jup_sun. Qed.
Print Assumptions C84_sun.
(** P is the position angle of the pole after nutation at the planet after aberration and nutation,
    both to first order. *)
Theorem C84_pole : forall jde earth jupiter, let g := geocentric earth jupiter jde 4 in let '(a0, d0) := jup_pole jde in let '(l0, b0, R0) := earth_place earth jde in
  let '(dpsi, deps) := Nutation jde in let eps0 := MeanObliquity jde in let eps := eps0 + deps in let w := app (rot_x (- eps0)) (gvec g) in let j := JupiterPhysical jde earth jupiter in
  vx w <> 0 \/ vy w <> 0 -> cos eps <> 0 -> 0 < cos d0 ->
  0 <= jP j < 2 * PI /\ exists a d xa xd na nd na0 nd0, dir a d = unit_of w /\ - (PI / 2) < d < PI / 2 /\
    moved_by a d xa xd (app (rot_x (- eps)) (earth_motion l0)) /\
    velocity a d na nd = nutation_motion dpsi deps eps (dir a d) /\ velocity a0 d0 na0 nd0 = nutation_motion dpsi deps eps (dir a0 d0) /\
    ((dot (dir (a0 + na0) (d0 + nd0)) (dir (a + xa + na) (d + xd + nd))) ^ 2 <> 1 -> position_angle (a + xa + na) (d + xd + nd) (dir (a0 + na0) (d0 + nd0)) (jP j)).
Proof. exact jup_pole_angle. Qed.
Print Assumptions C84_pole.
(** The low-precision form: a plane triangle Sun - Earth - Jupiter, declinations of at most 3.12
    degrees for the Sun and 0.8 degrees more for the Earth, and a phase correction of sign opposite
    to that of sin K. *)
Theorem C84_triangle : forall jde, let j := jup2_args jde in 0.98 <= j_R j <= 1.018 /\ 4.95 <= j_r j <= 5.468 /\ 3.9 <= j_D j <= 6.5 /\
  j_D j ^ 2 = j_r j ^ 2 + j_R j ^ 2 - 2 * j_r j * j_R j * cos (j_K j) /\ - (PI / 2) <= j_psi j <= PI / 2 /\ j_D j * sin (j_psi j) = j_R j * sin (j_K j) /\ Rabs (sin (j_psi j)) * j_r j <= j_R j.
Proof. exact jup2_ranges. Qed.
Print Assumptions C84_triangle.
Theorem C84_low_precision : forall jde, let j := jup2_args jde in let '(DS, DE, w1, w2) := JupiterPhysical2 jde in
  Rabs DS <= degrees 3.12 /\ Rabs (DE - DS) <= degrees 0.8 /\ 0 <= w1 < 2 * PI /\ 0 <= w2 < 2 * PI /\ Rabs (jup2_C j) = sin (j_psi j / 2) ^ 2 /\ jup2_C j * sin (j_K j) <= 0.
Proof. exact jup2_value. Qed.
Print Assumptions C84_low_precision.
Example C84_nonvacuous : (let g := geocentric (fixed (PI / 2) 1) (fixed 0 5) 2451545 4 in 0 < gx g /\ 0 < gr g /\ 0 < gD g /\ 0 < cos (gb g)) /\
  (forall jde, Rabs ((jde - 2433282.5) / 36525) <= 20 -> degrees 60 <= snd (jup_pole jde) <= degrees 66).
Proof. exact (conj fixed_example_5 jup_pole_range). Qed.
Print Assumptions C84_nonvacuous.

(** ** Saturn's ring *)
(** In the frame of the ring, the Sun has latitude B' (opposite to the planet seen from it) and the
    Earth latitude B; dU is the difference of the longitudes, without reduction to half a turn. *)
Theorem C85_ring_partial : forall jde earth saturn, let T := (jde - 2451545) / 36525 in let i := ring_i T in let W := ring_node T in let g := geocentric earth saturn jde 9 in
  let '(l', b') := ring_sun T (gl g) (gb g) (gr g) in let o := Ring jde earth saturn in gx g <> 0 \/ gy g <> 0 ->
  - (PI / 2) <= oB o <= PI / 2 /\ - (PI / 2) <= oB' o <= PI / 2 /\ exists U1 U2, - PI < U1 <= PI /\ - PI < U2 <= PI /\ oU o = Rabs (U1 - U2) /\
  plane_frame i W (dir l' b') = dir U1 (- oB' o) /\ plane_frame i W (unit_of (gvec g)) = dir U2 (- oB o).
Proof. exact ring_geometry. Qed.
Print Assumptions C85_ring_partial.
(** Plane of the ring; the Sun seen from Saturn where it was when the light left. *)
Theorem C85_plane : forall T, ring_i T = degrees (28.075216 - 0.012998 * T + 0.000004 * T ^ 2) /\ ring_node T = degrees (169.50847 + 1.394681 * T + 0.000412 * T ^ 2).
Proof. exact ring_plane_value. Qed.
Print Assumptions C85_plane.
Theorem C85_sun_place : forall T l b r, ring_sun T l b r = (l - degrees 0.01759 / r, b - degrees 0.000764 * cos (l - degrees (113.6655 + 0.8771 * T)) / r).
Proof. exact ring_sun_value. Qed.
Print Assumptions C85_sun_place.
(** "Difference between Saturnicentric longitudes of the Sun and the Earth": it can exceed half a
    turn, where the angle between them is its complement (used by illum.Saturn as a magnitude term). *)
Theorem C85_difference_refuted : exists jde earth saturn, PI < oU (Ring jde earth saturn).
Proof. exact (ex_intro _ 2451545 (ex_intro _ _ (ex_intro _ _ ring_wrap))). Qed.
Print Assumptions C85_difference_refuted.
Theorem C85_edges : forall jde earth saturn, let g := geocentric earth saturn jde 9 in let o := Ring jde earth saturn in gx g <> 0 \/ gy g <> 0 ->
  oA o = arcsec 375.35 / gD g /\ ob o = oA o * Rabs (sin (oB o)) /\ 0 <= ob o <= oA o.
Proof. exact ring_edges. Qed.
Print Assumptions C85_edges.
Theorem C85_pole : forall jde earth saturn, let T := (jde - 2451545) / 36525 in let i := ring_i T in let W := ring_node T in let g := geocentric earth saturn jde 9 in
  let '(l0, _, _) := earth_place earth jde in let '(dpsi, deps) := Nutation jde in let eps := MeanObliquity jde + deps in let o := Ring jde earth saturn in
  0 < i < PI -> gx g <> 0 \/ gy g <> 0 ->
  plane_frame i W (dir (W - PI / 2) (PI / 2 - i)) = mkvec 0 0 1 /\
  exists lam be dl db, dir lam be = unit_of (gvec g) /\ - (PI / 2) < be < PI / 2 /\ moved_by lam be dl db (earth_motion l0) /\ - PI < oP o <= PI /\
    (- (PI / 2) < be + db < PI / 2 -> (dot (dir (W - PI / 2 + dpsi) (PI / 2 - i)) (dir (lam + dl + dpsi) (be + db))) ^ 2 <> 1 ->
     exists a0 d0 a d, equatorial_of (W - PI / 2 + dpsi) (PI / 2 - i) eps a0 d0 /\ equatorial_of (lam + dl + dpsi) (be + db) eps a d /\ position_angle a d (dir a0 d0) (oP o)).
Proof. exact ring_pole. Qed.
Print Assumptions C85_pole.
Theorem C85_UB : forall jde earth saturn, UB jde earth saturn = (oU (Ring jde earth saturn), oB (Ring jde earth saturn)).
Proof. exact UB_Ring. Qed.
Print Assumptions C85_UB.
Example C85_nonvacuous : (let g := geocentric (fixed (PI / 2) 1) (fixed 0 10) 2451545 9 in 0 < gx g /\ 0 < gr g /\ 0 < gD g /\ 0 < cos (gb g)) /\
  (forall T, Rabs T <= 20 -> degrees 27 <= ring_i T <= degrees 29).
Proof. exact (conj fixed_example_10 ring_i_range). Qed.
Print Assumptions C85_nonvacuous.
