(** C43 (precession), C44 (same struct passed twice), C58 (reduction of orbital
    elements), C67 (proper motion, nutation and aberration as displacements). *)
From Coq Require Import ZArith Reals Lra.
From Verif Require Import GoFloat GoMath M_base M_coord M_precess S_Sphere S_precess L_trig L_alias L_precess L_elements.
Local Open Scope R_scope.

(** ** C43 *)
Theorem C43_Precess : forall p eq, let q := Precess p eq in
  0 <= eqRA q < 2 * PI /\ - (PI / 2) <= eqDec q <= PI / 2 /\
  dir (eqRA q) (eqDec q) = precession (pzeta p) (pz p) (ptheta p) (dir (eqRA eq) (eqDec eq)).
Proof. exact Precess_dir. Qed.
Print Assumptions C43_Precess.

Theorem C43_EclPrecess : forall p ecl, let q := EclPrecess p ecl in
  epp p + eppi p - PI <= eclLon q < epp p + eppi p + PI /\ - (PI / 2) <= eclLat q <= PI / 2 /\
  dir (eclLon q) (eclLat q) = ecliptic_precession (epeta p) (eppi p) (epp p) (dir (eclLon ecl) (eclLat ecl)).
Proof. exact EclPrecess_dir. Qed.
Print Assumptions C43_EclPrecess.

(** Separations are preserved. *)
Theorem C43_Precess_separation : forall p u v th, separation (dir (eqRA u) (eqDec u)) (dir (eqRA v) (eqDec v)) th ->
  separation (dir (eqRA (Precess p u)) (eqDec (Precess p u))) (dir (eqRA (Precess p v)) (eqDec (Precess p v))) th.
Proof. exact Precess_sep. Qed.
Print Assumptions C43_Precess_separation.

Theorem C43_EclPrecess_separation : forall p u v th, separation (dir (eclLon u) (eclLat u)) (dir (eclLon v) (eclLat v)) th ->
  separation (dir (eclLon (EclPrecess p u)) (eclLat (EclPrecess p u))) (dir (eclLon (EclPrecess p v)) (eclLat (EclPrecess p v))) th.
Proof. exact EclPrecess_sep. Qed.
Print Assumptions C43_EclPrecess_separation.

(** Both branches give the same declination. *)
Theorem C43_branches : forall A B C, A * A + B * B + C * C = 1 -> poleSafe A B C = asin C.
Proof. exact poleSafe_asin. Qed.
Print Assumptions C43_branches.

(** Equal epochs. *)
Theorem C43_Precess_identity : forall e eq, 0 <= eqRA eq < 2 * PI -> - (PI / 2) < eqDec eq < PI / 2 ->
  Precess (NewPrecessor e e) eq = eq.
Proof. exact Precess_same. Qed.
Print Assumptions C43_Precess_identity.

Theorem C43_EclPrecess_identity : forall e ecl, - (PI / 2) < eclLat ecl < PI / 2 ->
  let q := EclPrecess (NewEclipticPrecessor e e) ecl in
  eclLat q = eclLat ecl /\ exists k : Z, eclLon q = eclLon ecl + 2 * PI * IZR k.
Proof. exact EclPrecess_same. Qed.
Print Assumptions C43_EclPrecess_identity.

(** The angles are one polynomial in T and t for every pair of epochs: the branch
    for epoch 2000 agrees with the general one.  Formulas (21.2) and (21.5). *)
Theorem C43_angles : forall e1 e2, let T := (e1 - 2000) / 100 in let t := (e2 - e1) / 100 in
  let p := NewPrecessor e1 e2 in
  pzeta p = AngleFromSec ((2306.2181 + 1.39656 * T - 0.000139 * T * T) * t + (0.30188 - 0.000344 * T) * t * t + 0.017998 * t * t * t) /\
  pz p = AngleFromSec ((2306.2181 + 1.39656 * T - 0.000139 * T * T) * t + (1.09468 + 0.000066 * T) * t * t + 0.018203 * t * t * t) /\
  ptheta p = AngleFromSec ((2004.3109 - 0.8533 * T - 0.000217 * T * T) * t - (0.42665 + 0.000217 * T) * t * t - 0.041833 * t * t * t).
Proof. exact NewPrecessor_poly. Qed.
Print Assumptions C43_angles.

Theorem C43_ecliptic_angles : forall e1 e2, let T := (e1 - 2000) / 100 in let t := (e2 - e1) / 100 in
  let p := NewEclipticPrecessor e1 e2 in
  epeta p = AngleFromSec ((47.0029 - 0.06603 * T + 0.000598 * T * T) * t + (- 0.03302 + 0.000598 * T) * t * t + 0.000060 * t * t * t) /\
  eppi p = AngleFromDeg 174.876384 + AngleFromSec (3289.4789 * T + 0.60622 * T * T - (869.8089 + 0.50491 * T) * t + 0.03536 * t * t) /\
  epp p = AngleFromSec ((5029.0966 + 2.22226 * T - 0.000042 * T * T) * t + (1.11113 - 0.000042 * T) * t * t - 0.000006 * t * t * t).
Proof. exact NewEclipticPrecessor_poly. Qed.
Print Assumptions C43_ecliptic_angles.

Example C43_nonvacuous : 0 <= 1 < 2 * PI /\ - (PI / 2) < 1 / 2 < PI / 2 /\ 3 / 5 * (3 / 5) + 0 * 0 + 4 / 5 * (4 / 5) = 1.
Proof. pose proof PI_bounds. lra. Qed.

(** ** C44: for a memory, source address f and destination address t, equal or
    not: t receives the value computed from the old contents of f, every other
    address (f, if different from t) keeps its contents. *)
Theorem C44_Precess : forall p m f t, let m' := Precess_ptr p m f t in
  m' t = Precess p (m f) /\ forall q, q <> t -> m' q = m q.
Proof. exact Precess_writes. Qed.
Print Assumptions C44_Precess.

Theorem C44_ApproxPosition : forall m f t e1 e2 ma md, let m' := ApproxPosition_ptr m f t e1 e2 ma md in
  m' t = ApproxPosition (m f) e1 e2 ma md /\ forall q, q <> t -> m' q = m q.
Proof. exact Approx_writes. Qed.
Print Assumptions C44_ApproxPosition.

Theorem C44_Position : forall m f t e1 e2 ma md, let m' := Position_ptr m f t e1 e2 ma md in
  m' t = Position (m f) e1 e2 ma md /\ forall q, q <> t -> m' q = m q.
Proof. exact Position_writes. Qed.
Print Assumptions C44_Position.

Theorem C44_EclPrecess : forall p m f t, let m' := EclPrecess_ptr p m f t in
  m' t = EclPrecess p (m f) /\ forall q, q <> t -> m' q = m q.
Proof. exact EclPrecess_writes. Qed.
Print Assumptions C44_EclPrecess.

Theorem C44_EclipticPosition : forall m f t e1 e2 ma md, let m' := EclipticPosition_ptr m f t e1 e2 ma md in
  m' t = EclipticPosition (m f) e1 e2 ma md /\ forall q, q <> t -> m' q = m q.
Proof. exact EclipticPosition_writes. Qed.
Print Assumptions C44_EclipticPosition.

Theorem C44_ProperMotion3D : forall m f t e1 e2 r mr ma md, let m' := ProperMotion3D_ptr m f t e1 e2 r mr ma md in
  m' t = ProperMotion3D (m f) e1 e2 r mr ma md /\ forall q, q <> t -> m' q = m q.
Proof. exact ProperMotion3D_writes. Qed.
Print Assumptions C44_ProperMotion3D.

Theorem C44_ReduceElements : forall p m f t, let m' := ReduceElements_ptr p m f t in
  m' t = ReduceElements p (m f) /\ forall q, q <> t -> m' q = m q.
Proof. exact ReduceElements_writes. Qed.
Print Assumptions C44_ReduceElements.

Theorem C44_ReduceB1950ToJ2000 : forall m f t, let m' := ReduceB1950ToJ2000_ptr m f t in
  m' t = ReduceB1950ToJ2000 (m f) /\ forall q, q <> t -> m' q = m q.
Proof. exact ReduceB1950_writes. Qed.
Print Assumptions C44_ReduceB1950ToJ2000.

Theorem C44_ReduceB1950FK4ToJ2000FK5 : forall m f t, let m' := ReduceB1950FK4ToJ2000FK5_ptr m f t in
  m' t = ReduceB1950FK4ToJ2000FK5 (m f) /\ forall q, q <> t -> m' q = m q.
Proof. exact ReduceFK_writes. Qed.
Print Assumptions C44_ReduceB1950FK4ToJ2000FK5.

(** apparent.Position and PositionRonVondrak, for any correction functions. *)
Theorem C44_apparentPosition : forall nut abr m f t e1 e2 ma md, let m' := apparentPosition_ptr nut abr m f t e1 e2 ma md in
  m' t = apparentPosition nut abr (m f) e1 e2 ma md /\ forall q, q <> t -> m' q = m q.
Proof. exact apparent_writes. Qed.
Print Assumptions C44_apparentPosition.

Theorem C44_positionRonVondrak : forall nut abr m f t e2 ma md, let m' := positionRonVondrak_ptr nut abr m f t e2 ma md in
  m' t = positionRonVondrak nut abr (m f) e2 ma md /\ forall q, q <> t -> m' q = m q.
Proof. exact RonVondrak_writes. Qed.
Print Assumptions C44_positionRonVondrak.

(** The struct at address 0 passed twice. *)
Example C44_nonvacuous : eqRA (Precess_ptr (NewPrecessor 2000 2000) (fun _ => mkEq 1 0) 0%nat 0%nat 0%nat) = 1.
Proof. exact alias_example. Qed.

(** ** C58 *)
(** The components of any vector along the axes of the orbit are the same before
    and after, when the new inclination is neither 0 nor pi. *)
Theorem C58_ReduceElements : forall p e v, let e' := ReduceElements p e in 0 <= Inc e' <= PI /\
  (sin (Inc e') <> 0 ->
   orbit_frame (Inc e') (Peri e') (Node e') (ecliptic_precession (epeta p) (eppi p) (epp p) v) = orbit_frame (Inc e) (Peri e) (Node e) v).
Proof. exact ReduceElements_frame. Qed.
Print Assumptions C58_ReduceElements.

Theorem C58_ReduceB1950FK4ToJ2000FK5 : forall e v, let e' := ReduceB1950FK4ToJ2000FK5 e in
  0 <= Inc e' <= PI /\ 0 <= Node e' < 2 * PI /\ 0 <= Peri e' < 2 * PI /\
  (sin (Inc e') <> 0 ->
   orbit_frame (Inc e') (Peri e') (Node e') (app (rot_z FK_Lp) (app (rot_x (- FK_J)) (app (rot_z (- FK_L)) v))) = orbit_frame (Inc e) (Peri e) (Node e) v).
Proof. exact ReduceFK_frame. Qed.
Print Assumptions C58_ReduceB1950FK4ToJ2000FK5.

(** With inclination 0 and equal epochs the perihelion direction changes.  (In
    Go the two Atan2 of zeros are 0 or -pi depending on the signs of the zeros;
    the node becomes 174.9 or -5.1 degrees, the perihelion argument stays 0.) *)
Theorem C58_ReduceElements_refuted : let p := NewEclipticPrecessor 2000 2000 in let e' := ReduceElements p (mkElements 0 0 0) in
  epeta p = 0 /\ epp p = 0 /\
  orbit_frame (Inc e') (Peri e') (Node e') (mkvec 1 0 0) <> orbit_frame 0 0 0 (mkvec 1 0 0).
Proof. exact ReduceElements_flat. Qed.
Print Assumptions C58_ReduceElements_refuted.

(** ReduceB1950ToJ2000: its constants S, C are n sin eta, n cos eta with n within
    1e-11 of 1.  The pole of the reduced orbit agrees with the rotated pole in
    two components, the third is never negative; the perihelion argument is exact. *)
Theorem C58_ReduceB1950_constants : B1950_S = B1950_n * sin B1950_eta /\ B1950_C = B1950_n * cos B1950_eta.
Proof. exact B1950_SC. Qed.
Print Assumptions C58_ReduceB1950_constants.

Theorem C58_ReduceB1950_range : forall e, let e' := ReduceB1950ToJ2000 e in
  0 <= Inc e' <= PI / 2 /\ 0 <= Node e' < 2 * PI /\ 0 <= Peri e' < 2 * PI.
Proof. exact B1950_range. Qed.
Print Assumptions C58_ReduceB1950_range.

Theorem C58_ReduceB1950_pole_partial : forall e, let e' := ReduceB1950ToJ2000 e in
  let u := orbit_pole (Inc e') (Node e') in let w := B1950_frame (orbit_pole (Inc e) (Node e)) in
  Rabs (vx u - vx w) <= 1 / 10000000000 /\ Rabs (vy u - vy w) <= 1 / 10000000000 /\ 0 <= vz u.
Proof. exact B1950_pole_close. Qed.
Print Assumptions C58_ReduceB1950_pole_partial.

Theorem C58_ReduceB1950_perihelion : forall e, sin (Inc e) <> 0 \/ sin (Node e - AngleFromDeg (174298782 / 1000000)) <> 0 ->
  let K := AngleFromDeg (174997194 / 1000000) in let P := AngleFromDeg (174298782 / 1000000) in
  let e' := ReduceB1950ToJ2000 e in let x := ReduceElements (mkEclP B1950_eta P (K - P)) e in
  sin (Peri e') = sin (Peri x) /\ cos (Peri e') = cos (Peri x).
Proof. exact B1950_peri. Qed.
Print Assumptions C58_ReduceB1950_perihelion.

(** A retrograde orbit (inclination 120 degrees) comes out direct. *)
Theorem C58_ReduceB1950_refuted : let e' := ReduceB1950ToJ2000 (mkElements (2 * PI / 3) 0 (AngleFromDeg (174298782 / 1000000))) in
  cos (Inc e') >= 0 /\ vz (B1950_frame (orbit_pole (2 * PI / 3) (AngleFromDeg (174298782 / 1000000)))) < - (4 / 10).
Proof. exact B1950_retrograde. Qed.
Print Assumptions C58_ReduceB1950_refuted.

(** ** C67 *)
(** Position: proper motion, then precession. *)
Theorem C67_Position : forall eq e1 e2 ma md, let q := Position eq e1 e2 ma md in let p := NewPrecessor e1 e2 in let t := e2 - e1 in
  0 <= eqRA q < 2 * PI /\ - (PI / 2) <= eqDec q <= PI / 2 /\
  dir (eqRA q) (eqDec q) = precession (pzeta p) (pz p) (ptheta p) (dir (eqRA eq + ma * t) (eqDec eq + md * t)).
Proof. exact Position_dir. Qed.
Print Assumptions C67_Position.

(** EclipticPosition: the equatorial proper motion is converted to the ecliptic
    rates of the same velocity on the sphere. *)
Theorem C67_EclipticPosition : forall ecl e1 e2 ma md, - (PI / 2) < eclLat ecl < PI / 2 ->
  let q := EclipticPosition ecl e1 e2 ma md in let p := NewEclipticPrecessor e1 e2 in let t := e2 - e1 in
  let eps := MeanObliquity (JulianYearToJDE (fl := RFlt) e1) in
  - (PI / 2) <= eclLat q <= PI / 2 /\
  exists ml mb a d,
    dir a d = app (rot_x (- eps)) (dir (eclLon ecl) (eclLat ecl)) /\
    velocity (eclLon ecl) (eclLat ecl) ml mb = app (rot_x eps) (velocity a d ma md) /\
    dir (eclLon q) (eclLat q) = ecliptic_precession (epeta p) (eppi p) (epp p) (dir (eclLon ecl + ml * t) (eclLat ecl + mb * t)).
Proof. exact EclipticPosition_dir. Qed.
Print Assumptions C67_EclipticPosition.

(** ProperMotion3D: uniform straight motion in space. *)
Theorem C67_ProperMotion3D : forall eq e1 e2 r mr ma md, 0 < r ->
  let t := e2 - e1 in
  let P := vadd (scale r (dir (eqRA eq) (eqDec eq)))
                (scale t (vadd (scale mr (dir (eqRA eq) (eqDec eq))) (scale r (velocity (eqRA eq) (eqDec eq) ma md)))) in
  let q := ProperMotion3D eq e1 e2 r mr ma md in
  P <> vzero -> 0 <= eqRA q < 2 * PI /\ - (PI / 2) <= eqDec q <= PI / 2 /\ scale (norm P) (dir (eqRA q) (eqDec q)) = P.
Proof. exact ProperMotion3D_line. Qed.
Print Assumptions C67_ProperMotion3D.

(** Nutation: infinitesimal rotation by dpsi about the ecliptic pole and by deps
    about the equinox. *)
Theorem C67_Nutation : forall dpsi deps ra dec jd, - (PI / 2) < dec < PI / 2 ->
  let '(da, dd) := NutationCorr dpsi deps ra dec jd in
  velocity ra dec da dd = vadd (scale dpsi (cross (app (rot_x (- MeanObliquity jd)) (mkvec 0 0 1)) (dir ra dec)))
                               (scale deps (cross (mkvec 1 0 0) (dir ra dec))).
Proof. exact Nutation_velocity. Qed.
Print Assumptions C67_Nutation.

(** Aberration: the part, perpendicular to the direction of the star, of the
    Earth's velocity in units of the speed of light; the same velocity in both
    frames, so the two corrections agree. *)
Theorem C67_EclipticAberration : forall lon lat jd, - (PI / 2) < lat < PI / 2 ->
  let '(dl, db) := EclipticAberration lon lat jd in velocity lon lat dl db = across (earthV jd) (dir lon lat).
Proof. exact EclAberration_velocity. Qed.
Print Assumptions C67_EclipticAberration.

Theorem C67_Aberration : forall ra dec jd, - (PI / 2) < dec < PI / 2 -> cos (MeanObliquity jd) <> 0 ->
  let '(da, dd) := Aberration ra dec jd in velocity ra dec da dd = across (app (rot_x (- MeanObliquity jd)) (earthV jd)) (dir ra dec).
Proof. exact EqAberration_velocity. Qed.
Print Assumptions C67_Aberration.

Theorem C67_Aberration_agree : forall lon lat ra dec jd,
  - (PI / 2) < lat < PI / 2 -> - (PI / 2) < dec < PI / 2 -> cos (MeanObliquity jd) <> 0 ->
  dir lon lat = app (rot_x (MeanObliquity jd)) (dir ra dec) ->
  let '(dl, db) := EclipticAberration lon lat jd in let '(da, dd) := Aberration ra dec jd in
  velocity lon lat dl db = app (rot_x (MeanObliquity jd)) (velocity ra dec da dd).
Proof. exact Aberration_agree. Qed.
Print Assumptions C67_Aberration_agree.

Theorem C67_RonVondrak : forall X Y Z ra dec, - (PI / 2) < dec < PI / 2 ->
  let '(da, dd) := RonVondrakCorr X Y Z ra dec in velocity ra dec da dd = across (scale (/ 17314463350) (mkvec X Y Z)) (dir ra dec).
Proof. exact RonVondrak_velocity. Qed.
Print Assumptions C67_RonVondrak.

Example C67_nonvacuous : 0 < MeanObliquity 2451545 < PI / 4 /\ cos (MeanObliquity 2451545) <> 0.
Proof. exact obliquity_J2000. Qed.
