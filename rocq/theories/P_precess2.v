(** C99 (precession there and back; equatorial and ecliptic precession agree). *)
From Coq Require Import ZArith Reals Lra.
From Verif Require Import GoFloat GoMath M_base M_coord M_precess S_Sphere S_precess S_solar L_precess2.
Local Open Scope R_scope.

(** Back to the epoch it came from: exactly the same position, for any two epochs. *)
Theorem C99_equatorial : forall e1 e2 eq, let r := Precess (NewPrecessor e2 e1) (Precess (NewPrecessor e1 e2) eq) in
  dir (eqRA r) (eqDec r) = dir (eqRA eq) (eqDec eq) /\
  (0 <= eqRA eq < 2 * PI -> - (PI / 2) < eqDec eq < PI / 2 -> r = eq).
Proof. exact Precess_back. Qed.
Print Assumptions C99_equatorial.

(** The ecliptic form is not its own inverse: the polynomials leave 0.04″. *)
Theorem C99_ecliptic : forall e1 e2 ecl, 0 <= e1 <= 4000 -> 0 <= e2 <= 4000 ->
  let r := EclPrecess (NewEclipticPrecessor e2 e1) (EclPrecess (NewEclipticPrecessor e1 e2) ecl) in
  norm (vsub (dir (eclLon r) (eclLat r)) (dir (eclLon ecl) (eclLat ecl))) <= arcsec 0.04.
Proof. exact EclPrecess_back. Qed.
Print Assumptions C99_ecliptic.

(** From J2000: precess, then convert with the obliquity of the date; or convert with
    the obliquity of J2000, then precess. *)
Theorem C99_forms : forall e eq, let eps_year y := MeanObliquity (JulianYearToJDE (fl := RFlt) y) in - (PI / 2) < eqDec eq < PI / 2 ->
  let eq' := Precess (NewPrecessor 2000 e) eq in
  - (PI / 2) < eqDec eq' < PI / 2 ->
  let '(lon1, lat1) := EqToEcl (eqRA eq') (eqDec eq') (sin (eps_year e)) (cos (eps_year e)) in
  let '(lon0, lat0) := EqToEcl (eqRA eq) (eqDec eq) (sin (eps_year 2000)) (cos (eps_year 2000)) in
  let ecl := EclPrecess (NewEclipticPrecessor 2000 e) (mkEcl lon0 lat0) in
  (1900 <= e <= 2100 -> norm (vsub (dir lon1 lat1) (dir (eclLon ecl) (eclLat ecl))) <= arcsec 0.0002) /\
  (1000 <= e <= 3000 -> norm (vsub (dir lon1 lat1) (dir (eclLon ecl) (eclLat ecl))) <= arcsec 0.26).
Proof. exact two_routes. Qed.
Print Assumptions C99_forms.

Theorem C99_rotations : forall e v, let eps_year y := MeanObliquity (JulianYearToJDE (fl := RFlt) y) in
  let p := NewPrecessor 2000 e in let q := NewEclipticPrecessor 2000 e in
  let d := norm (vsub (app (rot_x (eps_year e)) (precession (pzeta p) (pz p) (ptheta p) v))
                      (ecliptic_precession (epeta q) (eppi q) (epp q) (app (rot_x (eps_year 2000)) v))) in
  (1900 <= e <= 2100 -> d <= arcsec 0.0002 * norm v) /\ (1000 <= e <= 3000 -> d <= arcsec 0.26 * norm v).
Proof. exact two_forms. Qed.
Print Assumptions C99_rotations.

(** The date is not J2000 and the position moves. *)
Example C99_nonvacuous : exists e eq, 1900 <= e <= 2100 /\ e <> 2000 /\ 0 <= eqRA eq < 2 * PI /\ - (PI / 2) < eqDec eq < PI / 2 /\
  - (PI / 2) < eqDec (Precess (NewPrecessor 2000 e) eq) < PI / 2 /\ Precess (NewPrecessor 2000 e) eq <> eq.
Proof. exact precess2_example. Qed.
