(** Properties C97 (the two expressions for the aberration) and C98 (apparent positions). *)
From Coq Require Import ZArith Reals Lra.
From Verif Require Import GoFloat GoMath M_base M_precess M_apparent S_Sphere S_precess S_solar S_apparent L_apparent L_apparent2 L_apparent3 L_apparent4.
Local Open Scope R_scope.

(** ** C97 *)
(** AberrationRonVondrak displaces a star by the part, perpendicular to the star,
    of the velocity of the table. *)
Theorem C97_RonVondrak : forall ra dec jd, - (PI / 2) < dec < PI / 2 ->
  let '(da, dd) := AberrationRonVondrak ra dec jd in velocity ra dec da dd = across (rv_velocity jd) (dir ra dec).
Proof. exact RonVondrak_displacement. Qed.
Print Assumptions C97_RonVondrak.

(** From 1900 to 2100 the velocity of the table, turned to the ecliptic of date, is the
    velocity in the elliptic orbit to 0.08 arc seconds of aberration. *)
Theorem C97_velocity : forall jd, Rabs ((jd - 2451545) / 36525) <= 1 ->
  norm (vsub (to_ecliptic_of_date jd (rv_velocity jd)) (earthV jd)) <= arcsec 0.08.
Proof. exact RonVondrak_agrees. Qed.
Print Assumptions C97_velocity.

(** So the corrections of AberrationRonVondrak (for the star at equinox J2000) and of
    EclipticAberration and Aberration (at the equinox of date) are the same
    displacement to 0.08 arc seconds. *)
Theorem C97_ecliptic : forall ra dec lon lat jd, Rabs ((jd - 2451545) / 36525) <= 1 -> - (PI / 2) < dec < PI / 2 -> - (PI / 2) < lat < PI / 2 ->
  dir lon lat = to_ecliptic_of_date jd (dir ra dec) ->
  let '(da, dd) := AberrationRonVondrak ra dec jd in let '(dl, db) := EclipticAberration lon lat jd in
  norm (vsub (to_ecliptic_of_date jd (velocity ra dec da dd)) (velocity lon lat dl db)) <= arcsec 0.08.
Proof. exact RonVondrak_ecliptic. Qed.
Print Assumptions C97_ecliptic.

Theorem C97_equatorial : forall ra dec ra' dec' jd, Rabs ((jd - 2451545) / 36525) <= 1 -> - (PI / 2) < dec < PI / 2 -> - (PI / 2) < dec' < PI / 2 ->
  dir ra' dec' = to_equator_of_date jd (dir ra dec) ->
  let '(da, dd) := AberrationRonVondrak ra dec jd in let '(da', dd') := Aberration ra' dec' jd in
  norm (vsub (to_equator_of_date jd (velocity ra dec da dd)) (velocity ra' dec' da' dd')) <= arcsec 0.08.
Proof. exact RonVondrak_equatorial. Qed.
Print Assumptions C97_equatorial.

(** No star is displaced by more than 20.845 arc seconds. *)
Theorem C97_size : forall ra dec jd, Rabs ((jd - 2451545) / 36525) <= 1 -> - (PI / 2) < dec < PI / 2 ->
  let '(da, dd) := Aberration ra dec jd in norm (velocity ra dec da dd) <= arcsec 20.845.
Proof. exact Aberration_size. Qed.
Print Assumptions C97_size.

Example C97_nonvacuous : Rabs ((2451545 - 2451545) / 36525) <= 1 /\ - (PI / 2) < 0 < PI / 2 /\
  dir 0 0 = to_ecliptic_of_date 2451545 (dir 0 0) /\ dir 0 0 = to_equator_of_date 2451545 (dir 0 0).
Proof. pose proof PI_10. split; [replace ((2451545 - 2451545) / 36525) with 0 by field; rewrite Rabs_R0; lra|]. split; [lra|]. exact date_J2000. Qed.

(** ** C98 *)
(** The apparent place of a star is, from 1900 to 2100, within 50.375 arc seconds (nutation and
    aberration together) of its mean place of date q; its right ascension is reduced. *)
Theorem C98_displacement : forall eq e1 e2 ma md, 1900 <= e2 <= 2100 -> let q := Position eq e1 e2 ma md in let a := ApparentPosition eq e1 e2 ma md in
  - (PI / 2) < eqDec q < PI / 2 ->
  exists da, same_angle (eqRA a) (eqRA q + da) /\ 0 <= eqRA a < 2 * PI /\ norm (velocity (eqRA q) (eqDec q) da (eqDec a - eqDec q)) <= arcsec 50.375.
Proof. exact ApparentPosition_size. Qed.
Print Assumptions C98_displacement.

(** Away from the poles the apparent declination is a declination. *)
Theorem C98_declination_partial : forall eq e1 e2 ma md, 1900 <= e2 <= 2100 -> let q := Position eq e1 e2 ma md in let a := ApparentPosition eq e1 e2 ma md in
  Rabs (eqDec q) <= PI / 2 - arcsec 50.375 -> Rabs (eqDec a) <= PI / 2.
Proof. exact ApparentPosition_range. Qed.
Print Assumptions C98_declination_partial.

(** Not at the pole: the corrections are added to the declination, and the
    declination returned exceeds 90 degrees. *)
Theorem C98_declination_refuted : exists eq e1 e2, 0 <= eqRA eq < 2 * PI /\ - (PI / 2) <= eqDec eq <= PI / 2 /\ eqDec (ApparentPosition eq e1 e2 0 0) > PI / 2 + arcsec 11.
Proof. exists (mkEq 0 (PI / 2)), 2000, 2000. cbn [eqRA eqDec]. pose proof PI_10. split; [lra|]. split; [lra|]. exact ApparentPosition_pole. Qed.
Print Assumptions C98_declination_refuted.

Example C98_nonvacuous : let q := Position (mkEq 1 (1 / 2)) 2000 2000 0 0 in Rabs (eqDec q) <= PI / 2 - arcsec 50.375 /\ - (PI / 2) < eqDec q < PI / 2.
Proof. exact position_J2000. Qed.
