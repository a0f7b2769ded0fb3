(** Model of package pluto: /repo/v3/pluto/pluto.go.  Over the reals. *)
From Coq Require Import ZArith Reals List.
From Verif Require Import GoFloat GoMath M_base M_orbit M_light M_vsop M_solar M_physical.
Import ListNotations.
Local Open Scope R_scope.

(** pluto/pluto.go:65-114: multiples of J, S, P; the amplitudes of longitude and latitude in
    units of 1e-6 degrees and those of the distance in units of 1e-7 au. *)
Definition prow := (Z * Z * Z * Z * Z * Z * Z * Z * Z)%type.
Definition t37 : list prow := ([
  (0, 0, 1, (-19799805), 19850055, (-5452852), (-14974862), 66865439, 68951812); (0, 0, 2, 897144, (-4954829), 3527812, 1672790, (-11827535), (-332538));
  (0, 0, 3, 611149, 1211027, (-1050748), 327647, 1593179, (-1438890)); (0, 0, 4, (-341243), (-189585), 178690, (-292153), (-18444), 483220);
  (0, 0, 5, 129287, (-34992), 18650, 100340, (-65977), (-85431)); (0, 0, 6, (-38164), 30893, (-30697), (-25823), 31174, (-6032));
  (0, 1, (-1), 20442, (-9987), 4878, 11248, (-5794), 22161); (0, 1, 0, (-4063), (-5071), 226, (-64), 4601, 4032);
  (0, 1, 1, (-6016), (-3336), 2030, (-836), (-1729), 234); (0, 1, 2, (-3956), 3039, 69, (-604), (-415), 702);
  (0, 1, 3, (-667), 3572, (-247), (-567), 239, 723); (0, 2, (-2), 1276, 501, (-57), 1, 67, (-67));
  (0, 2, (-1), 1152, (-917), (-122), 175, 1034, (-451)); (0, 2, 0, 630, (-1277), (-49), (-164), (-129), 504);
  (1, (-1), 0, 2571, (-459), (-197), 199, 480, (-231)); (1, (-1), 1, 899, (-1449), (-25), 217, 2, (-441));
  (1, 0, (-3), (-1016), 1043, 589, (-248), (-3359), 265); (1, 0, (-2), (-2343), (-1012), (-269), 711, 7856, (-7832));
  (1, 0, (-1), 7042, 788, 185, 193, 36, 45763); (1, 0, 0, 1199, (-338), 315, 807, 8663, 8547);
  (1, 0, 1, 418, (-67), (-130), (-43), (-809), (-769)); (1, 0, 2, 120, (-274), 5, 3, 263, (-144));
  (1, 0, 3, (-60), (-159), 2, 17, (-126), 32); (1, 0, 4, (-82), (-29), 2, 5, (-35), (-16));
  (1, 1, (-3), (-36), (-29), 2, 3, (-19), (-4)); (1, 1, (-2), (-40), 7, 3, 1, (-15), 8);
  (1, 1, (-1), (-14), 22, 2, (-1), (-4), 12); (1, 1, 0, 4, 13, 1, (-1), 5, 6);
  (1, 1, 1, 5, 2, 0, (-1), 3, 1); (1, 1, 3, (-1), 0, 0, 0, 6, (-2));
  (2, 0, (-6), 2, 0, 0, (-2), 2, 2); (2, 0, (-5), (-4), 5, 2, 2, (-2), (-2));
  (2, 0, (-4), 4, (-7), (-7), 0, 14, 13); (2, 0, (-3), 14, 24, 10, (-8), (-63), 13);
  (2, 0, (-2), (-49), (-34), (-3), 20, 136, (-236)); (2, 0, (-1), 163, (-48), 6, 5, 273, 1065);
  (2, 0, 0, 9, (-24), 14, 17, 251, 149); (2, 0, 1, (-4), 1, (-2), 0, (-25), (-9));
  (2, 0, 2, (-3), 1, 0, 0, 9, (-2)); (2, 0, 3, 1, 3, 0, 0, (-8), 7);
  (3, 0, (-2), (-3), (-1), 0, 1, 2, (-10)); (3, 0, (-1), 5, (-3), 0, 0, 19, 35);
  (3, 0, 0, 0, 0, 1, 0, 10, 3)])%Z.
(** pluto/pluto.go:22-24 *)
Definition pl_J (T : R) : R := AngleFromDeg (3435 / 100 + 30349057 / 10000 * T).
Definition pl_S (T : R) : R := AngleFromDeg (5008 / 100 + 12221138 / 10000 * T).
Definition pl_P (T : R) : R := AngleFromDeg (23896 / 100 + 14496 / 100 * T).
(** pluto/pluto.go:25-31: the body of the loop; the conversion of the table to radians is that of
    the function init, lines 55-63 *)
Definition pl_step (J S0 P : R) (acc : R * R * R) (t : prow) : R * R * R :=
  let '(i, j, k, lA, lB, bA, bB, rA, rB) := t in let '(l, b, r) := acc in
  let a := J * IZR i + S0 * IZR j + P * IZR k in
  (l + (IZR lA / 1000000 * (PI / 180) * sin a + IZR lB / 1000000 * (PI / 180) * cos a),
   b + (IZR bA / 1000000 * (PI / 180) * sin a + IZR bB / 1000000 * (PI / 180) * cos a),
   r + (IZR rA / 10000000 * sin a + IZR rB / 10000000 * cos a)).
(** pluto/pluto.go:20-36 *)
Definition Heliocentric (jde : R) : R * R * R :=
  let T := J2000Century (fl := RFlt) jde in
  let '(l, b, r) := fold_left (pl_step (pl_J T) (pl_S T) (pl_P T)) t37 (0, 0, 0) in
  (l + AngleFromDeg (238958116 / 1000000 + 14496 / 100 * T), b - AngleFromDeg (3908239 / 1000000), r + 407241346 / 10000000).
(** pluto/pluto.go:41-50: the closure f *)
Definition pl_xyz (jde : R) : R * R * R :=
  let '(l, b, r) := Heliocentric jde in
  (r * cos l * cos b, r * (sin l * cos b * COblJ2000 - sin b * SOblJ2000), r * (sin l * cos b * SOblJ2000 + sin b * COblJ2000)).
(** pluto/pluto.go:39-53 *)
Definition PlutoAstrometric (jde : R) (e : @V87Planet R) : R * R :=
  let '(ra, dec, _) := AstrometricJ2000 LightTime (PositionJ2000 e) pl_xyz jde in (ra, dec).
