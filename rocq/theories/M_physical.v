(** Model of mars, jupiter and saturnring over the real numbers.  A tuple of a Go function's
    results is a record; intermediate values used in the specification are separate definitions. *)
From Coq Require Import ZArith Reals List.
From Flocq Require Import Core.
From Verif Require Import GoFloat GoMath M_base M_coord M_precess M_vsop M_light M_solar.
Import ListNotations.
Local Open Scope R_scope.

Definition deg : R := PI / 180.

(** base/const.go:29-32 *)
Definition LightTime (D : R) : R := 57755183 / 10000000000 * D.

(** The heliocentric longitude, latitude and distance of the planet at the time of emission, and
    its rectangular geocentric coordinates and distance. *)
Record geoc := mkgeoc { gl : R; gb : R; gr : R; gx : R; gy : R; gz : R; gD : R }.

(** mars/mars.go:45-58, jupiter/jupiter.go:47-59, saturnring/saturnring.go:74-85 (the closure f), given the light time. *)
Definition pass (planet : @V87Planet R) (jde l0 b0 R0 tau : R) : geoc :=
  let '(l1, b1, r) := PlanetPosition planet (jde - tau) in
  let '(l, b) := ToFK5 l1 b1 jde in
  let x := r * cos b * cos l - R0 * cos l0 in
  let y := r * cos b * sin l - R0 * sin l0 in
  let z := r * sin b - R0 * sin b0 in
  mkgeoc l b r x y z (sqrt (x * x + y * y + z * z)).
(** mars/mars.go:37-38 and the same lines of the other packages. *)
Definition earth_place (earth : @V87Planet R) (jde : R) : R * R * R :=
  let '(L, B, R0) := PlanetPosition earth jde in let '(l0, b0) := ToFK5 L B jde in (l0, b0, R0).
(** Two passes, starting from the distance D0. *)
Definition geocentric (earth planet : @V87Planet R) (jde D0 : R) : geoc :=
  let '(l0, b0, R0) := earth_place earth jde in
  let g1 := pass planet jde l0 b0 R0 (LightTime D0) in
  pass planet jde l0 b0 R0 (LightTime (gD g1)).

(** Common formulas (42.1)-(42.4): declination, longitude from the node, position angle. *)
Definition decl (d0 d a0 a : R) : R := asin (- sin d0 * sin d - cos d0 * cos d * cos (a0 - a)).
Definition zeta (d0 d a0 a : R) : R := atan2 (sin d0 * cos d * cos (a0 - a) - sin d * cos d0) (cos d * sin (a0 - a)).
Definition pangle (d0 d a0 a : R) : R := atan2 (cos d0 * sin (a0 - a)) (sin d0 * cos d - cos d0 * sin d * cos (a0 - a)).
Definition positive_turn (P : R) : R := if Rlt_bool P 0 then P + 2 * PI else P.

(** ** mars *)
(** mars/mars.go:33-35 *)
Definition mars_lambda0 (T : R) : R := 3529065 / 10000 * deg + 11733 / 10000 * deg * T.
Definition mars_beta0 (T : R) : R := 632818 / 10000 * deg - 394 / 100000 * deg * T.
(** mars/mars.go:79: at the time of emission. *)
Definition mars_W (t : R) : R := 11504 / 1000 * deg + 35089200025 / 100000000 * deg * (t - 24332825 / 10).
(** mars/mars.go:72-74 *)
Definition mars_sun (T l b r : R) : R * R :=
  let N := 495581 / 10000 * deg + 7721 / 10000 * deg * T in
  (l - 697 / 100000 * deg / r, b - 225 / 1000000 * deg * cos (l - N) / r).
(** mars/mars.go:98-102: apparent ecliptic place (aberration, nutation in longitude). *)
Definition aberrated (l0 lam be dpsi : R) : R * R :=
  (lam + 5693 / 1000000 * deg * cos (l0 - lam) / cos be + dpsi, be + 5693 / 1000000 * deg * sin (l0 - lam) * sin be).

Record mars_out := mkmars { mDE : R; mDS : R; mOmega : R; mP : R; mQ : R; md : R; mq : R; mk : R }.

(** mars/mars.go:29-129 *)
Definition MarsPhysical (jde : R) (earth mars : @V87Planet R) : mars_out :=
  let T := J2000Century (fl := RFlt) jde in
  let lam0 := mars_lambda0 T in let be0 := mars_beta0 T in
  let '(l0, b0, R0) := earth_place earth jde in
  let g := geocentric earth mars jde (5 / 10) in
  let tau := LightTime (gD g) in
  let lam := atan2 (gy g) (gx g) in
  let be := atan (gz g / hypot (gx g) (gy g)) in
  let DE := decl be0 be lam0 lam in
  let '(l', b') := mars_sun T (gl g) (gb g) (gr g) in
  let DS := decl be0 b' lam0 l' in
  let eps0 := MeanObliquity jde in
  let '(a0, d0) := EclToEq lam0 be0 (sin eps0) (cos eps0) in
  let u := gy g * cos eps0 - gz g * sin eps0 in
  let v := gy g * sin eps0 + gz g * cos eps0 in
  let a := atan2 u (gx g) in
  let d := atan (v / hypot (gx g) u) in
  let w := Mod1 (mars_W (jde - tau) - zeta d0 d a0 a) in
  let '(dpsi, deps) := Nutation jde in
  let '(lam2, be2) := aberrated l0 lam be dpsi in
  let eps := eps0 + deps in
  let '(a0', d0') := EclToEq (lam0 + dpsi) be0 (sin eps) (cos eps) in
  let '(a', d') := EclToEq lam2 be2 (sin eps) (cos eps) in
  let P := positive_turn (pangle d0' d' a0' a') in
  let s := l0 + PI in
  let as_ := atan2 (cos eps * sin s) (cos s) in
  let ds := asin (sin eps * sin s) in
  let chi := atan2 (cos ds * sin (as_ - a)) (sin ds * cos d - cos ds * sin d * cos (as_ - a)) in
  let dd := AngleFromSec (936 / 100) / gD g in
  let k := Fraction (gr g) (gD g) R0 in
  mkmars DE DS w P (chi + PI) dd (dd * (1 - k)) k.

(** ** jupiter *)
(** jupiter/jupiter.go:31-37 *)
Definition jup_pole (jde : R) : R * R :=
  let T1 := (jde - 24332825 / 10) / 36525 in (268 * deg + 1061 / 10000 * deg * T1, 645 / 10 * deg - 164 / 10000 * deg * T1).
Definition jup_W1 (jde : R) : R := 1771 / 100 * deg + 87790003539 / 100000000 * deg * (jde - 24332825 / 10).
Definition jup_W2 (jde : R) : R := 16838 / 1000 * deg + 87027003539 / 100000000 * deg * (jde - 24332825 / 10).
(** jupiter/jupiter.go:90-93: the correction for phase. *)
Definition jup_C (l0 R0 : R) (g : geoc) : R :=
  let C := (2 * gr g * gD g + R0 * R0 - gr g * gr g - gD g * gD g) / (4 * gr g * gD g) in
  if Rlt_bool (sin (gl g - l0)) 0 then - C else C.
(** jupiter/jupiter.go:102-103 *)
Definition jup_aberr (l0 eps a d : R) : R * R :=
  (5693 / 1000000 * deg * (cos a * cos l0 * cos eps + sin a * sin l0) / cos d,
   5693 / 1000000 * deg * (cos l0 * cos eps * (sin eps / cos eps * cos d - sin a * sin d) + cos a * sin d * sin l0)).
(** jupiter/jupiter.go:106-107, 111-113; sa, ca, sd, cd are those before the aberration. *)
Definition jup_nut (dpsi deps eps a d : R) : R * R :=
  ((cos eps + sin eps * sin a * (sin d / cos d)) * dpsi - cos a * (sin d / cos d) * deps, sin eps * cos a * dpsi + sin a * deps).

Record jup_out := mkjup { jDS : R; jDE : R; jW1 : R; jW2 : R; jP : R }.

(** jupiter/jupiter.go:26-126 *)
Definition JupiterPhysical (jde : R) (earth jupiter : @V87Planet R) : jup_out :=
  let '(a0, d0) := jup_pole jde in
  let '(l0, b0, R0) := earth_place earth jde in
  let g := geocentric earth jupiter jde 4 in
  let eps0 := MeanObliquity jde in
  let as_ := atan2 (cos eps0 * sin (gl g) - sin eps0 * sin (gb g) / cos (gb g)) (cos (gl g)) in
  let ds := asin (cos eps0 * sin (gb g) + sin eps0 * cos (gb g) * sin (gl g)) in
  let DS := decl d0 ds a0 as_ in
  let u := gy g * cos eps0 - gz g * sin eps0 in
  let v := gy g * sin eps0 + gz g * cos eps0 in
  let a := atan2 u (gx g) in
  let d := atan (v / hypot (gx g) u) in
  let z := zeta d0 d a0 a in
  let DE := decl d0 d a0 a in
  let C := jup_C l0 R0 g in
  let w1 := Mod1 (jup_W1 jde - z - 507033 / 100000 * deg * gD g + C) in
  let w2 := Mod1 (jup_W2 jde - z - 502626 / 100000 * deg * gD g + C) in
  let '(dpsi, deps) := Nutation jde in
  let eps := eps0 + deps in
  let '(xa, xd) := jup_aberr l0 eps a d in
  let '(na, nd) := jup_nut dpsi deps eps a d in
  let '(na0, nd0) := jup_nut dpsi deps eps a0 d0 in
  let P := positive_turn (pangle (d0 + nd0) (d + xd + nd) (a0 + na0) (a + xa + na)) in
  mkjup DS DE w1 w2 P.

(** jupiter/jupiter.go:141-172 *)
Record jup2 := mkjup2 { j_V : R; j_M : R; j_N : R; j_A : R; j_B : R; j_K : R; j_R : R; j_r : R; j_D : R; j_psi : R; j_lam : R }.
Definition jup2_args (jde : R) : jup2 :=
  let d := jde - 2451545 in
  let V := 17274 / 100 * deg + 111588 / 100000000 * deg * d in
  let M := 357529 / 1000 * deg + 9856003 / 10000000 * deg * d in
  let N := 2002 / 100 * deg + 830853 / 10000000 * deg * d + 329 / 1000 * deg * sin V in
  let J := 66115 / 1000 * deg + 9025179 / 10000000 * deg * d - 329 / 1000 * deg * sin V in
  let A := 1915 / 1000 * deg * sin M + 2 / 100 * deg * sin (2 * M) in
  let B := 5555 / 1000 * deg * sin N + 168 / 1000 * deg * sin (2 * N) in
  let K := J + A - B in
  let R0 := 100014 / 100000 - 1671 / 100000 * cos M - 14 / 100000 * cos (2 * M) in
  let r := 520872 / 100000 - 25208 / 100000 * cos N - 611 / 100000 * cos (2 * N) in
  let D := sqrt (r * r + R0 * R0 - 2 * r * R0 * cos K) in
  let psi := asin (R0 / D * sin K) in
  let lam := 3435 / 100 * deg + 83091 / 1000000 * deg * d + 329 / 1000 * deg * sin V + B in
  mkjup2 V M N A B K R0 r D psi lam.
Definition jup2_C (j : jup2) : R := let c := sin (j_psi j / 2) * sin (j_psi j / 2) in if Rlt_bool 0 (sin (j_K j)) then - c else c.
Definition JupiterPhysical2 (jde : R) : R * R * R * R :=
  let j := jup2_args jde in
  let dd := jde - 2451545 - j_D j / 173 in
  let w1 := 21098 / 100 * deg + 8778169088 / 10000000 * deg * dd + j_psi j - j_B j in
  let w2 := 18723 / 100 * deg + 8701869088 / 10000000 * deg * dd + j_psi j - j_B j in
  let C := jup2_C j in
  let DS := 312 / 100 * deg * sin (j_lam j + 428 / 10 * deg) in
  let DE := DS - 222 / 100 * deg * sin (j_psi j) * cos (j_lam j + 22 * deg) - 13 / 10 * deg * (j_r j - j_D j) / j_D j * sin (j_lam j - 1005 / 10 * deg) in
  (DS, DE, Mod1 (w1 + C), Mod1 (w2 + C)).

(** ** saturnring *)
(** saturnring/saturnring.go:63-65 *)
Definition ring_i (T : R) : R := AngleFromDeg (HornerR T [28075216 / 1000000; - (12998 / 1000000); 4 / 1000000]).
Definition ring_node (T : R) : R := AngleFromDeg (HornerR T [16950847 / 100000; 1394681 / 1000000; 412 / 1000000]).
(** saturnring/saturnring.go:97-99 *)
Definition ring_sun (T l b r : R) : R * R :=
  let N := AngleFromDeg (1136655 / 10000 + 8771 / 10000 * T) in
  (l - AngleFromDeg (1759 / 100000) / r, b - AngleFromDeg (764 / 1000000) * (cos (l - N) / r)).
(** saturnring/saturnring.go:104-108: longitude in the plane of the ring. *)
Definition ring_U (i b x : R) : R := atan2 (sin i * sin b + cos i * cos b * sin x) (cos b * cos x).

Record ring1 := mkring1 { rU : R; rB : R; r_sB : R; r_lam : R; r_be : R; r_l' : R; r_b' : R; r_g : geoc }.
(** saturnring/saturnring.go:61-111, the closure f1. *)
Definition ring_f1 (jde : R) (earth saturn : @V87Planet R) : ring1 :=
  let T := J2000Century (fl := RFlt) jde in
  let i := ring_i T in let W := ring_node T in
  let g := geocentric earth saturn jde 9 in
  let lam := atan2 (gy g) (gx g) in
  let be := atan (gz g / hypot (gx g) (gy g)) in
  let sB := sin i * cos be * sin (lam - W) - cos i * sin be in
  let '(l', b') := ring_sun T (gl g) (gb g) (gr g) in
  let U1 := ring_U i b' (l' - W) in
  let U2 := ring_U i be (lam - W) in
  mkring1 (Rabs (U1 - U2)) (asin sB) sB lam be l' b' g.
(** saturnring/saturnring.go:112-136, the closure f2: B', P, aEdge, bEdge. *)
Definition ring_f2 (jde : R) (earth : @V87Planet R) (s : ring1) : R * R * R * R :=
  let T := J2000Century (fl := RFlt) jde in
  let i := ring_i T in let W := ring_node T in
  let '(l0, _, _) := earth_place earth jde in
  let aEdge := AngleFromSec (37535 / 100) / gD (r_g s) in
  let bEdge := aEdge * Rabs (r_sB s) in
  let sB' := sin i * cos (r_b' s) * sin (r_l' s - W) - cos i * sin (r_b' s) in
  let '(dpsi, deps) := Nutation jde in
  let eps := MeanObliquity jde + deps in
  let '(lam2, be2) := aberrated l0 (r_lam s) (r_be s) dpsi in
  let '(a0, d0) := EclToEq (W - PI / 2 + dpsi) (PI / 2 - i) (sin eps) (cos eps) in
  let '(a, d) := EclToEq lam2 be2 (sin eps) (cos eps) in
  (asin sB', pangle d0 d a0 a, aEdge, bEdge).

Record ring_out := mkring { oB : R; oB' : R; oU : R; oP : R; oA : R; ob : R }.
(** saturnring/saturnring.go:33-38 *)
Definition Ring (jde : R) (earth saturn : @V87Planet R) : ring_out :=
  let s := ring_f1 jde earth saturn in let '(B', P, a, b) := ring_f2 jde earth s in mkring (rB s) B' (rU s) P a b.
(** saturnring/saturnring.go:43-46 *)
Definition UB (jde : R) (earth saturn : @V87Planet R) : R * R := let s := ring_f1 jde earth saturn in (rU s, rB s).
