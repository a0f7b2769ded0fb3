(** Model of planetposition (positions), nutation, solar, solarxyz and eqtime over the real
    numbers. *)
From Coq Require Import ZArith Reals List.
From Verif Require Import GoFloat GoMath M_base M_coord M_precess M_vsop.
Import ListNotations.
Local Open Scope R_scope.

(** ** planetposition *)

(** planetposition/planetposition.go:199-210, one series: terms are added from the last to the first. *)
Definition sum_terms (tau : R) (terms : list (R * R * R)) : R :=
  fold_left (fun s t => let '(a, b, c) := t in s + a * cos (b + c * tau)) (rev terms) 0.
Definition sum_series (tau : R) (series : list (list (R * R * R))) : R := HornerR tau (map (sum_terms tau) series).

(** planetposition/planetposition.go:195-216 *)
Definition Position2000 (v : @V87Planet R) (jde : R) : R * R * R :=
  let tau := J2000Century (fl := RFlt) jde * (1 / 10) in
  (PMod (sum_series tau (v_l v)) (2 * PI), sum_series tau (v_b v), sum_series tau (v_r v)).

(** planetposition/planetposition.go:228-239 *)
Definition PlanetPosition (v : @V87Planet R) (jde : R) : R * R * R :=
  let '(L, B, R0) := Position2000 v jde in
  let q := EclipticPosition (mkEcl L B) 2000 (JDEToJulianYear (fl := RFlt) jde) 0 0 in
  (eclLon q, eclLat q, R0).

(** planetposition/planetposition.go:242-251 *)
Definition ToFK5 (L B jde : R) : R * R :=
  let T := J2000Century (fl := RFlt) jde in
  let Lp := L - AngleFromDeg (1397 / 1000 * T + 31 / 100000 * T * T) in
  (L + AngleFromSec (- (9033 / 100000) + 3916 / 100000 * (cos Lp + sin Lp) * tan B),
   B + AngleFromSec (3916 / 100000 * (cos Lp - sin Lp))).

(** ** nutation *)

(** nutation/nutation.go:110-176: multipliers of D, M, N, F, Omega; s0, s1, c0, c1 in tenths (of 0.0001 seconds). *)
Definition table22A : list (Z * Z * Z * Z * Z * Z * Z * Z * Z) := ([
    (0, 0, 0, 0, 1, -1719960, -1742, 920250, 89); (-2, 0, 0, 2, 2, -131870, -16, 57360, -31); (0, 0, 0, 2, 2, -22740, -2, 9770, -5); (0, 0, 0, 0, 2, 20620, 2, -8950, 5);
    (0, 1, 0, 0, 0, 14260, -34, 540, -1); (0, 0, 1, 0, 0, 7120, 1, -70, 0); (-2, 1, 0, 2, 2, -5170, 12, 2240, -6); (0, 0, 0, 2, 1, -3860, -4, 2000, 0);
    (0, 0, 1, 2, 2, -3010, 0, 1290, -1); (-2, -1, 0, 2, 2, 2170, -5, -950, 3); (-2, 0, 1, 0, 0, -1580, 0, 0, 0); (-2, 0, 0, 2, 1, 1290, 1, -700, 0);
    (0, 0, -1, 2, 2, 1230, 0, -530, 0); (2, 0, 0, 0, 0, 630, 0, 0, 0); (0, 0, 1, 0, 1, 630, 1, -330, 0); (2, 0, -1, 2, 2, -590, 0, 260, 0);
    (0, 0, -1, 0, 1, -580, -1, 320, 0); (0, 0, 1, 2, 1, -510, 0, 270, 0); (-2, 0, 2, 0, 0, 480, 0, 0, 0); (0, 0, -2, 2, 1, 460, 0, -240, 0);
    (2, 0, 0, 2, 2, -380, 0, 160, 0); (0, 0, 2, 2, 2, -310, 0, 130, 0); (0, 0, 2, 0, 0, 290, 0, 0, 0); (-2, 0, 1, 2, 2, 290, 0, -120, 0);
    (0, 0, 0, 2, 0, 260, 0, 0, 0); (-2, 0, 0, 2, 0, -220, 0, 0, 0); (0, 0, -1, 2, 1, 210, 0, -100, 0); (0, 2, 0, 0, 0, 170, -1, 0, 0);
    (2, 0, -1, 0, 1, 160, 0, -80, 0); (-2, 2, 0, 2, 2, -160, 1, 70, 0); (0, 1, 0, 0, 1, -150, 0, 90, 0); (-2, 0, 1, 0, 1, -130, 0, 70, 0);
    (0, -1, 0, 0, 1, -120, 0, 60, 0); (0, 0, 2, -2, 0, 110, 0, 0, 0); (2, 0, -1, 2, 1, -100, 0, 50, 0); (2, 0, 1, 2, 2, -80, 0, 30, 0);
    (0, 1, 0, 2, 2, 70, 0, -30, 0); (-2, 1, 1, 0, 0, -70, 0, 0, 0); (0, -1, 0, 2, 2, -70, 0, 30, 0); (2, 0, 0, 2, 1, -70, 0, 30, 0);
    (2, 0, 1, 0, 0, 60, 0, 0, 0); (-2, 0, 2, 2, 2, 60, 0, -30, 0); (-2, 0, 1, 2, 1, 60, 0, -30, 0); (2, 0, -2, 0, 1, -60, 0, 30, 0);
    (2, 0, 0, 0, 1, -60, 0, 30, 0); (0, -1, 1, 0, 0, 50, 0, 0, 0); (-2, -1, 0, 2, 1, -50, 0, 30, 0); (-2, 0, 0, 0, 1, -50, 0, 30, 0);
    (0, 0, 2, 2, 1, -50, 0, 30, 0); (-2, 0, 2, 0, 1, 40, 0, 0, 0); (-2, 1, 0, 2, 1, 40, 0, 0, 0); (0, 0, 1, -2, 0, 40, 0, 0, 0);
    (-1, 0, 1, 0, 0, -40, 0, 0, 0); (-2, 1, 0, 0, 0, -40, 0, 0, 0); (1, 0, 0, 0, 0, -40, 0, 0, 0); (0, 0, 1, 2, 0, 30, 0, 0, 0);
    (0, 0, -2, 2, 2, -30, 0, 0, 0); (-1, -1, 1, 0, 0, -30, 0, 0, 0); (0, 1, 1, 0, 0, -30, 0, 0, 0); (0, -1, 1, 2, 2, -30, 0, 0, 0);
    (2, -1, -1, 2, 2, -30, 0, 0, 0); (0, 0, 3, 2, 2, -30, 0, 0, 0); (2, -1, 0, 2, 2, -30, 0, 0, 0)])%Z.
Definition nrow := (Z * Z * Z * Z * Z * Z * Z * Z * Z)%type.
Definition nut_arg (D M N F W : R) (r : nrow) : R :=
  let '(d, m, n, f, w, _, _, _, _) := r in IZR d * D + IZR m * M + IZR n * N + IZR f * F + IZR w * W.

(** nutation/nutation.go:20-46 *)
Definition nut_D (T : R) : R := HornerR T [29785036 / 100000; 44526711148 / 100000; - (19142 / 10000000); 1 / 189474] * PI / 180.
Definition nut_M (T : R) : R := HornerR T [35752772 / 100000; 35999050340 / 1000000; - (1603 / 10000000); - 1 / 300000] * PI / 180.
Definition nut_N (T : R) : R := HornerR T [13496298 / 100000; 477198867398 / 1000000; 86972 / 10000000; 1 / 5620] * PI / 180.
Definition nut_F (T : R) : R := HornerR T [9327191 / 100000; 483202017538 / 1000000; - (36825 / 10000000); 1 / 327270] * PI / 180.
Definition nut_W (T : R) : R := HornerR T [12504452 / 100000; - (1934136261 / 1000000); 20708 / 10000000; 1 / 450000] * PI / 180.
Definition Nutation (jde : R) : R * R :=
  let T := J2000Century (fl := RFlt) jde in
  let D := nut_D T in let M := nut_M T in let N := nut_N T in let F := nut_F T in let W := nut_W T in
  let '(dpsi, deps) := fold_left (fun acc r => let '(p, e) := acc in
      let '(_, _, _, _, _, s0, s1, c0, c1) := r in let arg := nut_arg D M N F W r in
      (p + sin arg * (IZR s0 / 10 + IZR s1 / 10 * T), e + cos arg * (IZR c0 / 10 + IZR c1 / 10 * T))) (rev table22A) (0, 0) in
  (AngleFromSec (dpsi * (1 / 10000)), AngleFromSec (deps * (1 / 10000))).

(** nutation/nutation.go:50-62 *)
Definition ApproxNutation (jde : R) : R * R :=
  let T := (jde - 2451545) / 36525 in
  let W := (12504452 / 100000 - 1934136261 / 1000000 * T) * PI / 180 in
  let L := (2804665 / 10000 + 360007698 / 10000 * T) * PI / 180 in
  let N := (2183165 / 10000 + 4812678813 / 10000 * T) * PI / 180 in
  (AngleFromSec (- (172 / 10) * sin W - 132 / 100 * sin (2 * L) - 23 / 100 * sin (2 * N) + 21 / 100 * sin (2 * W)),
   AngleFromSec (92 / 10 * cos W + 57 / 100 * cos (2 * L) + 1 / 10 * cos (2 * N) - 9 / 100 * cos (2 * W))).

(** nutation/nutation.go:85-99 *)
Definition MeanObliquityLaskar (jde : R) : R :=
  AngleFromSec (HornerR (J2000Century (fl := RFlt) jde * (1 / 100))
    [(23 * 60 + 26) * 60 + 21448 / 1000; - (468093 / 100); - (155 / 100); 199925 / 100; - (5138 / 100); - (24967 / 100);
     - (3905 / 100); 712 / 100; 2787 / 100; 579 / 100; 245 / 100]).

(** nutation/nutation.go:103-108 *)
Definition NutationInRA (jde : R) : R :=
  let '(dpsi, deps) := Nutation jde in dpsi * cos (MeanObliquity jde + deps).

(** ** solar *)

(** solar/solar.go:72-77 *)
Definition Radius (T : R) : R :=
  let nu := snd (solarTrue T) in let e := solarEccentricity T in
  1000001018 / 1000000000 * (1 - e * e) / (1 + e * cos nu).

(** solar/solar.go:90-99 *)
Definition solarNode (T : R) : R := AngleFromDeg (12504 / 100 - 1934136 / 1000 * T).
Definition ApparentLongitude (T : R) : R :=
  fst (solarTrue T) - AngleFromDeg (569 / 100000) - AngleFromDeg (478 / 100000) * sin (solarNode T).

(** solar/solar.go:107-111 *)
Definition True2000 (T : R) : R * R :=
  let '(s, nu) := solarTrue T in (s - AngleFromDeg (1397 / 100000) * (T * 100), nu).

(** solar/solar.go:114-123 *)
Definition TrueEquatorial (jde : R) : R * R :=
  let s := fst (solarTrue (J2000Century (fl := RFlt) jde)) in
  let eps := MeanObliquity jde in
  (RAFromRad (atan2 (cos eps * sin s) (cos s)), asin (sin eps * sin s)).

(** solar/solar.go:129-140 *)
Definition ApparentEquatorial (jde : R) : R * R :=
  let T := J2000Century (fl := RFlt) jde in
  let l := ApparentLongitude T in
  let eps := MeanObliquity jde + AngleFromDeg (256 / 100000) * cos (solarNode T) in
  (RAFromRad (atan2 (cos eps * sin l) (cos l)), asin (sin eps * sin l)).

(** solar/solar.go:150-161 *)
Definition TrueVSOP87 (e : @V87Planet R) (jde : R) : R * R * R :=
  let '(l, b, r) := PlanetPosition e jde in
  let s := l + PI in
  let lp := HornerR (J2000Century (fl := RFlt) jde) [s; - (1397 / 1000) * PI / 180; - (31 / 100000) * PI / 180] in
  let db := AngleFromSec (3916 / 100000) * (cos lp - sin lp) in
  (Mod1 (s - AngleFromSec (9033 / 100000)), db - b, r).

(** solar/solar.go:204-207 *)
Definition aberration (R0 : R) : R := AngleFromSec (- (204898 / 10000)) / R0.

(** solar/solar.go:171-177 *)
Definition ApparentVSOP87 (e : @V87Planet R) (jde : R) : R * R * R :=
  let '(s, b, r) := TrueVSOP87 e jde in (s + fst (Nutation jde) + aberration r, b, r).

(** solar/solar.go:187-198 *)
Definition ApparentEquatorialVSOP87 (e : @V87Planet R) (jde : R) : R * R * R :=
  let '(s, b, r) := TrueVSOP87 e jde in
  let '(dpsi, deps) := Nutation jde in
  let eps := MeanObliquity jde + deps in
  let '(ra, dec) := EclToEq (s + dpsi + aberration r) b (sin eps) (cos eps) in (ra, dec, r).

(** ** eqtime *)

(** eqtime/eqtime.go:42-46 *)
Definition l0 (tau : R) : R :=
  AngleFromDeg (HornerR tau [2804664567 / 10000000; 3600076982779 / 10000000; 3032028 / 100000000; 1 / 49931; - (1 / 15300); - (1 / 2000000)]).

(** eqtime/eqtime.go:25-42 *)
Definition EqTime (jde : R) (e : @V87Planet R) : R :=
  let L0 := l0 (J2000Century (fl := RFlt) jde * (1 / 10)) in
  let '(s, b, r) := TrueVSOP87 e jde in
  let '(dpsi, deps) := Nutation jde in
  let a := AngleFromSec (- (204898 / 10000)) / r in
  let eps := MeanObliquity jde + deps in
  let ra := fst (EclToEq (s + dpsi + a) b (sin eps) (cos eps)) in
  let E := L0 - AngleFromDeg (57183 / 10000000) - ra + dpsi * cos eps in
  Mod1 (E + PI) - PI.

(** eqtime/eqtime.go:54-67 *)
Definition ESmart (jde : R) : R :=
  let eps := MeanObliquity jde in
  let t := tan (eps * (1 / 2)) in
  let y := t * t in
  let T := J2000Century (fl := RFlt) jde in
  let L0 := l0 (T * (1 / 10)) in
  let e := solarEccentricity T in
  let M := MeanAnomaly T in
  y * sin (L0 * 2) - 2 * e * sin M + 4 * e * y * sin M * cos (L0 * 2) - y * y * sin (L0 * 2) * cos (L0 * 2) - 5 / 4 * e * e * sin (M * 2).

(** ** solarxyz *)

(** solarxyz/solarxyz.go:19-29 *)
Definition XYZ (e : @V87Planet R) (jde : R) : R * R * R :=
  let '(s, b, r) := TrueVSOP87 e jde in
  let se := sin (MeanObliquity jde) in let ce := cos (MeanObliquity jde) in
  (r * cos s, r * (sin s * ce - sin b * se), r * (sin s * se + sin b * ce)).

(** solarxyz/solarxyz.go:32-35 *)
Definition LongitudeJ2000 (e : @V87Planet R) (jde : R) : R :=
  let '(l, _, _) := Position2000 e jde in Mod1 (l + PI - AngleFromSec (9033 / 100000)).

(** solarxyz/solarxyz.go:46-57 *)
Definition xyz (e : @V87Planet R) (jde : R) : R * R * R :=
  let '(l, b, r) := Position2000 e jde in
  let s := l + PI in let b' := - b in
  (r * cos b' * cos s, r * cos b' * sin s, r * sin b').

(** solarxyz/solarxyz.go:38-44 *)
Definition PositionJ2000 (e : @V87Planet R) (jde : R) : R * R * R :=
  let '(x, y, z) := xyz e jde in
  (x + 44036 / 100000000000 * y - 190919 / 1000000000000 * z,
   - (479966 / 1000000000000) * x + 917482137087 / 1000000000000 * y - 397776982902 / 1000000000000 * z,
   397776982902 / 1000000000000 * y + 917482137087 / 1000000000000 * z).

(** solarxyz/solarxyz.go:63-68 *)
Definition PositionB1950 (e : @V87Planet R) (jde : R) : R * R * R :=
  let '(x, y, z) := xyz e jde in
  (999925702634 / 1000000000000 * x + 12189716217 / 1000000000000 * y + 11134016 / 1000000000000 * z,
   - (11179418036 / 1000000000000) * x + 917413998946 / 1000000000000 * y - 397777041885 / 1000000000000 * z,
   - (4859003787 / 1000000000000) * x + 397747363646 / 1000000000000 * y + 917482111428 / 1000000000000 * z).

(** solarxyz/solarxyz.go:70-74, 80-101 *)
Definition PositionEquinox (e : @V87Planet R) (jde epoch : R) : R * R * R :=
  let '(x0, y0, z0) := PositionJ2000 e jde in
  let t := (epoch - 2000) * (1 / 100) in
  let zeta := HornerR t [23062181 / 10000; 30188 / 100000; 17998 / 1000000] * t * PI / 180 / 3600 in
  let z := HornerR t [23062181 / 10000; 109468 / 100000; 18203 / 1000000] * t * PI / 180 / 3600 in
  let theta := HornerR t [20043109 / 10000; - (42665 / 100000); - (41833 / 1000000)] * t * PI / 180 / 3600 in
  let xx := cos zeta * cos z * cos theta - sin zeta * sin z in
  let xy := sin zeta * cos z + cos zeta * sin z * cos theta in
  let xz := cos zeta * sin theta in
  let yx := - cos zeta * sin z - sin zeta * cos z * cos theta in
  let yy := cos zeta * cos z - sin zeta * sin z * cos theta in
  let yz := - sin zeta * sin theta in
  let zx := - cos z * sin theta in
  let zy := - sin z * sin theta in
  let zz := cos theta in
  (xx * x0 + yx * y0 + zx * z0, xy * x0 + yy * y0 + zy * z0, xz * x0 + yz * y0 + zz * z0).
