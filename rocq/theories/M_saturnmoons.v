(** Model of package saturnmoons: /repo/v3/saturnmoons/saturnmoons.go.  Over the reals. *)
From Coq Require Import ZArith Reals List.
From Verif Require Import GoFloat GoMath M_base M_coord M_precess M_vsop M_solar M_physical.
Import ListNotations.
Local Open Scope R_scope.

(** saturnmoons/saturnmoons.go:21 *)
Definition d_ : R := PI / 180.
(** saturnmoons/saturnmoons.go:121-155: the quantities of newQs *)
Definition q_t1 (J : R) : R := J - 2411093.
Definition q_t2 (J : R) : R := q_t1 J / 365.25.
Definition q_t3 (J : R) : R := (J - 2433282.423) / 365.25 + 1950.
Definition q_t4 (J : R) : R := J - 2411368.
Definition q_t5 (J : R) : R := q_t4 J / 365.25.
Definition q_t6 (J : R) : R := J - 2415020.
Definition q_t7 (J : R) : R := q_t6 J / 36525.
Definition q_t8 (J : R) : R := q_t6 J / 365.25.
Definition q_t9 (J : R) : R := (J - 2442000.5) / 365.25.
Definition q_t10 (J : R) : R := J - 2409786.
Definition q_t11 (J : R) : R := q_t10 J / 36525.
Definition W0 (J : R) : R := 5.095 * d_ * (q_t3 J - 1866.39).
Definition W1 (J : R) : R := 74.4 * d_ + 32.39 * d_ * q_t2 J.
Definition W2 (J : R) : R := 134.3 * d_ + 92.62 * d_ * q_t2 J.
Definition W3 (J : R) : R := 42 * d_ - 0.5118 * d_ * q_t5 J.
Definition W4 (J : R) : R := 276.59 * d_ + 0.5118 * d_ * q_t5 J.
Definition W5 (J : R) : R := 267.2635 * d_ + 1222.1136 * d_ * q_t7 J.
Definition W6 (J : R) : R := 175.4762 * d_ + 1221.5515 * d_ * q_t7 J.
Definition W7 (J : R) : R := 2.4891 * d_ + 0.002435 * d_ * q_t7 J.
Definition W8 (J : R) : R := 113.35 * d_ - 0.2597 * d_ * q_t7 J.
Definition s1 : R := sin (28.0817 * d_).
Definition c1 : R := cos (28.0817 * d_).
Definition s2 : R := sin (168.8112 * d_).
Definition c2 : R := cos (168.8112 * d_).
Definition e1 (J : R) : R := 0.05589 - 0.000346 * q_t7 J.

(** saturnmoons/saturnmoons.go:157 *)
Record r4 := mkr4 { r4_l : R; r4_r : R; r4_g : R; r4_O : R }.

(** saturnmoons/saturnmoons.go:159-171 *)
Definition mimas (J : R) : r4 :=
  let L := 127.64 * d_ + 381.994497 * d_ * q_t1 J - 43.57 * d_ * sin (W0 J) - 0.72 * d_ * sin (3 * W0 J) - 0.02144 * d_ * sin (5 * W0 J) in
  let p := 106.1 * d_ + 365.549 * d_ * q_t2 J in
  let M := L - p in
  let C := 2.18287 * d_ * sin M + 0.025988 * d_ * sin (2 * M) + 0.00043 * d_ * sin (3 * M) in
  mkr4 (L + C) (3.06879 / (1 + 0.01905 * cos (M + C))) (1.563 * d_) (54.5 * d_ - 365.072 * d_ * q_t2 J).
(** saturnmoons/saturnmoons.go:173-183 *)
Definition enceladus (J : R) : r4 :=
  let L := 200.317 * d_ + 262.7319002 * d_ * q_t1 J + 0.25667 * d_ * sin (W1 J) + 0.20883 * d_ * sin (W2 J) in
  let p := 309.107 * d_ + 123.44121 * d_ * q_t2 J in
  let M := L - p in
  let C := 0.55577 * d_ * sin M + 0.00168 * d_ * sin (2 * M) in
  mkr4 (L + C) (3.94118 / (1 + 0.00485 * cos (M + C))) (0.0262 * d_) (348 * d_ - 151.95 * d_ * q_t2 J).
(** saturnmoons/saturnmoons.go:184-191 *)
Definition tethys (J : R) : r4 :=
  mkr4 (285.306 * d_ + 190.69791226 * d_ * q_t1 J + 2.063 * d_ * sin (W0 J) + 0.03409 * d_ * sin (3 * W0 J) + 0.001015 * d_ * sin (5 * W0 J))
       4.880998 (1.0976 * d_) (111.33 * d_ - 72.2441 * d_ * q_t2 J).
(** saturnmoons/saturnmoons.go:192-202 *)
Definition dione (J : R) : r4 :=
  let L := 254.712 * d_ + 131.53493193 * d_ * q_t1 J - 0.0215 * d_ * sin (W1 J) - 0.01733 * d_ * sin (W2 J) in
  let p := 174.8 * d_ + 30.82 * d_ * q_t2 J in
  let M := L - p in
  let C := 0.24717 * d_ * sin M + 0.00033 * d_ * sin (2 * M) in
  mkr4 (L + C) (6.24871 / (1 + 0.002157 * cos (M + C))) (0.0139 * d_) (232 * d_ - 30.27 * d_ * q_t2 J).

(** saturnmoons/saturnmoons.go:221-229: the equation of the centre *)
Definition sub_C (M e : R) : R :=
  (2 * e - 0.25 * e ^ 3 + 0.0520833333 * e ^ 5) * sin M + (1.25 * e ^ 2 - 0.458333333 * e ^ 4) * sin (2 * M) +
  (1.083333333 * e ^ 3 - 0.671875 * e ^ 5) * sin (3 * M) + 1.072917 * e ^ 4 * sin (4 * M) + 1.142708 * e ^ 5 * sin (5 * M).
(** saturnmoons/saturnmoons.go:220-243 *)
Definition subr (l' p e a Om i : R) : r4 :=
  let M := l' - p in
  let C := sub_C M e in
  let r := a * (1 - e ^ 2) / (1 + e * cos (M + C)) in
  let g := Om - 168.8112 * d_ in
  let a1 := sin i * sin g in
  let a2 := c1 * sin i * cos g - s1 * cos i in
  let u := atan2 a1 a2 in
  let h := c1 * sin i - s1 * cos i * cos g in
  let psi := atan2 (s1 * sin g) h in
  mkr4 (l' + C + u - g - psi) r (asin (hypot a1 a2)) (168.8112 * d_ + u).

(** saturnmoons/saturnmoons.go:204-218 *)
Definition rhea (J : R) : r4 :=
  let p' := 342.7 * d_ + 10.057 * d_ * q_t2 J in
  let a1 := 0.000265 * sin p' + 0.001 * sin (W4 J) in
  let a2 := 0.000265 * cos p' + 0.001 * cos (W4 J) in
  let e := hypot a1 a2 in
  let p := atan2 a1 a2 in
  let N := 345 * d_ - 10.057 * d_ * q_t2 J in
  let l' := 359.244 * d_ + 79.6900472 * d_ * q_t1 J + 0.086754 * d_ * sin N in
  let i := 28.0362 * d_ + 0.346898 * d_ * cos N + 0.0193 * d_ * cos (W3 J) in
  let Om := 168.8034 * d_ + 0.736936 * d_ * sin N + 0.041 * d_ * sin (W3 J) in
  subr l' p e 8.725924 Om i.

(** saturnmoons/saturnmoons.go:245-283 *)
Definition titan_w (J g g0 : R) : R := W4 J + 0.37515 * d_ * (sin (2 * g) - sin (2 * g0)).
Definition titan (J : R) : r4 :=
  let L := 261.1582 * d_ + 22.57697855 * d_ * q_t4 J + 0.074025 * d_ * sin (W3 J) in
  let i' := 27.45141 * d_ + 0.295999 * d_ * cos (W3 J) in
  let Om' := 168.66925 * d_ + 0.628808 * d_ * sin (W3 J) in
  let a1 := sin (W7 J) * sin (Om' - W8 J) in
  let a2 := cos (W7 J) * sin i' - sin (W7 J) * cos i' * cos (Om' - W8 J) in
  let g0 := 102.8623 * d_ in
  let psi := atan2 a1 a2 in
  let s := hypot a1 a2 in
  let g := W4 J - Om' - psi in
  let w := titan_w J g g0 in let g := w - Om' - psi in
  let w := titan_w J g g0 in let g := w - Om' - psi in
  let w := titan_w J g g0 in let g := w - Om' - psi in
  let e' := 0.029092 + 0.00019048 * (cos (2 * g) - cos (2 * g0)) in
  let qq := 2 * (W5 J - w) in
  let b1 := sin i' * sin (Om' - W8 J) in
  let b2 := cos (W7 J) * sin i' * cos (Om' - W8 J) - sin (W7 J) * cos i' in
  let th := atan2 b1 b2 + W8 J in
  let e := e' + 0.002778797 * e' * cos qq in
  let p := w + 0.159215 * d_ * sin qq in
  let u := 2 * W5 J - 2 * th + psi in
  let h := 0.9375 * e' * e' * sin qq + 0.1875 * s * s * sin (2 * (W5 J - th)) in
  let l' := L - 0.254744 * d_ * (e1 J * sin (W6 J) + 0.75 * e1 J * e1 J * sin (2 * W6 J) + h) in
  let i := i' + 0.031843 * d_ * s * cos u in
  let Om := Om' + 0.031843 * d_ * s * sin u / sin i' in
  subr l' p e 20.216193 Om i.

(** saturnmoons/saturnmoons.go:285-319 *)
Definition hyperion (J : R) : r4 :=
  let eta := 92.39 * d_ + 0.5621071 * d_ * q_t6 J in
  let zeta := 148.19 * d_ - 19.18 * d_ * q_t8 J in
  let th := 184.8 * d_ - 35.41 * d_ * q_t9 J in
  let th' := th - 7.5 * d_ in
  let as_ := 176 * d_ + 12.22 * d_ * q_t8 J in
  let bs := 8 * d_ + 24.44 * d_ * q_t8 J in
  let cs := bs + 5 * d_ in
  let w := 69.898 * d_ - 18.67088 * d_ * q_t8 J in
  let phi := 2 * (w - W5 J) in
  let chi := 94.9 * d_ - 2.292 * d_ * q_t8 J in
  let a := 24.50601 - 0.08686 * cos eta - 0.00166 * cos (zeta + eta) + 0.00175 * cos (zeta - eta) in
  let e := 0.103458 - 0.004099 * cos eta - 0.000167 * cos (zeta + eta) + 0.000235 * cos (zeta - eta) +
    0.02303 * cos zeta - 0.00212 * cos (2 * zeta) + 0.000151 * cos (3 * zeta) + 0.00013 * cos phi in
  let p := w + 0.15648 * d_ * sin chi - 0.4457 * d_ * sin eta - 0.2657 * d_ * sin (zeta + eta) - 0.3573 * d_ * sin (zeta - eta) -
    12.872 * d_ * sin zeta + 1.668 * d_ * sin (2 * zeta) - 0.2419 * d_ * sin (3 * zeta) - 0.07 * d_ * sin phi in
  let l' := 177.047 * d_ + 16.91993829 * d_ * q_t6 J + 0.15648 * d_ * sin chi + 9.142 * d_ * sin eta +
    0.007 * d_ * sin (2 * eta) - 0.014 * d_ * sin (3 * eta) + 0.2275 * d_ * sin (zeta + eta) + 0.2112 * d_ * sin (zeta - eta) -
    0.26 * d_ * sin zeta - 0.0098 * d_ * sin (2 * zeta) - 0.013 * d_ * sin as_ + 0.017 * d_ * sin bs - 0.0303 * d_ * sin phi in
  let i := 27.3347 * d_ + 0.6434886 * d_ * cos chi + 0.315 * d_ * cos (W3 J) + 0.018 * d_ * cos th - 0.018 * d_ * cos cs in
  let Om := 168.6812 * d_ + 1.40136 * d_ * cos chi + 0.68599 * d_ * sin (W3 J) - 0.0392 * d_ * sin cs + 0.0366 * d_ * sin th' in
  subr l' p e a Om i.

(** saturnmoons/saturnmoons.go:321-368 *)
Definition iap_i (J : R) : R := HornerR (q_t11 J) [18.4602 * d_; - 0.9518 * d_; - 0.072 * d_; 0.0054 * d_].
Definition iap_O (J : R) : R := HornerR (q_t11 J) [143.198 * d_; - 3.919 * d_; 0.116 * d_; 0.008 * d_].
Definition iapetus (J : R) : r4 :=
  let L := 261.1582 * d_ + 22.57697855 * d_ * q_t4 J in
  let wp := 91.796 * d_ + 0.562 * d_ * q_t7 J in
  let psi := 4.367 * d_ - 0.195 * d_ * q_t7 J in
  let th := 146.819 * d_ - 3.198 * d_ * q_t7 J in
  let phi := 60.47 * d_ + 1.521 * d_ * q_t7 J in
  let Phi := 205.055 * d_ - 2.091 * d_ * q_t7 J in
  let e' := 0.028298 + 0.001156 * q_t11 J in
  let w0 := 352.91 * d_ + 11.71 * d_ * q_t11 J in
  let mu := 76.3852 * d_ + 4.53795125 * d_ * q_t10 J in
  let i' := iap_i J in
  let Om' := iap_O J in
  let l := mu - w0 in
  let g := w0 - Om' - psi in
  let g1 := w0 - Om' - phi in
  let ls := W5 J - wp in
  let gs := wp - th in
  let lT := L - W4 J in
  let gT := W4 J - Phi in
  let u1 := 2 * (l + g - ls - gs) in
  let u2 := l + g1 - lT - gT in
  let u3 := l + 2 * (g - ls - gs) in
  let u4 := lT + gT - g1 in
  let u5 := 2 * (ls + gs) in
  let x5 := l + g1 + lT + gT + phi in
  let a := 58.935028 + 0.004638 * cos u1 + 0.058222 * cos u2 in
  let e := e' - 0.0014097 * cos (g1 - gT) + 0.0003733 * cos (u5 - 2 * g) +
    0.000118 * cos u3 + 0.0002408 * cos l + 0.0002849 * cos (l + u2) + 0.000619 * cos u4 in
  let w := 0.08077 * d_ * sin (g1 - gT) + 0.02139 * d_ * sin (u5 - 2 * g) - 0.00676 * d_ * sin u3 +
    0.0138 * d_ * sin l + 0.01632 * d_ * sin (l + u2) + 0.03547 * d_ * sin u4 in
  let p := w0 + w / e' in
  let l' := mu - 0.04299 * d_ * sin u2 - 0.00789 * d_ * sin u1 - 0.06312 * d_ * sin ls -
    0.00295 * d_ * sin (2 * ls) - 0.02231 * d_ * sin u5 + 0.0065 * d_ * sin (u5 + psi) in
  let i := i' + 0.04204 * d_ * cos (u5 + psi) + 0.00235 * d_ * cos x5 + 0.0036 * d_ * cos (u2 + phi) in
  let w' := 0.04204 * d_ * sin (u5 + psi) + 0.00235 * d_ * sin x5 + 0.00358 * d_ * sin (u2 + phi) in
  let Om := Om' + w' / sin i' in
  subr l' p e a Om i.

(** saturnmoons/saturnmoons.go:66-77: rectangular coordinates in the plane of Saturn's equator *)
Definition sat_xyz (m : r4) : R * R * R :=
  let u := r4_l m - r4_O m in let w := r4_O m - 168.8112 * d_ in let r := r4_r m in let g := r4_g m in
  (r * (cos u * cos w - sin u * cos g * sin w), r * (sin u * cos w * cos g + cos u * sin w), r * sin u * sin g).
(** saturnmoons/saturnmoons.go:82-95: the three rotations *)
Definition sat_rot (l0 b0 : R) (v : R * R * R) : R * R * R :=
  let '(X, Y, Z) := v in
  let a := X in let b := c1 * Y - s1 * Z in let c := s1 * Y + c1 * Z in
  let a' := c2 * a - s2 * b in let b' := s2 * a + c2 * b in
  let A := a' * sin l0 - b' * cos l0 in let b'' := a' * cos l0 + b' * sin l0 in
  (A, b'' * cos b0 + c * sin b0, c * cos b0 - b'' * sin b0).
(** saturnmoons/saturnmoons.go:96-107: one moon, with the angle D of the pole, distance Delta and the constant k *)
Definition sat_sky (D : R) (v : R * R * R) : R * R * R :=
  let '(A, B, C) := v in (A * cos D - C * sin D, A * sin D + C * cos D, B).
Definition sat_project (Delta r k : R) (v : R * R * R) : R * R :=
  let '(X, Y, Z) := v in
  let d := X / r in
  let X' := X + Rabs Z / k * sqrt (1 - d * d) in
  let W := Delta / (Delta + Z / 2475) in (X' * W, Y * W).
(** saturnmoons/saturnmoons.go:33-46: one evaluation of the closure f; (x, y, z), the new distance and the time JDE *)
Definition sat_place (jde s b R0 : R) (saturn : @V87Planet R) (Delta : R) : R * R * R * R * R :=
  let JDE := jde - LightTime Delta in
  let '(l, b', r) := PlanetPosition saturn JDE in
  let '(l, b') := ToFK5 l b' JDE in
  let x := r * cos b' * cos l + R0 * cos s in
  let y := r * cos b' * sin l + R0 * sin s in
  let z := r * sin b' + R0 * sin b in (x, y, z, sqrt (x * x + y * y + z * z), JDE).
(** saturnmoons/saturnmoons.go:29-54: direction of Saturn for the equinox B1950, its distance, and the time of the light *)
Definition sat_direction (jde : R) (earth saturn : @V87Planet R) : R * R * R * R :=
  let '(s, b, R0) := TrueVSOP87 earth jde in
  let '(_, _, _, D1, _) := sat_place jde s b R0 saturn 9 in
  let '(x, y, z, D2, JDE) := sat_place jde s b R0 saturn D1 in
  let l0 := atan2 y x in let b0 := atan (z / hypot x y) in
  let ecl := EclipticPosition (mkEcl l0 b0) (JDEToJulianYear (fl := RFlt) jde) (JDEToJulianYear (fl := RFlt) 2433282.4235) 0 0 in
  (eclLon ecl, eclLat ecl, D2, JDE).
(** saturnmoons/saturnmoons.go:55-65, 111 *)
Definition sat_moons (J : R) : list (r4 * R) :=
  [(mimas J, 20947); (enceladus J, 23715); (tethys J, 26382); (dione J, 29876); (rhea J, 35313); (titan J, 53800); (hyperion J, 59222); (iapetus J, 91820)].
Definition sat_D (l0 b0 : R) : R := let '(A0, _, C0) := sat_rot l0 b0 (0, 0, 1) in atan2 A0 C0.
(** saturnmoons/saturnmoons.go:28-109.  The array pos is a list. *)
Definition SaturnPositions (jde : R) (earth saturn : @V87Planet R) : list (R * R) :=
  let '(l0, b0, Delta, J) := sat_direction jde earth saturn in
  map (fun mk => let '(m, k) := mk in sat_project Delta (r4_r m) k (sat_sky (sat_D l0 b0) (sat_rot l0 b0 (sat_xyz m)))) (sat_moons J).
