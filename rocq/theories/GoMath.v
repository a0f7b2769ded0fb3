(** Go's math package and github.com/soniakeys/unit on exact reals.

    sin, cos, tan, asin, acos, atan, sqrt are those of Coq's standard library.
    Outside the domain of asin, acos, sqrt and for a zero divisor Go yields NaN
    or an infinity while Coq's total functions yield some real number: theorems
    carry the hypotheses that exclude these cases, or prove that they cannot
    occur.  Zero is unsigned: Go distinguishes Atan2(-0, x) from Atan2(+0, x). *)
From Coq Require Import ZArith Reals Lra Bool.
From Flocq Require Import Core.
Local Open Scope R_scope.

(** math.Atan2 *)
Definition atan2 (y x : R) : R :=
  if Rlt_dec 0 x then atan (y / x)
  else if Rlt_dec x 0 then (if Rle_dec 0 y then atan (y / x) + PI else atan (y / x) - PI)
  else if Rlt_dec 0 y then PI / 2 else if Rlt_dec y 0 then - (PI / 2) else 0.

(** math.Hypot *)
Definition hypot (x y : R) : R := sqrt (x * x + y * y).

(** math.Floor *)
Definition Floor (x : R) : R := IZR (Zfloor x).

(** math.Modf: integer part (toward zero) and fraction. *)
Definition Modf_int (x : R) : R := IZR (Ztrunc x).
Definition Modf_frac (x : R) : R := x - IZR (Ztrunc x).

(** unit.PMod(x, y) for y > 0: math.Mod(x, y), plus y if negative. *)
Definition PMod (x y : R) : R :=
  let r := x - y * IZR (Ztrunc (x / y)) in
  if Rlt_dec r 0 then r + y else r.

(** unit.Angle.Mod1, unit.RAFromRad *)
Definition Mod1 (x : R) : R := PMod x (2 * PI).
Definition RAFromRad (x : R) : R := PMod x (2 * PI).
Definition RAAdd (a h : R) : R := RAFromRad (a + h).
(** unit.HourAngleFromRad, unit.Time in seconds *)
Definition secPerDay : R := 86400.
Definition TimeFromRad (x : R) : R := x * (43200 / PI).
Definition TimeRad (t : R) : R := t * (PI / 43200).
Definition TimeMod1 (t : R) : R := PMod t 86400.

(** unit.AngleFromDeg, AngleFromMin, AngleFromSec *)
Definition AngleFromDeg (d : R) : R := d * (PI / 180).
Definition AngleFromMin (m : R) : R := m * (PI / 180 / 60).
Definition AngleFromSec (s : R) : R := s * (PI / 180 / 3600).
Definition AngleDeg (a : R) : R := a * (180 / PI).
