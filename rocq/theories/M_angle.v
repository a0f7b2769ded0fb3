(** Models of packages angle, line and circle (v3/angle, v3/line, v3/circle), on
    exact reals (see GoMath). *)
From Coq Require Import ZArith Reals Bool List Lra.
From Verif Require Import GoInt GoFloat GoMath M_interp.
Import ListNotations.
Local Open Scope R_scope.

(** base/math.go:12-15 *)
Definition SmallAngle : R := AngleFromMin 10.
Definition CosSmallAngle : R := cos SmallAngle.
(** base/math.go:20-23 *)
Definition Hav (a : R) : R := 5 / 10 * (1 - cos a).

(** angle/angle.go:28-37 *)
Definition Sep (r1 d1 r2 d2 : R) : R :=
  let cd := sin d1 * sin d2 + cos d1 * cos d2 * cos (r1 - r2) in
  if Rlt_dec cd CosSmallAngle then acos cd
  else hypot ((r2 - r1) * cos d1) (d2 - d1).

(** angle/angle.go:124-128 *)
Definition SepHav (r1 d1 r2 d2 : R) : R :=
  2 * asin (sqrt (Hav (d2 - d1) + cos d1 * cos d2 * Hav (r2 - r1))).

(** angle/angle.go:133-141 *)
Definition SepPauwels (r1 d1 r2 d2 : R) : R :=
  let cdr := cos (r2 - r1) in
  let x := cos d1 * sin d2 - sin d1 * cos d2 * cdr in
  let y := cos d2 * sin (r2 - r1) in
  let z := sin d1 * sin d2 + cos d1 * cos d2 * cdr in
  atan2 (hypot x y) z.

(** angle/angle.go:147-151 *)
Definition RelativePosition (r1 d1 r2 d2 : R) : R :=
  atan2 (sin (r2 - r1)) (cos d2 * tan d1 - sin d2 * cos (r2 - r1)).

(** angle/angle.go:49-63.  The slices are lists; the error results are those of
    package interp. *)
Definition MinSep (jd1 jd3 : R) (r1 d1 r2 d2 : list R) : result R :=
  match r1, d1, r2, d2 with
  | [r10; r11; r12], [d10; d11; d12], [r20; r21; r22], [d20; d21; d22] =>
      match NewLen3 (fl := RFlt) jd1 jd3 [Sep r10 d10 r20 d20; Sep r11 d11 r21 d21; Sep r12 d12 r22 d22] with
      | Err e => Err e
      | Ok d3 => match Len3_Extremum (fl := RFlt) d3 with
                 | Err e => Err e
                 | Ok (_, dMin) => Ok dMin
                 end
      end
  | _, _, _, _ => Err ErrorNot3
  end.

(** angle/angle.go:73-83, the closure uv. *)
Definition MinSepRect_uv (r1 d1 r2 d2 : R) : R * R :=
  let dr := r2 - r1 in
  let t := tan dr in
  let th := tan (dr / 2) in
  let K := 1 / (1 + sin d1 * sin d1 * t * th) in
  let sd := sin (d2 - d1) in
  (- K * (1 - sin d1 / cos d1 * sd) * cos d1 * t,
   K * (sd + sin d1 * cos d1 * t * th)).

(** line/line.go:29-34 on one row. *)
Definition Time_gc (r1 d1 r2 d2 r3 d3 : R) : R :=
  tan d1 * sin (r2 - r3) + tan d2 * sin (r3 - r1) + tan d3 * sin (r1 - r2).

(** line/line.go:24-40.  Reals with infinities and NaN, because interp.Len5.Zero
    may divide by zero.  [None] is the length error of this function. *)
Definition Time (r1 d1 r2 d2 : R) (r3 d3 : list R) (t1 t5 : R) : option (result xreal) :=
  if (Nat.eqb (length r3) 5 && Nat.eqb (length d3) 5)%bool then
    let gc := map (fun '(r, d) => Time_gc r1 d1 r2 d2 r d) (combine r3 d3) in
    Some (match NewLen5 (fl := XFlt) (Fin t1) (Fin t5) (map Fin gc) with
          | Err e => Err e
          | Ok l5 => Len5_Zero (fl := XFlt) l5 false
          end)
  else None.

(** line/line.go:49-56 *)
Definition Angle (r1 d1 r2 d2 r3 d3 : R) : R :=
  let C1 := atan2 (sin (r2 - r1)) (cos d2 * tan d1 - sin d2 * cos (r2 - r1)) in
  let C2 := atan2 (sin (r3 - r2)) (cos d2 * tan d3 - sin d2 * cos (r3 - r2)) in
  C1 + C2.

(** line/line.go:64-82 *)
Definition Error (r1 d1 r2 d2 r0 d0 : R) : R :=
  let X1 := cos d1 * cos r1 in
  let X2 := cos d2 * cos r2 in
  let Y1 := cos d1 * sin r1 in
  let Y2 := cos d2 * sin r2 in
  let Z1 := sin d1 in
  let Z2 := sin d2 in
  let A := Y1 * Z2 - Z1 * Y2 in
  let B := Z1 * X2 - X1 * Z2 in
  let C := X1 * Y2 - Y1 * X2 in
  let m := tan r0 in
  let n := tan d0 / cos r0 in
  asin ((A + B * m + C * n) / (sqrt (A * A + B * B + C * C) * sqrt (1 + m * m + n * n))).

(** line/line.go:88-118 *)
Definition AngleError (r1 d1 r2 d2 r3 d3 : R) : R * R :=
  let a1 := cos d1 * cos r1 in let a2 := cos d2 * cos r2 in let a3 := cos d3 * cos r3 in
  let b1 := cos d1 * sin r1 in let b2 := cos d2 * sin r2 in let b3 := cos d3 * sin r3 in
  let c1 := sin d1 in let c2 := sin d2 in let c3 := sin d3 in
  let l1 := b1 * c2 - b2 * c1 in let l2 := b2 * c3 - b3 * c2 in let l3 := b1 * c3 - b3 * c1 in
  let m1 := c1 * a2 - c2 * a1 in let m2 := c2 * a3 - c3 * a2 in let m3 := c1 * a3 - c3 * a1 in
  let n1 := a1 * b2 - a2 * b1 in let n2 := a2 * b3 - a3 * b2 in let n3 := a1 * b3 - a3 * b1 in
  (acos ((l1 * l2 + m1 * m2 + n1 * n2) /
         (sqrt (l1 * l1 + m1 * m1 + n1 * n1) * sqrt (l2 * l2 + m2 * m2 + n2 * n2))),
   asin ((a2 * l3 + b2 * m3 + c2 * n3) /
         (sqrt (a2 * a2 + b2 * b2 + c2 * c2) * sqrt (l3 * l3 + m3 * m3 + n3 * n3)))).

(** circle/circle.go:22-43 *)
Definition Smallest (r1 d1 r2 d2 r3 d3 : R) : R * bool :=
  let a := 2 * asin (sqrt (Hav (d2 - d1) + cos d1 * cos d2 * Hav (r2 - r1))) in
  let b := 2 * asin (sqrt (Hav (d3 - d2) + cos d2 * cos d3 * Hav (r3 - r2))) in
  let c := 2 * asin (sqrt (Hav (d1 - d3) + cos d3 * cos d1 * Hav (r1 - r3))) in
  let '(a, b) := if Rlt_dec a b then (b, a) else (a, b) in
  let '(a, c) := if Rlt_dec a c then (c, a) else (a, c) in
  if Rle_dec (b * b + c * c) (a * a) then (a, true)
  else (2 * a * b * c / sqrt ((a + b + c) * (a + b - c) * (b + c - a) * (a + c - b)), false).
