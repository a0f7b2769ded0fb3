(** Models of packages sidereal and rise (v3/sidereal/sidereal.go, v3/rise/rise.go)
    on exact reals (see GoMath).  A unit.Time is a real number of seconds. *)
From Coq Require Import ZArith Reals List Lra Bool.
From Flocq Require Import Core.
From Verif Require Import GoFloat GoMath M_base M_interp M_coord M_precess.
Import ListNotations.
Local Open Scope R_scope.

(** ** sidereal *)

(** unit.TimeFromDay; unit.HourAngle.Time *)
Definition TimeFromDay (d : R) : R := d * 86400.
Definition HATime (h : R) : R := TimeFromRad h.

(** sidereal/sidereal.go:22-25 *)
Definition jdToCFrac (jd : R) : R * R :=
  (J2000Century (fl := RFlt) (Modf_int (jd + 1 / 2) - 1 / 2)%R, Modf_frac (jd + 1 / 2)).

(** sidereal/sidereal.go:32 *)
Definition iau82 : list R := [2411054841 / 100000; 8640184812866 / 1000000; 93104 / 1000000; 62 / 10000000].

(** sidereal/sidereal.go:55-59 *)
Definition mean0UT (jd : R) : R * R :=
  let '(cen, f) := jdToCFrac jd in (HornerR cen iau82, TimeFromDay f).
(** sidereal/sidereal.go:42-45 *)
Definition mean (jd : R) : R := let '(s, f) := mean0UT jd in s + f * (100273790935 / 100000000000).
(** sidereal/sidereal.go:38-40 *)
Definition Mean (jd : R) : R := TimeMod1 (mean jd).
(** sidereal/sidereal.go:50-53 *)
Definition Mean0UT (jd : R) : R := TimeMod1 (fst (mean0UT jd)).
(** sidereal/sidereal.go:66-70; [nutRA] is nutation.NutationInRA. *)
Definition Apparent (nutRA : R -> R) (jd : R) : R := TimeMod1 (mean jd + HATime (nutRA jd)).
(** sidereal/sidereal.go:76-83 *)
Definition Apparent0UT (nutRA : R -> R) (jd : R) : R :=
  let j0 := Modf_int (jd + 1 / 2) in
  let f := Modf_frac (jd + 1 / 2) in
  let cen := (j0 - 1 / 2 - J2000 (fl := RFlt)) / 36525 in
  let s := HornerR cen iau82 + TimeFromDay (f * (100273790935 / 100000000000)) in
  TimeMod1 (s + HATime (nutRA j0)).

(** ** rise *)

(** rise/rise.go:31-41 *)
Definition meanRefraction : R := AngleFromMin 34.
Definition Stdh0Stellar : R := AngleFromMin (-34).
Definition Stdh0Solar : R := AngleFromMin (-50).
Definition Stdh0LunarMean : R := AngleFromDeg (125 / 1000).
(** rise/rise.go:45-47 *)
Definition Stdh0Lunar (p : R) : R := p * (7275 / 10000) - meanRefraction.

(** rise/rise.go:67-86.  [None] is ErrorCircumpolar; otherwise rise, transit, set. *)
Definition ApproxTimes (p : Coord) (h0 Th0 a d : R) : option (R * R * R) :=
  let cH0 := (sin h0 - sin (Lat p) * sin d) / (cos (Lat p) * cos d) in
  if Rlt_bool cH0 (-1) || Rlt_bool 1 cH0 then None
  else
    let H0 := TimeFromRad (acos cH0) in
    let mt := TimeFromRad (a + Lon p) - Th0 in
    Some (TimeMod1 (mt - H0), TimeMod1 mt, TimeMod1 (mt + H0)).

(** Result of a call: a panic (index out of range), an error, or a value. *)
Inductive outcome (A : Type) := Panic | Fail | Ret (a : A).
Arguments Panic {A}. Arguments Fail {A}. Arguments Ret {A} _.

(** rise/rise.go:113-120: copying a slice into a new one of length 3. *)
Definition copy3 (l : list R) : option (list R) :=
  if Nat.leb (length l) 3 then Some (l ++ repeat 0 (3 - length l)) else None.

(** 360.985647/360 *)
Definition sidRate : R := 360985647 / 1000000 / 360.

(** rise/rise.go:130-137 *)
Definition adjustTransit (p : Coord) (DT Th0 : R) (d3a : R -> R) (t : R) : R :=
  let th0 := TimeMod1 (Th0 + t * sidRate) in
  let a := d3a (t + DT) in
  let H := th0 - TimeFromRad (Lon p + a) in
  t - H.
(** rise/rise.go:140-151 *)
Definition adjustRS (p : Coord) (DT h0 Th0 : R) (d3a d3d : R -> R) (m : R) : R :=
  let th0 := TimeMod1 (Th0 + m * sidRate) in
  let ut := m + DT in
  let a := d3a ut in
  let d := d3d ut in
  let Hrad := TimeRad th0 - Lon p - a in
  let h := asin (sin (Lat p) * sin d + cos (Lat p) * cos d * cos Hrad) in
  let md := (TimeFromRad h - TimeFromRad h0) / (cos d * cos (Lat p) * sin Hrad) in
  m + md.

(** rise/rise.go:107-158 *)
Definition Times (p : Coord) (DT h0 Th0 : R) (a3 d3 : list R) : outcome (R * R * R) :=
  match nth_error a3 1, nth_error d3 1 with
  | Some a1, Some d1 =>
      match ApproxTimes p h0 Th0 a1 d1 with
      | None => Fail
      | Some (tr, tm, ts) =>
          match copy3 a3, copy3 d3 with
          | Some af, Some df =>
              match NewLen3 (fl := RFlt) (-86400) 86400 af, NewLen3 (fl := RFlt) (-86400) 86400 df with
              | Ok d3a, Ok d3d =>
                  Ret (adjustRS p DT h0 Th0 (Len3_InterpolateX d3a) (Len3_InterpolateX d3d) tr,
                       adjustTransit p DT Th0 (Len3_InterpolateX d3a) tm,
                       adjustRS p DT h0 Th0 (Len3_InterpolateX d3a) (Len3_InterpolateX d3d) ts)
              | _, _ => Fail
              end
          | _, _ => Panic
          end
      end
  | _, _ => Panic
  end.
