(** Model of package julian (v3/julian/julian.go). *)
From Coq Require Import ZArith Bool List Reals.
From Verif Require Import GoInt GoFloat M_base.
Local Open Scope Z_scope.
Local Open Scope go_scope.

(** julian/julian.go:58-60 *)
Definition LeapYearJulian (y : Z) : bool := y %! 4 =? 0.

(** julian/julian.go:63-65 *)
Definition LeapYearGregorian (y : Z) : bool :=
  ((y %! 4 =? 0) && negb (y %! 100 =? 0)) || (y %! 400 =? 0).

(** julian/julian.go:199-201 *)
Definition wholeMonths (m k : Z) : Z :=
  (275 *! m /! 9 -! k *! ((m +! 9) /! 12)) -! 30.

(** julian/julian.go:176-182.  The year argument is ignored by the code. *)
Definition DayOfYear (y m d : Z) (leap : bool) : Z :=
  let k := if leap then 1 else 2 in
  wholeMonths m k +! d.

(** julian/julian.go:162-164 *)
Definition DayOfYearGregorian (y m d : Z) : Z := DayOfYear y m d (LeapYearGregorian y).
(** julian/julian.go:168-170 *)
Definition DayOfYearJulian (y m d : Z) : Z := DayOfYear y m d (LeapYearJulian y).

(** julian/julian.go:186-197 *)
Definition DayOfYearToCalendar (n : Z) (leap : bool) : Z * Z :=
  let k := if leap then 1 else 2 in
  let m := if n <? 32 then 1
           else (900 *! (k +! n) +! wrap64 (98 * 275)) /! 27500 in
  (m, n -! wholeMonths m k).

(** Integer part of the inverse conversion, julian/julian.go:79-97 (shared text
    of JDToCalendar and jdToCalendarGregorian after [a] is known): returns
    year, month and the integer day of month. *)
Definition calendar_of_a (a : Z) : Z * Z * Z :=
  let b := a +! 1524 in
  let c := floordiv (b *! 100 -! 12210) 36525 in
  let d := floordiv (36525 *! c) 100 in
  let e := floordiv ((b -! d) *! 10000) 306001 in
  let day := (b -! d) -! floordiv (306001 *! e) 10000 in
  let month := if (e =? 14) || (e =? 15) then e -! 13 else e -! 1 in
  let year := if (month =? 1) || (month =? 2) then c -! 4715 else c -! 4716 in
  (year, month, day).

(** julian/julian.go:76-77 and 108-109: the Gregorian correction of [z]. *)
Definition gregorian_a (z : Z) : Z :=
  let alpha := floordiv (z *! 100 -! 186721625) 3652425 in
  (z +! 1 +! alpha) -! floordiv alpha 4.

(** julian/julian.go:74-97 on the integer day number [z]. *)
Definition JDToCalendar_z (z : Z) : Z * Z * Z :=
  calendar_of_a (if 2299151 <=? z then gregorian_a z else z).

(** julian/julian.go:108-128 on the integer day number [z]. *)
Definition jdToCalendarGregorian_z (z : Z) : Z * Z * Z :=
  calendar_of_a (gregorian_a z).

Section Generic.
Context {fl : Flt}.

(** julian/julian.go:30-41 *)
Definition CalendarGregorianToJD (y m : Z) (d : F) : F :=
  let jf := (m =? 1) || (m =? 2) in
  let y := if jf then y -! 1 else y in
  let m := if jf then m +! 12 else m in
  let a := floordiv y 100 in
  let b := (2 -! a) +! floordiv a 4 in
  (fofZ (floordiv (36525 *! (y +! 4716)) 100) +
   fofZ (floordiv (306 *! (m +! 1)) 10 +! b) + d - fconst 15245 10)%flt.

(** julian/julian.go:47-55 *)
Definition CalendarJulianToJD (y m : Z) (d : F) : F :=
  let jf := (m =? 1) || (m =? 2) in
  let y := if jf then y -! 1 else y in
  let m := if jf then m +! 12 else m in
  (fofZ (floordiv (36525 *! (y +! 4716)) 100) +
   fofZ (floordiv (306 *! (m +! 1)) 10) + d - fconst 15245 10)%flt.

(** [math.Modf(jd + .5)] and [int64(zf)], julian/julian.go:72-73 and 106-107.
    [None]: the conversion to int64 is out of range. *)
Definition split_jd (jd : F) : option (Z * F) :=
  let x := (jd + fconst 5 10)%flt in
  let zf := ftrunc x in
  match fint64 zf with
  | Some z => Some (z, (x - zf)%flt)
  | None => None
  end.

(** julian/julian.go:71-98 *)
Definition JDToCalendar (jd : F) : option (Z * Z * F) :=
  match split_jd jd with
  | Some (z, f) => let '(y, m, d) := JDToCalendar_z z in Some (y, m, (fofZ d + f)%flt)
  | None => None
  end.

(** julian/julian.go:105-129 *)
Definition jdToCalendarGregorian (jd : F) : option (Z * Z * F) :=
  match split_jd jd with
  | Some (z, f) => let '(y, m, d) := jdToCalendarGregorian_z z in Some (y, m, (fofZ d + f)%flt)
  | None => None
  end.

(** julian/julian.go:156-158 *)
Definition DayOfWeek (jd : F) : option Z :=
  match fint64 (jd + fconst 15 10)%flt with
  | Some n => Some (n %! 7)
  | None => None
  end.

(** A time.Time in UTC: civil (Gregorian) date and nanoseconds since midnight. *)
Record gotime := { t_year : Z; t_month : Z; t_day : Z; t_nanos : Z }.

(** julian/julian.go:143-149.  [ut.Sub(time.Date(y, m, 0, ...))] is the time
    elapsed since midnight of the day before the first of the month: t_day
    whole days plus the nanoseconds of the day. *)
Definition TimeToJD (t : gotime) : F :=
  let d := t_day t *! 86400000000000 +! t_nanos t in
  CalendarGregorianToJD (t_year t) (t_month t) (fofZ d / fofZ 86400000000000)%flt.

(** julian/julian.go:132-137.  The result is an instant described as
    (year, month, nanoseconds since midnight of day 0 of that month), which is
    what [time.Date(y, m, 0, ...)] followed by [Add] denotes. *)
Definition JDToTime (jd : F) : option (Z * Z * Z) :=
  match jdToCalendarGregorian jd with
  | Some (y, m, d) =>
      match fint64 (d * fofZ 24 * fofZ 3600000000000)%flt with
      | Some ns => Some (y, m, ns)
      | None => None
      end
  | None => None
  end.
End Generic.
