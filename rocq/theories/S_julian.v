(** Vocabulary of the julian properties. *)
From Coq Require Import ZArith Bool Reals Lra.
From Flocq Require Import Core IEEE754.BinarySingleNaN.
From Verif Require Import GoInt GoFloat M_julian S_Calendar.
Local Open Scope R_scope.

(** The code's Julian Day of midnight beginning a civil date. *)
Definition JDg (x : date) : R := CalendarGregorianToJD (fl := RFlt) (d_y x) (d_m x) (IZR (d_d x)).
Definition JDj (x : date) : R := CalendarJulianToJD (fl := RFlt) (d_y x) (d_m x) (IZR (d_d x)).

(** Years for which no intermediate product of the code leaves int64. *)
Definition smally (y : Z) : Prop := (Z.abs y <= 100000000000000)%Z.

(** Julian Days for which no intermediate product of the code leaves int64. *)
Definition jdbound (jd : R) : Prop := - / 2 <= jd <= 60000000000000000.

(** Calendar in force on a day: the Gregorian calendar from 1582 October 15
    (day number 2299161) on. *)
Definition reform : Z := jdn Gregorian (mkdate 1582 10 15).
Definition civil_calendar (n : Z) : calendar := if (reform <=? n)%Z then Gregorian else Julian.

(** The library function for a calendar. *)
Definition toJD (c : calendar) : Z -> Z -> R -> R :=
  match c with Gregorian => CalendarGregorianToJD (fl := RFlt) | Julian => CalendarJulianToJD (fl := RFlt) end.

(** Instants are counted in nanoseconds since midnight of Rata Die 0. *)
Definition day_ns : Z := 86400000000000.
(** The instant denoted by a time.Time (UTC). *)
Definition instant (t : gotime) : Z :=
  (rata_die Gregorian (mkdate (t_year t) (t_month t) (t_day t)) * day_ns + t_nanos t)%Z.
(** The instant denoted by a result of the JDToTime model. *)
Definition instant3 (t : Z * Z * Z) : Z :=
  let '(y, m, ns) := t in (rata_die Gregorian (mkdate y m 0) * day_ns + ns)%Z.
Definition valid_time (t : gotime) : bool :=
  valid_date Gregorian (mkdate (t_year t) (t_month t) (t_day t)) &&
  (0 <=? t_nanos t)%Z && (t_nanos t <? day_ns)%Z.
(** The Julian Day of an instant. *)
Definition jd_of_instant (n : R) : R := 1721424.5 + n / IZR day_ns.

(** The same in binary64. *)
Definition toJD64 (c : calendar) : Z -> Z -> float64 -> float64 :=
  match c with Gregorian => CalendarGregorianToJD (fl := BFlt) | Julian => CalendarJulianToJD (fl := BFlt) end.


(** The library's day-of-year function for a calendar. *)
Definition DayOfYearC (c : calendar) : Z -> Z -> Z -> Z :=
  match c with Gregorian => DayOfYearGregorian | Julian => DayOfYearJulian end.

(** A float64 day of month that is finite and a multiple of 2^-28 day (0.3 ms). *)
Definition on_grid28 (d : float64) : Prop :=
  is_finite d = true /\ exists k : Z, B2R d = IZR k * bpow radix2 (- (28)).
