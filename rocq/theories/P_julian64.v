(** Property theorems: dates and times in double precision, for every float64 (C107). *)
From Coq Require Import ZArith Bool Reals Lra.
From Flocq Require Import Core IEEE754.BinarySingleNaN.
From Verif Require Import GoInt GoFloat M_julian S_Calendar S_julian S_float64 L_julian64.
Local Open Scope R_scope.

(** The date of a Julian Day is exact, with its fraction of the day, and converts back to the same number, outside the ten days of C04. *)
Theorem C107_calendar : forall jd : float64, in_range64 jd -> let n := Zfloor (B2R jd + / 2) in ~ (2299151 <= n < 2299161)%Z ->
  exists y m day (d : float64), JDToCalendar (fl := BFlt) jd = Some (y, m, d) /\ valid_date (civil_calendar n) (mkdate y m day) = true /\ jdn (civil_calendar n) (mkdate y m day) = n /\
    is_finite d = true /\ B2R d = IZR day + (B2R jd + / 2 - IZR n) /\ toJD64 (civil_calendar n) y m d = jd.
Proof. exact calendar_64'. Qed.
Print Assumptions C107_calendar.
Theorem C107_day_of_week : forall jd : float64, in_range64 jd -> DayOfWeek (fl := BFlt) jd = Some ((Zfloor (B2R jd + / 2) + 1) mod 7)%Z.
Proof. exact day_of_week_64. Qed.
Print Assumptions C107_day_of_week.
(** The time of a Julian Day is its nanosecond or the next. *)
Theorem C107_time : forall jd : float64, in_range64 jd -> exists y m ns, JDToTime (fl := BFlt) jd = Some (y, m, ns) /\
  let i := Zfloor ((B2R jd - 1721424.5) * IZR day_ns) in (instant3 (y, m, ns) = i \/ instant3 (y, m, ns) = i + 1)%Z.
Proof. exact JDToTime_64. Qed.
Print Assumptions C107_time.
(** It converts back to the same Julian Day. *)
Theorem C107_time_back : forall (jd : float64) y m ns t, in_range64 jd -> JDToTime (fl := BFlt) jd = Some (y, m, ns) -> valid_time t = true -> instant t = instant3 (y, m, ns) -> TimeToJD (fl := BFlt) t = jd.
Proof. exact time_64_back. Qed.
Print Assumptions C107_time_back.
(** A time has its Julian Day within 20.1169 microseconds, and the way there and back changes it by at most 20.117 microseconds. *)
Theorem C107_time_error : forall t, valid_time t = true -> (1030 <= t_year t <= 6766)%Z -> in_range64 (TimeToJD (fl := BFlt) t) /\
  Rabs (B2R (TimeToJD (fl := BFlt) t) - jd_of_instant (IZR (instant t))) <= 20116.9 / 86400000000000 /\
  exists r, JDToTime (fl := BFlt) (TimeToJD (fl := BFlt) t) = Some r /\ (Z.abs (instant3 r - instant t) <= 20117)%Z.
Proof. exact time_64_error. Qed.
Print Assumptions C107_time_error.

(** 20 microseconds after midnight of 2026 November 16 come back as midnight. *)
Example C107_nonvacuous : let t := {| t_year := 2026; t_month := 11; t_day := 16; t_nanos := 20000 |} in valid_time t = true /\
  match JDToTime (fl := BFlt) (TimeToJD (fl := BFlt) t) with Some r => (instant3 r - instant t)%Z | None => 0%Z end = (-20000)%Z.
Proof. split; vm_compute; reflexivity. Qed.
