(** Property theorems: package julian (C02 .. C07). *)
From Coq Require Import ZArith Bool Reals Lra Lia.
From Flocq Require Import Core IEEE754.BinarySingleNaN.
From Verif Require Import GoInt GoFloat M_julian S_Calendar S_julian L_julian_int L_julian_R.
Local Open Scope R_scope.

(** The closed-form day number used below is the day count of the calendar. *)
Theorem C02_jdn_is_the_day_count : forall c,
  counts_days c (jdn c) /\
  forall f, counts_days c f -> forall x x0, valid_date c x = true -> valid_date c x0 = true ->
    (f x - f x0 = rata_die c x - rata_die c x0)%Z.
Proof. exact (fun c => conj (jdn_next c) (counts_days_unique c)). Qed.
Print Assumptions C02_jdn_is_the_day_count.

(** ** C02 *)
Theorem C02_gregorian_day_count : forall x, valid_date Gregorian x = true -> smally (d_y x) ->
  JDg (next_date Gregorian x) = JDg x + 1 /\ JDg x = IZR (jdn Gregorian x) - / 2.
Proof. exact greg_count. Qed.
Print Assumptions C02_gregorian_day_count.

Theorem C02_gregorian_anchor : CalendarGregorianToJD (fl := RFlt) 2000 1 (3 / 2)%R = 2451545.
Proof. exact greg_anchor. Qed.
Print Assumptions C02_gregorian_anchor.

Theorem C02_gregorian_fraction : forall y m (d f : R),
  CalendarGregorianToJD (fl := RFlt) y m (d + f)%R = CalendarGregorianToJD (fl := RFlt) y m d + f.
Proof. exact greg_fraction. Qed.
Print Assumptions C02_gregorian_fraction.

(** In binary64 the conversions lose nothing on day fractions that are
    multiples of 2^-28 day. *)
Theorem C02_C03_binary64_exact : forall c y m (d : float64), on_grid28 d -> 0 <= B2R d < 32 ->
  (Z.abs y <= 70000)%Z -> (1 <= m <= 12)%Z ->
  is_finite (toJD64 c y m d) = true /\ B2R (toJD64 c y m d) = toJD c y m (B2R d).
Proof. exact toJD64_exact'. Qed.
Print Assumptions C02_C03_binary64_exact.

Example C02_nonvacuous : valid_date Gregorian (mkdate 1900 2 28) = true /\ smally 1900 /\
  next_date Gregorian (mkdate 1900 2 28) = mkdate 1900 3 1.
Proof. repeat split; vm_compute; congruence. Qed.
Example C02_b64_nonvacuous : on_grid28 (b64_ofZ 29) /\ B2R (b64_ofZ 29) = 29.
Proof. split; [apply grid_ofZ; lia | apply B2R_ofZ; lia]. Qed.

(** ** C03 *)
Theorem C03_julian_day_count : forall x, valid_date Julian x = true -> smally (d_y x) ->
  JDj (next_date Julian x) = JDj x + 1 /\ JDj x = IZR (jdn Julian x) - / 2.
Proof. exact jul_count. Qed.
Print Assumptions C03_julian_day_count.

Theorem C03_julian_anchor : CalendarJulianToJD (fl := RFlt) (-4712) 1 (3 / 2)%R = 0.
Proof. exact jul_anchor. Qed.
Print Assumptions C03_julian_anchor.

Theorem C03_julian_fraction : forall y m (d f : R),
  CalendarJulianToJD (fl := RFlt) y m (d + f)%R = CalendarJulianToJD (fl := RFlt) y m d + f.
Proof. exact jul_fraction. Qed.
Print Assumptions C03_julian_fraction.

Example C03_nonvacuous : valid_date Julian (mkdate (-4) 2 29) = true /\ smally (-4) /\
  next_date Julian (mkdate (-4) 2 29) = mkdate (-4) 3 1.
Proof. repeat split; vm_compute; congruence. Qed.

(** ** C04.  The full property is false of the code: see
    [C04_JDToCalendar_refuted].  It holds outside the ten days
    1582 September 25 .. October 4. *)
Theorem C04_JDToCalendar_partial : forall jd, jdbound jd ->
  let n := Zfloor (jd + / 2) in let c := civil_calendar n in
  ~ (2299151 <= n < 2299161)%Z ->
  exists y m day, JDToCalendar (fl := RFlt) jd = Some (y, m, IZR day + (jd + / 2 - IZR n)) /\
    valid_date c (mkdate y m day) = true /\ jdn c (mkdate y m day) = n /\
    toJD c y m (IZR day + (jd + / 2 - IZR n)) = jd.
Proof. exact JDToCalendar_civil. Qed.
Print Assumptions C04_JDToCalendar_partial.

Theorem C04_civil_roundtrip_partial : forall c x (f : R), valid_date c x = true -> 0 <= f < 1 ->
  (0 <= jdn c x <= 59999999999999999)%Z -> civil_calendar (jdn c x) = c ->
  ~ (2299151 <= jdn c x < 2299161)%Z ->
  JDToCalendar (fl := RFlt) (toJD c (d_y x) (d_m x) (IZR (d_d x) + f))
   = Some (d_y x, d_m x, IZR (d_d x) + f).
Proof. exact civil_roundtrip. Qed.
Print Assumptions C04_civil_roundtrip_partial.

Theorem C04_roundtrip_binary64_partial : forall c x (d : float64), valid_date c x = true ->
  on_grid28 d -> IZR (d_d x) <= B2R d < IZR (d_d x) + 1 ->
  (-4712 <= d_y x <= 70000)%Z -> (0 <= jdn c x)%Z ->
  civil_calendar (jdn c x) = c -> ~ (2299151 <= jdn c x < 2299161)%Z ->
  exists d', JDToCalendar (fl := BFlt) (toJD64 c (d_y x) (d_m x) d) = Some (d_y x, d_m x, d') /\
     is_finite d' = true /\ B2R d' = B2R d.
Proof. exact roundtrip_b64'. Qed.
Print Assumptions C04_roundtrip_binary64_partial.

Theorem C04_JDToCalendar_refuted : exists x, valid_date Julian x = true /\
  civil_calendar (jdn Julian x) = Julian /\ (0 <= jdn Julian x)%Z /\
  JDToCalendar (fl := RFlt) (toJD Julian (d_y x) (d_m x) (IZR (d_d x)))
    <> Some (d_y x, d_m x, IZR (d_d x)).
Proof. exact JDToCalendar_window_refuted. Qed.
Print Assumptions C04_JDToCalendar_refuted.

(** What the code does in the window: the Gregorian name of the day. *)
Theorem C04_JDToCalendar_window : forall jd, jdbound jd ->
  let n := Zfloor (jd + / 2) in (2299151 <= n < 2299161)%Z ->
  civil_calendar n = Julian /\
  exists y m day, JDToCalendar (fl := RFlt) jd = Some (y, m, IZR day + (jd + / 2 - IZR n)) /\
    valid_date Gregorian (mkdate y m day) = true /\ jdn Gregorian (mkdate y m day) = n /\
    CalendarGregorianToJD (fl := RFlt) y m (IZR day + (jd + / 2 - IZR n))%R = jd.
Proof. exact JDToCalendar_window. Qed.
Print Assumptions C04_JDToCalendar_window.

(** The same defect in binary64: noon of 1582 October 4 (JD 2299160) comes back
    as 1582 October 14.5. *)
Theorem C04_binary64_refuted :
  match JDToCalendar (fl := BFlt) (b64_ofZ 2299160) with
  | Some (y, m, d) => (y =? 1582)%Z && (m =? 10)%Z && Beqb d (fconst (Flt := BFlt) 145 10) = true
  | None => False
  end.
Proof. exact window_b64. Qed.
Print Assumptions C04_binary64_refuted.

Example C04_nonvacuous : valid_date Julian (mkdate 333 1 27) = true /\
  jdn Julian (mkdate 333 1 27) = 1842713%Z /\ civil_calendar 1842713 = Julian /\
  valid_date Gregorian (mkdate 1957 10 4) = true /\
  civil_calendar (jdn Gregorian (mkdate 1957 10 4)) = Gregorian.
Proof. repeat split; vm_compute; reflexivity. Qed.

(** ** C05 *)
Theorem C05_leap_years : forall y,
  LeapYearGregorian y = leap_spec Gregorian y /\ LeapYearJulian y = leap_spec Julian y.
Proof. exact LeapYear_specs. Qed.
Print Assumptions C05_leap_years.

Theorem C05_day_of_year_ordinal : forall c x, valid_date c x = true ->
  DayOfYearC c (d_y x) (d_m x) (d_d x) = (jdn c x - jdn c (mkdate (d_y x) 1 1) + 1)%Z.
Proof. exact DayOfYear_ordinal. Qed.
Print Assumptions C05_day_of_year_ordinal.

Theorem C05_inverse_left : forall c x, valid_date c x = true ->
  DayOfYearToCalendar (DayOfYearC c (d_y x) (d_m x) (d_d x)) (leap_spec c (d_y x)) = (d_m x, d_d x).
Proof. exact DayOfYear_inverse1. Qed.
Print Assumptions C05_inverse_left.

Theorem C05_inverse_right : forall c y n, (1 <= n <= year_length (leap_spec c y))%Z ->
  let '(m, d) := DayOfYearToCalendar n (leap_spec c y) in
  valid_date c (mkdate y m d) = true /\ DayOfYearC c y m d = n.
Proof. exact DayOfYear_inverse2. Qed.
Print Assumptions C05_inverse_right.

Example C05_nonvacuous : valid_date Gregorian (mkdate 1988 4 22) = true /\
  DayOfYearC Gregorian 1988 4 22 = 113%Z.
Proof. split; reflexivity. Qed.

(** ** C06.  False for negative Julian Days ([C06_DayOfWeek_refuted]); proved
    for every jd >= -1/2. *)
Theorem C06_DayOfWeek_partial : forall jd n, jdbound jd -> IZR n - / 2 <= jd < IZR n + / 2 ->
  DayOfWeek (fl := RFlt) jd = Some ((n + 1) mod 7)%Z.
Proof. exact DayOfWeek_R. Qed.
Print Assumptions C06_DayOfWeek_partial.

Theorem C06_DayOfWeek_advances_partial : forall jd k, jdbound jd -> jdbound (jd + 1) ->
  DayOfWeek (fl := RFlt) jd = Some k ->
  (0 <= k <= 6)%Z /\ DayOfWeek (fl := RFlt) (jd + 1)%R = Some ((k + 1) mod 7)%Z.
Proof. exact DayOfWeek_next. Qed.
Print Assumptions C06_DayOfWeek_advances_partial.

Theorem C06_DayOfWeek_date_partial : forall c x (f : R), valid_date c x = true -> smally (d_y x) ->
  (0 <= jdn c x)%Z -> 0 <= f < 1 ->
  DayOfWeek (fl := RFlt) (toJD c (d_y x) (d_m x) (IZR (d_d x) + f)) = Some (rata_die c x mod 7)%Z.
Proof. exact DayOfWeek_date. Qed.
Print Assumptions C06_DayOfWeek_date_partial.

Theorem C06_DayOfWeek_anchor : DayOfWeek (fl := RFlt) 2434923.5 = Some 3%Z.
Proof. exact DayOfWeek_anchor. Qed.
Print Assumptions C06_DayOfWeek_anchor.

Theorem C06_DayOfWeek_binary64_partial : forall (jd : float64) n, on_grid28 jd ->
  - / 2 <= B2R jd <= 28000000 -> IZR n - / 2 <= B2R jd < IZR n + / 2 ->
  DayOfWeek (fl := BFlt) jd = Some ((n + 1) mod 7)%Z.
Proof. exact DayOfWeek_b64'. Qed.
Print Assumptions C06_DayOfWeek_binary64_partial.

Theorem C06_DayOfWeek_refuted : exists jd k, DayOfWeek (fl := RFlt) jd = Some k /\ ~ (0 <= k <= 6)%Z.
Proof. exact DayOfWeek_refuted. Qed.
Print Assumptions C06_DayOfWeek_refuted.

Example C06_nonvacuous : jdbound 2434923.5 /\ valid_date Gregorian (mkdate 1954 6 30) = true /\
  (rata_die Gregorian (mkdate 1954 6 30) mod 7 = 3)%Z.
Proof. split; [unfold jdbound; lra|]. split; reflexivity. Qed.

(** ** C07 *)
Theorem C07_TimeToJD : forall t, valid_time t = true -> yearbound (t_year t) ->
  TimeToJD (fl := RFlt) t = jd_of_instant (IZR (instant t)).
Proof. exact TimeToJD_R. Qed.
Print Assumptions C07_TimeToJD.

Theorem C07_JDToTime : forall jd : R, Rabs jd <= 60000000000000000 ->
  exists y m ns, JDToTime (fl := RFlt) jd = Some (y, m, ns) /\
    instant3 (y, m, ns) = Zfloor ((jd - 1721424.5) * IZR day_ns).
Proof. exact JDToTime_R. Qed.
Print Assumptions C07_JDToTime.

Theorem C07_roundtrip : forall t, valid_time t = true -> (Z.abs (t_year t) <= 100000000000)%Z ->
  exists r, JDToTime (fl := RFlt) (TimeToJD (fl := RFlt) t) = Some r /\ instant3 r = instant t.
Proof. exact time_roundtrip. Qed.
Print Assumptions C07_roundtrip.

Example C07_nonvacuous :
  valid_time {| t_year := 2026; t_month := 2; t_day := 28; t_nanos := 86399999999999 |} = true.
Proof. reflexivity. Qed.
