(** Property theorems: package jm (C10-C14). *)
From Coq Require Import ZArith Bool List Reals Lia.
From Verif Require Import GoInt GoFloat M_julian M_jm S_Calendar S_julian S_Moslem S_Jewish.
From Verif Require Import L_julian_inv L_jm L_jm_moslem L_jm_moslem2 L_jewish.
Local Open Scope Z_scope.

(** ** C10: [G2J] and [J2G] apply the library functions to dates
    (JulianToGregorian takes the day of the year). *)
Theorem C10_gregorian_to_julian : forall x,
  Z.abs (d_y x) <= 190000000000000 -> valid_date Gregorian x = true ->
  valid_date Julian (G2J x) = true /\ jdn Julian (G2J x) = jdn Gregorian x.
Proof. exact G2J_spec. Qed.
Print Assumptions C10_gregorian_to_julian.

Theorem C10_julian_to_gregorian : forall x,
  Z.abs (d_y x) <= 190000000000000 -> valid_date Julian x = true ->
  valid_date (civil_calendar (jdn Julian x)) (J2G x) = true /\
  jdn (civil_calendar (jdn Julian x)) (J2G x) = jdn Julian x.
Proof. exact J2G_spec. Qed.
Print Assumptions C10_julian_to_gregorian.

Theorem C10_inverse_gregorian : forall x,
  Z.abs (d_y x) <= 190000000000000 -> valid_date Gregorian x = true ->
  reform <= jdn Gregorian x -> J2G (G2J x) = x.
Proof. exact J2G_G2J. Qed.
Print Assumptions C10_inverse_gregorian.

Theorem C10_inverse_julian : forall x,
  Z.abs (d_y x) <= 190000000000000 -> valid_date Julian x = true ->
  reform <= jdn Julian x -> G2J (J2G x) = x.
Proof. exact G2J_J2G. Qed.
Print Assumptions C10_inverse_julian.

Theorem C10_before_reform : forall x,
  Z.abs (d_y x) <= 190000000000000 -> valid_date Julian x = true ->
  jdn Julian x < reform -> J2G x = x.
Proof. exact J2G_before. Qed.
Print Assumptions C10_before_reform.

Example C10_nonvacuous :
  valid_date Gregorian (mkdate 1991 8 13) = true /\ G2J (mkdate 1991 8 13) = mkdate 1991 7 31 /\
  reform <= jdn Gregorian (mkdate 1991 8 13) /\
  J2G (mkdate 1582 10 5) = mkdate 1582 10 15 /\ J2G (mkdate 1582 10 4) = mkdate 1582 10 4.
Proof. repeat split; try reflexivity; intros A; discriminate A. Qed.

(** ** C11 *)
(** The closed form used as specification is the day number of the calendar
    whose only data are the month lengths, the leap years and the epoch. *)
Theorem C11_C13_closed_form : islamic_day_number m_jdn.
Proof. exact m_jdn_islamic. Qed.
Print Assumptions C11_C13_closed_form.

(** The conversion denotes the right day; the day number of the year is in
    range except that it may be 0 for the first day of a Moslem year. *)
Theorem C11_moslem_to_julian_partial : forall y m d,
  1 <= y <= 1000000000000000 -> m_valid (mkdate y m d) = true ->
  let '(X, J) := MoslemToJulian y m d in
  jdn Julian (mkdate X 1 1) + J - 1 = m_jdn (mkdate y m d) /\
  0 <= J <= year_length (leap_spec Julian X) /\
  (J = 0 -> m = 1 /\ d = 1).
Proof. exact MoslemToJulian_spec. Qed.
Print Assumptions C11_moslem_to_julian_partial.

(** Refuted: the first day of the year 556 is reported as day 0 of 1161. *)
Theorem C11_day_number_refuted :
  ~ (forall y m d, 1 <= y <= 1000000000000000 -> m_valid (mkdate y m d) = true ->
       1 <= snd (MoslemToJulian y m d)).
Proof.
  intros H. specialize (H 556 1 1 ltac:(lia) eq_refl).
  change (snd (MoslemToJulian 556 1 1)) with 0 in H. lia.
Qed.
Print Assumptions C11_day_number_refuted.

Example C11_nonvacuous : m_valid (mkdate 1421 1 1) = true /\ MoslemToJulian 1421 1 1 = (2000, 84) /\
  m_valid (mkdate 556 1 1) = true /\ MoslemToJulian 556 1 1 = (1161, 0).
Proof. repeat split; reflexivity. Qed.

(** ** C12 *)
(** Composite of the two conversions on Moslem dates. *)
Definition M2J2M (x : date) : option (Z * Z * Z) :=
  let '(X, J) := MoslemToJulian (d_y x) (d_m x) (d_d x) in
  let '(m, d) := DayOfYearToCalendar J (LeapYearJulian X) in
  JulianToMoslem (fl := BFlt) X m d.

Theorem C12_round_trip_refuted :
  ~ (forall x, 1 <= d_y x <= 2000 -> m_valid x = true -> M2J2M x = Some (d_y x, d_m x, d_d x)).
Proof.
  intros H. specialize (H (mkdate 1 1 1) ltac:(cbn; lia) eq_refl). vm_compute in H. discriminate H.
Qed.
Print Assumptions C12_round_trip_refuted.

(** The code even returns a thirteenth month: Julian 1877 December 25. *)
Theorem C12_month_13_refuted :
  ~ (forall x, 623 <= d_y x <= 2000 -> valid_date Julian x = true ->
       exists y m d, JulianToMoslem (fl := BFlt) (d_y x) (d_m x) (d_d x) = Some (y, m, d) /\ 1 <= m <= 12).
Proof.
  intros H. destruct (H (mkdate 1877 12 25) ltac:(cbn; lia) eq_refl) as (y & m & d & E & Hm).
  vm_compute in E. injection E as <- <- <-. lia.
Qed.
Print Assumptions C12_month_13_refuted.

(** Exactly which dates of the Julian years from 623 on are converted correctly.  The code takes
    January 1 to lie in the Moslem year h (code_year); it converts the days of that year (but the last
    of 355 only if y, as a Moslem year number, is leap) and, if y and h are both leap or both common,
    the days of the next; no others. *)
Theorem C12_julian_to_moslem_partial : forall x z,
  623 <= d_y x <= 1000000000000000 -> valid_date Julian x = true -> m_valid z = true -> m_jdn z = jdn Julian x ->
  let h := code_year (jdn Julian (mkdate (d_y x) 1 1)) in
  (JulianToMoslem (fl := RFlt) (d_y x) (d_m x) (d_d x) = Some (d_y z, d_m z, d_d z) <->
   (d_y z = h /\ (m_leap (d_y x) = m_leap h \/ ~ (d_m z = 12 /\ d_d z = 30))) \/ (d_y z = h + 1 /\ m_leap (d_y x) = m_leap h)).
Proof. intros x z. exact (JulianToMoslem_exact RFlt x z C2_R). Qed.
Print Assumptions C12_julian_to_moslem_partial.

(** The same in binary64 arithmetic. *)
Theorem C12_julian_to_moslem_binary64_partial : forall x z,
  623 <= d_y x <= 1000000000000000 -> valid_date Julian x = true -> m_valid z = true -> m_jdn z = jdn Julian x ->
  let h := code_year (jdn Julian (mkdate (d_y x) 1 1)) in
  (JulianToMoslem (fl := BFlt) (d_y x) (d_m x) (d_d x) = Some (d_y z, d_m z, d_d z) <->
   (d_y z = h /\ (m_leap (d_y x) = m_leap h \/ ~ (d_m z = 12 /\ d_d z = 30))) \/ (d_y z = h + 1 /\ m_leap (d_y x) = m_leap h)).
Proof. intros x z. exact (JulianToMoslem_exact BFlt x z C2_B). Qed.
Print Assumptions C12_julian_to_moslem_binary64_partial.

(** That year h is the one of January 1, or the next; it is the former if January 1 is among the
    first 342 days of its Moslem year. *)
Theorem C12_code_year : forall z1, m_valid z1 = true -> let h := code_year (m_jdn z1) in
  (h = d_y z1 \/ h = d_y z1 + 1) /\ (m_jdn z1 - m_jdn (mkdate (d_y z1) 1 1) < 342 -> h = d_y z1).
Proof. exact code_year_spec. Qed.
Print Assumptions C12_code_year.

(** No date of the first Moslem year before 623 January 1 is converted correctly. *)
Theorem C12_year_622_refuted : forall z, m_valid z = true -> d_y z = 1 -> m_jdn z < jdn Julian (mkdate 623 1 1) ->
  exists x, d_y x = 622 /\ valid_date Julian x = true /\ jdn Julian x = m_jdn z /\ JulianToMoslem (fl := BFlt) 622 (d_m x) (d_d x) <> Some (d_y z, d_m z, d_d z).
Proof. exact moslem_622. Qed.
Print Assumptions C12_year_622_refuted.

Theorem C12_moslem_day_unique : forall x x',
  m_valid x = true -> m_valid x' = true -> m_jdn x = m_jdn x' -> x = x'.
Proof. exact m_jdn_inj. Qed.
Print Assumptions C12_moslem_day_unique.

Example C12_nonvacuous :
  let x := mkdate 1991 7 31 in let z := mkdate 1412 2 2 in
  valid_date Julian x = true /\ m_valid z = true /\ m_jdn z = jdn Julian x /\
  code_year (jdn Julian (mkdate 1991 1 1)) = 1411 /\ m_leap 1991 = m_leap 1411 /\
  JulianToMoslem (fl := BFlt) 1991 7 31 = Some (1412, 2, 2).
Proof. repeat split; vm_compute; reflexivity. Qed.

(** ** C13 *)
Theorem C13_leap_years : forall y, 0 <= y < two63 -> MoslemLeapYear y = m_leap y.
Proof. exact MoslemLeapYear_spec. Qed.
Print Assumptions C13_leap_years.

Theorem C13_eleven_in_thirty : forall y, 0 <= y < two63 - 30 ->
  length (filter (fun k => MoslemLeapYear (y + Z.of_nat k)) (seq 0 30)) = 11%nat.
Proof. exact eleven_in_thirty. Qed.
Print Assumptions C13_eleven_in_thirty.

Theorem C13_periodic : forall y, 0 <= y < two63 -> MoslemLeapYear y = MoslemLeapYear (y mod 30).
Proof. exact MoslemLeapYear_periodic. Qed.
Print Assumptions C13_periodic.

Theorem C13_year_length : forall y, 1 <= y < 1000000000000000 ->
  let '(X, J) := MoslemToJulian y 1 1 in
  let '(X', J') := MoslemToJulian (y + 1) 1 1 in
  (jdn Julian (mkdate X' 1 1) + J') - (jdn Julian (mkdate X 1 1) + J) =
  if MoslemLeapYear y then 355 else 354.
Proof. exact moslem_year_length. Qed.
Print Assumptions C13_year_length.

Example C13_nonvacuous : MoslemLeapYear 1420 = true /\ MoslemLeapYear 1421 = false /\
  MoslemToJulian 1420 1 1 = (1999, 94) /\ MoslemToJulian 1421 1 1 = (2000, 84).
Proof. repeat split; reflexivity. Qed.

(** ** C14 *)
(** Year number, Pesach and New Year fall on the days given by the molad and
    the postponements, the number of months is that of year y+3760 and the
    number of days that of the year beginning at the reported New Year. *)
Theorem C14_jewish_calendar_partial : forall y, 0 <= y < 400000000 ->
  exists r, JewishCalendar (fl := RFlt) y = Some r /\
    jc_A r = y + 3760 /\
    rata_die (user_calendar y) (mkdate y (jc_mP r) (jc_dP r)) = pesach_rd (y + 3760) /\
    rata_die (user_calendar y) (mkdate y (jc_mNY r) (jc_dNY r)) = new_year_rd (y + 3761) /\
    jc_months r = h_months (y + 3760) /\
    (y <> 1582 -> jc_days r = h_year_days (y + 3761)).
Proof. exact JewishCalendar_R. Qed.
Print Assumptions C14_jewish_calendar_partial.

(** Between 1583 and 3429 the month and day numbers are well-formed dates. *)
Theorem C14_valid_dates : forall y, 1583 <= y < 3430 ->
  exists r, JewishCalendar (fl := RFlt) y = Some r /\
    valid_date (user_calendar y) (mkdate y (jc_mP r) (jc_dP r)) = true /\
    valid_date (user_calendar y) (mkdate y (jc_mNY r) (jc_dNY r)) = true.
Proof. exact JewishCalendar_valid. Qed.
Print Assumptions C14_valid_dates.

(** Years of the specified calendar have 353-355 or 383-385 days. *)
Theorem C14_year_lengths : forall A, legal_year (h_months A) (h_year_days A) = true.
Proof. exact h_year_legal. Qed.
Print Assumptions C14_year_lengths.

Theorem C14_elapsed_months : h_elapsed 1 = 0 /\ forall A, h_elapsed (A + 1) = h_elapsed A + h_months A.
Proof. split; [reflexivity|exact h_elapsed_step]. Qed.
Print Assumptions C14_elapsed_months.

(** Refuted: months and days reported for y = 0 (13 and 355) do not belong to
    one year. *)
Theorem C14_months_days_refuted :
  ~ (forall y, 0 <= y < 400000000 -> exists r, JewishCalendar (fl := RFlt) y = Some r /\
       legal_year (jc_months r) (jc_days r) = true).
Proof.
  intros H. destruct (H 0 ltac:(lia)) as (r & E & L).
  destruct JewishCalendar_0 as (r' & E' & M & D). rewrite E in E'. injection E' as <-.
  rewrite M, D in L. discriminate L.
Qed.
Print Assumptions C14_months_days_refuted.

(** Refuted: the New Year of the year 18 is reported as "September -1". *)
Theorem C14_new_year_date_refuted :
  ~ (forall y, 0 <= y < 1583 -> exists r, JewishCalendar (fl := RFlt) y = Some r /\
       valid_date Julian (mkdate y (jc_mNY r) (jc_dNY r)) = true).
Proof.
  intros H. destruct (H 18 ltac:(lia)) as (r & E & L).
  destruct JewishCalendar_18 as (r' & E' & M & D). rewrite E in E'. injection E' as <-.
  rewrite M, D in L. discriminate L.
Qed.
Print Assumptions C14_new_year_date_refuted.

(** Refuted: for y = 1582 the number of days is ten too large. *)
Theorem C14_reform_refuted :
  exists r, JewishCalendar (fl := RFlt) 1582 = Some r /\ jc_days r = h_year_days (1582 + 3761) + 10.
Proof. exact JewishCalendar_1582. Qed.
Print Assumptions C14_reform_refuted.

Example C14_nonvacuous : h_months 5750 = 12 /\ h_year_days 5751 = 354 /\
  pesach_rd 5750 = rata_die Gregorian (mkdate 1990 4 10) /\
  new_year_rd 5751 = rata_die Gregorian (mkdate 1990 9 20).
Proof. repeat split; reflexivity. Qed.
