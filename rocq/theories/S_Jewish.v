(** Specification of the Hebrew calendar by the molad and the four
    postponements (dehiyyot), independent of the code. *)
From Coq Require Import ZArith Bool.
From Verif Require Import S_Calendar.
Local Open Scope Z_scope.

(** 19-year cycle: years 3, 6, 8, 11, 14, 17, 19 have 13 months. *)
Definition h_leap (A : Z) : bool :=
  match A mod 19 with
  | 0 | 3 | 6 | 8 | 11 | 14 | 17 => true
  | _ => false
  end.
Definition h_months (A : Z) : Z := if h_leap A then 13 else 12.

(** Number of months from the epoch to the beginning of year [A]: determined by
    [h_elapsed 1 = 0] and [h_elapsed (A + 1) = h_elapsed A + h_months A]; this is
    the closed form. *)
Definition h_elapsed (A : Z) : Z := (235 * A - 234) / 19.

(** A day has 24 hours of 1080 parts and begins at 6 p.m.; a mean month has
    29 days 12 hours 793 parts; the molad of the first month is on day 0 at
    5 hours 204 parts.  Day 0 is a Monday. *)
Definition hours (h p : Z) : Z := h * 1080 + p.
Definition day_parts : Z := hours 24 0.
Definition mean_month : Z := 29 * day_parts + hours 12 793.
Definition molad (A : Z) : Z := hours 5 204 + mean_month * h_elapsed A.

(** Day of the week of a day number: 0 = Sunday. *)
Definition h_weekday (d : Z) : Z := (d + 1) mod 7.

(** New year of year [A], in days after day 0. *)
Definition h_new_year (A : Z) : Z :=
  let d := molad A / day_parts in
  let t := molad A mod day_parts in
  (* molad at noon or later *)
  let d1 :=
    if (hours 18 0 <=? t)
    (* common year, molad on Tuesday at 9h 204p or later *)
       || (negb (h_leap A) && (h_weekday d =? 2) && (hours 9 204 <=? t))
    (* year after a leap year, molad on Monday at 15h 589p or later *)
       || (h_leap (A - 1) && (h_weekday d =? 1) && (hours 15 589 <=? t))
    then d + 1 else d in
  (* never on Sunday, Wednesday or Friday *)
  if (h_weekday d1 =? 0) || (h_weekday d1 =? 3) || (h_weekday d1 =? 5) then d1 + 1 else d1.

(** Day 0 is -3760 October 7 (year 3761 B.C.) of the Julian calendar. *)
Definition h_epoch : Z := rata_die Julian (mkdate (-3760) 10 7).
Definition new_year_rd (A : Z) : Z := h_epoch + h_new_year A.

(** Pesach (15 Nisan) of year [A] is 163 days before the next new year. *)
Definition pesach_rd (A : Z) : Z := new_year_rd (A + 1) - 163.

Definition h_year_days (A : Z) : Z := h_new_year (A + 1) - h_new_year A.

(** Calendar the code's user works in: Gregorian from 1583 on. *)
Definition user_calendar (y : Z) : calendar := if 1583 <=? y then Gregorian else Julian.

(** Legal pairs of number of months and number of days. *)
Definition legal_year (months days : Z) : bool :=
  ((months =? 12) && (353 <=? days) && (days <=? 355)) ||
  ((months =? 13) && (383 <=? days) && (days <=? 385)).
