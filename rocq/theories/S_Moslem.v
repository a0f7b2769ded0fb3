(** Specification of the civil tabular Islamic ("Moslem") calendar, independent
    of the code. *)
From Coq Require Import ZArith Bool.
From Verif Require Import S_Calendar.
Local Open Scope Z_scope.

(** Leap years: 2, 5, 7, 10, 13, 16, 18, 21, 24, 26, 29 of each 30-year cycle. *)
Definition m_leap (y : Z) : bool :=
  match y mod 30 with
  | 2 | 5 | 7 | 10 | 13 | 16 | 18 | 21 | 24 | 26 | 29 => true
  | _ => false
  end.

(** Months alternate 30 and 29 days; the twelfth has 30 in a leap year. *)
Definition m_month_length (leap : bool) (m : Z) : Z :=
  if Z.odd m || (leap && (m =? 12)) then 30 else 29.

Definition m_year_length (leap : bool) : Z := if leap then 355 else 354.

Definition m_valid (x : date) : bool :=
  (1 <=? d_m x) && (d_m x <=? 12) && (1 <=? d_d x) &&
  (d_d x <=? m_month_length (m_leap (d_y x)) (d_m x)).

Definition m_next (x : date) : date :=
  if d_d x <? m_month_length (m_leap (d_y x)) (d_m x)
  then mkdate (d_y x) (d_m x) (d_d x + 1)
  else if d_m x <? 12 then mkdate (d_y x) (d_m x + 1) 1
  else mkdate (d_y x + 1) 1 1.

(** A day number of the Islamic calendar: it increases by one from each date to
    the next, and the first day of year 1 is 622 July 16 of the Julian calendar. *)
Definition m_epoch : Z := jdn Julian (mkdate 622 7 16).
Definition islamic_day_number (f : date -> Z) : Prop :=
  f (mkdate 1 1 1) = m_epoch /\
  forall x, m_valid x = true -> f (m_next x) = f x + 1.

(** Closed form. *)
Definition m_jdn (x : date) : Z :=
  m_epoch + 354 * (d_y x - 1) + (3 + 11 * d_y x) / 30 +
  29 * (d_m x - 1) + d_m x / 2 + (d_d x - 1).

(** A year of the Islamic calendar deduced from a day number, counting years of 354 days
    within each cycle of 10631 days: JulianToMoslem uses it for January 1. *)
Definition code_year (j : Z) : Z :=
  let n := j - m_epoch + 1 in 30 * (n / 10631) + n mod 10631 / 354 + 1.
