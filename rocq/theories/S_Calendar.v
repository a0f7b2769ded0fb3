(** Specification of the civil calendars, independent of the code. *)
From Coq Require Import ZArith Bool.
Local Open Scope Z_scope.

Inductive calendar := Gregorian | Julian.

(** Leap-year rules. *)
Definition leap_spec (c : calendar) (y : Z) : bool :=
  match c with
  | Julian => y mod 4 =? 0
  | Gregorian => ((y mod 4 =? 0) && negb (y mod 100 =? 0)) || (y mod 400 =? 0)
  end.

(** Length of the months (1 = January). *)
Definition month_length (leap : bool) (m : Z) : Z :=
  match m with
  | 2 => if leap then 29 else 28
  | 4 | 6 | 9 | 11 => 30
  | _ => 31
  end.

Definition year_length (leap : bool) : Z := if leap then 366 else 365.

Record date := mkdate { d_y : Z; d_m : Z; d_d : Z }.

Definition valid_date (c : calendar) (x : date) : bool :=
  (1 <=? d_m x) && (d_m x <=? 12) && (1 <=? d_d x) &&
  (d_d x <=? month_length (leap_spec c (d_y x)) (d_m x)).

(** The day after a date. *)
Definition next_date (c : calendar) (x : date) : date :=
  if d_d x <? month_length (leap_spec c (d_y x)) (d_m x)
  then mkdate (d_y x) (d_m x) (d_d x + 1)
  else if d_m x <? 12 then mkdate (d_y x) (d_m x + 1) 1
  else mkdate (d_y x + 1) 1 1.

(** A day count of a calendar: increases by one from each date to the next. *)
Definition counts_days (c : calendar) (f : date -> Z) : Prop :=
  forall x, valid_date c x = true -> f (next_date c x) = f x + 1.

(** Closed-form day count ("Rata Die": day 1 is 0001-01-01 of the Gregorian
    calendar; Reingold and Dershowitz, Calendrical Calculations). *)
Definition days_before_month (leap : bool) (m : Z) : Z :=
  let k := if leap then 1 else 0 in
  match m with
  | 1 => 0 | 2 => 31 | 3 => 59 + k | 4 => 90 + k | 5 => 120 + k | 6 => 151 + k
  | 7 => 181 + k | 8 => 212 + k | 9 => 243 + k | 10 => 273 + k | 11 => 304 + k
  | _ => 334 + k
  end.

Definition rata_die (c : calendar) (x : date) : Z :=
  365 * (d_y x - 1) + (d_y x - 1) / 4 +
  match c with
  | Gregorian => (d_y x - 1) / 400 - (d_y x - 1) / 100
  | Julian => - 2
  end + days_before_month (leap_spec c (d_y x)) (d_m x) + d_d x.

(** Julian Day number of noon of the day with Rata Die number n is
    n + 1721425 (JD 2451545 is 2000-01-01 12h, Rata Die 730120). *)
Definition jdn (c : calendar) (x : date) : Z := rata_die c x + 1721425.
