(** Specification vocabulary for delta-T. *)
From Coq Require Import ZArith List Reals.
From Flocq Require Import Core.
From Verif Require Import S_base S_interp S_Calendar.
Import ListNotations.
Local Open Scope R_scope.

(** Julian Day of 0h on January 1 of a year of the Gregorian calendar. *)
Definition january1 (y : Z) : R := IZR (jdn Gregorian (mkdate y 1 1)) - / 2.

(** The instant jd is in the year y of the Gregorian calendar. *)
Definition in_year (y : Z) (jd : R) : Prop := january1 y <= jd < january1 (y + 1).

(** Days are counted from noon to noon: the day number of jd in its year is 1 from the noon
    before January 1 to noon of January 1. *)
Definition day_number (y : Z) (jd : R) : Z := (Zfloor (jd - (january1 y - / 2)) + 1)%Z.
Definition year_with_fraction (y : Z) (jd : R) : R :=
  IZR y + IZR (day_number y jd) / IZR (year_length (leap_spec Gregorian y)).

(** A value in seconds from a table in tenths of a second with a row for every second year
    from 1620. *)
Definition row (table : list Z) (y : Z) : R := IZR (nth (Z.to_nat ((y - 1620) / 2)) table 0%Z) / 10.
