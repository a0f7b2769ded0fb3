(** The ecclesiastical rules of Easter, independent of the code (the epact form
    given by Reingold and Dershowitz, Calendrical Calculations, chapter 9,
    after Clavius and Lilius). *)
From Coq Require Import ZArith Bool.
From Verif Require Import S_Calendar.
Local Open Scope Z_scope.

(** Age of the moon on April 5 (shifted epact), by the golden number, the solar
    equation (three leap days dropped in 400 years) and the lunar equation (eight
    days in 2500 years). *)
Definition shifted_epact (y : Z) : Z :=
  let century := y / 100 + 1 in
  (14 + 11 * (y mod 19) - (3 * century) / 4 + (5 + 8 * century) / 25) mod 30.

(** The epacts 25 and 24 are adjusted so that no two years of a 19-year cycle
    share a full moon date. *)
Definition adjusted_epact (y : Z) : Z :=
  let s := shifted_epact y in
  if (s =? 0) || ((s =? 1) && (10 <? y mod 19)) then s + 1 else s.

(** Ecclesiastical (paschal) full moon, as a day number. *)
Definition paschal_moon (c : calendar) (y : Z) : Z :=
  match c with
  | Gregorian => rata_die Gregorian (mkdate y 4 19) - adjusted_epact y
  | Julian => rata_die Julian (mkdate y 4 19) - (14 + 11 * (y mod 19)) mod 30
  end.

(** Day numbers divisible by 7 are Sundays (Rata Die 1 is a Monday). *)
Definition is_sunday (n : Z) : Prop := n mod 7 = 0.

(** n is the first Sunday strictly after the day p. *)
Definition first_sunday_after (p n : Z) : Prop :=
  p < n /\ is_sunday n /\ forall k, p < k < n -> ~ is_sunday k.

(** (m, d) lies in March 22 .. April 25. *)
Definition easter_range (m d : Z) : Prop := (m = 3 /\ 22 <= d <= 31) \/ (m = 4 /\ 1 <= d <= 25).

Definition is_easter (c : calendar) (y m d : Z) : Prop :=
  valid_date c (mkdate y m d) = true /\ easter_range m d /\
  first_sunday_after (paschal_moon c y) (rata_die c (mkdate y m d)).
