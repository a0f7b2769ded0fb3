(** Specification vocabulary for the seasons. *)
From Coq Require Import ZArith Reals.
From Verif Require Import S_Calendar GoMath S_solar.
Local Open Scope R_scope.

(** Julian Day of 0h of a date of the (proleptic) Gregorian calendar. *)
Definition date0h (y m d : Z) : R := IZR (jdn Gregorian (mkdate y m d)) - / 2.

(** The Sun moves steadily: its longitude lam(t), up to whole turns, increases by between 0.0166
    and 0.0178 radians in every day between a and b. *)
Definition steady_sun (lam : R -> R) (a b : R) : Prop :=
  exists L : R -> R, (forall t, a <= t <= b -> same_angle (lam t) (L t)) /\
  forall s t, a <= s -> s <= t -> t <= b -> 0.0166 * (t - s) <= L t - L s <= 0.0178 * (t - s).
