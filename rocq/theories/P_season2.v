(** C100: the instants of the seasons and the longitude of the Sun. *)
From Coq Require Import ZArith Reals Lra Lia.
From Verif Require Import GoMath M_solar M_season S_solar L_season2.
Local Open Scope R_scope.

(** At the instants of solstice the apparent longitude of solar is 0, 90, 180 and 270
    degrees, up to whole turns, to 0.0155 degrees; before the year 1000 to 0.022. *)
Theorem C100_seasons : forall y,
  let near_sun t a b := exists L, same_angle (ApparentLongitude ((t - 2451545) / 36525)) L /\ Rabs (L - a) <= degrees b in
  ((1000 <= y <= 3000)%Z -> near_sun (March y) 0 0.0155 /\ near_sun (June y) (PI / 2) 0.0155 /\ near_sun (September y) PI 0.0155 /\ near_sun (December y) (3 * PI / 2) 0.0155) /\
  ((-1000 <= y < 1000)%Z -> near_sun (March y) 0 0.022 /\ near_sun (June y) (PI / 2) 0.022 /\ near_sun (September y) PI 0.022 /\ near_sun (December y) (3 * PI / 2) 0.022).
Proof. exact seasons_sun. Qed.
Print Assumptions C100_seasons.
Example C100_nonvacuous : (1000 <= 2000 <= 3000)%Z /\ (-1000 <= 0 < 1000)%Z.
Proof. lia. Qed.
