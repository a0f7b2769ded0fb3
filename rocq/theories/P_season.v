(** Property theorems: equinoxes and solstices (C77, C78). *)
From Coq Require Import ZArith Bool List Reals Lra Lia.
From Verif Require Import GoMath M_vsop M_season S_Calendar S_solar S_season L_season.
Import ListNotations.
Local Open Scope R_scope.

(** The right days of the right year (Gregorian calendar, also before 1582). *)
Theorem C77_dates : forall y, (-1000 <= y <= 3000)%Z ->
  date0h y 3 19 <= March y < date0h y 3 23 /\ date0h y 6 19 <= June y < date0h y 6 26 /\
  date0h y 9 21 <= September y < date0h y 9 26 /\ date0h y 12 19 <= December y < date0h y 12 24.
Proof. exact (fun y H => conj (March_date y H) (conj (June_date y H) (conj (September_date y H) (December_date y H)))). Qed.
Print Assumptions C77_dates.

(** Lengths of the seasons, also across the end of the year and of the range of the formulas. *)
Theorem C77_seasons : forall y, (-1000 <= y <= 3000)%Z ->
  91 < June y - March y < 95 /\ 91 < September y - June y < 95 /\ 88 < December y - September y < 91.
Proof. exact seasons_same_year. Qed.
Print Assumptions C77_seasons.
Theorem C77_winter : forall y, (-1000 <= y <= 2999)%Z -> 88 < March (y + 1) - December y < 92.
Proof. exact winter. Qed.
Print Assumptions C77_winter.
Theorem C77_years : forall y, (-1000 <= y <= 2999)%Z ->
  365.19 < March (y + 1) - March y < 365.29 /\ 365.19 < June (y + 1) - June y < 365.29 /\
  365.19 < September (y + 1) - September y < 365.29 /\ 365.19 < December (y + 1) - December y < 365.29.
Proof. exact year_lengths. Qed.
Print Assumptions C77_years.

Example C77_nonvacuous : Rabs (June 2000 - 2451716.56767) <= 0.021 /\ date0h 2000 6 21 = 2451716.5.
Proof. exact season_example. Qed.
Print Assumptions C77_nonvacuous.

(** Higher accuracy: if the table moves the Sun steadily around an instant t at which it has the
    longitude of the season, and t is within 49 days of the approximate instant, the search ends
    and returns t to 0.2 seconds. *)
Theorem C78_march : forall y e t fuel, steady_sun (sun_longitude e) (t - 50) (t + 50) -> same_angle (sun_longitude e t) 0 -> Rabs (March y - t) <= 49 -> (10 < fuel)%nat ->
  exists r, March2 fuel y e = Some r /\ Rabs (r - t) <= 2 / 1000000.
Proof. exact March2_value. Qed.
Print Assumptions C78_march.
Theorem C78_june : forall y e t fuel, steady_sun (sun_longitude e) (t - 50) (t + 50) -> same_angle (sun_longitude e t) (PI / 2) -> Rabs (June y - t) <= 49 -> (10 < fuel)%nat ->
  exists r, June2 fuel y e = Some r /\ Rabs (r - t) <= 2 / 1000000.
Proof. exact June2_value. Qed.
Print Assumptions C78_june.
Theorem C78_september : forall y e t fuel, steady_sun (sun_longitude e) (t - 50) (t + 50) -> same_angle (sun_longitude e t) PI -> Rabs (September y - t) <= 49 -> (10 < fuel)%nat ->
  exists r, September2 fuel y e = Some r /\ Rabs (r - t) <= 2 / 1000000.
Proof. exact September2_value. Qed.
Print Assumptions C78_september.
Theorem C78_december : forall y e t fuel, steady_sun (sun_longitude e) (t - 50) (t + 50) -> same_angle (sun_longitude e t) (PI * 3 / 2) -> Rabs (December y - t) <= 49 -> (10 < fuel)%nat ->
  exists r, December2 fuel y e = Some r /\ Rabs (r - t) <= 2 / 1000000.
Proof. exact December2_value. Qed.
Print Assumptions C78_december.

(** For any table: a result is half a second from an instant where the Sun has the longitude of
    the season or the opposite one, to 10^-7 radians. *)
Theorem C78_sound : forall y e fuel r,
  (March2 fuel y e = Some r -> exists J, Rabs (r - J) < 5 / 1000000 /\ Rabs (sin (0 - sun_longitude e J)) < 1 / 10000000) /\
  (June2 fuel y e = Some r -> exists J, Rabs (r - J) < 5 / 1000000 /\ Rabs (sin (PI / 2 - sun_longitude e J)) < 1 / 10000000) /\
  (September2 fuel y e = Some r -> exists J, Rabs (r - J) < 5 / 1000000 /\ Rabs (sin (PI - sun_longitude e J)) < 1 / 10000000) /\
  (December2 fuel y e = Some r -> exists J, Rabs (r - J) < 5 / 1000000 /\ Rabs (sin (PI * 3 / 2 - sun_longitude e J)) < 1 / 10000000).
Proof. exact seasons2_sound. Qed.
Print Assumptions C78_sound.

(** The search itself, for any longitude of the Sun as a function of time; a uniformly moving Sun
    meets all its hypotheses. *)
Theorem C78_search : forall lam q c0 c2 y t fuel, steady_sun lam (t - 50) (t + 50) -> same_angle (lam t) q -> Rabs (by_year c0 c2 y - t) <= 49 -> (10 < fuel)%nat ->
  exists r, by_year2 lam fuel q c0 c2 y = Some r /\ Rabs (r - t) <= 2 / 1000000.
Proof. exact by_year2_converges. Qed.
Print Assumptions C78_search.
Example C78_nonvacuous : exists r, by_year2 (fun t => Mod1 (0.0172 * (t - date0h 2000 6 21))) 11 0 jc0 jc2 2000 = Some r /\ Rabs (r - date0h 2000 6 21) <= 2 / 1000000.
Proof. exact search_example. Qed.
Print Assumptions C78_nonvacuous.
Example C78_nonvacuous_steady : steady_sun (fun t => Mod1 (0.0172 * t)) 0 100.
Proof. exact steady_example. Qed.
Print Assumptions C78_nonvacuous_steady.
