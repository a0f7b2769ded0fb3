(** C101, C102: the equation of time, sidereal time and the place of the Sun. *)
From Coq Require Import ZArith Reals Lra.
From Verif Require Import GoMath M_solar M_rise S_solar S_eqtime L_apparent2 L_eqtime.
Local Open Scope R_scope.

(** ** C101 *)
(** The hour angle of the apparent Sun at Greenwich, sidereal time less right ascension,
    is universal time less twelve hours plus the equation of time: to 0.07 seconds from 1900
    to 2100 and 2.7 seconds from 1000 to 3000. *)
Theorem C101_solar_time : forall v jd, 0 <= jd + 1 / 2 ->
  let T := (jd - 2451545) / 36525 in
  let ra := fst (fst (ApparentEquatorialVSOP87 v jd)) in
  let hour_angle := TimeRad (Apparent NutationInRA jd) - ra in
  let clock := 2 * PI * (jd + 1 / 2) - PI in
  forall B, Rabs T <= 1 /\ B = 0.07 \/ Rabs T <= 10 /\ B = 2.7 ->
  exists d, same_angle hour_angle (clock + EqTime jd v + seconds d) /\ Rabs d <= B.
Proof. intros v jd H T ra ha cl B HB. exact (solar_time v jd B H HB). Qed.
Print Assumptions C101_solar_time.
Example C101_nonvacuous : 0 <= 2448908.5 + 1 / 2 /\ Rabs ((2448908.5 - 2451545) / 36525) <= 1.
Proof. split; [lra|]. apply Rabs_le. lra. Qed.

(** ** C102 *)
(** ESmart is the mean longitude less the right ascension of TrueEquatorial, to 5 seconds of time. *)
Theorem C102_smart : forall jde, let T := (jde - 2451545) / 36525 in Rabs T <= 10 ->
  let L0 := degrees (280.4664567 + 360007.6982779 * (T / 10) + 0.03032028 * (T / 10) ^ 2 + (T / 10) ^ 3 / 49931 - (T / 10) ^ 4 / 15300 - (T / 10) ^ 5 / 2000000) in
  exists d, same_angle (L0 - fst (TrueEquatorial jde)) d /\ Rabs (ESmart jde - d) <= seconds 5.
Proof. exact smart_place. Qed.
Print Assumptions C102_smart.
Example C102_nonvacuous : Rabs ((2448908.5 - 2451545) / 36525) <= 10.
Proof. apply Rabs_le. lra. Qed.
