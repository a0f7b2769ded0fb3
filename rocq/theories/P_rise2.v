(** C122: what is left after the one correction of rise.Times. *)
From Coq Require Import ZArith Reals List Lra.
From Verif Require Import GoFloat GoMath M_coord M_rise S_Sphere S_rise S_moon L_trig L_rise L_rise2.
Import ListNotations.
Local Open Scope R_scope.

(** The body moves at most A in right ascension and D in declination from row to
    row; HA t and dec t are its hour angle and declination at time t, on the
    parabolas through the rows.  (r0, t0, s0) are the approximate times. *)

(** Transit: the correction is at most B radians of rotation of the sky, up to
    whole days, *)
Theorem C122_transit_days : forall p DT h0 Th0 a0 a1 a2 d0 d1 d2 A tr tm ts r0 t0 s0,
  - (PI / 2) < Lat p < PI / 2 -> - (PI / 2) < d1 < PI / 2 ->
  Rabs (a1 - a0) <= A -> Rabs (a2 - a1) <= A -> Rabs DT <= 3600 ->
  ApproxTimes p h0 Th0 a1 d1 = Some (r0, t0, s0) ->
  Times p DT h0 Th0 [a0; a1; a2] [d0; d1; d2] = Ret (tr, tm, ts) ->
  near_time ((173 / 10000 + 21 / 10 * A) * (43200 / PI)) tm t0.
Proof. exact Times_transit_days. Qed.
Print Assumptions C122_transit_days.

(** and the hour angle that is left is of second order, if no day is slipped. *)
Theorem C122_transit : forall p DT h0 Th0 a0 a1 a2 d0 d1 d2 A tr tm ts r0 t0 s0,
  - (PI / 2) < Lat p < PI / 2 -> - (PI / 2) < d1 < PI / 2 ->
  Rabs (a1 - a0) <= A -> Rabs (a2 - a1) <= A -> A <= 1 -> Rabs DT <= 3600 ->
  ApproxTimes p h0 Th0 a1 d1 = Some (r0, t0, s0) ->
  Times p DT h0 Th0 [a0; a1; a2] [d0; d1; d2] = Ret (tr, tm, ts) ->
  Rabs (tm - t0) <= 40000 ->
  let B := 173 / 10000 + 21 / 10 * A in
  Rabs (tm - t0) * (PI / 43200) <= B /\
  near_turns (hour_angle (360.985647 / 360) Th0 (Lon p) (table3 a0 a1 a2 (tm + DT)) tm) ((275 / 100000 + A / 2) * B).
Proof. exact Times_transit. Qed.
Print Assumptions C122_transit.

(** The transit of a star is right to 0.66 seconds of time. *)
Theorem C122_star : forall p DT h0 Th0 a d tr tm ts r0 t0 s0, - (PI / 2) < Lat p < PI / 2 -> - (PI / 2) < d < PI / 2 -> Rabs DT <= 3600 ->
  ApproxTimes p h0 Th0 a d = Some (r0, t0, s0) -> Times p DT h0 Th0 [a; a; a] [d; d; d] = Ret (tr, tm, ts) -> Rabs (tm - t0) <= 40000 ->
  near_turns (hour_angle (360.985647 / 360) Th0 (Lon p) a tm) (48 / 1000000).
Proof. exact Times_star. Qed.
Print Assumptions C122_star.

(** Rising and setting: g is the rate at which the altitude changes with the
    hour angle at the approximate time. *)
Theorem C122_rise_set : forall p DT h0 Th0 a0 a1 a2 d0 d1 d2 A D tr tm ts r0 t0 s0,
  - (PI / 2) < Lat p < PI / 2 -> - (PI / 2) < d1 < PI / 2 ->
  Rabs (a1 - a0) <= A -> Rabs (a2 - a1) <= A -> Rabs (d1 - d0) <= D -> Rabs (d2 - d1) <= D -> Rabs DT <= 3600 -> Rabs h0 <= 5 / 100 ->
  ApproxTimes p h0 Th0 a1 d1 = Some (r0, t0, s0) ->
  Times p DT h0 Th0 [a0; a1; a2] [d0; d1; d2] = Ret (tr, tm, ts) ->
  forall m m', m = r0 /\ m' = tr \/ m = s0 /\ m' = ts ->
  let HA t := hour_angle (360.985647 / 360) Th0 (Lon p) (table3 a0 a1 a2 (t + DT)) t in
  let dec t := table3 d0 d1 d2 (t + DT) in
  let B := 173 / 10000 + 21 / 10 * (A + D) in
  let g := Rabs (cos (dec m) * cos (Lat p) * sin (HA m)) in
  B <= 1 / 10 -> B <= 9 / 10 * g ->
  Rabs (m' - m) * (PI / 43200) <= 104 / 100 * (B / g) /\
  Rabs (sin_alt (Lat p) (dec m') (HA m') - sin h0) <= 55 / 100 * (B / g) * (B / g) + 4 / 100 * B + 104 / 100 * (275 / 100000 + (A + D) / 2) * (B / g).
Proof. exact Times_riseset. Qed.
Print Assumptions C122_rise_set.

(** A body moving a hundredth of a radian a day along the equator, delta-T one minute. *)
Example C122_nonvacuous : exists tr tm ts,
  ApproxTimes (mkCoord 0 0) 0 43200 0 0 = Some (21600, 43200, 64800) /\
  Times (mkCoord 0 0) 60 0 43200 [- (1 / 100); 0; 1 / 100] [0; 0; 0] = Ret (tr, tm, ts) /\
  Rabs (tm - 43200) <= 40000 /\
  173 / 10000 + 21 / 10 * (1 / 100 + 0) <= 9 / 10 * Rabs (cos (table3 0 0 0 (21600 + 60)) * cos 0 * sin (hour_angle (360.985647 / 360) 43200 0 (table3 (- (1 / 100)) 0 (1 / 100) (21600 + 60)) 21600)).
Proof. exact example_times. Qed.
