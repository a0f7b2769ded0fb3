(** C45 (sidereal time), C46 and C47 (rising, transit, setting). *)
From Coq Require Import ZArith Reals List Lra.
From Verif Require Import GoFloat GoMath M_coord M_rise S_Sphere S_rise L_trig L_rise.
Import ListNotations.
Local Open Scope R_scope.

(** ** C45.  jd0 is the Julian day of 0h UT of the day of jd. *)
Theorem C45_Mean0UT : forall jd0 jd, midnight jd0 jd -> 0 <= jd + 1 / 2 ->
  0 <= Mean0UT jd < 86400 /\ same_time (Mean0UT jd) (sidereal0 ((jd0 - 2451545) / 36525)).
Proof. exact Mean0UT_day. Qed.
Print Assumptions C45_Mean0UT.

Theorem C45_Mean : forall jd0 jd, midnight jd0 jd -> 0 <= jd + 1 / 2 ->
  0 <= Mean jd < 86400 /\ same_time (Mean jd) (sidereal0 ((jd0 - 2451545) / 36525) + 1.00273790935 * (86400 * (jd - jd0))).
Proof. exact Mean_day. Qed.
Print Assumptions C45_Mean.

Theorem C45_Mean0UT_constant : forall jd0 jd jd', midnight jd0 jd -> midnight jd0 jd' ->
  0 <= jd + 1 / 2 -> 0 <= jd' + 1 / 2 -> Mean0UT jd = Mean0UT jd'.
Proof. exact Mean0UT_const. Qed.
Print Assumptions C45_Mean0UT_constant.

(** From one midnight to the next Mean runs on without a jump (10 centuries around 2000). *)
Theorem C45_Mean_no_jump : forall jd0, midnight jd0 jd0 -> 0 <= jd0 + 1 / 2 -> -10 <= (jd0 - 2451545) / 36525 <= 10 ->
  near_time 0.0001 (Mean (jd0 + 1)) (Mean jd0 + 1.00273790935 * 86400).
Proof. exact Mean_no_jump. Qed.
Print Assumptions C45_Mean_no_jump.

(** Apparent is mean plus nutation in right ascension n. *)
Theorem C45_Apparent : forall n jd, 0 <= Apparent n jd < 86400 /\ same_time (Apparent n jd) (Mean jd + TimeFromRad (n jd)).
Proof. exact Apparent_mean. Qed.
Print Assumptions C45_Apparent.

(** Apparent0UT: the time of jd itself, not of 0h, with the nutation of noon. *)
Theorem C45_Apparent0UT_value : forall n jd0 jd, midnight jd0 jd -> 0 <= jd + 1 / 2 ->
  0 <= Apparent0UT n jd < 86400 /\ same_time (Apparent0UT n jd) (Mean jd + TimeFromRad (n (jd0 + 1 / 2))).
Proof. exact Apparent0UT_value. Qed.
Print Assumptions C45_Apparent0UT_value.

Theorem C45_Apparent0UT_refuted : forall n,
  midnight 2451544.5 2451544.5 /\ midnight 2451544.5 2451545 /\ Apparent0UT n 2451544.5 <> Apparent0UT n 2451545.
Proof. exact Apparent0UT_not_const. Qed.
Print Assumptions C45_Apparent0UT_refuted.

(** Before JD -0.5 the fraction is negative: Mean0UT is that of the following midnight. *)
Theorem C45_Mean0UT_negative_refuted :
  midnight (-1.5) (-1) /\ midnight (-0.5) 0 /\ Mean0UT (-1) = Mean0UT 0 /\
  ~ same_time (Mean0UT (-1)) (sidereal0 ((-1.5 - 2451545) / 36525)).
Proof. exact Mean0UT_negative. Qed.
Print Assumptions C45_Mean0UT_negative_refuted.

Example C45_nonvacuous : midnight (IZR 2446896 - 1 / 2) 2446896 /\ -10 <= (IZR 2446896 - 1 / 2 - 2451545) / 36525 <= 10.
Proof. split; [split; [exists 2446896%Z; reflexivity|lra]|lra]. Qed.

(** ** C46 *)
Theorem C46_circumpolar : forall p h0 Th0 a d, - (PI / 2) < Lat p < PI / 2 -> - (PI / 2) < d < PI / 2 ->
  (ApproxTimes p h0 Th0 a d = None <-> forall H, sin_alt (Lat p) d H <> sin h0).
Proof. exact circumpolar. Qed.
Print Assumptions C46_circumpolar.

(** Transit at hour angle 0, rising and setting at altitude h0, east and west of
    the meridian; the sidereal clock runs at the rate of the civil clock. *)
Theorem C46_times : forall p h0 Th0 a d tr tm ts, - (PI / 2) < Lat p < PI / 2 -> - (PI / 2) < d < PI / 2 ->
  ApproxTimes p h0 Th0 a d = Some (tr, tm, ts) ->
  let HA := hour_angle 1 Th0 (Lon p) a in
  0 <= tr < 86400 /\ 0 <= tm < 86400 /\ 0 <= ts < 86400 /\
  (exists k : Z, HA tm = IZR k * (2 * PI)) /\
  sin_alt (Lat p) d (HA tr) = sin h0 /\ sin (HA tr) <= 0 /\
  sin_alt (Lat p) d (HA ts) = sin h0 /\ 0 <= sin (HA ts).
Proof. exact ApproxTimes_times. Qed.
Print Assumptions C46_times.

Example C46_nonvacuous : ApproxTimes (mkCoord 0 0) 0 43200 0 0 =
  Some (TimeMod1 (TimeFromRad 0 - 43200 - 21600), TimeMod1 (TimeFromRad 0 - 43200), TimeMod1 (TimeFromRad 0 - 43200 + 21600)).
Proof. exact (approx_equator 0 43200). Qed.

(** ** C47 *)
(** Tables of three rows: an error exactly when ApproxTimes has one, otherwise the
    approximate times corrected with parabolic interpolation of the tables. *)
Theorem C47_three_rows : forall p DT h0 Th0 a0 a1 a2 d0 d1 d2,
  Times p DT h0 Th0 [a0; a1; a2] [d0; d1; d2] =
  match ApproxTimes p h0 Th0 a1 d1 with
  | None => Fail
  | Some (tr, tm, ts) =>
      Ret (adjustRS p DT h0 Th0 (table3 a0 a1 a2) (table3 d0 d1 d2) tr, adjustTransit p DT Th0 (table3 a0 a1 a2) tm,
           adjustRS p DT h0 Th0 (table3 a0 a1 a2) (table3 d0 d1 d2) ts)
  end.
Proof. exact Times_three. Qed.
Print Assumptions C47_three_rows.

(** The correction of the transit is the hour angle, up to whole turns. *)
Theorem C47_transit_correction : forall p DT Th0 fa t, let H := t - adjustTransit p DT Th0 fa t in
  exists k : Z, H * (PI / 43200) = hour_angle sidRate Th0 (Lon p) (fa (t + DT)) t + IZR k * (2 * PI).
Proof. exact adjustTransit_HA. Qed.
Print Assumptions C47_transit_correction.

(** No correction when the altitude is h0; otherwise toward the event. *)
Theorem C47_correction_fixed : forall p DT h0 Th0 m fa fd,
  let d := fd (m + DT) in let H := hour_angle sidRate Th0 (Lon p) (fa (m + DT)) m in
  - (PI / 2) < h0 < PI / 2 -> cos d * cos (Lat p) * sin H <> 0 ->
  sin_alt (Lat p) d H = sin h0 -> adjustRS p DT h0 Th0 fa fd m = m.
Proof. intros p DT h0 Th0 m fa fd d H Hh Hd. exact (adjustRS_fixed p DT h0 Th0 m fa fd Hh). Qed.
Print Assumptions C47_correction_fixed.

Theorem C47_correction_direction : forall p DT h0 Th0 m fa fd,
  let d := fd (m + DT) in let H := hour_angle sidRate Th0 (Lon p) (fa (m + DT)) m in
  - (PI / 2) < h0 < PI / 2 -> cos d * cos (Lat p) * sin H <> 0 -> 0 < cos d * cos (Lat p) -> sin_alt (Lat p) d H <= 1 -> -1 <= sin_alt (Lat p) d H ->
  (sin_alt (Lat p) d H < sin h0 -> sin H < 0 -> m < adjustRS p DT h0 Th0 fa fd m) /\
  (sin h0 < sin_alt (Lat p) d H -> sin H < 0 -> adjustRS p DT h0 Th0 fa fd m < m) /\
  (sin_alt (Lat p) d H < sin h0 -> 0 < sin H -> adjustRS p DT h0 Th0 fa fd m < m) /\
  (sin h0 < sin_alt (Lat p) d H -> 0 < sin H -> m < adjustRS p DT h0 Th0 fa fd m).
Proof. intros p DT h0 Th0 m fa fd d H Hh. exact (adjustRS_direction p DT h0 Th0 m fa fd Hh). Qed.
Print Assumptions C47_correction_direction.

(** The result may be outside of the day: at longitude 0, RA 23h59m59s, sidereal
    time 12h at 0h UT. *)
Theorem C47_range_refuted : let A := TimeRad 86399 in
  exists tr tm ts, Times (mkCoord 0 0) 0 0 43200 [A; A; A] [0; 0; 0] = Ret (tr, tm, ts) /\ 86400 < tm.
Proof. exact Times_out_of_range. Qed.
Print Assumptions C47_range_refuted.

(** Right ascensions passing 0h are interpolated across the discontinuity: the
    same three directions, written with and without the wrap, give transit times
    that differ by hours. *)
Theorem C47_wrap_refuted : exists r1 t1 s1 r2 t2 s2,
  Times (mkCoord 0 0) 0 0 43200 [2 * PI - 1 / 100; 0; 1 / 100] [0; 0; 0] = Ret (r1, t1, s1) /\
  Times (mkCoord 0 0) 0 0 43200 [- (1 / 100); 0; 1 / 100] [0; 0; 0] = Ret (r2, t2, s2) /\
  t1 < 33000 /\ 43000 < t2.
Proof. exact Times_wrap. Qed.
Print Assumptions C47_wrap_refuted.

(** Tables of other lengths: never an error.  Two rows are used with a third of
    zeros, other lengths panic. *)
Theorem C47_two_rows_refuted : forall p DT h0 Th0 a0 a1 d0 d1,
  Times p DT h0 Th0 [a0; a1] [d0; d1] = Times p DT h0 Th0 [a0; a1; 0] [d0; d1; 0].
Proof. exact Times_two. Qed.
Print Assumptions C47_two_rows_refuted.

Theorem C47_short_tables : forall p DT h0 Th0 a3 d3, (length a3 < 2 \/ length d3 < 2)%nat -> Times p DT h0 Th0 a3 d3 = Panic.
Proof. exact Times_short. Qed.
Print Assumptions C47_short_tables.

Theorem C47_long_tables : forall p DT h0 Th0 a3 d3 a1 d1, nth_error a3 1 = Some a1 -> nth_error d3 1 = Some d1 ->
  ApproxTimes p h0 Th0 a1 d1 <> None -> (3 < length a3 \/ 3 < length d3)%nat -> Times p DT h0 Th0 a3 d3 = Panic.
Proof. exact Times_long. Qed.
Print Assumptions C47_long_tables.

Example C47_nonvacuous : let H := hour_angle sidRate (-14400) 0 0 0 in
  sin 0 < sin_alt 0 0 H /\ sin H < 0 /\ 0 < cos 0 * cos 0.
Proof.
  intros H. assert (E : H = - (PI / 3)) by (unfold H, hour_angle; field).
  rewrite E, sin_0, cos_0, sin_neg, sin_PI3. unfold sin_alt, dot, dir. cbn [vx vy vz]. rewrite sin_0, cos_0, cos_neg, cos_PI3.
  split; [lra|split; [|lra]]. assert (0 < sqrt 3) by (apply sqrt_lt_R0; lra). lra.
Qed.
