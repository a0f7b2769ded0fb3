(** Lemmas for packages sidereal and rise. *)
From Coq Require Import ZArith Reals List Lra Lia Psatz Bool.
From Flocq Require Import Core.
From Verif Require Import GoFloat GoMath M_base M_interp M_coord M_precess M_rise S_Sphere S_rise L_trig L_angle L_precess.
Import ListNotations.
Local Open Scope R_scope.

Lemma TimeMod1_bound x : 0 <= TimeMod1 x < 86400. Proof. apply PMod_bound. lra. Qed.
Lemma TimeMod1_same x : same_time (TimeMod1 x) x.
Proof. destruct (PMod_eq x 86400 ltac:(lra)) as [k E]. exists k. exact E. Qed.
Lemma TimeMod1_cong x y : same_time x y -> TimeMod1 x = TimeMod1 y.
Proof. intros [k E]. unfold TimeMod1. rewrite E. apply PMod_shift. lra. Qed.
Lemma same_time_sym a b : same_time a b -> same_time b a.
Proof. intros [k E]. exists (- k)%Z. rewrite opp_IZR, E. ring. Qed.
Lemma same_time_trans a b c : same_time a b -> same_time b c -> same_time a c.
Proof. intros [k E] [j F]. exists (k + j)%Z. rewrite plus_IZR, E, F. ring. Qed.
Lemma same_time_add a b c : same_time a b -> same_time (a + c) (b + c).
Proof. intros [k E]. exists k. rewrite E. ring. Qed.

Lemma midnight_split jd0 jd : midnight jd0 jd -> 0 <= jd + 1 / 2 ->
  Modf_int (jd + 1 / 2) = jd0 + 1 / 2 /\ Modf_frac (jd + 1 / 2) = jd - jd0.
Proof.
  intros [[n E] B] P. assert (T : Ztrunc (jd + 1 / 2) = n).
  { rewrite Ztrunc_floor by exact P. apply Zfloor_imp. rewrite plus_IZR. lra. }
  unfold Modf_int, Modf_frac. rewrite T. split; lra.
Qed.

Lemma iau82_poly T : HornerR T iau82 = sidereal0 T.
Proof. unfold HornerR, Horner, iau82, sidereal0. cbn [rev List.app horner_loop]. cbn [fadd fmul RFlt]. decimals. field. Qed.

Lemma cent (jd : R) : (J2000Century (fl := RFlt) jd : R) = (jd - 2451545) / 36525.
Proof. change ((jd - 2451545 / 1) / (36525 / 1) = (jd - 2451545) / 36525). field. Qed.

(** Mean0UT and Mean. *)
Lemma Mean0UT_day jd0 jd : midnight jd0 jd -> 0 <= jd + 1 / 2 ->
  0 <= Mean0UT jd < 86400 /\ same_time (Mean0UT jd) (sidereal0 ((jd0 - 2451545) / 36525)).
Proof.
  intros M P. split; [apply TimeMod1_bound|]. destruct (midnight_split _ _ M P) as [E F].
  unfold Mean0UT, mean0UT, jdToCFrac. cbn [fst]. rewrite E, iau82_poly, cent. replace (jd0 + 1 / 2 - 1 / 2) with jd0 by ring. apply TimeMod1_same.
Qed.
Lemma Mean_day jd0 jd : midnight jd0 jd -> 0 <= jd + 1 / 2 ->
  0 <= Mean jd < 86400 /\ same_time (Mean jd) (sidereal0 ((jd0 - 2451545) / 36525) + 1.00273790935 * (86400 * (jd - jd0))).
Proof.
  intros M P. split; [apply TimeMod1_bound|]. destruct (midnight_split _ _ M P) as [E F].
  unfold Mean, mean, mean0UT, jdToCFrac, TimeFromDay. rewrite E, F, iau82_poly, cent. replace (jd0 + 1 / 2 - 1 / 2) with jd0 by ring.
  match goal with |- same_time (TimeMod1 ?x) ?y => replace x with y; [apply TimeMod1_same|] end. decimals. field.
Qed.
Lemma Mean0UT_const jd0 jd jd' : midnight jd0 jd -> midnight jd0 jd' -> 0 <= jd + 1 / 2 -> 0 <= jd' + 1 / 2 -> Mean0UT jd = Mean0UT jd'.
Proof.
  intros M M' P P'. destruct (midnight_split _ _ M P) as [E _]. destruct (midnight_split _ _ M' P') as [E' _].
  unfold Mean0UT, mean0UT, jdToCFrac. cbn [fst]. rewrite E, E'. reflexivity.
Qed.
Lemma Mean_at_midnight jd : midnight jd jd -> 0 <= jd + 1 / 2 -> Mean jd = Mean0UT jd.
Proof.
  intros M P. destruct (midnight_split _ _ M P) as [E F]. unfold Mean, mean, Mean0UT, mean0UT, jdToCFrac. cbn [fst]. rewrite F. unfold TimeFromDay. f_equal. ring.
Qed.

(** No jump at midnight: the value reached at the end of a day and the one at the
    beginning of the next differ by at most 1/10000 s within ten centuries of 2000. *)
Lemma sidereal0_step T : -10 <= T <= 10 ->
  Rabs (sidereal0 (T + 1 / 36525) - (sidereal0 T + 1.00273790935 * 86400 + IZR (-1) * 86400)) <= 0.0001.
Proof.
  intros H. unfold sidereal0. decimals. apply Rabs_le.
  match goal with |- _ <= ?e <= _ => replace e with
    (8640184812866 / 1000000 / 36525 - (100273790935 / 100000000000 * 86400 - 86400) + 93104 / 1000000 * (2 * T + 1 / 36525) / 36525
     + 62 / 10000000 * (3 * T * T + 3 * T / 36525 + 1 / 36525 * (1 / 36525)) / 36525) by field end.
  assert (0 <= T * T <= 100) by (split; nra). split; lra.
Qed.
Lemma Mean_no_jump jd0 : midnight jd0 jd0 -> 0 <= jd0 + 1 / 2 -> -10 <= (jd0 - 2451545) / 36525 <= 10 ->
  near_time 0.0001 (Mean (jd0 + 1)) (Mean jd0 + 1.00273790935 * 86400).
Proof.
  intros M P B. assert (M1 : midnight (jd0 + 1) (jd0 + 1)).
  { destruct M as [[n E] _]. split; [|lra]. exists (n + 1)%Z. rewrite plus_IZR. lra. }
  destruct (Mean_day _ _ M P) as [_ [k K]]. destruct (Mean_day _ _ M1 ltac:(lra)) as [_ [j J]].
  exists (j - k - 1)%Z. rewrite J, K, !minus_IZR.
  replace (jd0 - jd0) with 0 by ring. replace (jd0 + 1 - (jd0 + 1)) with 0 by ring.
  replace ((jd0 + 1 - 2451545) / 36525) with ((jd0 - 2451545) / 36525 + 1 / 36525) by field.
  pose proof (sidereal0_step _ B) as S. set (T := (jd0 - 2451545) / 36525) in *.
  match goal with |- Rabs ?x <= _ => match type of S with Rabs ?y <= _ => replace x with y; [exact S|] end end. ring.
Qed.

(** Apparent sidereal time. *)
Lemma Apparent_mean n jd : 0 <= Apparent n jd < 86400 /\ same_time (Apparent n jd) (Mean jd + TimeFromRad (n jd)).
Proof.
  split; [apply TimeMod1_bound|]. unfold Apparent, HATime, Mean. eapply same_time_trans; [apply TimeMod1_same|].
  apply same_time_add, same_time_sym, TimeMod1_same.
Qed.
Lemma Apparent0UT_value n jd0 jd : midnight jd0 jd -> 0 <= jd + 1 / 2 ->
  0 <= Apparent0UT n jd < 86400 /\ same_time (Apparent0UT n jd) (Mean jd + TimeFromRad (n (jd0 + 1 / 2))).
Proof.
  intros M P. split; [apply TimeMod1_bound|]. destruct (midnight_split _ _ M P) as [E F].
  unfold Apparent0UT, HATime. cbv zeta. eapply same_time_trans; [apply TimeMod1_same|].
  rewrite E. apply same_time_add, same_time_sym. unfold Mean. eapply same_time_trans; [apply TimeMod1_same|].
  exists 0%Z. unfold mean, mean0UT, jdToCFrac, TimeFromDay. rewrite E, F, cent. unfold J2000. cbn [fconst RFlt].
  replace (jd0 + 1 / 2 - 1 / 2 - 2451545 / 1) with (jd0 + 1 / 2 - 1 / 2 - 2451545) by field. ring.
Qed.
(** Apparent0UT is not constant over the day: 0h and 12h UT of 2000 January 1. *)
Lemma Apparent0UT_not_const n : midnight 2451544.5 2451544.5 /\ midnight 2451544.5 2451545 /\ Apparent0UT n 2451544.5 <> Apparent0UT n 2451545.
Proof.
  assert (M1 : midnight 2451544.5 2451544.5). { split; [exists 2451545%Z|]; decimals; lra. }
  assert (M2 : midnight 2451544.5 2451545). { split; [exists 2451545%Z|]; decimals; lra. }
  split; [exact M1|]. split; [exact M2|]. intros K.
  destruct (Apparent0UT_value n _ _ M1 ltac:(decimals; lra)) as [_ [k1 E1]]. destruct (Apparent0UT_value n _ _ M2 ltac:(decimals; lra)) as [_ [k2 E2]].
  destruct (Mean_day _ _ M1 ltac:(decimals; lra)) as [_ [j1 F1]]. destruct (Mean_day _ _ M2 ltac:(decimals; lra)) as [_ [j2 F2]].
  rewrite E1, F1, E2, F2 in K. set (S := sidereal0 _) in K. set (N := TimeFromRad _) in K.
  assert (Q : IZR (k1 + j1 - k2 - j2) * 86400 = 1.00273790935 * (86400 * 0.5)).
  { rewrite !minus_IZR, plus_IZR. revert K. decimals. intros K. lra. }
  set (z := (k1 + j1 - k2 - j2)%Z) in *. revert Q. decimals. intros Q.
  assert (0 < IZR z < 1) by lra. destruct H as [H1 H2]. apply lt_IZR in H1. apply lt_IZR in H2. lia.
Qed.
(** At 0h UT it uses the nutation of the following noon. *)
Lemma Apparent0UT_midnight n jd : midnight jd jd -> 0 <= jd + 1 / 2 -> same_time (Apparent0UT n jd) (Mean0UT jd + TimeFromRad (n (jd + 1 / 2))).
Proof. intros M P. rewrite <- Mean_at_midnight by assumption. apply Apparent0UT_value; assumption. Qed.

(** Before noon of JD 0 the day is not the civil day: two instants of different days. *)
Lemma Mean0UT_negative : midnight (-1.5) (-1) /\ midnight (-0.5) 0 /\ Mean0UT (-1) = Mean0UT 0 /\ ~ same_time (Mean0UT (-1)) (sidereal0 ((-1.5 - 2451545) / 36525)).
Proof.
  assert (M1 : midnight (-1.5) (-1)). { split; [exists (-1)%Z|]; decimals; lra. }
  assert (M2 : midnight (-0.5) 0). { split; [exists 0%Z|]; decimals; lra. }
  split; [exact M1|]. split; [exact M2|].
  assert (T1 : Ztrunc (-1 + 1 / 2) = 0%Z). { rewrite Ztrunc_ceil by lra. apply Zceil_imp. cbn. lra. }
  assert (T2 : Ztrunc (0 + 1 / 2) = 0%Z). { rewrite Ztrunc_floor by lra. apply Zfloor_imp. cbn. lra. }
  assert (E : Mean0UT (-1) = Mean0UT 0). { unfold Mean0UT, mean0UT, jdToCFrac, Modf_int. rewrite T1, T2. reflexivity. }
  split; [exact E|]. rewrite E. intros K. destruct (Mean0UT_day _ _ M2 ltac:(lra)) as [_ F].
  destruct (same_time_trans _ _ _ (same_time_sym _ _ F) K) as [k Q]. clear E K F.
  assert (R : Rabs (236.55 + IZR (- k) * 86400) < 1).
  { rewrite opp_IZR. revert Q. unfold sidereal0. decimals. intros Q. apply Rabs_def1; lra. }
  apply Rabs_def2 in R. revert R. decimals. intros [R1 R2].
  assert (-1 < IZR (- k) < 0) by lra. destruct H as [H1 H2]. apply lt_IZR in H1. apply lt_IZR in H2. lia.
Qed.

(** ** rise *)
Lemma sin_alt_eq phi d H : sin_alt phi d H = sin phi * sin d + cos phi * cos d * cos H.
Proof. unfold sin_alt, dot, dir. cbn [vx vy vz]. rewrite sin_0, cos_0. ring. Qed.

Lemma circumpolar p h0 Th0 a d : - (PI / 2) < Lat p < PI / 2 -> - (PI / 2) < d < PI / 2 ->
  (ApproxTimes p h0 Th0 a d = None <-> forall H, sin_alt (Lat p) d H <> sin h0).
Proof.
  intros HL HD. pose proof (cos_pos_lat _ HL) as CL. pose proof (cos_pos_lat _ HD) as CD.
  assert (CP : 0 < cos (Lat p) * cos d) by (apply Rmult_lt_0_compat; assumption).
  unfold ApproxTimes. set (c := (sin h0 - sin (Lat p) * sin d) / (cos (Lat p) * cos d)).
  assert (Ec : cos (Lat p) * cos d * c = sin h0 - sin (Lat p) * sin d) by (unfold c; field; lra).
  case Rlt_bool_spec; intros H1; cbn [orb].
  - split; [|reflexivity]. intros _ H K. rewrite sin_alt_eq in K. pose proof (COS_bound H). nra.
  - case Rlt_bool_spec; intros H2.
    + split; [|reflexivity]. intros _ H K. rewrite sin_alt_eq in K. pose proof (COS_bound H). nra.
    + split; [discriminate|]. intros K. exfalso. apply (K (acos c)). rewrite sin_alt_eq, cos_acos by lra. lra.
Qed.

Lemma HA_same T lon a t t' x : same_time t' (t + x) -> exists k : Z, hour_angle 1 T lon a t' = hour_angle 1 T lon a t + x * (PI / 43200) + IZR k * (2 * PI).
Proof. intros [k E]. exists k. unfold hour_angle. rewrite E. field. Qed.

Lemma ApproxTimes_times p h0 Th0 a d tr tm ts : - (PI / 2) < Lat p < PI / 2 -> - (PI / 2) < d < PI / 2 ->
  ApproxTimes p h0 Th0 a d = Some (tr, tm, ts) ->
  let HA := hour_angle 1 Th0 (Lon p) a in
  0 <= tr < 86400 /\ 0 <= tm < 86400 /\ 0 <= ts < 86400 /\
  (exists k : Z, HA tm = IZR k * (2 * PI)) /\
  sin_alt (Lat p) d (HA tr) = sin h0 /\ sin (HA tr) <= 0 /\
  sin_alt (Lat p) d (HA ts) = sin h0 /\ 0 <= sin (HA ts).
Proof.
  intros HL HD. pose proof (cos_pos_lat _ HL) as CL. pose proof (cos_pos_lat _ HD) as CD.
  assert (CP : 0 < cos (Lat p) * cos d) by (apply Rmult_lt_0_compat; assumption).
  unfold ApproxTimes. set (c := (sin h0 - sin (Lat p) * sin d) / (cos (Lat p) * cos d)).
  assert (Ec : cos (Lat p) * cos d * c = sin h0 - sin (Lat p) * sin d) by (unfold c; field; lra).
  case Rlt_bool_spec; intros H1; [discriminate|]. case Rlt_bool_spec; intros H2; [discriminate|]. cbn [orb]. cbv zeta.
  set (mt := TimeFromRad (a + Lon p) - Th0). intros E. injection E as <- <- <-.
  split; [apply TimeMod1_bound|]. split; [apply TimeMod1_bound|]. split; [apply TimeMod1_bound|].
  pose proof PI_RGT_0 as HP. pose proof (acos_bound c) as BA.
  assert (Z : hour_angle 1 Th0 (Lon p) a mt = 0). { unfold hour_angle, mt, TimeFromRad. field. lra. }
  destruct (HA_same Th0 (Lon p) a mt (TimeMod1 mt) 0) as [k1 E1]. { rewrite Rplus_0_r. apply TimeMod1_same. }
  destruct (HA_same Th0 (Lon p) a mt (TimeMod1 (mt - TimeFromRad (acos c))) (- TimeFromRad (acos c))) as [k2 E2]. { apply TimeMod1_same. }
  destruct (HA_same Th0 (Lon p) a mt (TimeMod1 (mt + TimeFromRad (acos c))) (TimeFromRad (acos c))) as [k3 E3]. { apply TimeMod1_same. }
  rewrite Z in *. split; [exists k1; lra|].
  replace (0 + - TimeFromRad (acos c) * (PI / 43200)) with (- acos c) in E2 by (unfold TimeFromRad; field; lra).
  replace (0 + TimeFromRad (acos c) * (PI / 43200)) with (acos c) in E3 by (unfold TimeFromRad; field; lra).
  rewrite E2, E3, !sin_alt_eq, !cos_Z, !sin_Z, cos_neg, sin_neg, cos_acos by lra.
  assert (0 <= sin (acos c)) by (apply sin_ge_0; lra). repeat split; lra.
Qed.

(** The corrections of Times. *)
Lemma adjustTransit_HA p DT Th0 fa t : let H := t - adjustTransit p DT Th0 fa t in
  exists k : Z, H * (PI / 43200) = hour_angle sidRate Th0 (Lon p) (fa (t + DT)) t + IZR k * (2 * PI).
Proof.
  unfold adjustTransit. cbv zeta. destruct (TimeMod1_same (Th0 + t * sidRate)) as [k E]. rewrite E. exists k.
  unfold hour_angle, TimeFromRad. field. apply Rgt_not_eq, PI_RGT_0.
Qed.

Section RS.
Variables (p : Coord) (DT h0 Th0 m : R) (fa fd : R -> R).
Let d := fd (m + DT).
Let H := hour_angle sidRate Th0 (Lon p) (fa (m + DT)) m.
Hypothesis Hh : - (PI / 2) < h0 < PI / 2.
Hypothesis Hden : cos d * cos (Lat p) * sin H <> 0.
Lemma adjustRS_form : adjustRS p DT h0 Th0 fa fd m =
  m + (asin (sin_alt (Lat p) d H) - h0) * (43200 / PI) / (cos d * cos (Lat p) * sin H).
Proof.
  unfold adjustRS. cbv zeta. fold d. set (Hr := TimeRad _ - _ - _).
  assert (E : exists k : Z, Hr = H + IZR k * (2 * PI)).
  { unfold Hr, H. destruct (TimeMod1_same (Th0 + m * sidRate)) as [k E]. rewrite E. exists k. unfold TimeRad, hour_angle. field. }
  destruct E as [k E]. rewrite E, cos_Z, sin_Z. rewrite sin_alt_eq. unfold TimeFromRad. f_equal. unfold Rdiv. ring.
Qed.
(** Nothing to correct when the altitude is right. *)
Lemma adjustRS_fixed : sin_alt (Lat p) d H = sin h0 -> adjustRS p DT h0 Th0 fa fd m = m.
Proof. intros E. rewrite adjustRS_form, E, asin_sin by lra. unfold Rdiv. ring. Qed.
(** The correction is forward when the body is below h0 and rising or above h0 and setting. *)
Lemma adjustRS_direction : 0 < cos d * cos (Lat p) -> sin_alt (Lat p) d H <= 1 -> -1 <= sin_alt (Lat p) d H ->
  (sin_alt (Lat p) d H < sin h0 -> sin H < 0 -> m < adjustRS p DT h0 Th0 fa fd m) /\
  (sin h0 < sin_alt (Lat p) d H -> sin H < 0 -> adjustRS p DT h0 Th0 fa fd m < m) /\
  (sin_alt (Lat p) d H < sin h0 -> 0 < sin H -> adjustRS p DT h0 Th0 fa fd m < m) /\
  (sin h0 < sin_alt (Lat p) d H -> 0 < sin H -> m < adjustRS p DT h0 Th0 fa fd m).
Proof.
  intros P U L. rewrite adjustRS_form. set (s := sin_alt (Lat p) d H) in *. pose proof PI_RGT_0 as HP.
  pose proof (asin_bound s) as B. assert (S : sin (asin s) = s) by (apply sin_asin; lra).
  assert (LT : s < sin h0 -> asin s < h0). { intros K. rewrite <- S in K. apply sin_increasing_0 in K; lra. }
  assert (GT : sin h0 < s -> h0 < asin s). { intros K. rewrite <- S in K. apply sin_increasing_0 in K; lra. }
  assert (K : 0 < 43200 / PI) by (apply Rdiv_lt_0_compat; lra).
  assert (DN : sin H < 0 -> / (cos d * cos (Lat p) * sin H) < 0) by (intros; apply Rinv_lt_0_compat; nra).
  assert (DP : 0 < sin H -> 0 < / (cos d * cos (Lat p) * sin H)) by (intros; apply Rinv_0_lt_compat; nra).
  unfold Rdiv at 1 3 5 7. set (q := / (cos d * cos (Lat p) * sin H)) in *. set (w := 43200 / PI) in *.
  clearbody q w s. repeat split; intros X Y.
  - specialize (LT X). specialize (DN Y). assert (0 < (h0 - asin s) * w * - q) by (repeat apply Rmult_lt_0_compat; lra). lra.
  - specialize (GT X). specialize (DN Y). assert (0 < (asin s - h0) * w * - q) by (repeat apply Rmult_lt_0_compat; lra). lra.
  - specialize (LT X). specialize (DP Y). assert (0 < (h0 - asin s) * w * q) by (repeat apply Rmult_lt_0_compat; lra). lra.
  - specialize (GT X). specialize (DP Y). assert (0 < (asin s - h0) * w * q) by (repeat apply Rmult_lt_0_compat; lra). lra.
Qed.
End RS.

(** Outcome by the lengths of the tables. *)
Lemma NewLen3_table (y0 y1 y2 : R) : exists d, NewLen3 (fl := RFlt) (-86400) 86400 ([y0; y1; y2] : list R) = Ok d /\ forall t : R, (Len3_InterpolateX (fl := RFlt) d t : R) = table3 y0 y1 y2 t.
Proof.
  unfold NewLen3. cbn [feq RFlt]. rewrite Req_bool_false; [|cbn; lra].
  eexists. split; [reflexivity|]. intros t. unfold Len3_InterpolateX, Len3_InterpolateN, table3. cbn. field.
Qed.
Lemma Times_three p DT h0 Th0 a0 a1 a2 d0 d1 d2 :
  Times p DT h0 Th0 [a0; a1; a2] [d0; d1; d2] =
  match ApproxTimes p h0 Th0 a1 d1 with
  | None => Fail
  | Some (tr, tm, ts) =>
      Ret (adjustRS p DT h0 Th0 (table3 a0 a1 a2) (table3 d0 d1 d2) tr, adjustTransit p DT Th0 (table3 a0 a1 a2) tm,
           adjustRS p DT h0 Th0 (table3 a0 a1 a2) (table3 d0 d1 d2) ts)
  end.
Proof.
  unfold Times. cbn [nth_error]. destruct (ApproxTimes p h0 Th0 a1 d1) as [[[tr tm] ts]|]; [|reflexivity].
  cbn [copy3 Nat.leb length Nat.sub repeat List.app]. unfold copy3. cbn [Nat.leb length Nat.sub repeat List.app].
  destruct (NewLen3_table a0 a1 a2) as [da [-> Ea]]. destruct (NewLen3_table d0 d1 d2) as [dd [-> Ed]].
  unfold adjustRS, adjustTransit. cbv zeta. rewrite !Ea, !Ed. reflexivity.
Qed.
Lemma Times_short p DT h0 Th0 a3 d3 : (length a3 < 2 \/ length d3 < 2)%nat -> Times p DT h0 Th0 a3 d3 = Panic.
Proof.
  intros H. unfold Times. destruct (nth_error a3 1) eqn:Ea; [destruct (nth_error d3 1) eqn:Ed|]; try reflexivity.
  assert (A := proj1 (nth_error_Some a3 1)). assert (D := proj1 (nth_error_Some d3 1)). rewrite Ea in A. rewrite Ed in D.
  specialize (A ltac:(discriminate)). specialize (D ltac:(discriminate)). lia.
Qed.
Lemma Times_long p DT h0 Th0 a3 d3 a1 d1 : nth_error a3 1 = Some a1 -> nth_error d3 1 = Some d1 -> ApproxTimes p h0 Th0 a1 d1 <> None ->
  (3 < length a3 \/ 3 < length d3)%nat -> Times p DT h0 Th0 a3 d3 = Panic.
Proof.
  intros Ea Ed NA H. unfold Times. rewrite Ea, Ed. destruct (ApproxTimes p h0 Th0 a1 d1) as [[[tr tm] ts]|]; [|congruence].
  unfold copy3. destruct (Nat.leb_spec (length a3) 3); [|reflexivity]. destruct (Nat.leb_spec (length d3) 3); [lia|reflexivity].
Qed.
Lemma Times_two p DT h0 Th0 a0 a1 d0 d1 : Times p DT h0 Th0 [a0; a1] [d0; d1] = Times p DT h0 Th0 [a0; a1; 0] [d0; d1; 0].
Proof. reflexivity. Qed.

(** Counterexamples. *)
Lemma approx_equator a Th0 : ApproxTimes (mkCoord 0 0) 0 Th0 a 0 =
  Some (TimeMod1 (TimeFromRad a - Th0 - 21600), TimeMod1 (TimeFromRad a - Th0), TimeMod1 (TimeFromRad a - Th0 + 21600)).
Proof.
  unfold ApproxTimes. cbn [Lat Lon]. rewrite sin_0, cos_0. replace ((0 - 0 * 0) / (1 * 1)) with 0 by field.
  rewrite Rlt_bool_false by lra. rewrite Rlt_bool_false by lra. cbn [orb]. cbv zeta. rewrite acos_0, Rplus_0_r.
  replace (TimeFromRad (PI / 2)) with 21600 by (unfold TimeFromRad; field; apply Rgt_not_eq, PI_RGT_0). reflexivity.
Qed.
Lemma TimeMod1_1 x : 86400 <= x < 172800 -> TimeMod1 x = x - 86400.
Proof. intros H. apply PMod_unique with (-1)%Z; [lra|lra|]. replace (IZR (-1)) with (-1) by reflexivity. ring. Qed.
Lemma TimeMod1_m1 x : -86400 <= x < 0 -> TimeMod1 x = x + 86400.
Proof. intros H. apply PMod_unique with 1%Z; [lra|lra|ring]. Qed.

Lemma Times_out_of_range : let A := TimeRad 86399 in
  exists tr tm ts, Times (mkCoord 0 0) 0 0 43200 [A; A; A] [0; 0; 0] = Ret (tr, tm, ts) /\ 86400 < tm.
Proof.
  intros A. rewrite Times_three, approx_equator. do 3 eexists. split; [reflexivity|].
  assert (EA : TimeFromRad A = 86399) by (unfold A, TimeRad, TimeFromRad; field; apply Rgt_not_eq, PI_RGT_0).
  rewrite EA. replace (TimeMod1 (86399 - 43200)) with 43199 by (symmetry; unfold TimeMod1; rewrite PMod_small; lra).
  unfold adjustTransit. cbv zeta. cbn [Lon]. replace (0 + table3 A A A (43199 + 0)) with A by (unfold table3; field). rewrite EA.
  rewrite TimeMod1_1 by (unfold sidRate; lra). unfold sidRate. lra.
Qed.

Lemma Times_wrap : exists r1 t1 s1 r2 t2 s2,
  Times (mkCoord 0 0) 0 0 43200 [2 * PI - 1 / 100; 0; 1 / 100] [0; 0; 0] = Ret (r1, t1, s1) /\
  Times (mkCoord 0 0) 0 0 43200 [- (1 / 100); 0; 1 / 100] [0; 0; 0] = Ret (r2, t2, s2) /\
  t1 < 33000 /\ 43000 < t2.
Proof.
  rewrite !Times_three, !approx_equator. do 6 eexists. split; [reflexivity|]. split; [reflexivity|].
  pose proof PI_bounds as PB.
  replace (TimeFromRad 0 - 43200) with (-43200) by (unfold TimeFromRad; field; lra).
  rewrite (TimeMod1_m1 (-43200)) by lra. unfold adjustTransit. cbv zeta. cbn [Lon].
  rewrite (TimeMod1_1 (43200 + (-43200 + 86400) * sidRate)) by (unfold sidRate; lra).
  assert (E : 0 < 43200 / PI / 200 < 100). { split; [apply Rdiv_lt_0_compat; [apply Rdiv_lt_0_compat|]; lra|].
    assert (43200 / PI < 20000); [|lra]. apply Rmult_lt_reg_r with PI; [lra|]. replace (43200 / PI * PI) with 43200 by (field; lra). lra. }
  split.
  - replace (TimeFromRad (0 + table3 (2 * PI - 1 / 100) 0 (1 / 100) (-43200 + 86400 + 0))) with (-10800 + 43200 / PI / 200).
    + unfold sidRate. lra.
    + unfold TimeFromRad, table3. field. lra.
  - replace (TimeFromRad (0 + table3 (- (1 / 100)) 0 (1 / 100) (-43200 + 86400 + 0))) with (43200 / PI / 200).
    + unfold sidRate. lra.
    + unfold TimeFromRad, table3. field. lra.
Qed.
