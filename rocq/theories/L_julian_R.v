(** julian: exact and binary64 theorems about the mixed integer/float functions. *)
From Coq Require Import ZArith Bool Reals Lra Lia ZifyBool.
From Flocq Require Import Core IEEE754.BinarySingleNaN.
From Verif Require Import GoInt GoFloat M_base M_julian S_Calendar S_julian L_tac L_julian_int L_julian_inv L_b64.
Local Open Scope R_scope.
Ltac Zify.zify_post_hook ::= Z.div_mod_to_equations.

Lemma CalGreg_R y m (d : R) : yearbound y -> (1 <= m <= 12)%Z ->
  CalendarGregorianToJD (fl := RFlt) y m d = IZR (jdn Gregorian (mkdate y m 0)) + d - / 2.
Proof.
  intros Hy Hm. unfold CalendarGregorianToJD. cbn [fofZ fconst fadd fsub RFlt F].
  pose proof (greg_to_int y m Hy Hm) as E. cbv zeta in E.
  rewrite <- plus_IZR. rewrite E. rewrite plus_IZR. lra.
Qed.

Lemma CalJul_R y m (d : R) : yearbound y -> (1 <= m <= 12)%Z ->
  CalendarJulianToJD (fl := RFlt) y m d = IZR (jdn Julian (mkdate y m 0)) + d - / 2.
Proof.
  intros Hy Hm. unfold CalendarJulianToJD. cbn [fofZ fconst fadd fsub RFlt F].
  pose proof (jul_to_int y m Hy Hm) as E. cbv zeta in E.
  rewrite <- plus_IZR. rewrite E. rewrite plus_IZR. lra.
Qed.

Lemma jdn_day c y m d : jdn c (mkdate y m d) = (jdn c (mkdate y m 0) + d)%Z.
Proof. unfold jdn, rata_die. cbn [d_y d_m d_d]. lia. Qed.

Lemma JDg_jdn x : yearbound (d_y x) -> (1 <= d_m x <= 12)%Z ->
  JDg x = IZR (jdn Gregorian x) - / 2.
Proof.
  intros Hy Hm. destruct x as [y m d]. unfold JDg. cbn [d_y d_m d_d] in *.
  rewrite CalGreg_R by assumption. rewrite (jdn_day _ y m d), plus_IZR. lra.
Qed.

Lemma JDj_jdn x : yearbound (d_y x) -> (1 <= d_m x <= 12)%Z ->
  JDj x = IZR (jdn Julian x) - / 2.
Proof.
  intros Hy Hm. destruct x as [y m d]. unfold JDj. cbn [d_y d_m d_d] in *.
  rewrite CalJul_R by assumption. rewrite (jdn_day _ y m d), plus_IZR. lra.
Qed.

Lemma jdn_next c x : valid_date c x = true -> jdn c (next_date c x) = (jdn c x + 1)%Z.
Proof. intros H. unfold jdn. rewrite (rata_die_counts c x H). lia. Qed.

(** C02 / C03 *)
Lemma smally_bound y : smally y -> yearbound y /\ yearbound (y + 1).
Proof. unfold smally, yearbound. lia. Qed.

Lemma next_year c x : (d_y (next_date c x) = d_y x \/ d_y (next_date c x) = d_y x + 1)%Z.
Proof. unfold next_date. destruct (_ <? _)%Z; [|destruct (_ <? _)%Z]; cbn; auto. Qed.

Lemma greg_next x : valid_date Gregorian x = true -> smally (d_y x) ->
  JDg (next_date Gregorian x) = JDg x + 1.
Proof.
  intros Hv Hs. destruct (smally_bound _ Hs) as [B1 B2].
  pose proof (next_date_valid _ _ Hv) as Hv'.
  pose proof (valid_date_inv _ _ Hv) as [M1 _]. pose proof (valid_date_inv _ _ Hv') as [M2 _].
  rewrite !JDg_jdn; auto.
  - rewrite jdn_next by assumption. rewrite plus_IZR. lra.
  - destruct (next_year Gregorian x) as [-> | ->]; assumption.
Qed.

Lemma jul_next x : valid_date Julian x = true -> smally (d_y x) ->
  JDj (next_date Julian x) = JDj x + 1.
Proof.
  intros Hv Hs. destruct (smally_bound _ Hs) as [B1 B2].
  pose proof (next_date_valid _ _ Hv) as Hv'.
  pose proof (valid_date_inv _ _ Hv) as [M1 _]. pose proof (valid_date_inv _ _ Hv') as [M2 _].
  rewrite !JDj_jdn; auto.
  - rewrite jdn_next by assumption. rewrite plus_IZR. lra.
  - destruct (next_year Julian x) as [-> | ->]; assumption.
Qed.

Lemma greg_fraction y m (d f : R) :
  CalendarGregorianToJD (fl := RFlt) y m (d + f)%R = CalendarGregorianToJD (fl := RFlt) y m d + f.
Proof. unfold CalendarGregorianToJD. cbn [fofZ fconst fadd fsub RFlt F]. cbv zeta. lra. Qed.

Lemma jul_fraction y m (d f : R) :
  CalendarJulianToJD (fl := RFlt) y m (d + f)%R = CalendarJulianToJD (fl := RFlt) y m d + f.
Proof. unfold CalendarJulianToJD. cbn [fofZ fconst fadd fsub RFlt F]. cbv zeta. lra. Qed.

Lemma greg_anchor : CalendarGregorianToJD (fl := RFlt) 2000 1 (3 / 2)%R = 2451545.
Proof.
  rewrite CalGreg_R by (unfold yearbound; lia).
  change (jdn Gregorian (mkdate 2000 1 0)) with 2451544%Z. lra.
Qed.

Lemma jul_anchor : CalendarJulianToJD (fl := RFlt) (-4712) 1 (3 / 2)%R = 0.
Proof.
  rewrite CalJul_R by (unfold yearbound; lia).
  change (jdn Julian (mkdate (-4712) 1 0)) with (-1)%Z. lra.
Qed.

(** C04 *)
Lemma Zfloor_bounds x : IZR (Zfloor x) <= x < IZR (Zfloor x) + 1.
Proof. split; [apply Zfloor_lb|]. apply Zfloor_ub. Qed.

Lemma split_jd_R jd : jdbound jd ->
  split_jd (fl := RFlt) jd = Some (Zfloor (jd + / 2), jd + / 2 - IZR (Zfloor (jd + / 2))) /\
  (0 <= Zfloor (jd + / 2) <= 60000000000000001)%Z.
Proof.
  intros [H1 H2]. unfold split_jd. cbn [fofZ fconst fadd fsub ftrunc fint64 RFlt F].
  assert (E : jd + 5 / 10 = jd + / 2) by lra. rewrite E.
  assert (Hf : (0 <= Zfloor (jd + / 2) <= 60000000000000001)%Z).
  { split.
    - apply Zfloor_lub. cbn. lra.
    - pose proof (Zfloor_lb (jd + /2)). apply le_IZR. cbn. lra. }
  rewrite (Ztrunc_floor (jd + / 2)) by lra.
  unfold Rint64. rewrite Ztrunc_IZR.
  replace (in64b (Zfloor (jd + / 2))) with true; [split; [reflexivity|assumption]|].
  unfold in64b, two63. lia.
Qed.

(** years of dates with bounded day number are bounded *)
Lemma year_of_jdn c x : valid_date c x = true -> (Z.abs (jdn c x) <= 60000000000000002)%Z ->
  yearbound (d_y x).
Proof.
  intros Hv Hj. apply valid_date_inv in Hv as [Hm Hd]. destruct x as [y m d].
  cbn [d_y d_m d_d] in *. unfold jdn, rata_die in Hj. cbn [d_y d_m d_d] in Hj.
  assert (0 <= days_before_month (leap_spec c y) m <= 335)%Z
    by (destruct (leap_spec c y); month_split Hm; cbn; lia).
  assert (month_length (leap_spec c y) m <= 31)%Z
    by (destruct (leap_spec c y); month_split Hm; cbn; lia).
  unfold yearbound. destruct c; lia.
Qed.

Lemma toJD_R c y m (d : R) : yearbound y -> (1 <= m <= 12)%Z ->
  toJD c y m d = IZR (jdn c (mkdate y m 0)) + d - / 2.
Proof. destruct c; [apply CalGreg_R | apply CalJul_R]. Qed.

Lemma back_to_jd c t z (f : R) : (0 <= z <= 60000000000000001)%Z ->
  valid_date c (todate t) = true -> jdn c (todate t) = z ->
  let '(y, m, d) := t in toJD c y m (IZR d + f) = IZR z - / 2 + f.
Proof.
  destruct t as [[y m] d]. cbn [todate]. intros Hz Hv Hj.
  pose proof (valid_date_inv _ _ Hv) as [Hm _]. cbn [d_m] in Hm.
  assert (yearbound y).
  { apply (year_of_jdn c (mkdate y m d)); [assumption|]. lia. }
  rewrite toJD_R by assumption. rewrite (jdn_day c y m d) in Hj. subst z. rewrite plus_IZR. lra.
Qed.

(** what JDToCalendar returns, for every day number *)
Definition code_calendar (n : Z) : calendar := if (2299151 <=? n)%Z then Gregorian else Julian.

Lemma JDToCalendar_z_spec z : zbound' z ->
  valid_date (code_calendar z) (todate (JDToCalendar_z z)) = true /\
  jdn (code_calendar z) (todate (JDToCalendar_z z)) = z.
Proof.
  intros H. unfold code_calendar. destruct (Z.leb_spec 2299151 z).
  - apply JDToCalendar_z_spec_late; assumption.
  - apply JDToCalendar_z_spec_early; assumption.
Qed.

Lemma code_calendar_eq z : ~ (2299151 <= z < 2299161)%Z -> code_calendar z = civil_calendar z.
Proof.
  unfold code_calendar, civil_calendar. change reform with 2299161%Z. intros H.
  destruct (Z.leb_spec 2299151 z), (Z.leb_spec 2299161 z); try reflexivity; lia.
Qed.

Lemma JDToCalendar_gen jd : jdbound jd ->
  let n := Zfloor (jd + / 2) in
  exists y m day, JDToCalendar (fl := RFlt) jd = Some (y, m, IZR day + (jd + / 2 - IZR n)) /\
    valid_date (code_calendar n) (mkdate y m day) = true /\
    jdn (code_calendar n) (mkdate y m day) = n /\
    toJD (code_calendar n) y m (IZR day + (jd + / 2 - IZR n)) = jd.
Proof.
  intros H n. destruct (split_jd_R jd H) as [E Hn]. fold n in E, Hn.
  pose proof (JDToCalendar_z_spec n ltac:(unfold zbound'; lia)) as [Hv Hj].
  unfold JDToCalendar. rewrite E.
  pose proof (back_to_jd (code_calendar n) (JDToCalendar_z n) n (jd + / 2 - IZR n) Hn Hv Hj) as Hb.
  destruct (JDToCalendar_z n) as [[y m] day]. cbn [todate] in *.
  exists y, m, day. cbn [fofZ fadd RFlt F]. repeat split; auto. rewrite Hb. lra.
Qed.

(** from dates *)
Lemma Zfloor_jd n (f : R) : 0 <= f < 1 -> Zfloor (IZR n - / 2 + f + / 2) = n.
Proof. intros H. apply Zfloor_imp. rewrite plus_IZR. lra. Qed.

Lemma date_roundtrip_gen c x (f : R) : valid_date c x = true -> 0 <= f < 1 ->
  (0 <= jdn c x <= 59999999999999999)%Z -> code_calendar (jdn c x) = c ->
  JDToCalendar (fl := RFlt) (toJD c (d_y x) (d_m x) (IZR (d_d x) + f))
   = Some (d_y x, d_m x, IZR (d_d x) + f).
Proof.
  intros Hv Hf Hj Hc. destruct x as [y m d]. cbn [d_y d_m d_d].
  pose proof (valid_date_inv _ _ Hv) as [Hm _]. cbn [d_m] in Hm.
  assert (Hy : yearbound y) by (apply (year_of_jdn c (mkdate y m d)); [assumption|lia]).
  rewrite toJD_R by assumption.
  set (n := jdn c (mkdate y m d)) in *.
  assert (E : IZR (jdn c (mkdate y m 0)) + (IZR d + f) - / 2 = IZR n - / 2 + f).
  { subst n. rewrite (jdn_day c y m d), plus_IZR. lra. }
  rewrite E.
  assert (Hb : jdbound (IZR n - / 2 + f)).
  { unfold jdbound. assert (0 <= IZR n <= 59999999999999999) by (split; apply IZR_le; lia). lra. }
  destruct (JDToCalendar_gen _ Hb) as (y' & m' & d' & R1 & R2 & R3 & R4).
  rewrite Zfloor_jd in * by assumption. rewrite Hc in *.
  assert (X : mkdate y' m' d' = mkdate y m d).
  { apply (rata_die_inj c); auto. unfold n in R3. unfold jdn in R3. lia. }
  injection X as -> -> ->. rewrite R1. f_equal. f_equal. lra.
Qed.

(** jdToCalendarGregorian, any sign of jd *)
Lemma split_jd_any jd : Rabs jd <= 60000000000000000 ->
  let n := Ztrunc (jd + / 2) in
  split_jd (fl := RFlt) jd = Some (n, jd + / 2 - IZR n) /\
  (Z.abs n <= 60000000000000001)%Z /\ -1 < jd + / 2 - IZR n < 1.
Proof.
  intros H n. apply Rabs_le_inv in H. unfold split_jd. cbn [fofZ fconst fadd fsub ftrunc fint64 RFlt F].
  assert (E : jd + 5 / 10 = jd + / 2) by lra. rewrite E. fold n.
  assert (Hb : -1 < jd + / 2 - IZR n < 1).
  { subst n. destruct (Rle_lt_dec 0 (jd + / 2)) as [P|P].
    - rewrite Ztrunc_floor by assumption. pose proof (Zfloor_bounds (jd + /2)). lra.
    - rewrite Ztrunc_ceil by lra. pose proof (Zceil_ub (jd + / 2)).
      pose proof (Zceil_lb (jd + / 2)). lra. }
  assert (Hn : (Z.abs n <= 60000000000000001)%Z).
  { assert (Hlt : -60000000000000002 < IZR n < 60000000000000002) by lra.
    destruct Hlt as [L1 L2]. apply lt_IZR in L1, L2. lia. }
  unfold Rint64. rewrite Ztrunc_IZR.
  replace (in64b n) with true by (unfold in64b, two63; lia). auto.
Qed.

Lemma jdToCalendarGregorian_gen jd : Rabs jd <= 60000000000000000 ->
  let n := Ztrunc (jd + / 2) in
  exists y m day, jdToCalendarGregorian (fl := RFlt) jd = Some (y, m, IZR day + (jd + / 2 - IZR n)) /\
    valid_date Gregorian (mkdate y m day) = true /\ jdn Gregorian (mkdate y m day) = n.
Proof.
  intros H n. destruct (split_jd_any jd H) as [E [Hn _]]. fold n in E, Hn.
  pose proof (jdToCalendarGregorian_z_spec n ltac:(unfold zbound'; lia)) as [Hv Hj].
  unfold jdToCalendarGregorian. rewrite E.
  destruct (jdToCalendarGregorian_z n) as [[y m] day]. cbn [todate] in *.
  exists y, m, day. repeat split; auto.
Qed.

(** C06 *)
Lemma DayOfWeek_R jd n : jdbound jd -> IZR n - / 2 <= jd < IZR n + / 2 ->
  DayOfWeek (fl := RFlt) jd = Some ((n + 1) mod 7)%Z.
Proof.
  intros [H1 H2] Hn. unfold DayOfWeek. cbn [fofZ fconst fadd fint64 RFlt F].
  assert (E : Ztrunc (jd + 15 / 10) = (n + 1)%Z).
  { rewrite Ztrunc_floor by lra. apply Zfloor_imp. rewrite !plus_IZR. lra. }
  unfold Rint64. rewrite E.
  assert (0 <= n)%Z.
  { apply le_IZR. destruct (Z_lt_le_dec n 0) as [L|L]; [|apply IZR_le; lia].
    assert (IZR n <= -1) by (apply IZR_le; lia). lra. }
  assert (n <= 60000000000000001)%Z by (apply le_IZR; lra).
  replace (in64b (n + 1)) with true by (unfold in64b, two63; lia).
  rewrite Z.rem_mod_nonneg by lia. reflexivity.
Qed.

Lemma DayOfWeek_neg : DayOfWeek (fl := RFlt) (-3) = Some (-1)%Z.
Proof.
  unfold DayOfWeek. cbn [fofZ fconst fadd fint64 RFlt F].
  assert (E : Ztrunc (-3 + 15 / 10) = (-1)%Z).
  { rewrite Ztrunc_ceil by lra. apply Zceil_imp. rewrite minus_IZR. lra. }
  unfold Rint64. rewrite E. reflexivity.
Qed.

(** C07 *)
Lemma TimeToJD_R t : valid_time t = true -> yearbound (t_year t) ->
  TimeToJD (fl := RFlt) t = jd_of_instant (IZR (instant t)).
Proof.
  unfold valid_time, day_ns. intros H Hy.
  apply andb_prop in H as [H H3]. apply andb_prop in H as [Hv H2].
  apply valid_date_inv in Hv as [Hm Hd]. cbn [d_y d_m d_d] in *.
  assert (Hd31 : (1 <= t_day t <= 31)%Z).
  { destruct (leap_spec Gregorian (t_year t)); revert Hd; month_split Hm; cbn; lia. }
  unfold TimeToJD. unwrap. cbv zeta.
  rewrite CalGreg_R by assumption. unfold jd_of_instant, instant, day_ns.
  cbn [fofZ fdiv RFlt F].
  replace (rata_die Gregorian (mkdate (t_year t) (t_month t) (t_day t)))
    with (rata_die Gregorian (mkdate (t_year t) (t_month t) 0) + t_day t)%Z
    by (unfold rata_die; cbn [d_y d_m d_d]; lia).
  unfold jdn. rewrite !plus_IZR, !mult_IZR, !plus_IZR. lra.
Qed.

Lemma JDToTime_R jd : Rabs jd <= 60000000000000000 ->
  exists y m ns, JDToTime (fl := RFlt) jd = Some (y, m, ns) /\
    instant3 (y, m, ns) = Zfloor ((jd - 1721424.5) * IZR day_ns).
Proof.
  intros H. destruct (jdToCalendarGregorian_gen jd H) as (y & m & d & E & Hv & Hj).
  destruct (split_jd_any jd H) as (_ & _ & Hf).
  set (n := Ztrunc (jd + / 2)) in *.
  unfold JDToTime. rewrite E. cbn [fofZ fmul fint64 RFlt F].
  apply valid_date_inv in Hv as [Hm Hd]. cbn [d_y d_m d_d] in *.
  assert (Hd31 : (1 <= d <= 31)%Z).
  { destruct (leap_spec Gregorian y); revert Hd; month_split Hm; cbn; lia. }
  assert (Hd31' : 1 <= IZR d <= 31) by (split; apply IZR_le; lia).
  set (v := (IZR d + (jd + / 2 - IZR n)) * 24 * 3600000000000).
  assert (Hv : 0 <= v <= 32 * 86400000000000) by (unfold v; nra).
  unfold Rint64. rewrite Ztrunc_floor by lra.
  assert (HB : (0 <= Zfloor v <= 32 * 86400000000000)%Z).
  { split.
    - apply Zfloor_lub. cbn. lra.
    - apply le_IZR. pose proof (Zfloor_lb v). rewrite mult_IZR. lra. }
  replace (in64b (Zfloor v)) with true by (unfold in64b, two63; lia).
  exists y, m, (Zfloor v). split; [reflexivity|].
  unfold instant3, day_ns.
  symmetry. apply Zfloor_imp.
  pose proof (Zfloor_bounds v) as Hv2.
  rewrite (jdn_day _ y m d) in Hj. unfold jdn in Hj.
  assert (Hr : IZR (rata_die Gregorian (mkdate y m 0)) = IZR n - 1721425 - IZR d).
  { rewrite <- Hj. rewrite !plus_IZR. lra. }
  assert (Hx : (jd - 1721424.5) * 86400000000000 = IZR (rata_die Gregorian (mkdate y m 0)) * 86400000000000 + v).
  { rewrite Hr. unfold v. lra. }
  rewrite Hx. rewrite !plus_IZR, mult_IZR. lra.
Qed.

Lemma jd_of_instant_inv n : (jd_of_instant (IZR n) - 1721424.5) * IZR day_ns = IZR n.
Proof. unfold jd_of_instant, day_ns. field. Qed.

Lemma time_roundtrip t : valid_time t = true ->
  (Z.abs (t_year t) <= 100000000000)%Z ->
  exists r, JDToTime (fl := RFlt) (TimeToJD (fl := RFlt) t) = Some r /\ instant3 r = instant t.
Proof.
  intros Hv Hy. rewrite TimeToJD_R by (auto; unfold yearbound; lia).
  assert (HB : Rabs (jd_of_instant (IZR (instant t))) <= 60000000000000000).
  { apply Rabs_le. unfold jd_of_instant.
    assert (HI : (- 50000000000000 * day_ns <= instant t <= 50000000000000 * day_ns)%Z).
    { unfold instant, valid_time, day_ns in *.
      apply andb_prop in Hv as [Hv H3]. apply andb_prop in Hv as [Hd H2].
      apply valid_date_inv in Hd as [Hm Hd]. cbn [d_y d_m d_d] in *.
      assert (Hd31 : (1 <= t_day t <= 31)%Z).
      { destruct (leap_spec Gregorian (t_year t)); revert Hd; month_split Hm; cbn; lia. }
      assert (Hm31 : (0 <= days_before_month (leap_spec Gregorian (t_year t)) (t_month t) <= 335)%Z).
      { destruct (leap_spec Gregorian (t_year t)); month_split Hm; cbn; lia. }
      assert (HR : (- 40000000000000 <= rata_die Gregorian (mkdate (t_year t) (t_month t) (t_day t)) <= 40000000000000)%Z).
      { unfold rata_die. cbn [d_y d_m d_d]. lia. }
      lia. }
    assert (HI' : - 50000000000000 <= IZR (instant t) / IZR day_ns <= 50000000000000).
    { unfold day_ns in *. split.
      - apply Rmult_le_reg_r with 86400000000000; [lra|]. unfold Rdiv. rewrite Rmult_assoc, Rinv_l, Rmult_1_r by lra.
        rewrite <- mult_IZR. apply IZR_le. lia.
      - apply Rmult_le_reg_r with 86400000000000; [lra|]. unfold Rdiv. rewrite Rmult_assoc, Rinv_l, Rmult_1_r by lra.
        rewrite <- mult_IZR. apply IZR_le. lia. }
    lra. }
  destruct (JDToTime_R _ HB) as (y & m & ns & E & Hi).
  exists (y, m, ns). split; [exact E|]. rewrite Hi, jd_of_instant_inv. apply Zfloor_IZR.
Qed.

(** ** binary64 *)
Lemma isfx_const_half k n d : (Z.abs k < 2 ^ 53)%Z -> (Z.abs n < 2 ^ 53)%Z -> (Zpos d < 2 ^ 53)%Z ->
  (2 * n = k * Zpos d)%Z -> isfx 1 (fconst (Flt := BFlt) n d) k.
Proof.
  intros Hk Hn Hd E. cbn [fconst BFlt].
  destruct (isfx_ofZ n Hn) as [F1 E1]. destruct (isfx_ofZ (Zpos d) ltac:(lia)) as [F2 E2].
  cbn [Z.opp bpow] in E1, E2. rewrite Rmult_1_r in E1, E2.
  assert (NZ : B2R (b64_ofZ (Zpos d)) <> 0) by (rewrite E2; apply not_0_IZR; lia).
  pose proof (Bdiv_correct 53 1024 _ _ mode_NE (b64_ofZ n) (b64_ofZ (Zpos d)) NZ) as H.
  assert (EE : B2R (b64_ofZ n) / B2R (b64_ofZ (Zpos d)) = IZR k * bpow radix2 (Z.opp 1)).
  { rewrite E1, E2. change (bpow radix2 (Z.opp 1)) with (/ 2).
    apply (f_equal IZR) in E. rewrite !mult_IZR in E.
    assert (IZR (Zpos d) <> 0) by (apply not_0_IZR; lia).
    apply Rmult_eq_reg_r with (2 * IZR (Zpos d)); [|lra]. field_simplify; lra. }
  rewrite EE in H. rewrite (round_fx 1 k) in H by (lia || assumption).
  rewrite Rlt_bool_true in H by (apply bound_fx; [lia|assumption]).
  destruct H as [H1 [H2 _]]. split; [congruence|assumption].
Qed.

Lemma CalGreg_form y m : (Z.abs y <= 70000)%Z -> (1 <= m <= 12)%Z ->
  exists A B, (forall (fl : Flt) (d : F), CalendarGregorianToJD y m d =
     (fofZ A + fofZ B + d - fconst 15245 10)%flt) /\
    (A + B = jdn Gregorian (mkdate y m 0) + 1524)%Z /\ (Z.abs B <= 5000)%Z.
Proof.
  intros Hy Hm.
  pose proof (greg_to_int y m ltac:(unfold yearbound; lia) Hm) as E. cbv zeta in E.
  eexists. eexists. split; [intros fl d; unfold CalendarGregorianToJD; cbv zeta; reflexivity|].
  split; [exact E|]. clear E.
  month_split Hm; cbn [Z.eqb Pos.eqb orb]; unwrap; lia.
Qed.

Lemma CalJul_form y m : (Z.abs y <= 70000)%Z -> (1 <= m <= 12)%Z ->
  exists A B, (forall (fl : Flt) (d : F), CalendarJulianToJD y m d =
     (fofZ A + fofZ B + d - fconst 15245 10)%flt) /\
    (A + B = jdn Julian (mkdate y m 0) + 1524)%Z /\ (Z.abs B <= 5000)%Z.
Proof.
  intros Hy Hm.
  pose proof (jul_to_int y m ltac:(unfold yearbound; lia) Hm) as E. cbv zeta in E.
  eexists. eexists. split; [intros fl d; unfold CalendarJulianToJD; cbv zeta; reflexivity|].
  split; [exact E|]. clear E.
  month_split Hm; cbn [Z.eqb Pos.eqb orb]; unwrap; lia.
Qed.

Lemma half_pow e : (1 <= e)%Z -> (2 ^ e = 2 * 2 ^ (e - 1))%Z.
Proof. intros. rewrite <- (Z.pow_succ_r 2 (e - 1)) by lia. f_equal. lia. Qed.

Lemma form_b64 e A B J (d : float64) k : (1 <= e <= 28)%Z -> isfx e d k -> (0 <= k <= 32 * 2 ^ e)%Z ->
  (A + B = J + 1524)%Z -> (Z.abs B <= 5000)%Z -> (Z.abs J <= 28000000)%Z ->
  isfx e (fsub (Flt := BFlt) (fadd (Flt := BFlt) (fadd (Flt := BFlt) (fofZ (Flt := BFlt) A) (fofZ (Flt := BFlt) B)) d) (fconst (Flt := BFlt) 15245 10)) (J * 2 ^ e + k - 2 ^ (e - 1)).
Proof.
  intros He Hd Hk E BB HJ.
  assert (HP : (2 ^ 1 <= 2 ^ e <= 2 ^ 28)%Z) by (split; apply Z.pow_le_mono_r; lia).
  assert (AB : (Z.abs A <= 28010000)%Z) by lia.
  pose proof (isfx_ofZ A ltac:(lia)) as XA. pose proof (isfx_ofZ B ltac:(lia)) as XB.
  pose proof (isfx_add 0 _ _ _ _ ltac:(lia) XA XB ltac:(lia)) as X1.
  apply (isfx_scale 0 e) in X1; [|lia]. rewrite Z.sub_0_r in X1.
  assert (Hb1 : (Z.abs ((A + B) * 2 ^ e) <= 28011000 * 2 ^ 28)%Z) by (rewrite Z.abs_mul; apply Z.mul_le_mono_nonneg; lia).
  pose proof (isfx_add e _ _ _ _ ltac:(lia) X1 Hd ltac:(lia)) as X2.
  pose proof (isfx_const_half 3049 15245 10 ltac:(lia) ltac:(lia) ltac:(lia) ltac:(lia)) as XC.
  apply (isfx_scale 1 e) in XC; [|lia].
  pose proof (half_pow e ltac:(lia)) as HQ.
  pose proof (isfx_sub e _ _ _ _ ltac:(lia) X2 XC ltac:(lia)) as X.
  replace (J * 2 ^ e + k - 2 ^ (e - 1))%Z with ((A + B) * 2 ^ e + k - 3049 * 2 ^ (e - 1))%Z by (rewrite E; lia).
  exact X.
Qed.

Lemma jdn_small c y m : (Z.abs y <= 70000)%Z -> (1 <= m <= 12)%Z ->
  (Z.abs (jdn c (mkdate y m 0)) <= 28000000)%Z.
Proof.
  intros Hy Hm. unfold jdn, rata_die. cbn [d_y d_m d_d].
  assert (0 <= days_before_month (leap_spec c y) m <= 335)%Z
      by (destruct (leap_spec c y); month_split Hm; cbn; lia).
  destruct c; lia.
Qed.

Lemma toJD64_isfx c e y m (d : float64) k : (1 <= e <= 28)%Z -> isfx e d k -> (0 <= k <= 32 * 2 ^ e)%Z ->
  (Z.abs y <= 70000)%Z -> (1 <= m <= 12)%Z ->
  isfx e (toJD64 c y m d) (jdn c (mkdate y m 0) * 2 ^ e + k - 2 ^ (e - 1)).
Proof.
  intros He Hd Hk Hy Hm. pose proof (jdn_small c y m Hy Hm) as HJ.
  destruct c; cbn [toJD64].
  - destruct (CalGreg_form y m Hy Hm) as (A & B & E & E2 & E3). rewrite E. apply form_b64; assumption.
  - destruct (CalJul_form y m Hy Hm) as (A & B & E & E2 & E3). rewrite E. apply form_b64; assumption.
Qed.

Lemma fx_val e J k : (1 <= e)%Z ->
  IZR (J * 2 ^ e + k - 2 ^ (e - 1)) * bpow radix2 (- e) = IZR J + IZR k * bpow radix2 (- e) - / 2.
Proof.
  intros He. rewrite minus_IZR, plus_IZR, !mult_IZR.
  rewrite <- !bpow_pos_Z by lia.
  rewrite !Rmult_minus_distr_r, Rmult_plus_distr_r, !Rmult_assoc, <- !bpow_plus.
  replace (e + - e)%Z with 0%Z by lia. replace (e - 1 + - e)%Z with (-1)%Z by lia.
  change (bpow radix2 0) with 1. change (bpow radix2 (-1)) with (/ 2). lra.
Qed.

(** Dates whose day (with fraction) is a multiple of 2^-28 d (0.3 ms): the
    floating-point conversion is exact. *)
Lemma toJD64_exact c y m (d : float64) k : isfx 28 d k -> 0 <= B2R d < 32 ->
  (Z.abs y <= 70000)%Z -> (1 <= m <= 12)%Z ->
  is_finite (toJD64 c y m d) = true /\ B2R (toJD64 c y m d) = toJD c y m (B2R d).
Proof.
  intros Hd Hr Hy Hm.
  assert (Hk : (0 <= k <= 32 * 2 ^ 28)%Z).
  { destruct Hd as [_ E]. rewrite E in Hr. change (bpow radix2 (Z.opp 28)) with (/ 268435456) in Hr.
    change (32 * 2 ^ 28)%Z with 8589934592%Z; change (- 2 ^ 27)%Z with (-134217728)%Z;
    change (28000000 * 2 ^ 28)%Z with 7516192768000000%Z.
    split; apply le_IZR; lra. }
  pose proof (toJD64_isfx c 28 y m d k ltac:(lia) Hd Hk Hy Hm) as [FX EX].
  split; [exact FX|]. rewrite EX, fx_val by lia.
  rewrite toJD_R by (auto; unfold yearbound; lia). destruct Hd as [_ ->]. lra.
Qed.

(** The inverse conversion on the same grid. *)
Lemma JDToCalendar_b64 (jd : float64) k : isfx 28 jd k -> - / 2 <= B2R jd <= 28000000 ->
  exists y m (d : float64), JDToCalendar (fl := BFlt) jd = Some (y, m, d) /\ is_finite d = true /\
     JDToCalendar (fl := RFlt) (B2R jd) = Some (y, m, B2R d).
Proof.
  intros Hd Hr.
  assert (Hk : (- 2 ^ 27 <= k <= 28000000 * 2 ^ 28)%Z).
  { destruct Hd as [_ E]. rewrite E in Hr. change (bpow radix2 (Z.opp 28)) with (/ 268435456) in Hr.
    change (32 * 2 ^ 28)%Z with 8589934592%Z; change (- 2 ^ 27)%Z with (-134217728)%Z;
    change (28000000 * 2 ^ 28)%Z with 7516192768000000%Z.
    split; apply le_IZR; lra. }
  pose proof (isfx_const_half 1 5 10 ltac:(lia) ltac:(lia) ltac:(lia) ltac:(lia)) as XC.
  apply (isfx_scale 1 28) in XC; [|lia].
  pose proof (isfx_add 28 _ _ _ _ ltac:(lia) Hd XC ltac:(cbn; lia)) as X1.
  change (1 * 2 ^ (28 - 1))%Z with (2 ^ 27)%Z in X1.
  set (x := Bplus mode_NE jd (fconst (Flt := BFlt) 5 10)) in *.
  set (z := Z.quot (k + 2 ^ 27) (2 ^ 28)).
  pose proof (isfx_trunc 28 x (k + 2 ^ 27) ltac:(lia) ltac:(lia) X1) as X2. fold z in X2.
  assert (Hz : (0 <= z <= 28000001)%Z).
  { subst z. rewrite quot_pos_div by lia. split.
    - apply Z.div_le_lower_bound; lia.
    - apply Z.div_le_upper_bound; lia. }
  pose proof (isfx_int64 _ _ X2 ltac:(unfold in64b, two63; lia)) as E64.
  pose proof (isfx_scale 0 28 _ _ ltac:(lia) X2) as X3.
  change (2 ^ (28 - 0))%Z with (2 ^ 28)%Z in X3.
  assert (Hfr : (0 <= k + 2 ^ 27 - z * 2 ^ 28 <= 2 ^ 28)%Z).
  { subst z. rewrite quot_pos_div by lia. lia. }
  assert (Hfr' : (Z.abs (k + 2 ^ 27 - z * 2 ^ 28) < 2 ^ 53)%Z) by lia.
  pose proof (isfx_sub 28 _ _ _ _ ltac:(lia) X1 X3 Hfr') as X4.
  assert (HR : jdbound (B2R jd)) by (unfold jdbound; lra).
  destruct (split_jd_R (B2R jd) HR) as [ER _].
  assert (Hx : B2R x = B2R jd + / 2).
  { destruct X1 as [_ ->]. destruct Hd as [_ ->]. rewrite plus_IZR, Rmult_plus_distr_r.
    change (bpow radix2 (Z.opp 28)) with (/ 268435456). change (2 ^ 27)%Z with 134217728%Z. lra. }
  assert (Hfl : Zfloor (B2R jd + / 2) = z).
  { rewrite <- Hx. rewrite <- Ztrunc_floor by lra. destruct X1 as [_ ->]. rewrite Ztrunc_fx by lia. reflexivity. }
  rewrite Hfl in ER.
  pose proof (JDToCalendar_z_spec z ltac:(unfold zbound'; lia)) as [Hv _].
  unfold JDToCalendar at 2. rewrite ER.
  unfold JDToCalendar, split_jd. cbn [fint64 ftrunc fadd fsub fofZ BFlt].
  change (Bplus mode_NE jd (@fconst BFlt 5 10)) with x. rewrite E64.
  destruct (JDToCalendar_z z) as [[y m] day]. cbn [todate] in Hv.
  apply valid_date_inv in Hv as [Hm Hd']. cbn [d_y d_m d_d] in *.
  assert (Hd31 : (1 <= day <= 31)%Z).
  { destruct (leap_spec (code_calendar z) y); revert Hd'; month_split Hm; cbn; lia. }
  pose proof (isfx_ofZ day ltac:(lia)) as Y1.
  apply (isfx_scale 0 28) in Y1; [|lia]. change (2 ^ (28 - 0))%Z with (2 ^ 28)%Z in Y1.
  pose proof (isfx_add 28 _ _ _ _ ltac:(lia) Y1 X4 ltac:(lia)) as [FY EY].
  eexists y, m, _. split; [reflexivity|]. split; [exact FY|].
  f_equal. f_equal. rewrite EY.
  rewrite <- Hx. destruct X1 as [_ ->].
  cbn [fadd fofZ RFlt].
  rewrite !plus_IZR, minus_IZR, !mult_IZR, plus_IZR.
  change (bpow radix2 (Z.opp 28)) with (/ 268435456). change (2 ^ 27)%Z with 134217728%Z.
  change (2 ^ 28)%Z with 268435456%Z. lra.
Qed.

Lemma valid_day31 c x : valid_date c x = true -> (1 <= d_d x <= 31)%Z.
Proof.
  intros H. apply valid_date_inv in H as [_ H].
  assert (forall l m, (month_length l m <= 31)%Z) as HL.
  { intros l m. unfold month_length. destruct l; destruct m as [|p|p]; try lia;
    do 5 (destruct p as [p|p|]; try lia). }
  specialize (HL (leap_spec c (d_y x)) (d_m x)). lia.
Qed.

(** Round trip in binary64: dates with a day fraction on the 2^-28 grid. *)
Lemma roundtrip_b64 c x (d : float64) k : valid_date c x = true ->
  isfx 28 d k -> IZR (d_d x) <= B2R d < IZR (d_d x) + 1 ->
  (-4712 <= d_y x <= 70000)%Z -> (0 <= jdn c x)%Z -> code_calendar (jdn c x) = c ->
  exists d', JDToCalendar (fl := BFlt) (toJD64 c (d_y x) (d_m x) d) = Some (d_y x, d_m x, d') /\
     is_finite d' = true /\ B2R d' = B2R d.
Proof.
  intros Hv Hd Hr Hy Hj Hc.
  pose proof (valid_date_inv _ _ Hv) as [Hm _]. pose proof (valid_day31 _ _ Hv) as H31.
  assert (H31' : 1 <= IZR (d_d x) <= 31) by (split; apply IZR_le; lia).
  assert (Hk : (0 <= k <= 32 * 2 ^ 28)%Z).
  { destruct Hd as [_ E]. rewrite E in Hr. change (bpow radix2 (Z.opp 28)) with (/ 268435456) in Hr.
    change (32 * 2 ^ 28)%Z with 8589934592%Z; change (- 2 ^ 27)%Z with (-134217728)%Z;
    change (28000000 * 2 ^ 28)%Z with 7516192768000000%Z.
    split; apply le_IZR; lra. }
  pose proof (toJD64_isfx c 28 (d_y x) (d_m x) d k ltac:(lia) Hd Hk ltac:(lia) Hm) as FX.
  destruct (toJD64_exact c (d_y x) (d_m x) d k Hd ltac:(lra) ltac:(lia) Hm) as [_ EX].
  pose proof (jdn_small c (d_y x) (d_m x) ltac:(lia) Hm) as HS.
  assert (HJ : jdn c x = (jdn c (mkdate (d_y x) (d_m x) 0) + d_d x)%Z) by (destruct x; apply jdn_day).
  assert (HB : - / 2 <= B2R (toJD64 c (d_y x) (d_m x) d) <= 28000000).
  { rewrite EX, toJD_R by (auto; unfold yearbound; lia).
    assert (0 <= IZR (jdn c (mkdate (d_y x) (d_m x) 0)) + IZR (d_d x)).
    { rewrite <- plus_IZR. apply IZR_le. lia. }
    assert (IZR (jdn c (mkdate (d_y x) (d_m x) 0)) <= 27500000).
    { apply IZR_le. unfold jdn, rata_die. cbn [d_y d_m d_d].
      assert (0 <= days_before_month (leap_spec c (d_y x)) (d_m x) <= 335)%Z
        by (destruct (leap_spec c (d_y x)); destruct x as [y0 m0 d0]; cbn [d_m] in *; month_split Hm; cbn; lia).
      destruct c; lia. }
    lra. }
  destruct (JDToCalendar_b64 _ _ FX HB) as (y & m & d' & R1 & R2 & R3).
  rewrite EX in R3.
  pose proof (date_roundtrip_gen c x (B2R d - IZR (d_d x)) Hv ltac:(lra) ltac:(lia) Hc) as RT.
  replace (IZR (d_d x) + (B2R d - IZR (d_d x))) with (B2R d) in RT by lra.
  rewrite RT in R3. injection R3 as Ey Em E. exists d'. subst y m. repeat split; auto.
Qed.

(** DayOfWeek in binary64 for midnights, noons and every grid point. *)
Lemma DayOfWeek_b64 (jd : float64) k n : isfx 28 jd k -> - / 2 <= B2R jd <= 28000000 ->
  IZR n - / 2 <= B2R jd < IZR n + / 2 ->
  DayOfWeek (fl := BFlt) jd = Some ((n + 1) mod 7)%Z.
Proof.
  intros Hd Hr Hn.
  assert (Hk : (- 2 ^ 27 <= k <= 28000000 * 2 ^ 28)%Z).
  { destruct Hd as [_ E]. rewrite E in Hr. change (bpow radix2 (Z.opp 28)) with (/ 268435456) in Hr.
    change (32 * 2 ^ 28)%Z with 8589934592%Z; change (- 2 ^ 27)%Z with (-134217728)%Z;
    change (28000000 * 2 ^ 28)%Z with 7516192768000000%Z.
    split; apply le_IZR; lra. }
  pose proof (isfx_const_half 3 15 10 ltac:(lia) ltac:(lia) ltac:(lia) ltac:(lia)) as XC.
  apply (isfx_scale 1 28) in XC; [|lia]. change (3 * 2 ^ (28 - 1))%Z with (402653184)%Z in XC.
  pose proof (isfx_add 28 _ _ _ _ ltac:(lia) Hd XC ltac:(cbn; lia)) as [FX EX].
  unfold DayOfWeek. cbn [fint64 fadd BFlt].
  set (x := Bplus mode_NE jd (fconst (Flt := BFlt) 15 10)) in *.
  assert (Hx : B2R x = B2R jd + 15 / 10).
  { rewrite EX. destruct Hd as [_ ->]. rewrite plus_IZR, Rmult_plus_distr_r.
    change (bpow radix2 (Z.opp 28)) with (/ 268435456). lra. }
  assert (ET : Ztrunc (B2R x) = (n + 1)%Z).
  { rewrite Hx, Ztrunc_floor by lra. apply Zfloor_imp. rewrite !plus_IZR. lra. }
  assert (HN : (0 <= n + 1 <= 28000002)%Z).
  { rewrite <- ET, Hx, Ztrunc_floor by lra. split.
    - apply Zfloor_lub. cbn. lra.
    - apply le_IZR. pose proof (Zfloor_lb (B2R jd + 15 / 10)). lra. }
  assert (E64 : b64_int64 x = Some (n + 1)%Z).
  { unfold b64_int64. destruct x as [s| s | | s m e Hme]; try discriminate.
    - cbn [B2R] in ET. rewrite Ztrunc_IZR in ET. congruence.
    - pose proof (Btrunc_correct 53 1024 _ (B754_finite s m e Hme)) as H.
      rewrite round_FIX_IZR in H. apply eq_IZR in H. rewrite H, ET.
      replace (in64b (n + 1)) with true by (unfold in64b, two63; lia). reflexivity. }
  change (Bplus mode_NE jd (@fconst BFlt 15 10)) with x.
  rewrite E64. rewrite Z.rem_mod_nonneg by lia. reflexivity.
Qed.

(** ** C05 in terms of dates *)
Lemma DayOfYear_ordinal c x : valid_date c x = true ->
  DayOfYearC c (d_y x) (d_m x) (d_d x) = (jdn c x - jdn c (mkdate (d_y x) 1 1) + 1)%Z.
Proof.
  intros H. pose proof (valid_day31 _ _ H) as H31. apply valid_date_inv in H as [Hm _].
  assert (E : DayOfYearC c (d_y x) (d_m x) (d_d x)
     = (days_before_month (leap_spec c (d_y x)) (d_m x) + d_d x)%Z).
  { destruct c; cbn [DayOfYearC]; unfold DayOfYearGregorian, DayOfYearJulian.
    - rewrite LeapYearGregorian_spec, DayOfYear_spec by lia. reflexivity.
    - rewrite LeapYearJulian_spec, DayOfYear_spec by lia. reflexivity. }
  rewrite E. unfold jdn, rata_die. cbn [d_y d_m d_d]. cbn [days_before_month]. lia.
Qed.

Lemma DayOfYear_inverse1 c x : valid_date c x = true ->
  DayOfYearToCalendar (DayOfYearC c (d_y x) (d_m x) (d_d x)) (leap_spec c (d_y x)) = (d_m x, d_d x).
Proof.
  intros H. pose proof (DayOfYear_ordinal c x H) as E.
  set (n := DayOfYearC c (d_y x) (d_m x) (d_d x)) in *.
  assert (Hn : (1 <= n <= year_length (leap_spec c (d_y x)))%Z).
  { pose proof (valid_date_inv _ _ H) as [Hm Hd]. rewrite E. unfold jdn, rata_die. cbn [d_y d_m d_d].
    destruct x as [y m d]; cbn [d_y d_m d_d] in *.
    destruct (leap_spec c y); revert Hd; month_split Hm; cbn; lia. }
  pose proof (DayOfYearToCalendar_spec n _ Hn) as S.
  destruct (DayOfYearToCalendar n (leap_spec c (d_y x))) as [m d].
  destruct S as (S1 & S2 & S3).
  assert (V : valid_date c (mkdate (d_y x) m d) = true) by (apply valid_date_intro; assumption).
  assert (X : mkdate (d_y x) m d = x).
  { apply (rata_die_inj c); auto. unfold jdn in E.
    unfold rata_die in *. cbn [d_y d_m d_d] in *. cbn [days_before_month] in E. lia. }
  rewrite <- X. reflexivity.
Qed.

Lemma DayOfYear_inverse2 c y n : (1 <= n <= year_length (leap_spec c y))%Z ->
  let '(m, d) := DayOfYearToCalendar n (leap_spec c y) in
  valid_date c (mkdate y m d) = true /\ DayOfYearC c y m d = n.
Proof.
  intros Hn. pose proof (DayOfYearToCalendar_spec n _ Hn) as S.
  destruct (DayOfYearToCalendar n (leap_spec c y)) as [m d]. destruct S as (S1 & S2 & S3).
  assert (V : valid_date c (mkdate y m d) = true) by (apply valid_date_intro; assumption).
  split; [exact V|]. pose proof (DayOfYear_ordinal c _ V) as E. cbn [d_y d_m d_d] in E. rewrite E.
  unfold jdn, rata_die. cbn [d_y d_m d_d]. cbn [days_before_month]. lia.
Qed.

Lemma LeapYear_specs y : LeapYearGregorian y = leap_spec Gregorian y /\ LeapYearJulian y = leap_spec Julian y.
Proof. split; [apply LeapYearGregorian_spec | apply LeapYearJulian_spec]. Qed.

(** ** packaged statements *)
Lemma greg_count x : valid_date Gregorian x = true -> smally (d_y x) ->
  JDg (next_date Gregorian x) = JDg x + 1 /\ JDg x = IZR (jdn Gregorian x) - / 2.
Proof.
  intros H Hs. split; [apply greg_next; assumption|].
  apply JDg_jdn; [apply smally_bound; assumption|]. apply valid_date_inv in H. tauto.
Qed.

Lemma jul_count x : valid_date Julian x = true -> smally (d_y x) ->
  JDj (next_date Julian x) = JDj x + 1 /\ JDj x = IZR (jdn Julian x) - / 2.
Proof.
  intros H Hs. split; [apply jul_next; assumption|].
  apply JDj_jdn; [apply smally_bound; assumption|]. apply valid_date_inv in H. tauto.
Qed.

Lemma JDToCalendar_civil jd : jdbound jd ->
  let n := Zfloor (jd + / 2) in let c := civil_calendar n in
  ~ (2299151 <= n < 2299161)%Z ->
  exists y m day, JDToCalendar (fl := RFlt) jd = Some (y, m, IZR day + (jd + / 2 - IZR n)) /\
    valid_date c (mkdate y m day) = true /\ jdn c (mkdate y m day) = n /\
    toJD c y m (IZR day + (jd + / 2 - IZR n)) = jd.
Proof.
  intros H n c Hw. pose proof (JDToCalendar_gen jd H) as G. cbv zeta in G. fold n in G.
  rewrite (code_calendar_eq n Hw) in G. exact G.
Qed.

Lemma civil_roundtrip c x (f : R) : valid_date c x = true -> 0 <= f < 1 ->
  (0 <= jdn c x <= 59999999999999999)%Z -> civil_calendar (jdn c x) = c ->
  ~ (2299151 <= jdn c x < 2299161)%Z ->
  JDToCalendar (fl := RFlt) (toJD c (d_y x) (d_m x) (IZR (d_d x) + f))
   = Some (d_y x, d_m x, IZR (d_d x) + f).
Proof.
  intros. apply date_roundtrip_gen; auto. rewrite code_calendar_eq; assumption.
Qed.

Lemma JDToCalendar_window_refuted : exists x, valid_date Julian x = true /\
  civil_calendar (jdn Julian x) = Julian /\ (0 <= jdn Julian x)%Z /\
  JDToCalendar (fl := RFlt) (toJD Julian (d_y x) (d_m x) (IZR (d_d x)))
    <> Some (d_y x, d_m x, IZR (d_d x)).
Proof.
  exists (mkdate 1582 10 4). split; [reflexivity|]. split; [reflexivity|]. split; [vm_compute; congruence|].
  cbn [d_y d_m d_d]. rewrite toJD_R by (unfold yearbound; lia).
  change (jdn Julian (mkdate 1582 10 0)) with 2299156%Z.
  replace (2299156 + 4 - / 2) with (IZR 2299160 - / 2 + 0) by lra.
  assert (Hb : jdbound (IZR 2299160 - / 2 + 0)) by (unfold jdbound; lra).
  destruct (JDToCalendar_gen _ Hb) as (y & m & d & R1 & R2 & R3 & R4).
  rewrite Zfloor_jd in * by lra. rewrite R1. intros E. injection E as Ey Em Ed.
  change (code_calendar 2299160) with Gregorian in *.
  assert (X : mkdate y m d = mkdate 1582 10 14).
  { apply (rata_die_inj Gregorian); auto. unfold jdn in R3.
    change (rata_die Gregorian (mkdate 1582 10 14)) with 577735%Z. lia. }
  injection X as _ _ ->. lra.
Qed.

(** Every day in the window 1582 September 25 .. October 4 (Julian) is given
    its Gregorian name. *)
Lemma JDToCalendar_window jd : jdbound jd ->
  let n := Zfloor (jd + / 2) in (2299151 <= n < 2299161)%Z ->
  civil_calendar n = Julian /\
  exists y m day, JDToCalendar (fl := RFlt) jd = Some (y, m, IZR day + (jd + / 2 - IZR n)) /\
    valid_date Gregorian (mkdate y m day) = true /\ jdn Gregorian (mkdate y m day) = n /\
    CalendarGregorianToJD (fl := RFlt) y m (IZR day + (jd + / 2 - IZR n))%R = jd.
Proof.
  intros H n Hw. split.
  - unfold civil_calendar. change reform with 2299161%Z. destruct (Z.leb_spec 2299161 n); [lia|reflexivity].
  - pose proof (JDToCalendar_gen jd H) as G. cbv zeta in G. fold n in G.
    assert (E : code_calendar n = Gregorian)
      by (unfold code_calendar; destruct (Z.leb_spec 2299151 n); [reflexivity|lia]).
    rewrite E in G. exact G.
Qed.

Lemma roundtrip_b64_civil c x (d : float64) k : valid_date c x = true ->
  isfx 28 d k -> IZR (d_d x) <= B2R d < IZR (d_d x) + 1 ->
  (-4712 <= d_y x <= 70000)%Z -> (0 <= jdn c x)%Z ->
  civil_calendar (jdn c x) = c -> ~ (2299151 <= jdn c x < 2299161)%Z ->
  exists d', JDToCalendar (fl := BFlt) (toJD64 c (d_y x) (d_m x) d) = Some (d_y x, d_m x, d') /\
     is_finite d' = true /\ B2R d' = B2R d.
Proof. intros. apply (roundtrip_b64 c x d k); auto. rewrite code_calendar_eq; assumption. Qed.

Lemma window_b64 :
  match JDToCalendar (fl := BFlt) (b64_ofZ 2299160) with
  | Some (y, m, d) => (y =? 1582)%Z && (m =? 10)%Z && Beqb d (fconst (Flt := BFlt) 145 10) = true
  | None => False
  end.
Proof. vm_compute. reflexivity. Qed.

(** Weekdays of civil dates. *)
Lemma DayOfWeek_date c x (f : R) : valid_date c x = true -> smally (d_y x) -> (0 <= jdn c x)%Z -> 0 <= f < 1 ->
  DayOfWeek (fl := RFlt) (toJD c (d_y x) (d_m x) (IZR (d_d x) + f)) = Some (rata_die c x mod 7)%Z.
Proof.
  intros Hv Hs H0 Hf. destruct x as [y m d]. cbn [d_y d_m d_d] in *.
  pose proof (valid_date_inv _ _ Hv) as [Hm _]. pose proof (valid_day31 _ _ Hv) as H31. cbn [d_d d_m] in *.
  rewrite toJD_R by (try assumption; apply smally_bound; assumption).
  assert (E : IZR (jdn c (mkdate y m 0)) + (IZR d + f) - / 2 = IZR (jdn c (mkdate y m d)) - / 2 + f).
  { rewrite (jdn_day c y m d), plus_IZR. lra. }
  rewrite E.
  assert (HB : (jdn c (mkdate y m d) <= 59999999999999999)%Z).
  { unfold smally in Hs. unfold jdn, rata_die. cbn [d_y d_m d_d].
    assert (0 <= days_before_month (leap_spec c y) m <= 335)%Z
      by (destruct (leap_spec c y); month_split Hm; cbn; lia).
    destruct c; lia. }
  assert (HB' : 0 <= IZR (jdn c (mkdate y m d)) <= 59999999999999999) by (split; apply IZR_le; lia).
  rewrite (DayOfWeek_R _ (jdn c (mkdate y m d))) by (unfold jdbound; lra).
  f_equal. unfold jdn. replace (rata_die c (mkdate y m d) + 1721425 + 1)%Z
    with (rata_die c (mkdate y m d) + 245918 * 7)%Z by lia.
  apply Z.mod_add. lia.
Qed.

Lemma DayOfWeek_next jd k : jdbound jd -> jdbound (jd + 1) -> DayOfWeek (fl := RFlt) jd = Some k ->
  (0 <= k <= 6)%Z /\ DayOfWeek (fl := RFlt) (jd + 1)%R = Some ((k + 1) mod 7)%Z.
Proof.
  intros H1 H2 E. set (n := Zfloor (jd + / 2)).
  pose proof (Zfloor_bounds (jd + / 2)) as Hn. fold n in Hn.
  rewrite (DayOfWeek_R jd n) in E by (auto; lra). injection E as <-.
  rewrite (DayOfWeek_R (jd + 1) (n + 1)) by (auto; rewrite plus_IZR; lra).
  split; [lia|]. f_equal. rewrite Z.add_mod_idemp_l by lia. f_equal; lia.
Qed.

Lemma DayOfWeek_anchor : DayOfWeek (fl := RFlt) 2434923.5 = Some 3%Z.
Proof.
  rewrite (DayOfWeek_R _ 2434924) by (unfold jdbound; lra). reflexivity.
Qed.

Lemma DayOfWeek_refuted : exists jd k, DayOfWeek (fl := RFlt) jd = Some k /\ ~ (0 <= k <= 6)%Z.
Proof. exists (-3), (-1)%Z. split; [exact DayOfWeek_neg | lia]. Qed.

Lemma toJD64_exact' c y m (d : float64) : on_grid28 d -> 0 <= B2R d < 32 ->
  (Z.abs y <= 70000)%Z -> (1 <= m <= 12)%Z ->
  is_finite (toJD64 c y m d) = true /\ B2R (toJD64 c y m d) = toJD c y m (B2R d).
Proof. intros [F [k E]] ? ? ?. apply (toJD64_exact c y m d k); auto. split; assumption. Qed.

Lemma roundtrip_b64' c x (d : float64) : valid_date c x = true ->
  on_grid28 d -> IZR (d_d x) <= B2R d < IZR (d_d x) + 1 ->
  (-4712 <= d_y x <= 70000)%Z -> (0 <= jdn c x)%Z ->
  civil_calendar (jdn c x) = c -> ~ (2299151 <= jdn c x < 2299161)%Z ->
  exists d', JDToCalendar (fl := BFlt) (toJD64 c (d_y x) (d_m x) d) = Some (d_y x, d_m x, d') /\
     is_finite d' = true /\ B2R d' = B2R d.
Proof. intros ? [F [k E]] ? ? ? ? ?. apply (roundtrip_b64_civil c x d k); auto. split; assumption. Qed.

Lemma DayOfWeek_b64' (jd : float64) n : on_grid28 jd -> - / 2 <= B2R jd <= 28000000 ->
  IZR n - / 2 <= B2R jd < IZR n + / 2 ->
  DayOfWeek (fl := BFlt) jd = Some ((n + 1) mod 7)%Z.
Proof. intros [F [k E]] ? ?. apply (DayOfWeek_b64 jd k); auto. split; assumption. Qed.

Lemma grid_ofZ n : (Z.abs n < 2 ^ 25)%Z -> on_grid28 (b64_ofZ n).
Proof.
  intros H. destruct (isfx_scale 0 28 _ _ ltac:(lia) (isfx_ofZ n ltac:(lia))) as [F E].
  split; [exact F|]. eexists. exact E.
Qed.

Lemma B2R_ofZ n : (Z.abs n < 2 ^ 53)%Z -> B2R (b64_ofZ n) = IZR n.
Proof. intros H. destruct (isfx_ofZ n H) as [_ E]. rewrite E. cbn. lra. Qed.
