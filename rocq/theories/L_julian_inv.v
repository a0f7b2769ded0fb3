(** The day-number-to-date conversions invert the day count. *)
From Coq Require Import ZArith Bool Lia ZifyBool.
From Verif Require Import GoInt M_base M_julian S_Calendar L_tac L_julian_int.
Local Open Scope Z_scope.
Local Open Scope go_scope.
Ltac Zify.zify_post_hook ::= Z.div_mod_to_equations.

(** Unbounded-integer versions, used only in proofs. *)
Definition cal_of_a (a : Z) : Z * Z * Z :=
  let b := a + 1524 in
  let c := (b * 100 - 12210) / 36525 in
  let d := (36525 * c) / 100 in
  let e := ((b - d) * 10000) / 306001 in
  let day := b - d - (306001 * e) / 10000 in
  let month := if (e =? 14) || (e =? 15) then e - 13 else e - 1 in
  let year := if (month =? 1) || (month =? 2) then c - 4715 else c - 4716 in
  (year, month, day).
Definition greg_a (z : Z) : Z :=
  let alpha := (z * 100 - 186721625) / 3652425 in z + 1 + alpha - alpha / 4.

Definition zbound (z : Z) : Prop := - 80000000000000000 <= z <= 80000000000000000.

Lemma gregorian_a_Z z : zbound z -> gregorian_a z = greg_a z.
Proof. unfold zbound, gregorian_a, greg_a. intros H. unwrap. reflexivity. Qed.

Lemma calendar_of_a_Z a : zbound a -> calendar_of_a a = cal_of_a a.
Proof.
  unfold zbound, calendar_of_a, cal_of_a. intros H. cbv zeta.
  rewrite (wrap64_id (a + 1524)) by lia.
  set (b := a + 1524) in *. assert (Hb : - 80000000000001524 <= b <= 80000000000001524) by lia.
  clearbody b. clear H a.
  rewrite (wrap64_id (b * 100)) by lia. rewrite (wrap64_id (b * 100 - 12210)) by lia.
  rewrite (floordiv_pos (b * 100 - 12210)) by lia.
  set (c := (b * 100 - 12210) / 36525) in *.
  assert (Hc : 36525 * c <= b * 100 - 12210 < 36525 * c + 36525) by (subst c; lia).
  clearbody c.
  rewrite (wrap64_id (36525 * c)) by lia. rewrite (floordiv_pos (36525 * c)) by lia.
  set (d := (36525 * c) / 100) in *.
  assert (Hd : 100 * d <= 36525 * c < 100 * d + 100) by (subst d; lia). clearbody d.
  rewrite (wrap64_id (b - d)) by lia. rewrite (wrap64_id ((b - d) * 10000)) by lia.
  rewrite (floordiv_pos ((b - d) * 10000)) by lia.
  set (e := ((b - d) * 10000) / 306001) in *.
  assert (He : 306001 * e <= (b - d) * 10000 < 306001 * e + 306001) by (subst e; lia). clearbody e.
  rewrite (wrap64_id (306001 * e)) by lia. rewrite (floordiv_pos (306001 * e)) by lia.
  rewrite (wrap64_id (b - d - _)) by lia.
  rewrite (wrap64_id (e - 13)) by lia. rewrite (wrap64_id (e - 1)) by lia.
  rewrite (wrap64_id (c - 4715)) by lia. rewrite (wrap64_id (c - 4716)) by lia.
  reflexivity.
Qed.

(** Periodicity. *)
Definition shift_year (k : Z) (t : Z * Z * Z) : Z * Z * Z := let '(y, m, d) := t in (y + k, m, d).

Lemma cal_of_a_period a k : cal_of_a (a + 1461 * k) = shift_year (4 * k) (cal_of_a a).
Proof.
  unfold cal_of_a, shift_year. cbv zeta.
  replace ((a + 1461 * k + 1524) * 100 - 12210) with ((a + 1524) * 100 - 12210 + (4 * k) * 36525) by ring.
  rewrite Z.div_add by lia.
  set (c := ((a + 1524) * 100 - 12210) / 36525).
  replace (36525 * (c + 4 * k)) with (36525 * c + (1461 * k) * 100) by ring.
  rewrite Z.div_add by lia.
  set (d := 36525 * c / 100).
  replace (a + 1461 * k + 1524 - (d + 1461 * k)) with (a + 1524 - d) by ring.
  repeat f_equal.
  destruct (_ || _); lia.
Qed.

Lemma greg_a_period z k : greg_a (z + 146097 * k) = greg_a z + 146100 * k.
Proof.
  unfold greg_a. cbv zeta.
  replace ((z + 146097 * k) * 100 - 186721625) with (z * 100 - 186721625 + (4 * k) * 3652425) by ring.
  rewrite Z.div_add by lia.
  set (al := (z * 100 - 186721625) / 3652425).
  replace (al + 4 * k) with (al + k * 4) by ring. rewrite Z.div_add by lia. ring.
Qed.

Definition todate (t : Z * Z * Z) : date := let '(y, m, d) := t in mkdate y m d.

(** Shifting a date by a full cycle. *)
Lemma rata_die_shift_greg y m d k :
  rata_die Gregorian (mkdate (y + 400 * k) m d) = rata_die Gregorian (mkdate y m d) + 146097 * k.
Proof.
  unfold rata_die. cbn [d_y d_m d_d].
  assert (E : leap_spec Gregorian (y + 400 * k) = leap_spec Gregorian y).
  { unfold leap_spec.
    replace ((y + 400 * k) mod 4) with (y mod 4) by lia.
    replace ((y + 400 * k) mod 100) with (y mod 100) by lia.
    replace ((y + 400 * k) mod 400) with (y mod 400) by lia. reflexivity. }
  rewrite E. lia.
Qed.

Lemma leap_shift_greg y k : leap_spec Gregorian (y + 400 * k) = leap_spec Gregorian y.
Proof.
  unfold leap_spec.
  replace ((y + 400 * k) mod 4) with (y mod 4) by lia.
  replace ((y + 400 * k) mod 100) with (y mod 100) by lia.
  replace ((y + 400 * k) mod 400) with (y mod 400) by lia. reflexivity.
Qed.

Lemma leap_shift_jul y k : leap_spec Julian (y + 4 * k) = leap_spec Julian y.
Proof. unfold leap_spec. replace ((y + 4 * k) mod 4) with (y mod 4) by lia. reflexivity. Qed.

Lemma rata_die_shift_jul y m d k :
  rata_die Julian (mkdate (y + 4 * k) m d) = rata_die Julian (mkdate y m d) + 1461 * k.
Proof. unfold rata_die. cbn [d_y d_m d_d]. rewrite leap_shift_jul. lia. Qed.

Definition check_jul (z : Z) : bool :=
  let x := todate (cal_of_a z) in
  valid_date Julian x && (jdn Julian x =? z).

Lemma check_jul_all : zall check_jul (Z.to_nat (1461 - 0)) 0 = true.
Proof. vm_compute. reflexivity. Qed.

Lemma cal_jul_spec z :
  valid_date Julian (todate (cal_of_a z)) = true /\ jdn Julian (todate (cal_of_a z)) = z.
Proof.
  pose proof (zall_range check_jul 0 1461 ltac:(lia) check_jul_all (z mod 1461) ltac:(lia)) as H.
  unfold check_jul in H. apply andb_prop in H as [H1 H2]. apply Z.eqb_eq in H2.
  set (r := z mod 1461) in *. set (k := z / 1461).
  assert (E : z = r + 1461 * k) by (subst r k; lia).
  rewrite E, cal_of_a_period.
  destruct (cal_of_a r) as [[y m] d]. cbn [shift_year todate] in *.
  split.
  - unfold valid_date in *. cbn [d_y d_m d_d] in *. rewrite leap_shift_jul. exact H1.
  - unfold jdn in *. rewrite rata_die_shift_jul. lia.
Qed.

(** Years and day offsets counted from March. *)
Definition moff (m : Z) : Z :=
  match m with
  | 1 => 306 | 2 => 337 | 3 => 0 | 4 => 31 | 5 => 61 | 6 => 92 | 7 => 122 | 8 => 153
  | 9 => 184 | 10 => 214 | 11 => 245 | _ => 275
  end.
Definition myear (y m : Z) : Z := if m <=? 2 then y - 1 else y.

Lemma jdn_march_jul y m d : 1 <= m <= 12 ->
  jdn Julian (mkdate y m d) = 365 * myear y m + myear y m / 4 + moff m + d + 1721117.
Proof.
  intros Hm. unfold jdn, rata_die. cbn [d_y d_m d_d].
  month_split Hm; unfold myear, leap_spec, days_before_month; cbn [Z.leb Z.compare Pos.compare Pos.compare_cont moff];
    try destruct (Z.eqb_spec (y mod 4) 0); lia.
Qed.

Lemma jdn_march_greg y m d : 1 <= m <= 12 ->
  jdn Gregorian (mkdate y m d) = jdn Julian (mkdate y m d) + myear y m / 400 - myear y m / 100 + 2.
Proof.
  intros Hm. rewrite jdn_march_jul by assumption. unfold jdn, rata_die. cbn [d_y d_m d_d].
  month_split Hm; unfold myear, leap_spec, days_before_month; cbn [Z.leb Z.compare Pos.compare Pos.compare_cont moff];
    try (destruct (Z.eqb_spec (y mod 4) 0), (Z.eqb_spec (y mod 100) 0), (Z.eqb_spec (y mod 400) 0); cbn [andb orb negb]); lia.
Qed.

Lemma moff_range m d leap : 1 <= m <= 12 -> 1 <= d <= month_length leap m ->
  0 <= moff m + d - 1 <= 365 /\ (moff m + d - 1 = 365 -> m = 2 /\ d = 29 /\ leap = true).
Proof. intros Hm Hd. destruct leap; revert Hd; month_split Hm; cbn [moff month_length]; lia. Qed.

Lemma cal_greg_spec z :
  valid_date Gregorian (todate (cal_of_a (greg_a z))) = true /\
  jdn Gregorian (todate (cal_of_a (greg_a z))) = z.
Proof.
  destruct (cal_jul_spec (greg_a z)) as [Hv Hj].
  destruct (cal_of_a (greg_a z)) as [[y m] d]. cbn [todate] in *.
  pose proof (valid_date_inv _ _ Hv) as [Hm Hd]. cbn [d_y d_m d_d] in Hm, Hd.
  pose proof (moff_range m d _ Hm Hd) as [Ho Ho'].
  rewrite jdn_march_jul in Hj by assumption.
  unfold greg_a in Hj. cbv zeta in Hj.
  set (k := (z * 100 - 186721625) / 3652425) in *.
  assert (K1 : 3652425 * k <= z * 100 - 186721625 < 3652425 * k + 3652425) by (subst k; lia).
  clearbody k.
  set (o := moff m + d - 1) in *.
  set (yy := myear y m) in *.
  assert (Hj' : 365 * yy + yy / 4 + o + 1721118 = z + 1 + k - k / 4) by lia.
  clear Hj.
  assert (C : yy / 100 = k + 4) by lia.
  assert (D : o = 365 -> yy mod 100 = 99 -> yy mod 400 = 399).
  { intros O M. assert (E : yy = 100 * k + 499) by lia.
    assert (k mod 4 = 3) by (rewrite E in Hj'; replace ((100 * k + 499) / 4) with (25 * k + 124) in Hj' by lia; lia).
    lia. }
  assert (J : jdn Gregorian (mkdate y m d) = z).
  { rewrite jdn_march_greg, jdn_march_jul by assumption. fold yy. lia. }
  split; [|exact J].
  apply valid_date_intro; cbn [d_y d_m d_d]; [assumption|].
  destruct (leap_spec Julian y) eqn:L.
  - destruct (leap_spec Gregorian y) eqn:G; [assumption|].
    destruct (Z.eq_dec m 2) as [-> |Hm2].
    + unfold yy, myear in D. cbn [Z.leb Z.compare Pos.compare Pos.compare_cont] in D.
      assert (d <> 29).
      { intros ->. subst o. cbn [moff] in D. specialize (D eq_refl).
        unfold leap_spec in L, G. lia. }
      cbn in *. lia.
    + revert Hm Hd Hm2. clear. intros Hm Hd Hm2. revert Hd Hm2. month_split Hm; cbn [month_length]; lia.
  - destruct (leap_spec Gregorian y) eqn:G; [|assumption].
    unfold leap_spec in L, G. lia.
Qed.

Definition zbound' (z : Z) : Prop := - 70000000000000000 <= z <= 70000000000000000.

Lemma greg_a_bound z : zbound' z -> zbound (greg_a z).
Proof. unfold zbound', zbound, greg_a. intros H. lia. Qed.

(** The code's conversions, every day number. *)
Lemma jdToCalendarGregorian_z_spec z : zbound' z ->
  valid_date Gregorian (todate (jdToCalendarGregorian_z z)) = true /\
  jdn Gregorian (todate (jdToCalendarGregorian_z z)) = z.
Proof.
  intros H. unfold jdToCalendarGregorian_z.
  assert (zbound z) by (unfold zbound, zbound' in *; lia).
  rewrite gregorian_a_Z by assumption.
  rewrite calendar_of_a_Z by (apply greg_a_bound; assumption).
  apply cal_greg_spec.
Qed.

Lemma JDToCalendar_z_spec_late z : zbound' z -> 2299151 <= z ->
  valid_date Gregorian (todate (JDToCalendar_z z)) = true /\
  jdn Gregorian (todate (JDToCalendar_z z)) = z.
Proof.
  intros H Hz. unfold JDToCalendar_z. destruct (Z.leb_spec 2299151 z); [|lia].
  apply (jdToCalendarGregorian_z_spec z H).
Qed.

Lemma JDToCalendar_z_spec_early z : zbound' z -> z < 2299151 ->
  valid_date Julian (todate (JDToCalendar_z z)) = true /\
  jdn Julian (todate (JDToCalendar_z z)) = z.
Proof.
  intros H Hz. unfold JDToCalendar_z. destruct (Z.leb_spec 2299151 z); [lia|].
  rewrite calendar_of_a_Z by (unfold zbound, zbound' in *; lia).
  apply cal_jul_spec.
Qed.

(** Day-of-year functions. *)
Lemma wholeMonths_spec m k : 1 <= m <= 12 -> k = 1 \/ k = 2 ->
  wholeMonths m k = days_before_month (k =? 1) m.
Proof. intros Hm [->| ->]; month_split Hm; reflexivity. Qed.

Lemma DayOfYear_spec y m d leap : 1 <= m <= 12 -> - 2000000000 <= d <= 2000000000 ->
  DayOfYear y m d leap = days_before_month leap m + d.
Proof.
  intros Hm Hd. unfold DayOfYear. rewrite wholeMonths_spec by (destruct leap; auto; lia).
  replace ((if leap then 1 else 2) =? 1) with leap by (destruct leap; reflexivity).
  assert (0 <= days_before_month leap m <= 335) by (destruct leap; month_split Hm; cbn; lia).
  apply wrap64_id. lia.
Qed.

Definition check_doy (leap : bool) (n : Z) : bool :=
  let '(m, d) := DayOfYearToCalendar n leap in
  (1 <=? m) && (m <=? 12) && (1 <=? d) && (d <=? month_length leap m) &&
  (days_before_month leap m + d =? n).

Lemma check_doy_leap : zall (check_doy true) (Z.to_nat (367 - 1)) 1 = true.
Proof. vm_compute. reflexivity. Qed.
Lemma check_doy_common : zall (check_doy false) (Z.to_nat (366 - 1)) 1 = true.
Proof. vm_compute. reflexivity. Qed.

Lemma DayOfYearToCalendar_spec n leap : 1 <= n <= year_length leap ->
  let '(m, d) := DayOfYearToCalendar n leap in
  1 <= m <= 12 /\ 1 <= d <= month_length leap m /\ days_before_month leap m + d = n.
Proof.
  intros H. assert (C : check_doy leap n = true).
  { destruct leap; cbn in H.
    - apply (zall_range _ 1 367 ltac:(lia) check_doy_leap). lia.
    - apply (zall_range _ 1 366 ltac:(lia) check_doy_common). lia. }
  unfold check_doy in C. destruct (DayOfYearToCalendar n leap) as [m d]. lia.
Qed.
