(** Lemmas about package jm: Gregorian/Julian conversion and the Moslem calendar. *)
From Coq Require Import ZArith Bool List Lia ZifyBool.
From Verif Require Import GoInt M_base M_julian M_jm S_Calendar S_julian S_Moslem L_tac L_julian_int L_julian_inv.
Local Open Scope Z_scope.
Local Open Scope go_scope.
Ltac Zify.zify_post_hook ::= Z.div_mod_to_equations.

(** ** Gregorian and Julian calendars *)

Lemma ymd_cal b : zbound (b - 1524) -> ymd b = cal_of_a (b - 1524).
Proof.
  intros H.
  pose proof (cal_jul_spec (b - 1524)) as [Hv _].
  revert Hv. unfold cal_of_a. cbv zeta. unfold ymd. cbv zeta.
  replace (b - 1524 + 1524) with b by ring.
  unfold zbound in H.
  rewrite (wrap64_id (b * 100)) by lia. rewrite (wrap64_id (b * 100 - 12210)) by lia.
  rewrite (floordiv_pos (b * 100 - 12210)) by lia.
  set (c := (b * 100 - 12210) / 36525) in *.
  assert (Hc : 36525 * c <= b * 100 - 12210 < 36525 * c + 36525) by (subst c; lia).
  clearbody c.
  rewrite (wrap64_id (36525 * c)) by lia. rewrite (floordiv_pos (36525 * c)) by lia.
  set (d := (36525 * c) / 100) in *.
  assert (Hd : 100 * d <= 36525 * c < 100 * d + 100) by (subst d; lia). clearbody d.
  rewrite (wrap64_id (b - d)) by lia. rewrite (wrap64_id ((b - d) * 10000)) by lia.
  rewrite (floordiv_pos ((b - d) * 10000)) by lia.
  set (e := ((b - d) * 10000) / 306001) in *.
  assert (He : 306001 * e <= (b - d) * 10000 < 306001 * e + 306001) by (subst e; lia). clearbody e.
  rewrite (wrap64_id (306001 * e)) by lia. rewrite (floordiv_pos (306001 * e)) by lia.
  rewrite (wrap64_id (b - d - _)) by lia.
  rewrite (wrap64_id (e - 13)) by lia. rewrite (wrap64_id (e - 1)) by lia.
  rewrite (wrap64_id (c - 4715)) by lia. rewrite (wrap64_id (c - 4716)) by lia.
  intros Hv. apply valid_date_inv in Hv as [Hm _]. cbn [todate d_m] in Hm.
  destruct (Z.eqb_spec e 14) as [-> |N14].
  { reflexivity. }
  destruct (Z.eqb_spec e 15) as [-> |N15].
  { reflexivity. }
  cbn [orb] in *. destruct (Z.ltb_spec e 14) as [L|L]; [|lia].
  destruct (Z.eqb_spec (e - 1) 1) as [E1|E1]; [rewrite E1; reflexivity|].
  destruct (Z.eqb_spec (e - 1) 2) as [E2|E2]; [rewrite E2; reflexivity|].
  cbn [orb]. destruct (Z.ltb_spec 2 (e - 1)) as [L2|L2]; [reflexivity|lia].
Qed.

Lemma GregorianToJulian_spec y m d : yearbound y -> valid_date Gregorian (mkdate y m d) = true ->
  let x := todate (GregorianToJulian y m d) in
  valid_date Julian x = true /\ jdn Julian x = jdn Gregorian (mkdate y m d).
Proof.
  intros Hy Hv x.
  pose proof (valid_date_inv _ _ Hv) as [Hm Hd]. cbn [d_y d_m d_d] in *.
  assert (Hd' : 1 <= d <= 31).
  { revert Hd. destruct (leap_spec Gregorian y); month_split Hm; cbn [month_length]; lia. }
  assert (E : GregorianToJulian y m d = cal_of_a (jdn Gregorian (mkdate y m d))).
  { unfold yearbound in Hy.
    rewrite jdn_march_greg, jdn_march_jul by assumption.
    assert (Mf : floordiv (306001 *! ((if m <? 3 then m +! 12 else m) +! 1)) 10000 = moff m + 122).
    { month_split Hm; reflexivity. }
    unfold GregorianToJulian. cbv zeta. rewrite Mf. clear Mf.
    assert (My : (if m <? 3 then y -! 1 else y) = myear y m).
    { unfold myear. destruct (Z.ltb_spec m 3), (Z.leb_spec m 2); try lia. rewrite wrap64_id by lia. reflexivity. }
    rewrite My.
    assert (Hy' : -200000000000001 <= myear y m <= 200000000000001) by (unfold myear; destruct (m <=? 2); lia).
    assert (Ho : 0 <= moff m <= 337) by (month_split Hm; cbn [moff]; lia).
    generalize dependent (myear y m). intros yy _ Hyy. generalize dependent (moff m). intros o Ho.
    unwrap. rewrite ymd_cal by (unfold zbound; lia). f_equal. lia. }
  subst x. rewrite E. apply cal_jul_spec.
Qed.

Lemma jan1_jul y : jdn Julian (mkdate y 1 1) = 365 * (y - 1) + (y - 1) / 4 + 1721424.
Proof. unfold jdn, rata_die. cbn [d_y d_m d_d days_before_month]. lia. Qed.

Lemma JulianToGregorian_spec y dn : yearbound y -> - 1000000000 <= dn <= 1000000000 ->
  let n := jdn Julian (mkdate y 1 1) + dn - 1 in
  let x := todate (JulianToGregorian y dn) in
  valid_date (civil_calendar n) x = true /\ jdn (civil_calendar n) x = n.
Proof.
  intros Hy Hdn n x. unfold yearbound in Hy.
  assert (En : n = (36525 * (y - 1)) / 100 + 1721423 + dn).
  { subst n. rewrite jan1_jul. lia. }
  subst x. unfold JulianToGregorian. cbv zeta.
  rewrite (wrap64_id (y - 1)) by lia. rewrite (wrap64_id (36525 * (y - 1))) by lia.
  rewrite floordiv_pos by lia.
  rewrite (wrap64_id (_ + 1721423)) by lia. rewrite (wrap64_id (_ + dn)) by lia.
  rewrite <- En.
  assert (Hn : - 75000000000000000 <= n <= 75000000000000000) by lia.
  clearbody n. clear En.
  unfold civil_calendar. change reform with 2299161.
  destruct (Z.leb_spec 2299161 n) as [L|L].
  - rewrite (wrap64_id (n * 100)) by lia. rewrite (wrap64_id (n * 100 - 186721625)) by lia.
    rewrite (floordiv_pos (n * 100 - 186721625)) by lia.
    set (al := (n * 100 - 186721625) / 3652425).
    assert (Hal : 3652425 * al <= n * 100 - 186721625 < 3652425 * al + 3652425) by (subst al; lia).
    rewrite (wrap64_id (1 + al)) by lia.
    rewrite (floordiv_pos al) by lia.
    rewrite (wrap64_id (1 + al - _)) by lia.
    rewrite (wrap64_id (n + _)) by lia. rewrite (wrap64_id (_ + 1524)) by lia.
    assert (Ez : n + (1 + al - al / 4) + 1524 - 1524 = greg_a n).
    { unfold greg_a. fold al. lia. }
    rewrite ymd_cal; [|unfold zbound; lia].
    rewrite Ez. apply cal_greg_spec.
  - rewrite (wrap64_id (_ + 1524)) by lia.
    rewrite ymd_cal by (unfold zbound; lia). replace (n + 1524 - 1524) with n by ring.
    apply cal_jul_spec.
Qed.

Lemma jdn_inj c x x' : valid_date c x = true -> valid_date c x' = true ->
  jdn c x = jdn c x' -> x = x'.
Proof. intros H H' E. apply (rata_die_inj c); try assumption. unfold jdn in E. lia. Qed.

Lemma date_eta x : x = mkdate (d_y x) (d_m x) (d_d x).
Proof. destruct x; reflexivity. Qed.

Lemma doy_jdn x : valid_date Julian x = true ->
  jdn Julian (mkdate (d_y x) 1 1) + DayOfYearJulian (d_y x) (d_m x) (d_d x) - 1 = jdn Julian x.
Proof.
  intros Hv. pose proof (valid_date_inv _ _ Hv) as [Hm Hd].
  assert (Hd' : 1 <= d_d x <= 31).
  { revert Hd. destruct (leap_spec Julian (d_y x)); month_split Hm; cbn [month_length]; lia. }
  unfold DayOfYearJulian. rewrite DayOfYear_spec by lia. rewrite LeapYearJulian_spec.
  unfold jdn, rata_die. cbn [d_y d_m d_d].
  destruct (leap_spec Julian (d_y x)); cbn [days_before_month]; lia.
Qed.

Lemma doy_range x : valid_date Julian x = true ->
  1 <= DayOfYearJulian (d_y x) (d_m x) (d_d x) <= 366.
Proof.
  intros Hv. pose proof (valid_date_inv _ _ Hv) as [Hm Hd].
  assert (Hd' : 1 <= d_d x <= 31).
  { revert Hd. destruct (leap_spec Julian (d_y x)); month_split Hm; cbn [month_length]; lia. }
  unfold DayOfYearJulian. rewrite DayOfYear_spec by lia. rewrite LeapYearJulian_spec.
  destruct (leap_spec Julian (d_y x)); revert Hd; month_split Hm; cbn [month_length days_before_month]; lia.
Qed.

(** The Julian year of a date is close to the Gregorian year of the same day. *)
Lemma year_near x x' : valid_date Julian x = true -> valid_date Gregorian x' = true ->
  jdn Julian x = jdn Gregorian x' -> Z.abs (d_y x') <= 190000000000000 -> yearbound (d_y x).
Proof.
  intros H H' E Hb. pose proof (valid_date_inv _ _ H) as [Hm Hd]. pose proof (valid_date_inv _ _ H') as [Hm' Hd'].
  rewrite (date_eta x), (date_eta x') in E. rewrite jdn_march_greg, !jdn_march_jul in E by assumption.
  pose proof (moff_range _ _ _ Hm Hd) as [Ho _]. pose proof (moff_range _ _ _ Hm' Hd') as [Ho' _].
  assert (d_y x - 1 <= myear (d_y x) (d_m x) <= d_y x) by (unfold myear; destruct (_ <=? _); lia).
  assert (d_y x' - 1 <= myear (d_y x') (d_m x') <= d_y x') by (unfold myear; destruct (_ <=? _); lia).
  unfold yearbound. lia.
Qed.

Lemma year_near' x x' : valid_date Julian x = true -> valid_date Gregorian x' = true ->
  jdn Julian x = jdn Gregorian x' -> Z.abs (d_y x) <= 190000000000000 -> yearbound (d_y x').
Proof.
  intros H H' E Hb. pose proof (valid_date_inv _ _ H) as [Hm Hd]. pose proof (valid_date_inv _ _ H') as [Hm' Hd'].
  rewrite (date_eta x), (date_eta x') in E. rewrite jdn_march_greg, !jdn_march_jul in E by assumption.
  pose proof (moff_range _ _ _ Hm Hd) as [Ho _]. pose proof (moff_range _ _ _ Hm' Hd') as [Ho' _].
  assert (d_y x - 1 <= myear (d_y x) (d_m x) <= d_y x) by (unfold myear; destruct (_ <=? _); lia).
  assert (d_y x' - 1 <= myear (d_y x') (d_m x') <= d_y x') by (unfold myear; destruct (_ <=? _); lia).
  unfold yearbound. lia.
Qed.

Definition G2J (x : date) : date := todate (GregorianToJulian (d_y x) (d_m x) (d_d x)).
Definition J2G (x : date) : date := todate (JulianToGregorian (d_y x) (DayOfYearJulian (d_y x) (d_m x) (d_d x))).

Lemma G2J_spec x : Z.abs (d_y x) <= 190000000000000 -> valid_date Gregorian x = true ->
  valid_date Julian (G2J x) = true /\ jdn Julian (G2J x) = jdn Gregorian x.
Proof.
  intros Hb Hv. rewrite (date_eta x) in Hv.
  rewrite (date_eta x) at 3. apply GregorianToJulian_spec; [unfold yearbound; lia|assumption].
Qed.

Lemma J2G_spec' x : yearbound (d_y x) -> valid_date Julian x = true ->
  valid_date (civil_calendar (jdn Julian x)) (J2G x) = true /\
  jdn (civil_calendar (jdn Julian x)) (J2G x) = jdn Julian x.
Proof.
  intros Hb Hv. pose proof (doy_range x Hv).
  pose proof (JulianToGregorian_spec (d_y x) (DayOfYearJulian (d_y x) (d_m x) (d_d x)) Hb ltac:(lia)) as H1.
  cbv zeta in H1. rewrite doy_jdn in H1 by assumption. exact H1.
Qed.

Lemma J2G_spec x : Z.abs (d_y x) <= 190000000000000 -> valid_date Julian x = true ->
  valid_date (civil_calendar (jdn Julian x)) (J2G x) = true /\
  jdn (civil_calendar (jdn Julian x)) (J2G x) = jdn Julian x.
Proof. intros Hb. apply J2G_spec'. unfold yearbound; lia. Qed.

Lemma J2G_G2J x : Z.abs (d_y x) <= 190000000000000 -> valid_date Gregorian x = true ->
  reform <= jdn Gregorian x -> J2G (G2J x) = x.
Proof.
  intros Hb Hv Hr. destruct (G2J_spec x Hb Hv) as [V E].
  pose proof (year_near _ _ V Hv E Hb) as Hb'.
  destruct (J2G_spec' (G2J x) Hb' V) as [V2 E2].
  assert (C : civil_calendar (jdn Julian (G2J x)) = Gregorian).
  { unfold civil_calendar. destruct (Z.leb_spec reform (jdn Julian (G2J x))); [reflexivity|lia]. }
  rewrite C in *. apply (jdn_inj Gregorian); [assumption|assumption|lia].
Qed.

Lemma G2J_J2G x : Z.abs (d_y x) <= 190000000000000 -> valid_date Julian x = true ->
  reform <= jdn Julian x -> G2J (J2G x) = x.
Proof.
  intros Hb Hv Hr. destruct (J2G_spec x Hb Hv) as [V E].
  assert (C : civil_calendar (jdn Julian x) = Gregorian).
  { unfold civil_calendar. destruct (Z.leb_spec reform (jdn Julian x)); [reflexivity|lia]. }
  rewrite C in *. pose proof (year_near' _ _ Hv V (eq_sym E) Hb) as Hb'.
  unfold G2J. pose proof (GregorianToJulian_spec (d_y (J2G x)) (d_m (J2G x)) (d_d (J2G x)) Hb') as H.
  rewrite <- date_eta in H. specialize (H V). cbv zeta in H. destruct H as [V2 E2].
  apply (jdn_inj Julian); [assumption|assumption|lia].
Qed.

Lemma J2G_before x : Z.abs (d_y x) <= 190000000000000 -> valid_date Julian x = true ->
  jdn Julian x < reform -> J2G x = x.
Proof.
  intros Hb Hv Hr. destruct (J2G_spec x Hb Hv) as [V E].
  assert (C : civil_calendar (jdn Julian x) = Julian).
  { unfold civil_calendar. destruct (Z.leb_spec reform (jdn Julian x)); [lia|reflexivity]. }
  rewrite C in *. apply (jdn_inj Julian); assumption.
Qed.

(** ** Moslem calendar *)

Lemma m_leap_arith y : m_leap y = ((14 + 11 * y) mod 30 <? 11).
Proof.
  unfold m_leap.
  assert (H : 0 <= y mod 30 < 30) by lia.
  assert (E : (14 + 11 * y) mod 30 = (14 + 11 * (y mod 30)) mod 30).
  { rewrite <- (Z.add_mod_idemp_r 14 (11 * y)) by lia.
    rewrite <- (Z.mul_mod_idemp_r 11 y) by lia. rewrite Z.add_mod_idemp_r by lia. reflexivity. }
  rewrite E. generalize dependent (y mod 30). intros r Hr _.
  assert (C : zall (fun r => Bool.eqb
     match r with
  | 2 | 5 | 7 | 10 | 13 | 16 | 18 | 21 | 24 | 26 | 29 => true
  | _ => false
  end ((14 + 11 * r) mod 30 <? 11)) (Z.to_nat (30 - 0)) 0 = true) by (vm_compute; reflexivity).
  pose proof (zall_range _ 0 30 ltac:(lia) C r ltac:(lia)) as B. apply eqb_prop in B. exact B.
Qed.

Lemma m_valid_inv x : m_valid x = true ->
  1 <= d_m x <= 12 /\ 1 <= d_d x <= m_month_length (m_leap (d_y x)) (d_m x).
Proof. unfold m_valid. lia. Qed.

Lemma m_jdn_islamic : islamic_day_number m_jdn.
Proof.
  split; [reflexivity|].
  intros [y m d] Hv. apply m_valid_inv in Hv as [Hm Hd]. cbn [d_y d_m d_d] in *.
  unfold m_next, m_jdn. cbn [d_y d_m d_d].
  rewrite m_leap_arith in *.
  set (lp := (14 + 11 * y) mod 30 <? 11) in *.
  destruct (Z.ltb_spec d (m_month_length lp m)); [cbn [d_y d_m d_d]; lia|].
  assert (d = m_month_length lp m) by lia. subst d.
  destruct (Z.ltb_spec m 12); cbn [d_y d_m d_d].
  - unfold m_month_length. clear Hd. revert H0. clear - Hm. intros.
    month_split Hm; try lia; cbn [Z.odd Z.eqb Pos.eqb orb]; rewrite ?andb_false_r; lia.
  - assert (m = 12) by lia. subst m. unfold m_month_length. cbn [Z.odd Z.eqb Pos.eqb orb]. rewrite andb_true_r.
    subst lp. destruct (Z.ltb_spec ((14 + 11 * y) mod 30) 11); lia.
Qed.

(** Any day number of the calendar agrees with the closed form from year 1 on. *)
Lemma m_next_valid x : m_valid x = true -> m_valid (m_next x) = true.
Proof.
  destruct x as [y m d]. intros Hv. apply m_valid_inv in Hv as [Hm Hd]. cbn [d_y d_m d_d] in *.
  unfold m_next. cbn [d_y d_m d_d].
  assert (L : forall l m, 29 <= m_month_length l m) by (intros l k; unfold m_month_length; destruct (_ || _); lia).
  destruct (Z.ltb_spec d (m_month_length (m_leap y) m)); [unfold m_valid; cbn [d_y d_m d_d]; lia|].
  destruct (Z.ltb_spec m 12); unfold m_valid; cbn [d_y d_m d_d].
  - pose proof (L (m_leap y) (m + 1)). lia.
  - pose proof (L (m_leap (y + 1)) 1). lia.
Qed.

(** [m_jdn] is injective on valid dates. *)
Definition m_ord (y m d : Z) : Z := 29 * (m - 1) + m / 2 + d.
Lemma m_ord_range y m d : m_valid (mkdate y m d) = true ->
  1 <= m_ord y m d <= m_year_length (m_leap y).
Proof.
  intros Hv. apply m_valid_inv in Hv as [Hm Hd]. cbn [d_y d_m d_d] in *. unfold m_ord.
  unfold m_month_length, m_year_length in *. revert Hd.
  destruct (m_leap y); month_split Hm; cbn [Z.odd Z.eqb Pos.eqb orb andb]; lia.
Qed.

Lemma m_jdn_ord y m d : m_jdn (mkdate y m d) = m_epoch + 354 * (y - 1) + (3 + 11 * y) / 30 + m_ord y m d - 1.
Proof. unfold m_jdn, m_ord. cbn [d_y d_m d_d]. lia. Qed.

Lemma m_ord_inj y m d y' m' d' : m_valid (mkdate y m d) = true -> m_valid (mkdate y' m' d') = true ->
  y = y' -> m_ord y m d = m_ord y' m' d' -> m = m' /\ d = d'.
Proof.
  intros Hv Hv' <- E. apply m_valid_inv in Hv as [Hm Hd]. apply m_valid_inv in Hv' as [Hm' Hd'].
  cbn [d_y d_m d_d] in *. unfold m_ord in E.
  assert (B : forall k, k < 12 -> m_month_length (m_leap y) k = 29 + k mod 2).
  { intros k Hk. unfold m_month_length. rewrite Zodd_mod. assert (k =? 12 = false) as -> by lia.
    rewrite andb_false_r, orb_false_r.
    assert (k mod 2 = 0 \/ k mod 2 = 1) as [-> | -> ] by lia; reflexivity. }
  destruct (Z.lt_trichotomy m m') as [L|[L|L]].
  - rewrite B in Hd by lia. lia.
  - subst m'. lia.
  - rewrite B in Hd' by lia. lia.
Qed.

Lemma m_jdn_inj x x' : m_valid x = true -> m_valid x' = true -> m_jdn x = m_jdn x' -> x = x'.
Proof.
  destruct x as [y m d], x' as [y' m' d']. intros Hv Hv' E.
  rewrite !m_jdn_ord in E.
  pose proof (m_ord_range _ _ _ Hv) as R. pose proof (m_ord_range _ _ _ Hv') as R'.
  rewrite m_leap_arith in R, R'. unfold m_year_length in *.
  assert (B : forall y, (if (14 + 11 * y) mod 30 <? 11 then 355 else 354) = 354 + ((14 + 11 * y) / 30 - (3 + 11 * y) / 30)).
  { intros z. destruct (Z.ltb_spec ((14 + 11 * z) mod 30) 11); lia. }
  rewrite B in R, R'. clear B.
  assert (y = y').
  { destruct (Z.lt_trichotomy y y') as [L|[L|L]]; [|assumption|].
    - assert ((14 + 11 * y) / 30 <= (3 + 11 * y') / 30) by (apply Z.div_le_mono; lia). lia.
    - assert ((14 + 11 * y') / 30 <= (3 + 11 * y) / 30) by (apply Z.div_le_mono; lia). lia. }
  subst y'. destruct (m_ord_inj y m d y m' d' Hv Hv' eq_refl) as [-> ->]; [lia|reflexivity].
Qed.

Lemma MoslemLeapYear_spec y : 0 <= y < 9223372036854775808 -> MoslemLeapYear y = m_leap y.
Proof.
  intros Hy. rewrite m_leap_arith. unfold MoslemLeapYear. cbv zeta. rewrite (rem_pos_mod y) by lia.
  rewrite (wrap64_id (11 * _)) by lia. rewrite wrap64_id by lia. rewrite rem_pos_mod by lia.
  assert (E : y = y mod 30 + 30 * (y / 30)) by lia.
  set (r := y mod 30) in *. assert (0 <= r < 30) by (subst r; lia).
  replace ((14 + 11 * y) mod 30) with ((14 + 11 * r) mod 30).
  2: { rewrite E. replace (14 + 11 * (r + 30 * (y / 30))) with (14 + 11 * r + (11 * (y / 30)) * 30) by ring.
       rewrite Z.mod_add by lia. reflexivity. }
  clearbody r. clear - H.
  assert (((11 * r + 3) / 30) <= 10) by lia. lia.
Qed.

Definition m_yearbound (y : Z) : Prop := 1 <= y <= 1000000000000000.

Lemma MoslemToJulian_spec y m d : m_yearbound y -> m_valid (mkdate y m d) = true ->
  let '(X, J) := MoslemToJulian y m d in
  jdn Julian (mkdate X 1 1) + J - 1 = m_jdn (mkdate y m d) /\
  0 <= J <= year_length (leap_spec Julian X) /\
  (J = 0 -> m = 1 /\ d = 1).
Proof.
  intros Hy Hv. unfold m_yearbound in Hy.
  pose proof (m_ord_range _ _ _ Hv) as Ho.
  apply m_valid_inv in Hv as [Hm Hd]. cbn [d_y d_m d_d] in *.
  assert (Hd' : 1 <= d <= 30).
  { revert Hd. unfold m_month_length. destruct (_ || _); lia. }
  assert (Ho' : 1 <= m_ord y m d <= 355) by (revert Ho; unfold m_year_length; destruct (m_leap y); lia).
  rewrite m_jdn_ord.
  unfold MoslemToJulian. cbv zeta.
  assert (EN : d +! floordiv (295001 *! (m -! 1) +! 9900) 10000 = m_ord y m d).
  { transitivity (d +! (29 * (m - 1) + m / 2)).
    - f_equal. f_equal. month_split Hm; reflexivity.
    - unfold m_ord. rewrite wrap64_id by lia. lia. }
  rewrite EN. set (N := m_ord y m d) in *.
  assert (HN : N = 1 -> m = 1 /\ d = 1) by (subst N; unfold m_ord; lia).
  clearbody N.
  change m_epoch with 1948440.
  rewrite (rem_pos_mod y) by lia. rewrite (floordiv_pos y) by lia.
  set (Q := y / 30). set (R := y mod 30).
  assert (EQ : y = 30 * Q + R /\ 0 <= R < 30) by (subst Q R; lia).
  clearbody Q R.
  rewrite (wrap64_id (11 * R)) by lia. rewrite (wrap64_id (11 * R + 3)) by lia. rewrite (floordiv_pos (11 * R + 3)) by lia.
  set (A := (11 * R + 3) / 30).
  assert (HA : (3 + 11 * y) / 30 = 11 * Q + A /\ 0 <= A <= 10) by (subst A; destruct EQ as [-> ?]; lia).
  destruct HA as [HA HA']. rewrite HA. clearbody A.
  rewrite (wrap64_id (404 * Q)) by lia. rewrite (wrap64_id (354 * R)) by lia.
  rewrite (wrap64_id (404 * Q + 354 * R)) by lia. rewrite (wrap64_id (404 * Q + 354 * R + 208)) by lia.
  rewrite (wrap64_id (404 * Q + 354 * R + 208 + A)) by lia.
  rewrite (rem_pos_mod (404 * Q + 354 * R + 208 + A)) by lia. rewrite (floordiv_pos (404 * Q + 354 * R + 208 + A)) by lia.
  set (W := 404 * Q + 354 * R + 208 + A).
  set (Q1 := W / 1461). set (Q2 := W mod 1461).
  assert (HW : 404 * Q + 354 * R + 208 + A = 1461 * Q1 + Q2 /\ 0 <= Q2 < 1461) by (subst Q1 Q2 W; lia).
  clearbody Q1 Q2. clear W.
  rewrite (wrap64_id (28 * Q)) by lia. rewrite (wrap64_id (4 * Q1)) by lia.
  rewrite (wrap64_id (621 + 28 * Q)) by lia. rewrite (wrap64_id (621 + 28 * Q + 4 * Q1)) by lia.
  rewrite (wrap64_id (Q2 * 10000)) by lia. rewrite (floordiv_pos (Q2 * 10000)) by lia.
  set (K := Q2 * 10000 / 3652422).
  assert (HK : 3652422 * K <= Q2 * 10000 < 3652422 * K + 3652422) by (subst K; lia).
  clearbody K.
  assert (HK' : 0 <= K <= 3) by lia.
  assert (EE : floordiv (3652422 *! K) 10000 = 365 * K).
  { assert (K = 0 \/ K = 1 \/ K = 2 \/ K = 3) as [-> | [-> | [-> | -> ]]] by lia; reflexivity. }
  rewrite EE. rewrite (wrap64_id (Q2 - 365 * K)) by lia.
  rewrite (wrap64_id (_ + N)) by lia. rewrite (wrap64_id (Q2 - 365 * K + N - 1)) by lia.
  rewrite (wrap64_id (621 + 28 * Q + 4 * Q1 + K)) by lia.
  set (X := 621 + 28 * Q + 4 * Q1 + K).
  set (J := Q2 - 365 * K + N - 1).
  assert (HQ1 : 0 <= Q1) by lia.
  rewrite (rem_pos_mod X) by (subst X; lia).
  assert (HJ : jdn Julian (mkdate X 1 1) + J - 1 = 1948440 + 354 * (y - 1) + (11 * Q + A) + N - 1).
  { rewrite jan1_jul. subst X J. replace ((621 + 28 * Q + 4 * Q1 + K - 1) / 4) with (155 + 7 * Q + Q1) by lia. lia. }
  assert (HJ0 : J = 0 -> N = 1) by (subst J; lia).
  assert (HJr : 0 <= J <= 365 + 355) by (subst J; lia).
  assert (HJ366 : J = 366 -> X mod 4 <> 0 \/ True) by auto.
  assert (Xm : X mod 4 = (1 + K) mod 4) by (subst X; lia).
  assert (JK : K < 3 -> J <= 719 ) by (subst J; lia).
  assert (HX : 0 < X < 9000000000000000000) by (subst X; lia).
  rewrite jan1_jul in HJ.
  clear HK EE HK' JK.
  destruct (Z.eqb_spec (X mod 4) 0) as [L4|L4].
  - destruct (Z.ltb_spec 366 J) as [G|G]; cbn [andb].
    + rewrite !wrap64_id by lia. rewrite jan1_jul.
      assert ((X + 1 - 1) / 4 = (X - 1) / 4 + 1) by lia.
      unfold leap_spec, year_length.
      destruct (Z.eqb_spec ((X + 1) mod 4) 0); lia.
    + assert (0 <? X mod 4 = false) as -> by lia. rewrite andb_false_r.
      rewrite jan1_jul. unfold leap_spec, year_length. destruct (Z.eqb_spec (X mod 4) 0); lia.
  - rewrite andb_false_r. assert (0 <? X mod 4 = true) as -> by lia. rewrite andb_true_r.
    destruct (Z.ltb_spec 365 J) as [G|G].
    + rewrite !wrap64_id by lia. rewrite jan1_jul.
      assert ((X + 1 - 1) / 4 = (X - 1) / 4) by lia.
      unfold leap_spec, year_length.
      destruct (Z.eqb_spec ((X + 1) mod 4) 0); lia.
    + rewrite jan1_jul. unfold leap_spec, year_length. destruct (Z.eqb_spec (X mod 4) 0); lia.
Qed.

Lemma MoslemLeapYear_periodic y : 0 <= y < 9223372036854775808 -> MoslemLeapYear y = MoslemLeapYear (y mod 30).
Proof. intros H. unfold MoslemLeapYear. rewrite !rem_pos_mod with (b := 30) (a := y) by lia.
  rewrite (rem_pos_mod (y mod 30) 30) by lia. rewrite Z.mod_mod by lia. reflexivity. Qed.

Lemma moslem_year_length y : 1 <= y < 1000000000000000 ->
  let '(X, J) := MoslemToJulian y 1 1 in
  let '(X', J') := MoslemToJulian (y + 1) 1 1 in
  (jdn Julian (mkdate X' 1 1) + J') - (jdn Julian (mkdate X 1 1) + J) =
  if MoslemLeapYear y then 355 else 354.
Proof.
  intros Hy.
  pose proof (MoslemToJulian_spec y 1 1 ltac:(unfold m_yearbound; lia)) as H1.
  pose proof (MoslemToJulian_spec (y + 1) 1 1 ltac:(unfold m_yearbound; lia)) as H2.
  destruct (MoslemToJulian y 1 1) as [X J], (MoslemToJulian (y + 1) 1 1) as [X' J'].
  destruct H1 as [H1 _]; [unfold m_valid, m_month_length; cbn [d_y d_m d_d]; destruct (m_leap y); reflexivity|].
  destruct H2 as [H2 _]; [unfold m_valid, m_month_length; cbn [d_y d_m d_d]; destruct (m_leap (y + 1)); reflexivity|].
  rewrite MoslemLeapYear_spec, m_leap_arith by lia.
  unfold m_jdn in H1, H2. cbn [d_y d_m d_d] in H1, H2.
  assert (B : (if (14 + 11 * y) mod 30 <? 11 then 355 else 354) = 354 + ((14 + 11 * y) / 30 - (3 + 11 * y) / 30)).
  { destruct (Z.ltb_spec ((14 + 11 * y) mod 30) 11); lia. }
  rewrite B. replace (3 + 11 * (y + 1)) with (14 + 11 * y) in H2 by ring. lia.
Qed.

Lemma eleven_in_thirty y : 0 <= y < two63 - 30 ->
  length (filter (fun k => MoslemLeapYear (y + Z.of_nat k)) (seq 0 30)) = 11%nat.
Proof.
  intros Hy. unfold two63 in Hy.
  assert (E : filter (fun k => MoslemLeapYear (y + Z.of_nat k)) (seq 0 30) =
              filter (fun k => MoslemLeapYear ((y mod 30) + Z.of_nat k)) (seq 0 30)).
  { apply filter_ext_in. intros k Hk. apply in_seq in Hk.
    rewrite (MoslemLeapYear_periodic (y + Z.of_nat k)) by lia.
    rewrite (MoslemLeapYear_periodic (y mod 30 + Z.of_nat k)) by lia.
    f_equal. rewrite Z.add_mod_idemp_l by lia. reflexivity. }
  rewrite E. assert (H : 0 <= y mod 30 < 30) by lia. revert H. generalize (y mod 30). intros r Hr.
  assert (C : zall (fun r => Nat.eqb (length (filter (fun k => MoslemLeapYear (r + Z.of_nat k)) (seq 0 30))) 11) (Z.to_nat (30 - 0)) 0 = true)
    by (vm_compute; reflexivity).
  pose proof (zall_range _ 0 30 ltac:(lia) C r ltac:(lia)) as B. cbv beta in B.
  apply Nat.eqb_eq in B. exact B.
Qed.
