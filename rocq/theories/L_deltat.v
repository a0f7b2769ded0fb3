(** Lemmas for package deltat. *)
From Coq Require Import ZArith Bool List Reals Lra Lia.
From Flocq Require Import Core.
From Verif Require Import GoInt GoFloat M_base M_interp M_julian M_deltat S_base S_interp S_Calendar S_julian S_deltat.
From Verif Require Import L_base L_precess L_interp L_interp_row L_julian_int L_julian_inv L_julian_R.
Import ListNotations.
Local Open Scope R_scope.

Lemma table_length : @length R (table10A (fl := RFlt)) = 196%nat. Proof. reflexivity. Qed.
Lemma Zfloor_add_IZR x k : Zfloor (x + IZR k) = (Zfloor x + k)%Z.
Proof. apply Zfloor_imp. rewrite !plus_IZR. pose proof (Zfloor_lb x). pose proof (Zfloor_ub x). lra. Qed.
Lemma table_nth i : nth i (table10A (fl := RFlt)) 0 = IZR (nth i table10A_tenths 0%Z) / 10.
Proof.
  unfold table10A. cbn [fconst RFlt]. change (IZR (Z.pos 10)) with 10.
  transitivity (nth i (map (fun n => IZR n / 10) table10A_tenths) (IZR 0 / 10)); [f_equal; field|]. 
  apply (map_nth (fun n => IZR n / 10)).
Qed.
Lemma abscissa_row k : abscissa 1620 2010 196 k = IZR (1620 + 2 * k).
Proof. unfold abscissa. change (196 - 1)%Z with 195%Z. rewrite plus_IZR, mult_IZR. field. Qed.

(** The interpolation step, for any year with fraction. *)
Lemma interp_rows unspec yf : exists k f, (1 <= k <= 194)%Z /\ poly_degree_le 2 f /\
  (forall y, (y = 1620 + 2 * (k - 1) \/ y = 1620 + 2 * k \/ y = 1620 + 2 * (k + 1))%Z -> f (IZR y) = row table10A_tenths y) /\
  (exists d3, Len3ForInterpolateX (fl := RFlt) unspec yf (tableYear1 (fl := RFlt)) (tableYearN (fl := RFlt)) (table10A (fl := RFlt)) = Ok d3 /\ Len3_InterpolateX (fl := RFlt) d3 yf = f yf) /\
  (1620 <= yf <= 2010 -> forall j, (1 <= j <= 194)%Z -> Rabs (yf - IZR (1620 + 2 * k)) <= Rabs (yf - IZR (1620 + 2 * j))).
Proof.
  assert (Y1 : tableYear1 (fl := RFlt) = 1620) by (cbn; field). assert (YN : tableYearN (fl := RFlt) = 2010) by (cbn; field).
  destruct (Len3For_spec unspec yf 1620 2010 (table10A (fl := RFlt))) as (k & d & K1 & K2 & E & N & B).
  - rewrite table_length. lia.
  - rewrite table_length. reflexivity.
  - lra.
  - rewrite table_length in *. change (Z.of_nat 196) with 196%Z in *. rewrite !abscissa_row in N.
    exists (Z.of_nat k), (Len3_InterpolateX (fl := RFlt) d). split; [lia|]. split; [exact (Len3_degree _ _ _ _ N)|]. split; [|split].
    + pose proof (Len3_reproduces _ _ _ _ N) as T. intros y Hy.
      assert (AB : forall i, abscissa (IZR (1620 + 2 * (Z.of_nat k - 1))) (IZR (1620 + 2 * (Z.of_nat k + 1))) 3 i = IZR (1620 + 2 * (Z.of_nat k - 1 + i))).
      { intros i. unfold abscissa. change (3 - 1)%Z with 2%Z. rewrite !plus_IZR, !mult_IZR, !plus_IZR, !minus_IZR. field. }
      pose proof (T 0%nat ltac:(cbn; lia)) as T0. pose proof (T 1%nat ltac:(cbn; lia)) as T1. pose proof (T 2%nat ltac:(cbn; lia)) as T2.
      cbn [length nth] in T0, T1, T2. change (Z.of_nat 3) with 3%Z in *. rewrite AB in T0, T1, T2. rewrite !table_nth in *. unfold row.
      destruct Hy as [ -> | [ -> | -> ] ].
      * replace (Z.of_nat k - 1 + Z.of_nat 0)%Z with (Z.of_nat k - 1)%Z in T0 by lia. rewrite <- T0. do 3 f_equal. rewrite Z.add_simpl_l, Z.mul_comm, Z.div_mul by lia. lia.
      * replace (Z.of_nat k - 1 + Z.of_nat 1)%Z with (Z.of_nat k)%Z in T1 by lia. rewrite <- T1. do 3 f_equal. rewrite Z.add_simpl_l, Z.mul_comm, Z.div_mul by lia. lia.
      * replace (Z.of_nat k - 1 + Z.of_nat 2)%Z with (Z.of_nat k + 1)%Z in T2 by lia. rewrite <- T2. do 3 f_equal. rewrite Z.add_simpl_l, Z.mul_comm, Z.div_mul by lia. lia.
    + exists d. rewrite Y1, YN. auto.
    + intros R j Hj. specialize (B ltac:(unfold between, Rmin, Rmax; destruct (Rle_dec 1620 2010); lra) (Z.to_nat j) ltac:(lia) ltac:(lia)).
      rewrite !abscissa_row, Z2Nat.id in B by lia. exact B.
Qed.

Lemma frac_round n x : IZR n <= x < IZR n + 1 -> forall day, (1 <= day <= 31)%Z ->
  Rint64 (IZR day + (x - IZR n) + 5 / 10) = Some (day + (Zfloor (x + / 2) - n))%Z.
Proof.
  intros Hx day Hd. unfold Rint64.
  assert (E : Ztrunc (IZR day + (x - IZR n) + 5 / 10) = (day + (Zfloor (x + / 2) - n))%Z).
  { assert (1 <= IZR day) by (apply IZR_le; lia). rewrite Ztrunc_floor by lra.
    replace (IZR day + (x - IZR n) + 5 / 10) with (x + / 2 + IZR (day - n)) by (rewrite minus_IZR; lra).
    rewrite Zfloor_add_IZR. lia. }
  rewrite E. assert (F : (n <= Zfloor (x + / 2) <= n + 1)%Z).
  { split; [apply Zfloor_lub; lra|]. apply Z.lt_succ_r. apply lt_IZR. pose proof (Zfloor_lb (x + / 2)). rewrite succ_IZR, plus_IZR. lra. }
  unfold in64b, two63. replace (_ && _) with true; [reflexivity|]. symmetry. lia.
Qed.

Lemma Interp_total unspec jde : jdbound jde -> exists v, Interp10A (fl := RFlt) unspec jde = Some v.
Proof.
  intros H. destruct (JDToCalendar_gen jde H) as (y & m & day & E & V & J & _). cbv zeta in *. set (n := Zfloor (jde + / 2)) in *.
  unfold Interp10A. rewrite E. cbn [fint64 fadd fconst RFlt]. change (IZR (Z.pos 10)) with 10.
  pose proof (valid_day31 _ _ V) as V31. cbn [d_d] in V31.
  rewrite (frac_round n (jde + / 2) (conj (Zfloor_lb _) (Zfloor_ub _)) day V31).
  match goal with |- context [Len3ForInterpolateX unspec ?t _ _ _] => destruct (interp_rows unspec t) as (k & f & _ & _ & _ & (d3 & E3 & _) & _) end.
  cbv zeta. rewrite E3. eexists. reflexivity.
Qed.

Lemma year_of_date c x n : valid_date c x = true -> jdn c x = n -> (jdn c (mkdate (d_y x) 1 1) <= n < jdn c (mkdate (d_y x + 1) 1 1))%Z.
Proof.
  intros V <-. apply valid_date_inv in V. destruct x as [y m d]. cbn [d_y d_m d_d] in *. unfold jdn, rata_die. cbn [d_y d_m d_d].
  assert (L : forall leap, (0 <= days_before_month leap m /\ days_before_month leap m + month_length leap m <= year_length leap)%Z).
  { intros leap. assert (C : (m = 1 \/ m = 2 \/ m = 3 \/ m = 4 \/ m = 5 \/ m = 6 \/ m = 7 \/ m = 8 \/ m = 9 \/ m = 10 \/ m = 11 \/ m = 12)%Z) by lia.
    repeat destruct C as [ -> | C ]; [..|subst m]; destruct leap; cbn; lia. }
  specialize (L (leap_spec c y)). cbn [days_before_month]. split; [destruct c; lia|].
  assert (Y : (365 * (y + 1 - 1) + (y + 1 - 1) / 4 + match c with Gregorian => (y + 1 - 1) / 400 - (y + 1 - 1) / 100 | Julian => -2 end =
               365 * (y - 1) + (y - 1) / 4 + match c with Gregorian => (y - 1) / 400 - (y - 1) / 100 | Julian => -2 end + year_length (leap_spec c y))%Z).
  { replace (y + 1 - 1)%Z with y by lia. unfold leap_spec, year_length. destruct c.
    - destruct (Z.eqb_spec (y mod 4) 0), (Z.eqb_spec (y mod 100) 0), (Z.eqb_spec (y mod 400) 0); cbn [andb orb negb]; Z.div_mod_to_equations; lia.
    - destruct (Z.eqb_spec (y mod 4) 0); Z.div_mod_to_equations; lia. }
  rewrite Y. lia.
Qed.
Lemma jan1_mono c y y' : (y < y')%Z -> (jdn c (mkdate y 1 1) < jdn c (mkdate y' 1 1))%Z.
Proof.
  intros H. assert (K : forall y, (jdn c (mkdate y 1 1) < jdn c (mkdate (y + 1) 1 1))%Z).
  { intros z. apply (year_of_date c (mkdate z 1 1) _); [|reflexivity]. unfold valid_date. cbn. reflexivity. }
  replace y' with (y + 1 + Z.of_nat (Z.to_nat (y' - y - 1)))%Z by lia. induction (Z.to_nat (y' - y - 1)) as [|j IH].
  - rewrite Z.add_0_r. apply K.
  - specialize (K (y + 1 + Z.of_nat j)%Z). replace (y + 1 + Z.of_nat (S j))%Z with (y + 1 + Z.of_nat j + 1)%Z by lia. lia.
Qed.
Lemma same_year c x y n : valid_date c x = true -> jdn c x = n -> (jdn c (mkdate y 1 1) <= n < jdn c (mkdate (y + 1) 1 1))%Z -> d_y x = y.
Proof.
  intros V J R. pose proof (year_of_date c x n V J) as Q. destruct (Z.lt_trichotomy (d_y x) y) as [L|[L|L]]; [exfalso|exact L|exfalso].
  - destruct (Z.eq_dec (d_y x + 1) y) as [E|E]; [rewrite E in Q; lia|]. pose proof (jan1_mono c (d_y x + 1) y ltac:(lia)). lia.
  - destruct (Z.eq_dec (y + 1) (d_y x)) as [E|E]; [rewrite E in R; lia|]. pose proof (jan1_mono c (y + 1) (d_y x) ltac:(lia)). lia.
Qed.

Lemma Interp_value unspec jde y : (1583 <= y <= 100000)%Z -> in_year y jde ->
  exists k f, (1 <= k <= 194)%Z /\ poly_degree_le 2 f /\
  (forall z, (z = 1620 + 2 * (k - 1) \/ z = 1620 + 2 * k \/ z = 1620 + 2 * (k + 1))%Z -> f (IZR z) = row table10A_tenths z) /\
  Interp10A (fl := RFlt) unspec jde = Some (f (year_with_fraction y jde)) /\
  (1620 <= year_with_fraction y jde <= 2010 -> forall j, (1 <= j <= 194)%Z -> Rabs (year_with_fraction y jde - IZR (1620 + 2 * k)) <= Rabs (year_with_fraction y jde - IZR (1620 + 2 * j))).
Proof.
  intros Hy [J1 J2]. unfold january1 in J1, J2.
  assert (LO : (2299239 <= jdn Gregorian (mkdate y 1 1))%Z).
  { change 2299239%Z with (jdn Gregorian (mkdate 1583 1 1)). destruct (Z.eq_dec y 1583) as [->|N]; [lia|]. pose proof (jan1_mono Gregorian 1583 y ltac:(lia)). lia. }
  assert (HI : (jdn Gregorian (mkdate (y + 1) 1 1) <= 38245676)%Z).
  { change 38245676%Z with (jdn Gregorian (mkdate 100001 1 1)). destruct (Z.eq_dec y 100000) as [ -> | N ]; [apply Z.le_refl|]. pose proof (jan1_mono Gregorian (y + 1) 100001 ltac:(lia)). lia. }
  apply IZR_le in LO, HI.
  assert (JB : jdbound jde) by (unfold jdbound; lra).
  destruct (JDToCalendar_gen jde JB) as (y' & m & day & E & V & J & _). cbv zeta in *. set (n := Zfloor (jde + / 2)) in *.
  assert (NR : (jdn Gregorian (mkdate y 1 1) <= n < jdn Gregorian (mkdate (y + 1) 1 1))%Z).
  { split; [apply Zfloor_lub; lra|]. apply lt_IZR. pose proof (Zfloor_lb (jde + / 2)). fold n in H. lra. }
  apply le_IZR in LO, HI. assert (CC : code_calendar n = Gregorian) by (unfold code_calendar; destruct (Z.leb_spec 2299151 n); [reflexivity|lia]).
  rewrite CC in *. pose proof (same_year _ _ y _ V J NR) as EY. cbn [d_y] in EY. subst y'.
  unfold Interp10A. rewrite E. cbn [fint64 fadd fconst RFlt]. change (IZR (Z.pos 10)) with 10.
  pose proof (valid_day31 _ _ V) as V31. cbn [d_d] in V31. pose proof (valid_date_inv _ _ V) as VI. cbn [d_m d_d d_y] in VI.
  rewrite (frac_round n (jde + / 2) (conj (Zfloor_lb _) (Zfloor_ub _)) day V31).
  assert (FN : (n <= Zfloor (jde + / 2 + / 2) <= n + 1)%Z).
  { pose proof (Zfloor_lb (jde + / 2)) as A. pose proof (Zfloor_ub (jde + / 2)) as B. fold n in A, B. split; [apply Zfloor_lub; lra|].
    apply Z.lt_succ_r. apply lt_IZR. pose proof (Zfloor_lb (jde + / 2 + / 2)). rewrite succ_IZR, plus_IZR. lra. }
  set (fl1 := Zfloor (jde + / 2 + / 2)) in *.
  assert (DY : DayOfYear y m (day + (fl1 - n)) (LeapYearGregorian y) = day_number y jde).
  { rewrite DayOfYear_spec by lia. rewrite LeapYearGregorian_spec. unfold day_number, january1.
    replace (jde - (IZR (jdn Gregorian (mkdate y 1 1)) - / 2 - / 2)) with (jde + / 2 + / 2 + IZR (- jdn Gregorian (mkdate y 1 1))) by (rewrite opp_IZR; lra).
    rewrite Zfloor_add_IZR. fold fl1. rewrite <- J. unfold jdn, rata_die. cbn [d_y d_m d_d]. cbn [days_before_month]. lia. }
  cbv zeta. rewrite DY.
  assert (YL : (if LeapYearGregorian y then 365 / 1 + 1 / 1 else 365 / 1) = IZR (year_length (leap_spec Gregorian y))).
  { rewrite LeapYearGregorian_spec. destruct (leap_spec Gregorian y); cbn [year_length]; field. }
  cbn [fdiv fofZ RFlt]. change (@F RFlt) with R. rewrite YL. fold (year_with_fraction y jde).
  destruct (interp_rows unspec (year_with_fraction y jde)) as (k & f & K & P & F & (d3 & E3 & V3) & B).
  exists k, f. split; [exact K|]. split; [exact P|]. split; [exact F|]. split; [|exact B].
  rewrite E3, <- V3. reflexivity.
Qed.

Lemma year_len y : (jdn Gregorian (mkdate (y + 1) 1 1) = jdn Gregorian (mkdate y 1 1) + year_length (leap_spec Gregorian y))%Z.
Proof.
  unfold jdn, rata_die. cbn [d_y d_m d_d days_before_month]. replace (y + 1 - 1)%Z with y by lia. unfold leap_spec, year_length.
  destruct (Z.eqb_spec (y mod 4) 0), (Z.eqb_spec (y mod 100) 0), (Z.eqb_spec (y mod 400) 0); cbn [andb orb negb]; Z.div_mod_to_equations; lia.
Qed.
Lemma jan1_len y : january1 (y + 1) = january1 y + IZR (year_length (leap_spec Gregorian y)).
Proof. unfold january1. rewrite year_len, plus_IZR. ring. Qed.
Lemma len_range y : 365 <= IZR (year_length (leap_spec Gregorian y)) <= 366.
Proof. destruct (leap_spec Gregorian y); cbn [year_length]; lra. Qed.

Lemma Interp_reproduces unspec jde y : (1620 <= y <= 2010)%Z -> Z.even y = true -> january1 y - 3 / 2 <= jde < january1 y - / 2 ->
  Interp10A (fl := RFlt) unspec jde = Some (row table10A_tenths y).
Proof.
  intros Hy Ev H. pose proof (jan1_len (y - 1)) as JL. replace (y - 1 + 1)%Z with y in JL by lia. pose proof (len_range (y - 1)) as LR.
  destruct (Interp_value unspec jde (y - 1)%Z) as (k & f & K & P & F & E & B); [lia|split; replace (y - 1 + 1)%Z with y by lia; lra|].
  assert (YF : year_with_fraction (y - 1) jde = IZR y).
  { unfold year_with_fraction. assert (DN : day_number (y - 1) jde = year_length (leap_spec Gregorian (y - 1))).
    { unfold day_number. enough (Zfloor (jde - (january1 (y - 1) - / 2)) = year_length (leap_spec Gregorian (y - 1)) - 1)%Z as -> by lia.
      apply Zfloor_imp. rewrite plus_IZR, minus_IZR. lra. }
    rewrite DN, minus_IZR. field. lra. }
  rewrite YF in *. rewrite E. f_equal. destruct (Zeven_ex y) as [h Eh]. rewrite Ev, Z.add_0_r in Eh.
  apply F. specialize (B ltac:(split; apply IZR_le; lia)).
  set (i := (h - 810)%Z). assert (Yi : y = (1620 + 2 * i)%Z) by (unfold i; lia).
  destruct (Z.eq_dec i 0) as [E0|N0]; [|destruct (Z.eq_dec i 195) as [E1|N1]].
  - left. specialize (B 1%Z ltac:(lia)). rewrite <- !minus_IZR, <- !abs_IZR in B. apply le_IZR in B. lia.
  - right; right. specialize (B 194%Z ltac:(lia)). rewrite <- !minus_IZR, <- !abs_IZR in B. apply le_IZR in B. lia.
  - right; left. specialize (B i ltac:(lia)). rewrite <- !minus_IZR, <- !abs_IZR in B. apply le_IZR in B. lia.
Qed.

Lemma parabola f a b h : h <> 0 -> b = a + h -> poly_degree_le 2 f -> forall x, 
  f x = f b + (x - b) / h / 2 * (f (b + h) - f a) + (x - b) / h * ((x - b) / h) / 2 * (f (b + h) - 2 * f b + f a).
Proof.
  intros Hh -> (c & Lc & Hc) x. rewrite !Hc. destruct c as [|c0 [|c1 [|c2 [|? ?]]]]; cbn in Lc; try lia; rewrite ?poly_cons, ?poly_nil; field; exact Hh.
Qed.

Definition steep (l : list Z) : bool := forallb (fun i => Z.abs (nth (i + 2) l 0 - nth i l 0) <=? 180)%Z (seq 0 194) && forallb (fun i => Z.abs (nth (i + 2) l 0 - 2 * nth (i + 1) l 0 + nth i l 0) <=? 30)%Z (seq 0 194).
Lemma table_steep : steep table10A_tenths = true. Proof. vm_compute. reflexivity. Qed.
Lemma row_steps y : (1622 <= y <= 2008)%Z -> Z.even y = true ->
  Rabs (row table10A_tenths (y + 2) - row table10A_tenths (y - 2)) <= 18 /\ Rabs (row table10A_tenths (y + 2) - 2 * row table10A_tenths y + row table10A_tenths (y - 2)) <= 3.
Proof.
  intros Hy Ev. pose proof table_steep as T. unfold steep in T. apply andb_true_iff in T. destruct T as [T1 T2]. rewrite forallb_forall in T1, T2.
  destruct (Zeven_ex y) as [h Eh]. rewrite Ev, Z.add_0_r in Eh. clear Ev. subst y. set (i := Z.to_nat (h - 811)).
  assert (Hi : In i (seq 0 194)) by (apply in_seq; lia). specialize (T1 i Hi). specialize (T2 i Hi). apply Z.leb_le in T1, T2.
  unfold row. replace (Z.to_nat ((2 * h + 2 - 1620) / 2)) with (i + 2)%nat by (replace (2 * h + 2 - 1620)%Z with ((h - 809) * 2)%Z by lia; rewrite Z.div_mul by lia; lia).
  replace (Z.to_nat ((2 * h - 2 - 1620) / 2)) with i by (replace (2 * h - 2 - 1620)%Z with ((h - 811) * 2)%Z by lia; rewrite Z.div_mul by lia; lia).
  replace (Z.to_nat ((2 * h - 1620) / 2)) with (i + 1)%nat by (replace (2 * h - 1620)%Z with ((h - 810) * 2)%Z by lia; rewrite Z.div_mul by lia; lia).
  apply IZR_le in T1, T2. rewrite abs_IZR in T1, T2. rewrite !plus_IZR, !minus_IZR, ?mult_IZR in T2. rewrite minus_IZR in T1.
  apply Rabs_le_inv in T1, T2. split; apply Rabs_le; lra.
Qed.

Lemma Interp_january unspec y : (1622 <= y <= 2008)%Z -> Z.even y = true ->
  exists v : R, Interp10A (fl := RFlt) unspec (january1 y) = Some v /\ Rabs (v - row table10A_tenths y) <= 1 / 50 /\
   v = row table10A_tenths y + (row table10A_tenths (y + 2) - row table10A_tenths (y - 2)) / (4 * IZR (year_length (leap_spec Gregorian y))) +
     (row table10A_tenths (y + 2) - 2 * row table10A_tenths y + row table10A_tenths (y - 2)) / (8 * (IZR (year_length (leap_spec Gregorian y)) * IZR (year_length (leap_spec Gregorian y)))).
Proof.
  intros Hy Ev. pose proof (jan1_len y) as JL. pose proof (len_range y) as LR.
  destruct (Interp_value unspec (january1 y) y) as (k & f & K & P & F & E & B); [lia|split; lra|].
  set (L := IZR (year_length (leap_spec Gregorian y))) in *.
  assert (YF : year_with_fraction y (january1 y) = IZR y + 1 / L).
  { unfold year_with_fraction. assert (DN : day_number y (january1 y) = 1%Z).
    { unfold day_number. enough (Zfloor (january1 y - (january1 y - / 2)) = 0)%Z as -> by lia. apply Zfloor_imp. cbn. lra. }
    rewrite DN. reflexivity. }
  rewrite YF in *. exists (f (IZR y + 1 / L)). split; [exact E|].
  destruct (row_steps y Hy Ev) as [S1 S2]. destruct (Zeven_ex y) as [h Eh]. rewrite Ev, Z.add_0_r in Eh.
  assert (L1 : 0 < 1 / L <= 1 / 365). { split; [apply Rdiv_lt_0_compat; lra|]. unfold Rdiv. rewrite !Rmult_1_l. apply Rinv_le_contravar; lra. }
  assert (YR : 1622 <= IZR y <= 2008) by (split; apply IZR_le; lia).
  assert (EK : y = (1620 + 2 * k)%Z).
  { specialize (B ltac:(lra) (h - 810)%Z ltac:(lia)). replace (1620 + 2 * (h - 810))%Z with y in B by lia.
    replace (IZR y + 1 / L - IZR y) with (1 / L) in B by ring. rewrite (Rabs_right (1 / L)) in B by lra. apply Rabs_le_inv in B.
    assert (-1 < IZR (y - (1620 + 2 * k)) < 1) as [B1 B2] by (rewrite minus_IZR; lra). apply (lt_IZR (-1)) in B1. apply (lt_IZR _ 1) in B2. lia. }
  assert (F0 : f (IZR y - 2) = row table10A_tenths (y - 2)) by (rewrite <- (F (y - 2)%Z ltac:(lia)), minus_IZR; reflexivity).
  assert (F1 : f (IZR y) = row table10A_tenths y) by (apply F; lia).
  assert (F2 : f (IZR y + 2) = row table10A_tenths (y + 2)) by (rewrite <- (F (y + 2)%Z ltac:(lia)), plus_IZR; reflexivity).
  pose proof (parabola f (IZR y - 2) (IZR y) 2 ltac:(lra) ltac:(lra) P (IZR y + 1 / L)) as Q. rewrite F0, F1, F2 in Q.
  replace (IZR y + 1 / L - IZR y) with (1 / L) in Q by ring. split.
  - rewrite Q. set (a := row table10A_tenths (y + 2) - row table10A_tenths (y - 2)) in *. set (b := row table10A_tenths (y + 2) - 2 * row table10A_tenths y + row table10A_tenths (y - 2)) in *.
    set (u := 1 / L) in *. replace (row table10A_tenths y + u / 2 / 2 * a + u / 2 * (u / 2) / 2 * b - row table10A_tenths y) with (u * (a / 4 + u * b / 8)) by field.
    rewrite Rabs_mult, (Rabs_right u) by lra. assert (Rabs (a / 4 + u * b / 8) <= 5).
    { apply Rabs_le_inv in S1, S2. apply Rabs_le. assert (-1 <= u * b <= 1) by nra. lra. }
    pose proof (Rabs_pos (a / 4 + u * b / 8)). nra.
  - rewrite Q. field. lra.
Qed.
Lemma Interp_january_1622 unspec : exists v : R, Interp10A (fl := RFlt) unspec (january1 1622) = Some v /\ v <> 112.
Proof.
  destruct (Interp_january unspec 1622 ltac:(lia) eq_refl) as (v & E & _ & V). exists v. split; [exact E|]. rewrite V.
  change (leap_spec Gregorian 1622) with false. cbn [year_length]. 
  change (row table10A_tenths (1622 + 2)) with (1030 / 10). change (row table10A_tenths 1622) with (1120 / 10). change (row table10A_tenths (1622 - 2)) with (1210 / 10). lra.
Qed.

(** ** The polynomials *)
Lemma hornerR_poly x c : c <> [] -> horner (fl := RFlt) x c = poly c x.
Proof. intros H. unfold horner. rewrite Horner_poly by exact H. reflexivity. Qed.

Lemma polys year : PolyBefore948 (fl := RFlt) year = 2177 + 497 * ((year - 2000) / 100) + 44.1 * ((year - 2000) / 100) ^ 2 /\
  Poly948to1600 (fl := RFlt) year = 102 + 102 * ((year - 2000) / 100) + 25.3 * ((year - 2000) / 100) ^ 2 /\
  (2100 <= year -> PolyAfter2000 (fl := RFlt) year = 102 + 102 * ((year - 2000) / 100) + 25.3 * ((year - 2000) / 100) ^ 2) /\
  (year <= 2100 -> PolyAfter2000 (fl := RFlt) year = 102 + 102 * ((year - 2000) / 100) + 25.3 * ((year - 2000) / 100) ^ 2 + 0.37 * (year - 2100)).
Proof.
  assert (C : c2000 (fl := RFlt) year = (year - 2000) / 100) by (unfold c2000; cbn -[IZR]; field).
  assert (P : Poly948to1600 (fl := RFlt) year = 102 + 102 * ((year - 2000) / 100) + 25.3 * ((year - 2000) / 100) ^ 2).
  { unfold Poly948to1600. rewrite hornerR_poly by discriminate. rewrite C, !poly_cons, poly_nil. cbn -[IZR]. decimals. field. }
  split; [|split; [exact P|split]].
  - unfold PolyBefore948. rewrite hornerR_poly by discriminate. rewrite C, !poly_cons, poly_nil. cbn -[IZR]. decimals. field.
  - intros H. unfold PolyAfter2000. cbv zeta. cbn [flt fconst RFlt]. change (IZR (Z.pos 1)) with 1. rewrite Rlt_bool_false by lra. exact P.
  - intros H. unfold PolyAfter2000. cbv zeta. cbn [flt fconst fadd fsub fmul RFlt]. change (IZR (Z.pos 1)) with 1. change (IZR (Z.pos 100)) with 100. rewrite P.
    case Rlt_bool_spec; intros H1; decimals; lra.
Qed.

From Coq Require Import QArith Qreals.
Open Scope R_scope.
Fixpoint hq (x : Q) (c : list Q) : Q := match c with [] => 0%Q | a :: c' => Qred (a + x * hq x c') end.
Lemma hq_poly x c : Q2R (hq x c) = poly (map Q2R c) (Q2R x).
Proof.
  induction c as [|a c IH]; cbn [hq map]; [rewrite poly_nil; apply RMicromega.Q2R_0|]. rewrite poly_cons, <- IH.
  rewrite (Qeq_eqR _ _ (Qred_correct _)), Q2R_plus, Q2R_mult. reflexivity.
Qed.
Definition jan1Q (y : Z) : Q := (inject_Z (jdn Gregorian (mkdate y 1 1)) - (1 # 2))%Q.
Definition rowQ (y : Z) : Q := (nth (Z.to_nat ((y - 1620) / 2)) table10A_tenths 0%Z # 10)%Q.
Definition close (c : list Q) (tol : Q) (y : Z) : bool :=
  let v := (hq (Qred ((jan1Q y - 2415020) / 36525)) c - rowQ y)%Q in Qle_bool v tol && Qle_bool (- tol) v.
Lemma close_ok c tol y (cR : list R) : c <> [] -> close c tol y = true -> cR = map Q2R c ->
  Rabs (horner (fl := RFlt) (jc1900 (fl := RFlt) (january1 y)) cR - row table10A_tenths y) <= Q2R tol.
Proof.
  intros N H ->. unfold close in H. cbv zeta in H. apply andb_true_iff in H. destruct H as [H1 H2]. apply Qle_bool_iff, Qle_Rle in H1, H2.
  rewrite hornerR_poly by (destruct c; [contradiction|discriminate]).
  assert (X : jc1900 (fl := RFlt) (january1 y) = Q2R (Qred ((jan1Q y - 2415020) / 36525))).
  { rewrite (Qeq_eqR _ _ (Qred_correct _)). unfold jc1900, J1900, JulianCentury. cbn -[IZR january1]. unfold Qdiv. rewrite Q2R_mult, Q2R_inv, Q2R_minus by (unfold Qeq; cbn; lia).
    unfold jan1Q. rewrite Q2R_minus. unfold january1, inject_Z, Q2R. cbn -[IZR jdn]. field. }
  assert (RQ : row table10A_tenths y = Q2R (rowQ y)) by (unfold row, rowQ, Q2R; cbn [Qnum Qden]; reflexivity).
  rewrite X, RQ, <- hq_poly. rewrite Q2R_minus in H1, H2. rewrite Q2R_opp in H2. apply Rabs_le. lra.
Qed.
Lemma years_close c tol lo n : forallb (fun i => close c tol (lo + 2 * Z.of_nat i)) (seq 0 n) = true ->
  forall y, Z.even (y - lo) = true -> (lo <= y < lo + 2 * Z.of_nat n)%Z -> close c tol y = true.
Proof.
  intros H y Ev Hy. rewrite forallb_forall in H. destruct (Zaux.Zeven_ex (y - lo)) as [h Eh]. rewrite Ev, Z.add_0_r in Eh.
  specialize (H (Z.to_nat h) ltac:(apply in_seq; lia)). rewrite Z2Nat.id in H by lia. now replace (lo + 2 * h)%Z with y in H by lia.
Qed.
Definition cA : list Q := [(-102) # 100; 9102 # 100; 2659 # 10; (-83916) # 100; (-15452) # 10; 360362 # 100; 438598 # 100; (-699323) # 100; (-609004) # 100; 629812 # 100; 410286 # 100; (-213764) # 100; (-108151) # 100]%Q.
Definition cB : list Q := [(-25) # 10; 22895 # 100; 521861 # 100; 5628284 # 100; 32401178 # 100; 106166075 # 100; 208729889 # 100; 251380778 # 100; 181896141 # 100; 72705863 # 100; 12356395 # 100]%Q.
Definition cC : list Q := [(-244) # 100; 8724 # 100; 8152 # 10; (-26378) # 10; (-1875633) # 100; 12490615 # 100; (-30319119) # 100; 37291988 # 100; (-23242466) # 100; 5835342 # 100]%Q.
Lemma closeA : forallb (fun i => close cA (23 # 10) (1800 + 2 * Z.of_nat i)) (seq 0 99) = true. Proof. vm_compute. reflexivity. Qed.
Lemma closeB : forallb (fun i => close cB (9 # 10) (1800 + 2 * Z.of_nat i)) (seq 0 50) = true. Proof. vm_compute. reflexivity. Qed.
Lemma closeC : forallb (fun i => close cC (9 # 10) (1900 + 2 * Z.of_nat i)) (seq 0 49) = true. Proof. vm_compute. reflexivity. Qed.
Lemma even_shift y a : Z.even a = true -> Z.even y = true -> Z.even (y - a) = true.
Proof. intros A B. rewrite Z.even_sub, A, B. reflexivity. Qed.
Lemma accuracy y : Z.even y = true ->
  ((1800 <= y <= 1997)%Z -> Rabs (Poly1800to1997 (fl := RFlt) (january1 y) - row table10A_tenths y) <= 2.3) /\
  ((1800 <= y <= 1899)%Z -> Rabs (Poly1800to1899 (fl := RFlt) (january1 y) - row table10A_tenths y) <= 0.9) /\
  ((1900 <= y <= 1997)%Z -> Rabs (Poly1900to1997 (fl := RFlt) (january1 y) - row table10A_tenths y) <= 0.9).
Proof.
  intros Ev. destruct (Zaux.Zeven_ex y) as [h Eh]. rewrite Ev, Z.add_0_r in Eh. repeat split; intros Hy.
  - replace 2.3 with (Q2R (23 # 10)) by (unfold Q2R; cbn -[IZR]; decimals; field).
    apply (close_ok cA); [discriminate|apply (years_close _ _ _ _ closeA); [now apply even_shift|lia]|reflexivity].
  - replace 0.9 with (Q2R (9 # 10)) by (unfold Q2R; cbn -[IZR]; decimals; field).
    apply (close_ok cB); [discriminate|apply (years_close _ _ _ _ closeB); [now apply even_shift|lia]|reflexivity].
  - replace 0.9 with (Q2R (9 # 10)) by (unfold Q2R; cbn -[IZR]; decimals; field).
    apply (close_ok cC); [discriminate|apply (years_close _ _ _ _ closeC); [now apply even_shift|lia]|reflexivity].
Qed.
Lemma Interp_row_missed : exists y, (1620 <= y <= 2010)%Z /\ Z.even y = true /\
  forall unspec, Interp10A (fl := RFlt) unspec (january1 y) <> Some (row table10A_tenths y).
Proof.
  exists 1622%Z. split; [lia|]. split; [reflexivity|]. intros u E. destruct (Interp_january_1622 u) as (v & V & N). rewrite V in E. apply N.
  assert (E' : v = row table10A_tenths 1622) by congruence. rewrite E'. change (row table10A_tenths 1622) with (1120 / 10). field.
Qed.
Lemma example_1990 : january1 1990 = 2447892.5 /\ row table10A_tenths 1990 = 56.9 /\ in_year 1990 2448000.
Proof.
  assert (A : january1 1990 = 2447892.5) by (unfold january1; change (jdn Gregorian (mkdate 1990 1 1)) with 2447893%Z; decimals; field).
  split; [exact A|]. split; [change (row table10A_tenths 1990) with (569 / 10); decimals; field|].
  unfold in_year. rewrite A. unfold january1. change (jdn Gregorian (mkdate (1990 + 1) 1 1)) with 2448258%Z. decimals. lra.
Qed.
