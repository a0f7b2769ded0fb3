(** Lemmas for C107: every float64 Julian Day from 2^21 to 2^22. *)
From Coq Require Import ZArith Bool Reals Lra Lia ZifyBool.
From Flocq Require Import Core IEEE754.BinarySingleNaN.
From Verif Require Import GoInt GoFloat M_base M_julian S_Calendar S_julian S_float64 L_tac L_julian_int L_julian_inv L_b64 L_julian_R L_round.
Local Open Scope R_scope.
Ltac Zify.zify_post_hook ::= Z.div_mod_to_equations.

Lemma b31 : bpow radix2 (Z.opp 31) = / 2147483648. Proof. reflexivity. Qed.
Lemma cexp_22 x : 2097152 <= x < 4194304 -> cexp radix2 (SpecFloat.fexp 53 1024) x = (-31)%Z.
Proof.
  intros H. unfold cexp. rewrite (mag_unique_pos radix2 x 22); [reflexivity|]. change (bpow radix2 (22 - 1)) with 2097152. change (bpow radix2 22) with 4194304. exact H.
Qed.
Lemma R64_22 x : 2097152 <= x < 4194304 -> exists k, R64 x = IZR k * bpow radix2 (Z.opp 31) /\ Rabs (IZR k - x * 2147483648) <= / 2.
Proof.
  intros H. exists (ZnearestE (x * 2147483648)). unfold R64, round, scaled_mantissa. rewrite (cexp_22 x H). split.
  - unfold F2R. cbn [Fnum Fexp]. reflexivity.
  - rewrite Rabs_minus_sym. apply (Znearest_half (fun t => negb (Z.even t))).
Qed.
Lemma grid_22 (jd : float64) : is_finite jd = true -> 2097152 <= B2R jd < 4194304 -> exists k, isfx 31 jd k /\ (2097152 * 2 ^ 31 <= k < 2 ^ 53)%Z.
Proof.
  intros F H. destruct (R64_22 _ H) as (k & E & _). rewrite R64_id in E. exists k. split; [split; assumption|].
  rewrite E, b31 in H. change (2097152 * 2 ^ 31)%Z with 4503599627370496%Z. change (2 ^ 53)%Z with 9007199254740992%Z. split; [apply le_IZR|apply lt_IZR]; lra.
Qed.

(** Modf(jd + .5) *)
Lemma split_jd_64 (jd : float64) k : isfx 31 jd k -> (2097152 * 2 ^ 31 <= k <= 4192776 * 2 ^ 31)%Z ->
  let n := Zfloor (B2R jd + / 2) in exists f kf, split_jd (fl := BFlt) jd = Some (n, f) /\ isfx 31 f kf /\ (0 <= kf < 2 ^ 31)%Z /\ (k + 2 ^ 30 = n * 2 ^ 31 + kf)%Z /\ (2097152 <= n <= 4192776)%Z /\
    B2R f = B2R jd + / 2 - IZR n.
Proof.
  intros Hd Hk n. pose proof (isfx_const_half 1 5 10 ltac:(lia) ltac:(lia) ltac:(lia) ltac:(lia)) as XC. apply (isfx_scale 1 31) in XC; [|lia].
  pose proof (isfx_add 31 _ _ _ _ ltac:(lia) Hd XC ltac:(cbn; lia)) as X1. change (1 * 2 ^ (31 - 1))%Z with (2 ^ 30)%Z in X1. set (x := Bplus mode_NE jd (fconst (Flt := BFlt) 5 10)) in *.
  set (z := Z.quot (k + 2 ^ 30) (2 ^ 31)). pose proof (isfx_trunc 31 x (k + 2 ^ 30) ltac:(lia) ltac:(lia) X1) as X2. fold z in X2.
  assert (Ez : z = ((k + 2 ^ 30) / 2 ^ 31)%Z) by (unfold z; apply quot_pos_div; lia).
  assert (Hz : (2097152 <= z <= 4192776)%Z) by (rewrite Ez; lia).
  pose proof (isfx_int64 _ _ X2 ltac:(unfold in64b, two63; lia)) as E64. pose proof (isfx_scale 0 31 _ _ ltac:(lia) X2) as X3. change (2 ^ (31 - 0))%Z with (2 ^ 31)%Z in X3.
  assert (Hfr : (0 <= k + 2 ^ 30 - z * 2 ^ 31 < 2 ^ 31)%Z) by (rewrite Ez; lia).
  pose proof (isfx_sub 31 _ _ _ _ ltac:(lia) X1 X3 ltac:(lia)) as X4.
  assert (Hx : B2R x = B2R jd + / 2). { destruct X1 as [_ ->]. destruct Hd as [_ ->]. rewrite plus_IZR, Rmult_plus_distr_r, b31. change (2 ^ 30)%Z with 1073741824%Z. lra. }
  assert (J0 : 0 <= B2R jd). { destruct Hd as [_ ->]. rewrite b31. apply Rmult_le_pos; [apply IZR_le; lia|lra]. }
  assert (En : n = z). { unfold n. rewrite <- Hx. rewrite <- Ztrunc_floor by lra. destruct X1 as [_ ->]. rewrite Ztrunc_fx by lia. reflexivity. }
  exists (Bminus mode_NE x (Bnearbyint mode_ZR x)), (k + 2 ^ 30 - z * 2 ^ 31)%Z. rewrite En. split; [unfold split_jd; cbn [fint64 ftrunc fadd fsub BFlt]; change (Bplus mode_NE jd (@fconst BFlt 5 10)) with x; rewrite E64; reflexivity|].
  split; [exact X4|]. split; [exact Hfr|]. split; [lia|]. split; [exact Hz|]. destruct X4 as [_ ->]. rewrite <- Hx. destruct X1 as [_ ->]. rewrite minus_IZR, mult_IZR, b31. change (2 ^ 31)%Z with 2147483648%Z. lra.
Qed.
Lemma day_plus_64 day (f : float64) kf : (1 <= day <= 31)%Z -> isfx 31 f kf -> (0 <= kf < 2 ^ 31)%Z -> isfx 31 (Bplus mode_NE (b64_ofZ day) f) (day * 2 ^ 31 + kf).
Proof.
  intros Hd Hf Hk. pose proof (isfx_ofZ day ltac:(lia)) as Y1. apply (isfx_scale 0 31) in Y1; [|lia]. change (2 ^ (31 - 0))%Z with (2 ^ 31)%Z in Y1. apply isfx_add; [lia|exact Y1|exact Hf|lia].
Qed.

(** Back to the Julian Day, dates and times alike *)
Lemma form_64 A B (d : float64) : (0 <= B + A)%Z -> (Z.abs B <= 5000)%Z -> (Z.abs A <= 28010000)%Z -> is_finite d = true -> 2097152 <= IZR (A + B) + B2R d < 4194304 ->
  exists k, isfx 31 (fsub (Flt := BFlt) (fadd (Flt := BFlt) (fadd (Flt := BFlt) (fofZ (Flt := BFlt) A) (fofZ (Flt := BFlt) B)) d) (fconst (Flt := BFlt) 15245 10)) (k - 3049 * 2 ^ 30) /\
    Rabs (IZR k - (IZR (A + B) + B2R d) * 2147483648) <= / 2 /\ (2 ^ 52 <= k <= 2 ^ 53)%Z.
Proof.
  intros P BB AB Fd H. pose proof (isfx_ofZ A ltac:(lia)) as XA. pose proof (isfx_ofZ B ltac:(lia)) as XB. pose proof (isfx_add 0 _ _ _ _ ltac:(lia) XA XB ltac:(lia)) as X1.
  cbn [fadd fsub fofZ BFlt]. set (s := Bplus mode_NE (b64_ofZ A) (b64_ofZ B)) in *. destruct X1 as [Fs Es]. cbn [Z.opp bpow] in Es. rewrite Rmult_1_r in Es.
  destruct (plus_ok s d Fs Fd) as [F2 E2]. { rewrite Es, Rabs_pos_eq by lra. apply Rle_trans with 4194304; [lra|]. change 4194304 with (bpow radix2 22). apply bpow_le. lia. }
  rewrite Es in E2. destruct (R64_22 _ H) as (k & Ek & Hk). rewrite Ek in E2.
  assert (K : (2 ^ 52 <= k <= 2 ^ 53)%Z).
  { apply Rabs_le_inv in Hk. change (2 ^ 52)%Z with 4503599627370496%Z. change (2 ^ 53)%Z with 9007199254740992%Z. split; (apply Z.lt_succ_r; apply lt_IZR; rewrite succ_IZR; lra). }
  exists k. split; [|split; [exact Hk|exact K]].
  pose proof (isfx_const_half 3049 15245 10 ltac:(lia) ltac:(lia) ltac:(lia) ltac:(lia)) as XC. apply (isfx_scale 1 31) in XC; [|lia]. change (3049 * 2 ^ (31 - 1))%Z with (3049 * 2 ^ 30)%Z in XC.
  apply isfx_sub; [lia|split; [exact F2|exact E2]|exact XC|lia].
Qed.
Lemma toJD64_range c y m (d : float64) : (Z.abs y <= 70000)%Z -> (1 <= m <= 12)%Z -> is_finite d = true -> 2097150 <= IZR (jdn c (mkdate y m 0)) + B2R d - / 2 <= 4192778 -> (0 <= jdn c (mkdate y m 0))%Z ->
  exists k, isfx 31 (toJD64 c y m d) k /\ Rabs (IZR k - (IZR (jdn c (mkdate y m 0)) + B2R d - / 2) * 2147483648) <= / 2 /\ (2 ^ 51 <= k <= 2 ^ 53)%Z.
Proof.
  intros Hy Hm Fd H J0. pose proof (jdn_small c y m Hy Hm) as HJ.
  assert (G : exists A B, toJD64 c y m d = fsub (Flt := BFlt) (fadd (Flt := BFlt) (fadd (Flt := BFlt) (fofZ (Flt := BFlt) A) (fofZ (Flt := BFlt) B)) d) (fconst (Flt := BFlt) 15245 10) /\ (A + B = jdn c (mkdate y m 0) + 1524)%Z /\ (Z.abs B <= 5000)%Z).
  { destruct c; cbn [toJD64]; [destruct (CalGreg_form y m Hy Hm) as (A & B & E & E2 & E3)|destruct (CalJul_form y m Hy Hm) as (A & B & E & E2 & E3)]; exists A, B; rewrite E; repeat split; assumption. }
  set (J := jdn c (mkdate y m 0)) in *. clearbody J. destruct G as (A & B & -> & E2 & E3). assert (EJ : IZR (A + B) = IZR J + 1524) by (rewrite E2, plus_IZR; reflexivity).
  destruct (form_64 A B d ltac:(lia) E3 ltac:(lia) Fd ltac:(rewrite EJ; lra)) as (k & K1 & K2 & K3). exists (k - 3049 * 2 ^ 30)%Z. split; [exact K1|]. split; [|lia].
  rewrite minus_IZR. change (3049 * 2 ^ 30)%Z with 3273838821376%Z. rewrite EJ in K2. match goal with |- Rabs ?a <= _ => match type of K2 with Rabs ?b <= _ => replace a with b by lra end end. exact K2.
Qed.
Lemma isfx_eq e (x y : float64) k : (0 < k)%Z -> isfx e x k -> isfx e y k -> x = y.
Proof. intros K [F1 E1] [F2 E2]. assert (P : 0 < IZR k * bpow radix2 (Z.opp e)) by (apply Rmult_lt_0_compat; [apply IZR_lt; exact K|apply bpow_gt_0]). apply B2R_inj; [| |congruence]; apply is_finite_strict_B2R; lra. Qed.

(** Dates *)
Lemma year_range c x : valid_date c x = true -> (0 <= jdn c x <= 4194304)%Z -> (Z.abs (d_y x) <= 70000)%Z /\ (0 <= jdn c (mkdate (d_y x) (d_m x) 0) + 31)%Z.
Proof.
  intros Hv Hj. pose proof (valid_day31 c x Hv) as H31. apply valid_date_inv in Hv as [Hm Hd]. destruct x as [y m d]. cbn [d_y d_m d_d] in *. rewrite jdn_day in Hj. split; [|lia]. unfold jdn, rata_die in Hj. cbn [d_y d_m d_d] in Hj.
  assert (0 <= days_before_month (leap_spec c y) m <= 335)%Z by (destruct (leap_spec c y); month_split Hm; cbn; lia). destruct c; lia.
Qed.
Lemma back_64 c (jd : float64) k y m day (d : float64) : isfx 31 jd k -> (2097152 * 2 ^ 31 <= k <= 4192776 * 2 ^ 31)%Z -> valid_date c (mkdate y m day) = true -> jdn c (mkdate y m day) = Zfloor (B2R jd + / 2) ->
  is_finite d = true -> Rabs (IZR day + (B2R jd + / 2 - IZR (Zfloor (B2R jd + / 2))) - B2R d) <= / 8589934592 -> toJD64 c y m d = jd.
Proof.
  intros Hd Hk Hv Hj Fd Ed. assert (V : B2R jd = IZR k / 2147483648) by (destruct Hd as [_ ->]; rewrite b31; unfold Rdiv; ring). assert (K1 := Hk). destruct K1 as [K1 K2]. apply IZR_le in K1, K2. change (2097152 * 2 ^ 31)%Z with 4503599627370496%Z in K1.
  assert (B : 2097152 <= B2R jd <= 4192776). { rewrite V. split; [lra|]. apply Rmult_le_reg_r with 2147483648; [lra|]. rewrite mult_IZR in K2. change (IZR (2 ^ 31)) with 2147483648 in K2. lra. }
  assert (N : (2097152 <= Zfloor (B2R jd + / 2) <= 4192776)%Z). { split; [apply Zfloor_lub; lra|]. apply Z.lt_succ_r, lt_IZR. rewrite succ_IZR. pose proof (Zfloor_lb (B2R jd + / 2)). lra. }
  set (n := Zfloor (B2R jd + / 2)) in *. destruct (year_range c _ Hv ltac:(rewrite Hj; lia)) as [Y J0]. pose proof (valid_day31 _ _ Hv) as H31. pose proof (valid_date_inv _ _ Hv) as [Hm _]. cbn [d_y d_m d_d] in *. rewrite jdn_day in Hj.
  assert (En : IZR (jdn c (mkdate y m 0)) = IZR n - IZR day) by (rewrite <- Hj, plus_IZR; ring). apply Rabs_le_inv in Ed.
  destruct (toJD64_range c y m d Y Hm Fd ltac:(lra) ltac:(lia)) as (k' & I' & E' & R').
  assert (E : k' = k).
  { rewrite En in E'. rewrite V in Ed. apply Rabs_le_inv in E'. assert (A : IZR k' - IZR k < 1 /\ -1 < IZR k' - IZR k) by (split; lra). rewrite <- minus_IZR in A. destruct A as [A1 A2]. apply lt_IZR in A1, A2. lia. }
  subst k'. apply (isfx_eq 31 _ _ k); [lia|exact I'|exact Hd].
Qed.

Lemma range_grid jd : in_range64 jd -> exists k, isfx 31 jd k /\ (2097152 * 2 ^ 31 <= k <= 4192776 * 2 ^ 31)%Z.
Proof.
  intros [F H]. destruct (grid_22 jd F ltac:(lra)) as (k & I & K). exists k. split; [exact I|]. split; [lia|]. apply le_IZR. rewrite mult_IZR. change (IZR (2 ^ 31)) with 2147483648. destruct I as [_ E]. rewrite E, b31 in H. lra.
Qed.
Lemma calendar_64 jd : in_range64 jd -> let n := Zfloor (B2R jd + / 2) in exists y m day (d : float64), JDToCalendar (fl := BFlt) jd = Some (y, m, d) /\
  valid_date (code_calendar n) (mkdate y m day) = true /\ jdn (code_calendar n) (mkdate y m day) = n /\ is_finite d = true /\ B2R d = IZR day + (B2R jd + / 2 - IZR n) /\ toJD64 (code_calendar n) y m d = jd.
Proof.
  intros H n. destruct (range_grid jd H) as (k & I & K). destruct (split_jd_64 jd k I K) as (f & kf & E & If & Hf & _ & Hn & Ef). fold n in E, Hn, Ef.
  pose proof (JDToCalendar_z_spec n ltac:(unfold zbound'; lia)) as [Hv Hj]. unfold JDToCalendar. rewrite E. destruct (JDToCalendar_z n) as [[y m] day] eqn:Q. cbn [todate] in *.
  pose proof (valid_day31 _ _ Hv) as H31. cbn [d_d] in H31. destruct (day_plus_64 day f kf H31 If Hf) as [Fd Ed].
  assert (V : B2R (Bplus mode_NE (b64_ofZ day) f) = IZR day + (B2R jd + / 2 - IZR n)). { rewrite Ed, <- Ef. destruct If as [_ ->]. rewrite plus_IZR, mult_IZR, b31. change (IZR (2 ^ 31)) with 2147483648. lra. }
  exists y, m, day, (Bplus mode_NE (b64_ofZ day) f). split; [reflexivity|]. split; [exact Hv|]. split; [exact Hj|]. split; [exact Fd|]. split; [exact V|].
  apply (back_64 _ jd k y m day); try assumption. fold n. rewrite V. rewrite Rminus_diag_eq by reflexivity. rewrite Rabs_R0. lra.
Qed.
Lemma calendar_64' jd : in_range64 jd -> let n := Zfloor (B2R jd + / 2) in ~ (2299151 <= n < 2299161)%Z -> exists y m day (d : float64), JDToCalendar (fl := BFlt) jd = Some (y, m, d) /\
  valid_date (civil_calendar n) (mkdate y m day) = true /\ jdn (civil_calendar n) (mkdate y m day) = n /\ is_finite d = true /\ B2R d = IZR day + (B2R jd + / 2 - IZR n) /\ toJD64 (civil_calendar n) y m d = jd.
Proof. intros H n W. rewrite <- (code_calendar_eq n W). exact (calendar_64 jd H). Qed.

(** Times *)
Lemma R64_int_mono n x : (Z.abs n < 2 ^ 53)%Z -> IZR n <= x -> IZR n <= R64 x.
Proof. intros H K. pose proof (round_fx 0 n ltac:(lia) H) as E. cbn [Z.opp bpow] in E. rewrite Rmult_1_r in E. fold (R64 (IZR n)) in E. rewrite <- E. apply R64_monotone, K. Qed.
Lemma R64_int_mono' n x : (Z.abs n < 2 ^ 53)%Z -> x <= IZR n -> R64 x <= IZR n.
Proof. intros H K. pose proof (round_fx 0 n ltac:(lia) H) as E. cbn [Z.opp bpow] in E. rewrite Rmult_1_r in E. fold (R64 (IZR n)) in E. rewrite <- E. apply R64_monotone, K. Qed.
Lemma fofZ64 n : (Z.abs n < 2 ^ 53)%Z -> is_finite (fofZ (Flt := BFlt) n) = true /\ B2R (fofZ (Flt := BFlt) n) = IZR n.
Proof. intros H. destruct (isfx_ofZ n H) as [A B]. cbn [fofZ BFlt]. cbn [Z.opp bpow] in B. rewrite Rmult_1_r in B. split; assumption. Qed.
Lemma big_bpow x : 0 <= x <= 4503599627370496 -> Rabs x <= bpow radix2 1023.
Proof. intros H. rewrite Rabs_pos_eq by lra. apply Rle_trans with (bpow radix2 52); [change (bpow radix2 52) with 4503599627370496; lra|apply bpow_le; lia]. Qed.
Lemma int64_trunc (x : float64) n : is_finite x = true -> Ztrunc (B2R x) = n -> in64b n = true -> b64_int64 x = Some n.
Proof.
  intros Fx Ex Hk. unfold b64_int64. destruct x as [s| s | | s m e Hme]; try discriminate.
  - cbn in Ex. rewrite Ztrunc_IZR in Ex. congruence.
  - pose proof (Btrunc_correct 53 1024 _ (B754_finite s m e Hme)) as H. rewrite round_FIX_IZR in H. rewrite Ex in H. apply eq_IZR in H. rewrite H, Hk. reflexivity.
Qed.
Lemma JDToTime_64 jd : in_range64 jd -> exists y m ns, JDToTime (fl := BFlt) jd = Some (y, m, ns) /\ let i := Zfloor ((B2R jd - 1721424.5) * IZR day_ns) in (instant3 (y, m, ns) = i \/ instant3 (y, m, ns) = i + 1)%Z.
Proof.
  intros H. destruct (range_grid jd H) as (k & I & K). set (n := Zfloor (B2R jd + / 2)). destruct (split_jd_64 jd k I K) as (f & kf & E & If & Hf & Hkn & Hn & Ef). fold n in E, Hn, Ef, Hkn.
  pose proof (jdToCalendarGregorian_z_spec n ltac:(unfold zbound'; lia)) as [Hv Hj]. unfold JDToTime, jdToCalendarGregorian. rewrite E. destruct (jdToCalendarGregorian_z n) as [[y m] day] eqn:Q. cbn [todate] in *.
  pose proof (valid_day31 _ _ Hv) as H31. cbn [d_d] in H31. pose proof (day_plus_64 day f kf H31 If Hf) as [Fd Ed]. cbn [fadd fmul BFlt]. change (@fofZ BFlt day) with (b64_ofZ day). set (d := Bplus mode_NE (b64_ofZ day) f) in *.
  assert (V : B2R d = IZR day + (B2R jd + / 2 - IZR n)). { rewrite Ed, <- Ef. destruct If as [_ ->]. rewrite plus_IZR, mult_IZR, b31. change (IZR (2 ^ 31)) with 2147483648. lra. }
  assert (D31 : 1 <= IZR day <= 31) by (split; apply IZR_le; lia). pose proof (Zfloor_bounds (B2R jd + / 2)) as Fl. fold n in Fl.
  destruct (fofZ64 24 ltac:(lia)) as [F24 V24]. destruct (fofZ64 3600000000000 ltac:(lia)) as [F36 V36].
  destruct (mult_ok d _ Fd F24) as [Fp Vp]; [rewrite V24; apply big_bpow; lra|]. rewrite V24 in Vp.
  assert (E24 : R64 (B2R d * 24) = B2R d * 24).
  { rewrite Ed. replace (IZR (day * 2 ^ 31 + kf) * bpow radix2 (- (31)) * 24) with (IZR (24 * (day * 2 ^ 31 + kf)) * bpow radix2 (Z.opp 31)) by (rewrite mult_IZR; ring). apply round_fx; lia. }
  rewrite E24 in Vp. destruct (mult_ok _ _ Fp F36) as [Fq Vq]; [rewrite Vp, V36; apply big_bpow; lra|]. rewrite Vp, V36 in Vq. replace (B2R d * 24 * 3600000000000) with (B2R d * 86400000000000) in Vq by ring.
  set (x := B2R d * 86400000000000) in *. pose proof (Zfloor_bounds x) as Fx.
  assert (X : 86400000000000 <= x <= 2764800000000000) by (unfold x; lra).
  assert (Hi : (86400000000000 <= Zfloor x <= 2764800000000000)%Z). { split; [apply Zfloor_lub; lra|]. apply le_IZR. lra. }
  assert (Lo : IZR (Zfloor x) <= R64 x) by (apply R64_int_mono; [lia|lra]). assert (Up : R64 x <= IZR (Zfloor x + 1)) by (apply R64_int_mono'; [lia|rewrite plus_IZR; lra]).
  set (q := Bmult mode_NE (Bmult mode_NE d (@fofZ BFlt 24)) (@fofZ BFlt 3600000000000)) in *.
  set (t := Ztrunc (B2R q)). assert (T : (Zfloor x <= t <= Zfloor x + 1)%Z).
  { unfold t. rewrite Ztrunc_floor by (rewrite Vq; apply IZR_le in Hi || idtac; apply Rle_trans with (2 := Lo); apply IZR_le; lia). rewrite Vq. split; [apply Zfloor_lub; exact Lo|]. rewrite <- (Zfloor_IZR (Zfloor x + 1)). apply Zfloor_le. exact Up. }
  exists y, m, t. split; [cbn [fint64 BFlt]; rewrite (int64_trunc q t Fq eq_refl) by (unfold in64b, two63; lia); reflexivity|].
  cbv zeta. assert (Ei : Zfloor ((B2R jd - 1721424.5) * IZR day_ns) = (rata_die Gregorian (mkdate y m 0) * day_ns + Zfloor x)%Z).
  { apply Zfloor_imp. rewrite (jdn_day _ y m day) in Hj. unfold jdn in Hj. assert (Hr : IZR (rata_die Gregorian (mkdate y m 0)) = IZR n - 1721425 - IZR day) by (rewrite <- Hj, !plus_IZR; lra).
    unfold day_ns. rewrite !plus_IZR, mult_IZR. assert (Hx : (B2R jd - 1721424.5) * 86400000000000 = IZR (rata_die Gregorian (mkdate y m 0)) * 86400000000000 + x) by (rewrite Hr; unfold x; rewrite V; lra). rewrite Hx. lra. }
  rewrite Ei. unfold instant3. lia.
Qed.
Lemma time_parts t : valid_time t = true -> (1 <= t_month t <= 12)%Z /\ (1 <= t_day t <= 31)%Z /\ (0 <= t_nanos t < day_ns)%Z.
Proof.
  unfold valid_time. intros H. apply andb_prop in H as [H H3]. apply andb_prop in H as [Hv H2]. pose proof (valid_day31 _ _ Hv) as H31. apply valid_date_inv in Hv as [Hm _]. cbn [d_y d_m d_d] in *. lia.
Qed.
Lemma TimeToJD_64 t : valid_time t = true -> (Z.abs (t_year t) <= 70000)%Z -> let x := jd_of_instant (IZR (instant t)) in 2097151 <= x <= 4192777 ->
  exists k, isfx 31 (TimeToJD (fl := BFlt) t) k /\ Rabs (IZR k / 2147483648 - x) <= / 4294967296 + / 281474976000000 /\ (0 < k)%Z.
Proof.
  intros Hv Hy x Hx. destruct (time_parts t Hv) as (Hm & Hd & Hn). unfold TimeToJD. set (N := wrap64 (wrap64 (t_day t * 86400000000000) + t_nanos t)%Z). assert (EN : N = (t_day t * day_ns + t_nanos t)%Z) by (unfold N, day_ns in *; unwrap; reflexivity). cbv zeta. change (CalendarGregorianToJD (fl := BFlt) (t_year t) (t_month t)) with (toJD64 Gregorian (t_year t) (t_month t)).
  assert (BN : (86400000000000 <= N <= 2764800000000000)%Z) by (rewrite EN; unfold day_ns in *; lia).
  destruct (fofZ64 N ltac:(lia)) as [FN VN]. destruct (fofZ64 86400000000000 ltac:(lia)) as [FD VD]. assert (RN : 86400000000000 <= IZR N <= 2764800000000000) by (split; apply IZR_le; lia).
  set (v := IZR N / 86400000000000). assert (Bv : 1 <= v <= 32) by (unfold v; split; lra).
  destruct (div_ok (fofZ (Flt := BFlt) N) (fofZ (Flt := BFlt) 86400000000000) FN) as [Fd Vd]; [rewrite VD; lra|rewrite VN, VD; fold v; apply big_bpow; lra|]. rewrite VN, VD in Vd. fold v in Vd.
  change (@fdiv BFlt) with (Bdiv (prec := 53) (emax := 1024) mode_NE) in *. cbn [fdiv BFlt]. set (d := Bdiv mode_NE (@fofZ BFlt N) (@fofZ BFlt 86400000000000)) in *.
  destruct (R64_err v) as (e & t0 & He & Ht & Ev). rewrite Ev in Vd.
  assert (Ee : Rabs (B2R d - v) <= / 281474976700000).
  { rewrite Vd. replace (v * (1 + e) + t0 - v) with (v * e + t0) by ring. eapply Rle_trans; [apply Rabs_triang|]. rewrite Rabs_mult, (Rabs_pos_eq v) by lra.
    assert (U : u53 <= / 9007199254740992) by (unfold u53; right; f_equal; ring). assert (T : eta <= bpow radix2 (-100)) by (unfold eta; apply bpow_le; lia). change (bpow radix2 (-100)) with (/ 1267650600228229401496703205376) in T. assert (Q : v * Rabs e <= 32 * / 9007199254740992) by (apply Rmult_le_compat; [lra|apply Rabs_pos|lra|lra]). lra. }
  assert (Ex : x = IZR (jdn Gregorian (mkdate (t_year t) (t_month t) 0)) + v - / 2).
  { unfold x, jd_of_instant, instant, v, day_ns. rewrite EN. replace (rata_die Gregorian (mkdate (t_year t) (t_month t) (t_day t))) with (rata_die Gregorian (mkdate (t_year t) (t_month t) 0) + t_day t)%Z by (unfold rata_die; cbn [d_y d_m d_d]; lia). unfold jdn, day_ns. rewrite !plus_IZR, !mult_IZR, !plus_IZR. lra. }
  apply Rabs_le_inv in Ee. assert (J0 : (0 <= jdn Gregorian (mkdate (t_year t) (t_month t) 0))%Z) by (apply le_IZR; lra).
  destruct (toJD64_range Gregorian (t_year t) (t_month t) d Hy Hm Fd ltac:(lra) J0) as (k & I & K & R0). exists k. split; [exact I|]. split; [|lia]. rewrite Ex. apply Rabs_le_inv in K. apply Rabs_le. split; lra.
Qed.
Lemma instant_range t : valid_time t = true -> -70000 <= (jd_of_instant (IZR (instant t))) <= 4294967 -> (Z.abs (t_year t) <= 70000)%Z.
Proof.
  intros Hv H. destruct (time_parts t Hv) as (Hm & Hd & Hn). unfold jd_of_instant, instant, day_ns in *. rewrite plus_IZR, mult_IZR in H. assert (N : 0 <= IZR (t_nanos t) < 86400000000000) by (split; [apply IZR_le; lia|apply IZR_lt; lia]).
  set (r := rata_die Gregorian (mkdate (t_year t) (t_month t) (t_day t))) in *. assert (B : -1800000 <= IZR r <= 2600000) by (split; lra). destruct B as [B1 B2]. apply le_IZR in B1, B2. unfold r, rata_die in B1, B2. cbn [d_y d_m d_d] in *.
  assert (0 <= days_before_month (leap_spec Gregorian (t_year t)) (t_month t) <= 335)%Z by (destruct (leap_spec Gregorian (t_year t)); month_split Hm; cbn; lia). lia.
Qed.
Lemma time_64_back jd y m ns t : in_range64 jd -> JDToTime (fl := BFlt) jd = Some (y, m, ns) -> valid_time t = true -> instant t = instant3 (y, m, ns) -> TimeToJD (fl := BFlt) t = jd.
Proof.
  intros H E Hv Ei. destruct (JDToTime_64 jd H) as (y' & m' & ns' & E' & HI). rewrite E in E'. injection E' as <- <- <-. cbv zeta in HI. rewrite <- Ei in HI. destruct (range_grid jd H) as (k & I & K).
  set (w := (B2R jd - 1721424.5) * IZR day_ns) in *. pose proof (Zfloor_bounds w) as Fw. assert (Q : w - 1 <= IZR (instant t) <= w + 1) by (destruct HI as [-> | ->]; rewrite ?plus_IZR; lra).
  assert (X : Rabs (jd_of_instant (IZR (instant t)) - B2R jd) <= / 86400000000000). { unfold jd_of_instant, w, day_ns in *. apply Rabs_le. split; lra. }
  apply Rabs_le_inv in X. destruct H as [Fj Rj]. pose proof (instant_range t Hv ltac:(lra)) as Y. destruct (TimeToJD_64 t Hv Y ltac:(lra)) as (k' & I' & E' & P'). apply Rabs_le_inv in E'.
  assert (V : B2R jd = IZR k / 2147483648) by (destruct I as [_ ->]; rewrite b31; unfold Rdiv; ring). rewrite V in X.
  assert (A : IZR k' - IZR k < 1 /\ -1 < IZR k' - IZR k) by (split; lra). rewrite <- minus_IZR in A. destruct A as [A1 A2]. apply lt_IZR in A1, A2. assert (k' = k) by lia. subst k'. exact (isfx_eq 31 _ _ k P' I' I).
Qed.
Lemma time_64_error t : valid_time t = true -> (1030 <= t_year t <= 6766)%Z -> in_range64 (TimeToJD (fl := BFlt) t) /\ Rabs (B2R (TimeToJD (fl := BFlt) t) - jd_of_instant (IZR (instant t))) <= 20116.9 / 86400000000000 /\
  exists r, JDToTime (fl := BFlt) (TimeToJD (fl := BFlt) t) = Some r /\ (Z.abs (instant3 r - instant t) <= 20117)%Z.
Proof.
  intros Hv Hy. destruct (time_parts t Hv) as (Hm & Hd & Hn).
  assert (X : 2097153 <= jd_of_instant (IZR (instant t)) <= 4192775).
  { unfold jd_of_instant, instant, day_ns in *. rewrite plus_IZR, mult_IZR. assert (N : 0 <= IZR (t_nanos t) < 86400000000000) by (split; [apply IZR_le; lia|apply IZR_lt; lia]).
    assert (R : (375729 <= rata_die Gregorian (mkdate (t_year t) (t_month t) (t_day t)) <= 2471349)%Z).
    { unfold rata_die. cbn [d_y d_m d_d]. assert (0 <= days_before_month (leap_spec Gregorian (t_year t)) (t_month t) <= 335)%Z by (destruct (leap_spec Gregorian (t_year t)); month_split Hm; cbn; lia). lia. }
    destruct R as [R1 R2]. apply IZR_le in R1, R2. lra. }
  destruct (TimeToJD_64 t Hv ltac:(lia) ltac:(lra)) as (k & I & E & P). set (jd := TimeToJD (fl := BFlt) t) in *. assert (V : B2R jd = IZR k / 2147483648) by (destruct I as [_ ->]; rewrite b31; unfold Rdiv; ring). rewrite <- V in E.
  assert (E2 : Rabs (B2R jd - jd_of_instant (IZR (instant t))) <= 20116.9 / 86400000000000) by lra. apply Rabs_le_inv in E. assert (G : in_range64 jd) by (split; [apply I|lra]).
  split; [exact G|]. split; [exact E2|]. destruct (JDToTime_64 jd G) as (y & m & ns & E3 & HI). exists (y, m, ns). split; [exact E3|]. cbv zeta in HI. set (w := (B2R jd - 1721424.5) * IZR day_ns) in *. pose proof (Zfloor_bounds w) as Fw.
  assert (W : IZR (instant t) - 20116.9 <= w <= IZR (instant t) + 20116.9). { apply Rabs_le_inv in E2. unfold jd_of_instant, w, day_ns in *. lra. }
  set (i := instant3 (y, m, ns)) in *. clearbody i. assert (L : (instant t - 20117 <= Zfloor w)%Z) by (apply Zfloor_lub; rewrite minus_IZR; lra). assert (U : (Zfloor w < instant t + 20117)%Z) by (apply lt_IZR; rewrite plus_IZR; lra). lia.
Qed.
Lemma day_of_week_64 jd : in_range64 jd -> DayOfWeek (fl := BFlt) jd = Some ((Zfloor (B2R jd + / 2) + 1) mod 7)%Z.
Proof.
  intros H. destruct (range_grid jd H) as (k & I & K). destruct H as [Fj Rj]. set (n := Zfloor (B2R jd + / 2)). pose proof (Zfloor_bounds (B2R jd + / 2)) as Fl. fold n in Fl.
  pose proof (isfx_const_half 3 15 10 ltac:(lia) ltac:(lia) ltac:(lia) ltac:(lia)) as XC. apply (isfx_scale 1 31) in XC; [|lia]. change (3 * 2 ^ (31 - 1))%Z with (3221225472)%Z in XC.
  pose proof (isfx_add 31 _ _ _ _ ltac:(lia) I XC ltac:(lia)) as [FX EX]. unfold DayOfWeek. cbn [fint64 fadd BFlt]. set (x := Bplus mode_NE jd (fconst (Flt := BFlt) 15 10)) in *.
  assert (Hx : B2R x = B2R jd + 15 / 10). { rewrite EX. destruct I as [_ ->]. rewrite plus_IZR, b31. lra. }
  assert (ET : Ztrunc (B2R x) = (n + 1)%Z) by (rewrite Hx, Ztrunc_floor by lra; apply Zfloor_imp; rewrite !plus_IZR; lra).
  assert (HN : (0 <= n <= 4194304)%Z) by (split; apply le_IZR; lra).
  rewrite (int64_trunc x (n + 1) FX ET) by (unfold in64b, two63; lia). f_equal. unwrap. apply Z.rem_mod_nonneg; lia.
Qed.
