(** Lemmas for elliptic.Position, rise.ApproxPlanet and rise.Planet. *)
From Coq Require Import ZArith Reals List Lra Lia Psatz Bool.
From Flocq Require Import Core.
From Verif Require Import GoFloat GoMath GoInt S_Calendar S_Sphere S_precess S_solar S_physical S_rise S_julian M_base M_julian M_coord M_precess M_vsop M_solar M_physical M_rise M_deltat M_ephem
  L_trig L_angle L_vec L_coord L_precess L_elements L_light L_solar L_rise L_physical L_julian_R L_deltat L_physical3.
Import ListNotations.
Local Open Scope R_scope.

Lemma dir_rect2 x y z : x <> 0 \/ y <> 0 -> - (PI / 2) < atan2 z (hypot x y) < PI / 2 /\ dir (atan2 y x) (atan2 z (hypot x y)) = unit_of (mkvec x y z).
Proof.
  intros N. assert (H0 : 0 < hypot x y). { pose proof (hypot_sqr x y). assert (0 <= hypot x y) by apply sqrt_pos. destruct N; nra. }
  assert (E : atan2 z (hypot x y) = atan (z / hypot x y)). { unfold atan2. destruct (Rlt_dec 0 (hypot x y)); [reflexivity|contradiction]. }
  rewrite E. split; [pose proof (atan_bound (z / hypot x y)); lra|]. exact (proj2 (dir_rect x y z N)).
Qed.
Lemma tan_45 x : Rabs x <= PI / 4 -> -1 <= tan x <= 1.
Proof.
  intros H. apply Rabs_le_inv in H. pose proof PI_RGT_0. pose proof tan_PI4 as T. pose proof (tan_neg (PI / 4)) as T'. rewrite T in T'. split.
  - destruct (Req_dec (- (PI / 4)) x) as [<-|]; [lra|]. apply Rle_trans with (tan (- (PI / 4))); [lra|]. apply Rlt_le, tan_increasing; lra.
  - destruct (Req_dec x (PI / 4)) as [->|]; [lra|]. apply Rle_trans with (tan (PI / 4)); [|lra]. apply Rlt_le, tan_increasing; lra.
Qed.
Lemma EllipticPosition_value p earth jde : let '(L0, B0, R0) := PlanetPosition earth jde in let e := scale R0 (dir L0 B0) in
  let place t v := exists L B r, PlanetPosition p t = (L, B, r) /\ v = vsub (scale r (dir L B)) e in
  let '(dpsi, deps) := Nutation jde in let '(ra, dec) := EllipticPosition p earth jde in
  0 <= ra < 2 * PI /\ - (PI / 2) <= dec <= PI / 2 /\ exists v1 v2, place jde v1 /\ place (jde - LightTime (norm v1)) v2 /\
    (vx v2 <> 0 \/ vy v2 <> 0 -> exists lam be dl db l5 b5, dir lam be = unit_of v2 /\ - (PI / 2) < be < PI / 2 /\ moved_by lam be dl db (earthV jde) /\
      Rabs (b5 - (be + db)) <= arcsec 0.0554 /\ (Rabs (be + db) <= PI / 4 -> Rabs (l5 - (lam + dl)) <= arcsec 0.1458) /\
      (- (PI / 2) < b5 < PI / 2 -> equatorial_of (l5 + dpsi) b5 (MeanObliquity jde + deps) ra dec)).
Proof.
  destruct (PlanetPosition earth jde) as [[L0 B0] R0] eqn:E0. intros e place. destruct (Nutation jde) as [dpsi deps] eqn:EN. unfold EllipticPosition. rewrite E0, EN.
  destruct (PlanetPosition p jde) as [[L1 B1] r1] eqn:E1. unfold ell_xyz. cbv beta iota zeta.
  set (v1 := vsub (scale r1 (dir L1 B1)) e). set (D1 := sqrt _). assert (ED : D1 = norm v1). { unfold D1, norm, v1, e, dot, vsub, vadd, scale, dir. cbn [vx vy vz]. f_equal. ring. } rewrite ED. clearbody D1.
  destruct (PlanetPosition p (jde - LightTime (norm v1))) as [[L2 B2] r2] eqn:E2.
  set (v2 := vsub (scale r2 (dir L2 B2)) e). set (x := r2 * cos B2 * cos L2 - _). set (y := r2 * cos B2 * sin L2 - _). set (z := r2 * sin B2 - _).
  assert (EV : v2 = mkvec x y z) by (unfold v2, x, y, z, e, vsub, vadd, scale, dir; cbn [vx vy vz]; f_equal; ring). clearbody x y z.
  destruct (EclipticAberration (atan2 y x) (atan2 z (hypot x y)) jde) as [dl db] eqn:EA. destruct (ToFK5 (atan2 y x + dl) (atan2 z (hypot x y) + db) jde) as [l5 b5] eqn:E5.
  destruct (EclToEq (l5 + dpsi) b5 (sin (MeanObliquity jde + deps)) (cos (MeanObliquity jde + deps))) as [ra dec] eqn:EQ.
  assert (R1 : 0 <= ra < 2 * PI /\ - (PI / 2) <= dec <= PI / 2). { unfold EclToEq in EQ. injection EQ as <- <-. split; [apply RAFromRad_bound|apply asin_bound]. }
  split; [apply R1|]. split; [apply R1|]. exists v1, v2. split; [exists L1, B1, r1; split; [assumption|reflexivity]|]. split; [exists L2, B2, r2; split; [assumption|reflexivity]|].
  rewrite EV. cbn [vx vy]. intros N. destruct (dir_rect2 x y z N) as (HB & HD). pose proof (EclAberration_velocity (atan2 y x) (atan2 z (hypot x y)) jde HB) as HA. rewrite EA in HA.
  set (lam := atan2 y x) in *. set (be := atan2 z (hypot x y)) in *. clearbody lam be. exists lam, be, dl, db, l5, b5. split; [exact HD|]. split; [exact HB|]. split; [exact HA|].
  unfold ToFK5 in E5. cbv zeta in E5. set (Lp := lam + dl - _) in E5. clearbody Lp. injection E5 as E5 E5'. pose proof (sc1 Lp) as K. pose proof PI_RGT_0 as HP.
  assert (SC : forall s c : R, s * s + c * c = 1 -> -1.4143 <= c + s <= 1.4143 /\ -1.4143 <= c - s <= 1.4143) by (intros s c KK; decimals; assert (G : forall u v : R, u * u + v * v = 2 -> -14143 * / 10000 <= u <= 14143 * / 10000) by (intros u v; split; nra); split; [apply (G _ (c - s))|apply (G _ (c + s))]; nra). destruct (SC _ _ K) as (S1 & S2). decimals_in S1. decimals_in S2. clear SC K.
  split; [|split].
  - rewrite <- E5'. unfold AngleFromSec, arcsec. decimals. replace (be + db + 3916 / 100000 * (cos Lp - sin Lp) * (PI / 180 / 3600) - (be + db)) with (3916 / 100000 * (cos Lp - sin Lp) * (PI / 180 / 3600)) by ring. set (d := cos Lp - sin Lp) in *. clearbody d. apply Rabs_le. assert (0 < PI / 180 / 3600) by lra. set (k := PI / 180 / 3600) in *. clearbody k. split; nra.
  - intros HB4. assert (TB : -1 <= tan (be + db) <= 1) by (apply tan_45; exact HB4).
    rewrite <- E5. unfold AngleFromSec, arcsec. decimals. set (t := tan (be + db)) in *. set (d := cos Lp + sin Lp) in *. clearbody t d. match goal with |- Rabs ?q <= _ => replace q with ((- (9033 / 100000) + 3916 / 100000 * d * t) * (PI / 180 / 3600)) by ring end. assert (- (14143 / 10000) <= d * t <= 14143 / 10000) by (split; nra). assert (0 < PI / 180 / 3600) by lra. set (k := PI / 180 / 3600) in *. clearbody k. apply Rabs_le. split; nra.
  - intros HB5. pose proof (EclToEq_dir (l5 + dpsi) b5 (MeanObliquity jde + deps) HB5) as Q. rewrite EQ in Q. exact Q.
Qed.
(** ** Rising and setting of a planet *)
Lemma planet_day x : valid_date Gregorian x = true -> smally (d_y x) -> (0 <= jdn Gregorian x)%Z ->
  let jd := CalendarGregorianToJD (fl := RFlt) (d_y x) (d_m x) (IZR (d_d x)) in
  jd = IZR (jdn Gregorian x) - / 2 /\ midnight jd jd /\ 0 <= jd + 1 / 2 /\ same_time (Apparent0UT NutationInRA jd) (sidereal0 ((jd - 2451545) / 36525) + TimeFromRad (NutationInRA (jd + 1 / 2))).
Proof.
  intros V Y P jd. pose proof (proj2 (greg_count x V Y)) as E. unfold JDg in E. fold jd in E. apply IZR_le in P. assert (M : midnight jd jd) by (split; [exists (jdn Gregorian x); rewrite E; field|lra]). assert (J : 0 <= jd + 1 / 2) by (rewrite E; lra).
  split; [exact E|]. split; [exact M|]. split; [exact J|].
  destruct (Apparent0UT_midnight NutationInRA jd M J) as (k & K). destruct (Mean0UT_day jd jd M J) as (_ & k' & K'). exists (k + k')%Z. rewrite K, K', plus_IZR. ring.
Qed.
Lemma ApproxPlanet_times x pos e pl : valid_date Gregorian x = true -> smally (d_y x) -> (0 <= jdn Gregorian x)%Z -> - (PI / 2) < Lat pos < PI / 2 ->
  let jd := IZR (jdn Gregorian x) - / 2 in let '(a, d) := EllipticPosition pl e jd in - (PI / 2) < d < PI / 2 ->
  exists Th0, same_time Th0 (sidereal0 ((jd - 2451545) / 36525) + TimeFromRad (NutationInRA (jd + 1 / 2))) /\
  let HA := hour_angle 1 Th0 (Lon pos) a in
  match ApproxPlanet (d_y x) (d_m x) (d_d x) pos e pl with
  | None => forall H, sin_alt (Lat pos) d H <> sin (- degrees (34 / 60))
  | Some (tr, tm, ts) => 0 <= tr < 86400 /\ 0 <= tm < 86400 /\ 0 <= ts < 86400 /\ (exists k : Z, HA tm = IZR k * (2 * PI)) /\
      sin_alt (Lat pos) d (HA tr) = sin (- degrees (34 / 60)) /\ sin (HA tr) <= 0 /\ sin_alt (Lat pos) d (HA ts) = sin (- degrees (34 / 60)) /\ 0 <= sin (HA ts)
  end.
Proof.
  intros V Y P HL jd. destruct (planet_day x V Y P) as (E & _ & _ & S0). unfold ApproxPlanet. set (j := CalendarGregorianToJD _ _ _) in *. fold jd in E. rewrite E in *. clearbody j. cbv zeta. destruct (EllipticPosition pl e jd) as [a d]. intros HD.
  assert (EH : - degrees (34 / 60) = Stdh0Stellar) by (unfold degrees, Stdh0Stellar, AngleFromMin; field). rewrite EH. exists (Apparent0UT NutationInRA jd). split; [exact S0|].
  destruct (ApproxTimes pos Stdh0Stellar (Apparent0UT NutationInRA jd) a d) as [[[tr tm] ts]|] eqn:EA.
  - exact (ApproxTimes_times pos Stdh0Stellar (Apparent0UT NutationInRA jd) a d tr tm ts HL HD EA).
  - exact (proj1 (circumpolar pos Stdh0Stellar (Apparent0UT NutationInRA jd) a d HL HD) EA).
Qed.
Lemma RisePlanet_value unspec x pos e pl : valid_date Gregorian x = true -> smally (d_y x) -> (0 <= jdn Gregorian x <= 1000000000000000)%Z ->
  let jd := IZR (jdn Gregorian x) - / 2 in let '(a0, d0) := EllipticPosition pl e (jd - 1) in let '(a1, d1) := EllipticPosition pl e jd in let '(a2, d2) := EllipticPosition pl e (jd + 1) in
  exists DT Th0, Interp10A (fl := RFlt) unspec jd = Some DT /\ same_time Th0 (sidereal0 ((jd - 2451545) / 36525) + TimeFromRad (NutationInRA (jd + 1 / 2))) /\
  let h0 := - degrees (34 / 60) in let RA := table3 a0 a1 a2 in let dec := table3 d0 d1 d2 in
  RisePlanet unspec (d_y x) (d_m x) (d_d x) pos e pl =
    match ApproxPlanet (d_y x) (d_m x) (d_d x) pos e pl with
    | None => Fail
    | Some (tr, tm, ts) => Ret (adjustRS pos DT h0 Th0 RA dec tr, adjustTransit pos DT Th0 RA tm, adjustRS pos DT h0 Th0 RA dec ts)
    end.
Proof.
  intros V Y P jd. destruct (planet_day x V Y (proj1 P)) as (E & _ & _ & S0). unfold RisePlanet, ApproxPlanet. set (j := CalendarGregorianToJD _ _ _) in *. fold jd in E. rewrite E in *. clearbody j. cbv zeta.
  destruct (EllipticPosition pl e (jd - 1)) as [a0 d0]. destruct (EllipticPosition pl e jd) as [a1 d1]. destruct (EllipticPosition pl e (jd + 1)) as [a2 d2].
  destruct (Interp_total unspec jd) as (DT & ED). { destruct P as (P1 & P2). apply IZR_le in P1, P2. unfold jdbound, jd. lra. }
  exists DT, (Apparent0UT NutationInRA jd). split; [exact ED|]. split; [exact S0|]. rewrite ED.
  assert (EH : - degrees (34 / 60) = Stdh0Stellar) by (unfold degrees, Stdh0Stellar, AngleFromMin; field). rewrite EH. apply Times_three.
Qed.
(** ** Example *)
Lemma fixed_position L t v : Rabs (t - 2451545) <= 1 -> (let '(L0, B0, R0) := PlanetPosition (fixed L 1) 2451545 in exists L1 B1 r, PlanetPosition (fixed 0 5) t = (L1, B1, r) /\ v = vsub (scale r (dir L1 B1)) (scale R0 (dir L0 B0))) -> 3.9 <= vx v <= 6.1 /\ norm v <= 8.
Proof.
  intros Ht. pose proof (fixed_near L 1 2451545 ltac:(rewrite Rminus_eq_0, Rabs_R0; lra)) as N0. destruct (PlanetPosition (fixed L 1) 2451545) as [[L0 B0] R0]. intros (L1 & B1 & r & E & ->). pose proof (fixed_near 0 5 t Ht) as N. rewrite E in N.
  destruct N0 as (-> & _ & A1 & A2 & A3). destruct N as (-> & _ & C1 & C2 & C3). unfold dir in *. cbn [vx vy vz] in *. rewrite sin_0, cos_0 in *. apply Rabs_le_inv in A1, A2, A3, C1, C2, C3. pose proof (COS_bound L). pose proof (SIN_bound L).
  unfold norm, dot, vsub, vadd, scale. cbn [vx vy vz]. set (p := cos B1 * cos L1) in *. set (q := cos B1 * sin L1) in *. set (u := cos B0 * cos L0) in *. set (w := cos B0 * sin L0) in *. clearbody p q u w. decimals. split; [lra|].
  rewrite <- (sqrt_square 8) by lra. apply sqrt_le_1_alt. set (X := 5 * p + -1 * (1 * u)). set (Y := 5 * q + -1 * (1 * w)). set (Z := 5 * sin B1 + -1 * (1 * sin B0)). assert (0 <= X <= 61 / 10) by (unfold X; lra). assert (-1.1 <= Y <= 1.1) by (unfold Y; lra). assert (-1.1 <= Z <= 1.1) by (unfold Z; lra). decimals_in H2. decimals_in H3. clearbody X Y Z. nra.
Qed.
Lemma fixed_apparent L v1 v2 : let '(L0, B0, R0) := PlanetPosition (fixed L 1) 2451545 in let place t v := exists L1 B1 r, PlanetPosition (fixed 0 5) t = (L1, B1, r) /\ v = vsub (scale r (dir L1 B1)) (scale R0 (dir L0 B0)) in
  place 2451545 v1 -> place (2451545 - LightTime (norm v1)) v2 -> 3.9 <= vx v2 <= 6.1.
Proof.
  destruct (PlanetPosition (fixed L 1) 2451545) as [[L0 B0] R0] eqn:E. intros place P1 P2.
  destruct (fixed_position L 2451545 v1) as (_ & N); [rewrite Rminus_eq_0, Rabs_R0; lra|rewrite E; exact P1|].
  apply (fixed_position L (2451545 - LightTime (norm v1)) v2); [|rewrite E; exact P2]. unfold LightTime. assert (0 <= norm v1) by apply sqrt_pos. apply Rabs_le. lra.
Qed.
