(** Lunar axis and the Sun seen from the Moon. *)
From Coq Require Import ZArith Reals Lra Lia List Psatz.
From Flocq Require Import Core.
From Verif Require L_kepler.
From Verif Require Import GoFloat GoMath S_Sphere S_precess M_base M_coord M_precess M_vsop M_light M_moonconst M_solar M_moon M_physical S_solar S_physical S_moon
  L_trig L_angle L_vec L_coord L_precess L_elements L_light L_moonconst L_solar L_refraction L_parallactic L_solardisk L_physical L_moon L_moon2 L_moon3 L_moon4.
Import ListNotations.
Local Open Scope R_scope.

Lemma axis_bounds jde : let T := (jde - 2451545) / 36525 in let m := newMoon jde in Rabs T <= 20 ->
  0 <= sin (moonI + m_rho m) <= 0.0281 /\ 0.999 <= cos (moonI + m_rho m) <= 1 /\ 0.36 <= m_se m <= 0.44 /\ 0.89 <= m_ce m <= 1.
Proof.
  intros T m HT. destruct (newMoon_value jde) as (_ & _ & _ & ES & EC & _ & BB). fold m in ES, EC, BB. destruct (BB HT) as (Br & _ & _). rewrite ES, EC. apply Rabs_le_inv in Br.
  pose proof PI_fine as HP. pose proof moonI_val as HI. pose proof (degrees_val 0.062 ltac:(decimals; lra)) as V. decimals_in V. decimals_in HI. decimals_in Br.
  assert (R : 0 <= moonI + m_rho m <= 0.0281) by (decimals; lra). decimals_in R. destruct (small_trig (moonI + m_rho m) ltac:(lra)) as ((S1 & S2) & C1). pose proof (COS_bound (moonI + m_rho m)).
  split; [split; [apply sin_ge_0; lra|decimals; lra]|]. split; [split; [decimals; nra|lra]|].
  pose proof (obliquity_range jde HT) as HO. pose proof (Nutation_bound jde) as (_ & HN). fold T in HN. cbv zeta in HN. assert (NB : Rabs (snd (Nutation jde)) <= degrees 0.01).
  { eapply Rle_trans; [exact HN|]. unfold arcsec, degrees. decimals. pose proof PI_RGT_0. assert (0 <= Rabs T) by apply Rabs_pos. nra. }
  apply Rabs_le_inv in NB. set (eps := MeanObliquity jde + snd (Nutation jde)). assert (RE : 21.98 * 0.017453 <= eps <= 25.02 * 0.017454).
  { unfold eps. pose proof (degrees_val 22 ltac:(lra)) as V1. pose proof (degrees_val 25 ltac:(lra)) as V2. pose proof (degrees_val 0.01 ltac:(decimals; lra)) as V3. decimals_in V1. decimals_in V2. decimals_in V3. decimals_in NB. decimals_in HO. clear - V1 V2 V3 NB HO. decimals. lra. }
  decimals_in RE. destruct (small_trig eps ltac:(lra)) as ((A & B) & C). pose proof (COS_bound eps). decimals. repeat split; try lra.
  - clear - RE A. assert (eps * eps <= (437 / 1000) * (437 / 1000)) by nra. assert (eps * eps * eps <= (437 / 1000) * (437 / 1000) * eps) by (apply Rmult_le_compat_r; lra). lra.
  - clear - RE C. nra.
Qed.
Lemma lib_cos_pos b : Rabs b <= degrees 7.76 -> 0.99 <= cos b.
Proof.
  intros H. pose proof (degrees_val 7.76 ltac:(decimals; lra)) as V. decimals_in V. decimals_in H. assert (CC : cos b = cos (Rabs b)) by (unfold Rabs; destruct (Rcase_abs b); [rewrite cos_neg|]; reflexivity). rewrite CC.
  pose proof (Rabs_pos b). destruct (small_trig (Rabs b) ltac:(lra)) as (_ & C). decimals. nra.
Qed.
Lemma moon_pole jde earth : let T := (jde - 2451545) / 36525 in Rabs T <= 20 -> let '(lam, be, _) := MoonPosition jde in let m := newMoon jde in let '(_, b, P, _, _) := MoonPhysical jde earth in
  let '(dpsi, deps) := Nutation jde in let eps := MeanObliquity jde + deps in
  let pole := app (rot_x (- eps)) (lunar_pole (moonI + m_rho m) (m_Om m + dpsi + m_sig m / sin moonI)) in
  (0 <= P <= PI / 2 \/ 3 * (PI / 2) <= P < 2 * PI) /\ exists a d, equatorial_of (lam + dpsi) be eps a d /\ sin P * cos b = dot pole (east a d) /\ 0 < dot pole (north a d).
Proof.
  intros T HT. unfold MoonPhysical. pose proof (MoonPosition_range jde HT) as HM. pose proof (lib_range jde HT) as HL. destruct (MoonPosition jde) as [[lam be] D]. destruct HM as (_ & Hb & _). cbv zeta.
  destruct (newMoon_value jde) as (_ & _ & ED & ES & EC & _ & _). pose proof (axis_bounds jde HT) as AB. cbv zeta in AB. set (m := newMoon jde) in *. clearbody m. destruct (lib m lam be) as [l b]. destruct HL as (_ & HLb). destruct (moon_sun m lam be D earth) as [l0 b0].
  destruct (Nutation jde) as [dpsi deps]. cbn [fst snd] in ED, ES, EC. set (eps := MeanObliquity jde + deps) in *. pose proof (lib_cos_pos b HLb) as Cb. decimals_in Cb. decimals_in AB. destruct AB as (B1 & B2 & B3 & B4).
  pose proof PI_fine as HP. pose proof (degrees_val 6.09 ltac:(decimals; lra)) as V. decimals_in V. apply Rabs_le_inv in Hb. decimals_in Hb.
  set (V0 := m_Om m + m_dpsi m + m_sig m / sin moonI). pose proof (SIN_bound V0) as SV. pose proof (COS_bound V0) as CV.
  assert (BX : -(281/10000) <= paX m <= 281 / 10000) by (unfold paX; fold V0; nra).
  assert (BY : - (47 / 100) <= paY m <= - (33 / 100)).
  { unfold paY. fold V0. set (si := sin (moonI + m_rho m)) in *. set (ci := cos (moonI + m_rho m)) in *. assert (- (281 / 10000) <= si * cos V0 <= 281 / 10000) by nra. assert (- (281 / 10000) <= si * cos V0 * m_ce m <= 281 / 10000) by nra. assert (36 / 100 * (999 / 1000) <= ci * m_se m <= 44 / 100) by nra. lra. }
  assert (LS : sqrt (paX m * paX m + paY m * paY m) <= 48 / 100).
  { rewrite <- (sqrt_square (48 / 100)) by lra. apply sqrt_le_1_alt. nra. }
  destruct (moon_pa_value m lam be b eps ES EC) as (PR & a & d & HE & SE & _); [lra|lra|right; lra|lra|]. rewrite ED in HE, SE. unfold V0 in SV, CV. rewrite ED in SV, CV.
  split; [exact PR|]. exists a, d. split; [exact HE|]. split; [exact SE|].
  destruct HE as (_ & Rd & HD). set (V1 := m_Om m + dpsi + m_sig m / sin moonI) in *.
  assert (EZ : sin d = sin be * cos eps + cos be * sin eps * sin (lam + dpsi)). { assert (Q : vz (dir a d) = vz (app (rot_x (- eps)) (dir (lam + dpsi) be))) by (rewrite HD; reflexivity). revert Q. vecs. rewrite cos_neg, sin_neg. lra. }
  assert (Sd : Rabs (sin d) <= 0.55).
  { rewrite EZ. pose proof (L_kepler.sin_abs_le be) as Q. assert (Rabs be <= 1063 / 10000) by (apply Rabs_le; lra). rewrite <- ES, <- EC. eapply Rle_trans; [apply Rabs_triang|]. rewrite !Rabs_mult, (Rabs_pos_eq (m_ce m)), (Rabs_pos_eq (m_se m)) by lra.
    pose proof (abs_cos be). pose proof (abs_sin (lam + dpsi)). pose proof (Rabs_pos (cos be)). pose proof (Rabs_pos (sin (lam + dpsi))). pose proof (Rabs_pos (sin be)). decimals.
    assert (Rabs (cos be) * m_se m <= 44 / 100) by nra. assert (Rabs (cos be) * m_se m * Rabs (sin (lam + dpsi)) <= 44 / 100) by nra. nra. }
  assert (Cd : 0.83 <= cos d). { apply Rabs_le_inv in Sd. decimals_in Sd. pose proof (sc1 d) as K. assert (0 <= cos d) by (apply cos_ge_0; lra). decimals. nra. }
  decimals_in Sd. decimals_in Cd. apply Rabs_le_inv in Sd.
  assert (EN : dot (app (rot_x (- eps)) (lunar_pole (moonI + m_rho m) V1)) (north a d) =
     - sin d * (- (sin (moonI + m_rho m) * sin V1) * cos a + (sin (moonI + m_rho m) * cos V1 * cos eps - cos (moonI + m_rho m) * sin eps) * sin a) + cos d * (sin (moonI + m_rho m) * cos V1 * sin eps + cos (moonI + m_rho m) * cos eps)).
  { unfold lunar_pole. vecs. rewrite cos_neg, sin_neg, !cos_shift, !sin_shift. rewrite (Rplus_comm V1 (PI / 2)), <- (cos_sin V1), (cos_plus (PI / 2) V1), cos_PI2, sin_PI2. ring. }
  rewrite EN. unfold paX in BX. unfold paY in BY. rewrite ED in BX. rewrite ED, ES, EC in BY. fold V1 in BX, BY, SV, CV. rewrite ES in B3. rewrite EC in B4. set (X := sin (moonI + m_rho m) * sin V1) in *. set (Y := sin (moonI + m_rho m) * cos V1 * cos eps - cos (moonI + m_rho m) * sin eps) in *.
  set (Zp := sin (moonI + m_rho m) * cos V1 * sin eps + cos (moonI + m_rho m) * cos eps). assert (BZ : 85 / 100 <= Zp).
  { unfold Zp. set (si := sin (moonI + m_rho m)) in *. set (ci := cos (moonI + m_rho m)) in *. assert (- (281 / 10000) <= si * cos V1 <= 281 / 10000) by nra. assert (- (281 / 10000) <= si * cos V1 * sin eps) by nra. assert (999 / 1000 * (89 / 100) <= ci * cos eps) by (apply Rmult_le_compat; lra). lra. }
  assert (BH : - (5 / 10) <= - X * cos a + Y * sin a <= 5 / 10). { pose proof (SIN_bound a) as Sa. pose proof (COS_bound a) as Ca. clear - BX BY Sa Ca. assert (- (281 / 10000) <= - X * cos a <= 281 / 10000) by nra. assert (- (47 / 100) <= Y * sin a <= 47 / 100) by nra. lra. }
  set (h := - X * cos a + Y * sin a) in *. clearbody h Zp. clear - Sd Cd BZ BH. nra.
Qed.

(** ** The Sun *)
Lemma helio_moved m lam be D earth : let '(l0, _, R0) := ApparentVSOP87 earth (m_jde m) in let '(lH, bH) := helio_moon m lam be D earth in let q := D / (R0 * 149597870) in
  exists dl, lH = l0 + PI + dl /\ bH = q * be /\ moved_by (l0 + PI) 0 dl (q * sin be) (scale q (dir lam be)).
Proof.
  unfold helio_moon. destruct (ApparentVSOP87 earth (m_jde m)) as [[l0 b0] R0]. cbv zeta. fold AU_km. set (q := D / (R0 * AU_km)). exists (q * (cos be * sin (l0 - lam))). split; [reflexivity|]. split; [reflexivity|].
  unfold moved_by. destruct (pi_shift l0) as [S0 C0]. apply velocity_of; unfold across, vsub, vadd, scale; vecs; rewrite ?S0, ?C0, ?sin_0, ?cos_0, ?sin_minus; pose proof (sc1 l0) as K; set (s0 := sin l0) in *; set (c0 := cos l0) in *; set (sl := sin lam); set (cl := cos lam); set (sb := sin be); set (cb := cos be).
  - transitivity (- (q * cb * (cl * c0 + sl * s0)) * (1 - (s0 * s0 + c0 * c0))); [ring|rewrite K; ring].
  - ring.
  - ring.
Qed.
Lemma SunAltitude_value eta theta l0 b0 : - (PI / 2) <= SunAltitude eta theta l0 b0 <= PI / 2 /\ sin (SunAltitude eta theta l0 b0) = dot (dir eta theta) (dir l0 b0).
Proof.
  unfold SunAltitude. split; [apply asin_bound|]. replace (PI / 2 - l0 + eta) with (PI / 2 - (l0 - eta)) by ring. rewrite sin_shift.
  assert (E : sin b0 * sin theta + cos b0 * cos theta * cos (l0 - eta) = dot (dir eta theta) (dir l0 b0)) by (vecs; rewrite cos_minus; ring). rewrite E. apply sin_asin. apply dot_dir_le.
Qed.
Lemma horizon_fixed eta theta jde earth : (let '(_, _, _, l0, b0) := MoonPhysical jde earth in SunAltitude eta theta l0 b0 = 0) -> MoonSunrise eta theta jde earth = jde /\ MoonSunset eta theta jde earth = jde.
Proof.
  intros H. assert (E : srCorr eta theta jde earth = 0). { unfold srCorr. destruct (MoonPhysical jde earth) as [[[[l b] P] l0] b0]. rewrite H. unfold AngleDeg, Rdiv. ring. }
  unfold MoonSunrise, MoonSunset. cbv zeta. rewrite E, Rminus_0_r, Rplus_0_r, E. split; lra.
Qed.
Lemma sunrise_sunset jde earth : exists eta, MoonSunrise eta 0 jde earth = jde /\ MoonSunset eta 0 jde earth = jde.
Proof.
  destruct (MoonPhysical jde earth) as [[[[l b] P] l0] b0] eqn:E. exists (l0 + PI / 2). apply horizon_fixed. rewrite E. unfold SunAltitude.
  replace (PI / 2 - l0 + (l0 + PI / 2)) with PI by field. rewrite sin_PI, sin_0. replace (sin b0 * 0 + cos b0 * cos 0 * 0) with 0 by ring. apply asin_0.
Qed.
(** Latitude and longitude from the direction, in the frame of the mean lunar equator, and the turn
    of that frame by the physical libration (first order). *)
Lemma lib_frame m lam be : let '(l, b) := lib m lam be in exists l1 b1 dl db, same_angle l (l1 + dl) /\ b = b1 + db /\ - (PI / 2) <= b1 <= PI / 2 /\
  dir l1 b1 = selenographic moonI (m_Om m) (m_F m) (opposite (dir lam be)) /\
  (0 < cos b1 -> moved_by l1 b1 dl db (cross (app (rot_z (m_F m + PI)) (mkvec (m_rho m) (m_sig m) (- m_tau m))) (dir l1 b1))).
Proof.
  pose proof (optical_frame m lam be) as HF. pose proof (physical_rotation m lam be) as HR. pose proof (lib_value m lam be) as HV. unfold lib in *. destruct (optical m lam be) as [[l1 b1] A]. destruct (physical m A b1) as [l2 b2].
  destruct HF as (_ & Rb & _ & _ & _ & ES). exists l1, b1, l2, b2. split; [destruct HV as [[V _]|[V _]]; exact V|]. split; [reflexivity|]. split; [exact Rb|]. split; [symmetry; exact ES|].
  intros Cb. unfold moved_by. rewrite (HR Cb). unfold across. set (w := app _ _). set (u := dir l1 b1). assert (E : dot (cross w u) u = 0) by (unfold cross, dot; cbn [vx vy vz]; ring).
  rewrite E. unfold vsub, vadd, scale. destruct (cross w u) as [x y z]. cbn [vx vy vz]. apply mkvec_eq; ring.
Qed.
Lemma Physical_lib jde earth : let '(lam, be, r) := MoonPosition jde in let '(l, b, P, l0, b0) := MoonPhysical jde earth in let m := newMoon jde in
  (l, b) = lib m lam be /\ exists lH bH, helio_moon m lam be r earth = (lH, bH) /\ (l0, b0) = lib m lH bH.
Proof.
  unfold MoonPhysical, moon_sun. destruct (MoonPosition jde) as [[lam be] r]. cbv zeta. destruct (lib (newMoon jde) lam be) as [l b] eqn:E1. destruct (helio_moon (newMoon jde) lam be r earth) as [lH bH] eqn:E2. destruct (lib (newMoon jde) lH bH) as [l0 b0] eqn:E3.
  split; [reflexivity|]. exists lH, bH. split; [reflexivity|]. symmetry. exact E3.
Qed.
