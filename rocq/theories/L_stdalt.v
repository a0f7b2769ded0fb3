(** Lemmas for the standard altitudes of rise and for semidiameters. *)
From Coq Require Import ZArith Reals Lra Psatz.
From Flocq Require Import Core.
From Verif Require Import GoMath M_precess M_solar M_moon M_light M_refraction M_rise M_semidiameter S_solar S_moon S_stdalt L_trig L_kepler L_precess L_solar L_refraction L_moon6.
Local Open Scope R_scope.

Lemma small_angle s : 0 <= s <= PI / 2 -> sin s <= 1 / 50 -> s <= 21 / 1000.
Proof.
  intros H S. pose proof PI_fine. apply Rnot_lt_le. intros K. assert (sin (21 / 1000) < sin s) by (apply sin_increasing_1; lra). pose proof (sin_cubic_pos (21 / 1000) ltac:(lra)). lra.
Qed.
Lemma stdalt_moon D s : 350000 <= D <= 415000 -> subtends (0.272481 * 6378.14) D s -> Rabs (Stdh0Lunar (MoonParallax D) - limb_altitude (MoonParallax D) s (AngleFromMin 34)) <= arcsec 0.13.
Proof.
  intros HD (HS & ES). destruct (MoonParallax_value D ltac:(decimals; lra)) as (HP & EP). set (p := MoonParallax D) in *. clearbody p. unfold Stdh0Lunar, limb_altitude, meanRefraction.
  replace (p * (7275 / 10000) - AngleFromMin 34 - (p - s - AngleFromMin 34)) with (s - 2725 / 10000 * p) by field. decimals_in ES. decimals_in EP. unfold arcsec. decimals. pose proof PI_fine as PF.
  assert (S1 : sin s = 272481 / 1000000 * sin p) by nra. assert (P1 : 0 < sin p <= 18224 / 1000000) by (split; nra). assert (S0 : 0 < sin s <= 1 / 50) by lra.
  pose proof (small_angle s HS ltac:(lra)) as Bs. pose proof (small_angle p HP ltac:(lra)) as Bp. destruct (sin_cubic_pos s ltac:(lra)) as (A1 & A2). destruct (sin_cubic_pos p ltac:(lra)) as (B1 & B2).
  assert (P2 : 0 <= p <= 18226 / 1000000). { split; [lra|]. assert (p * p <= 21 / 1000 * (21 / 1000)) by nra. assert (p * p * p <= 21 / 1000 * (21 / 1000) * p) by nra. nra. }
  assert (Q2 : 0 <= s <= 4968 / 1000000). { split; [lra|]. assert (s * s <= 21 / 1000 * (21 / 1000)) by nra. assert (s * s * s <= 21 / 1000 * (21 / 1000) * s) by nra. nra. }
  assert (C1 : 0 <= p * p * p <= 606 / 100000000). { assert (0 <= p * p <= 33219 / 100000000) by nra. split; [nra|]. nra. }
  assert (C2 : 0 <= s * s * s <= 13 / 100000000). { assert (0 <= s * s <= 2469 / 100000000) by nra. split; [nra|]. nra. }
  apply Rabs_le. split; lra.
Qed.
Lemma stdalt_moon_mean jde : let T := (jde - 2451545) / 36525 in Rabs T <= 20 -> let '(_, _, r) := MoonPosition jde in Rabs (Stdh0Lunar (MoonParallax r) - Stdh0LunarMean) <= arcsec 206.
Proof.
  intros T HT. pose proof (parallax_range jde HT) as H. destruct (MoonPosition jde) as [[l b] r]. set (p := MoonParallax r) in *. clearbody p. unfold Stdh0Lunar, Stdh0LunarMean, meanRefraction, AngleFromMin, AngleFromDeg, arcsec, degrees in *. decimals_in H. decimals. pose proof PI_fine. apply Rabs_le. lra.
Qed.
Lemma stdalt_sun T : Rabs T <= 100 -> Rabs (Stdh0Solar - limb_altitude 0 (Semidiameter Sun (Radius T)) (AngleFromMin 34)) <= arcsec 21.
Proof.
  intros H. destruct (Radius_ellipse T H) as (E & _ & R). set (e := solarEccentricity T) in *. clearbody e. set (r := Radius T) in *. clearbody r. decimals_in E. decimals_in R. unfold Stdh0Solar, limb_altitude, Semidiameter, Sun, AngleFromMin, AngleFromSec, arcsec. decimals. pose proof PI_fine.
  assert (B : 979 / 1000 <= r <= 10211 / 10000) by nra. assert (I : 9793 / 10000 <= / r <= 10215 / 10000). { split; [replace (9793 / 10000) with (/ (10000 / 9793)) by field | replace (10215 / 10000) with (/ (10000 / 10215)) by field]; apply Rinv_le; lra. }
  match goal with |- Rabs ?x <= ?y => replace x with ((95963 / 100 * / r - 960) * (PI / 180 / 3600)) by (field; lra) end. set (i := / r) in *. clearbody i. rewrite Rabs_mult, (Rabs_pos_eq (PI / 180 / 3600)) by lra. apply Rmult_le_compat_r; [lra|]. apply Rabs_le. lra.
Qed.
Lemma stdalt_star : Rabs (Stdh0Stellar - limb_altitude 0 0 (Bennett 0)) <= AngleFromMin 1.
Proof. pose proof Bennett_horizon as H. unfold Stdh0Stellar, limb_altitude, AngleFromMin in *. apply Rabs_le. lra. Qed.
Lemma subtends_asin r D : 0 <= r <= D -> 0 < D -> subtends r D (asin (r / D)).
Proof.
  intros H HD. assert (B : 0 <= r / D <= 1). { split; [apply Rmult_le_pos; [lra | apply Rlt_le, Rinv_0_lt_compat, HD]|]. apply (Rmult_le_reg_r D); [exact HD|]. unfold Rdiv. rewrite Rmult_assoc, Rinv_l by lra. lra. }
  split; [split; [apply asin_nonneg, B | apply asin_bound]|]. rewrite sin_asin by lra. field. lra.
Qed.
Lemma stdalt_example : subtends (0.272481 * 6378.14) 384400 (asin (0.272481 * 6378.14 / 384400)).
Proof. apply subtends_asin; decimals; lra. Qed.

(** Asteroids. *)
Lemma asteroid_half d D s : 0 < d -> 0 < D -> d <= D * au_km -> subtends (d / 2) (D * au_km) s -> 19 / 10 * s < Asteroid d D.
Proof.
  intros Hd HD L (HS & E). pose proof PI_fine as PF. unfold au_km in *. set (x := d / D). assert (EX : d = x * D) by (unfold x; field; lra). assert (X : 0 < x) by (unfold x; apply Rdiv_lt_0_compat; assumption).
  assert (X1 : x <= 149597870) by (rewrite EX in L; nra). assert (ES : sin s = x / 2 / 149597870) by (rewrite EX in E; apply (Rmult_eq_reg_l (D * 149597870)); [rewrite E; field | nra]).
  unfold Asteroid, AngleFromSec. fold x. decimals.
  assert (S6 : s <= PI / 6). { apply Rnot_lt_le. intros K. assert (sin (PI / 6) < sin s) by (apply sin_increasing_1; lra). rewrite sin_PI6 in H. lra. }
  destruct (sin_cubic_pos s ltac:(lra)) as (A & _). assert (Q : 0 <= s * s <= 275 / 1000) by nra. assert (s * s * s <= 275 / 1000 * s) by nra. assert (s <= 1049 / 1000 * sin s) by nra. rewrite ES in H0. nra.
Qed.
Lemma asteroid_diameter d D s : 0 < d -> 0 < D -> d <= D * au_km / 100 -> subtends (d / 2) (D * au_km) s -> Rabs (Asteroid d D - 2 * s) <= s / 10000.
Proof.
  intros Hd HD L (HS & E). pose proof PI_fine as PF. unfold au_km in *. set (x := d / D). assert (EX : d = x * D) by (unfold x; field; lra). assert (X : 0 < x) by (unfold x; apply Rdiv_lt_0_compat; assumption).
  assert (X1 : x <= 1495979) by (rewrite EX in L; nra). assert (ES : sin s = x / 2 / 149597870) by (rewrite EX in E; apply (Rmult_eq_reg_l (D * 149597870)); [rewrite E; field | nra]).
  unfold Asteroid, AngleFromSec. fold x. decimals.
  pose proof (small_angle s HS ltac:(lra)) as S6. destruct (sin_cubic_pos s ltac:(lra)) as (A & A'). rewrite ES in A, A'.
  assert (Q : s <= 6 / 1000) by (assert (s * s <= 21 / 1000 * (21 / 1000)) by nra; assert (s * s * s <= 21 / 1000 * (21 / 1000) * s) by nra; lra).
  assert (s * s <= 6 / 1000 * (6 / 1000)) by nra. assert (s * s * s <= 36 / 1000000 * s) by nra.
  assert (K : 99999 / 100000 / 149597870 <= 13788 * / 10000000 * (PI / 180 / 3600) <= 100001 / 100000 / 149597870) by lra. set (u := 13788 * / 10000000 * (PI / 180 / 3600)) in *. clearbody u. assert (99999 / 100000 / 149597870 * x <= u * x <= 100001 / 100000 / 149597870 * x) by (split; apply Rmult_le_compat_r; lra). apply Rabs_le. split; lra.
Qed.
Lemma asteroid_example : subtends (1 / 2) (1 * au_km) (asin (1 / 2 / au_km)).
Proof. rewrite Rmult_1_l. apply subtends_asin; unfold au_km; lra. Qed.
