(** Published constants behind the magnitudes, the Sun's axis and orbit and the Moon's equator. *)
From Coq Require Import ZArith Reals List Lra.
From Verif Require Import GoFloat GoMath S_solar M_base M_coord M_precess M_light M_vsop M_solar M_solardisk M_moon M_lunar M_eclipse L_trig.
Import ListNotations.
Local Open Scope R_scope.

Lemma AngleDeg_degrees x : AngleDeg (degrees x) = x.
Proof. unfold AngleDeg, degrees. field. apply Rgt_not_eq, PI_RGT_0. Qed.

Lemma mag_values r D x B dU : let i := degrees x in let m := 5 * log10 (r * D) in let s := Rabs (sin B) in
  magMercury r D i = m + 1.16 + 0.02838 * (x - 50) + 0.0001023 * (x - 50) ^ 2 /\
  magVenus r D i = m - 4 + 0.01322 * x + 0.0000004247 * x ^ 3 /\ magMars r D i = m - 1.3 + 0.01486 * x /\ magJupiter r D = m - 8.93 /\
  magSaturn r D B (degrees dU) = m - 8.68 + 0.044 * Rabs dU - 2.6 * s + 1.25 * s ^ 2 /\ magUranus r D = m - 6.85 /\ magNeptune r D = m - 7.05 /\
  magMercury84 r D i = m - 0.42 + 0.038 * x - 0.000273 * x ^ 2 + 0.000002 * x ^ 3 /\
  magVenus84 r D i = m - 4.4 + 0.0009 * x - 0.000239 * x ^ 2 + 0.00000065 * x ^ 3 /\
  magMars84 r D i = m - 1.52 + 0.016 * x /\ magJupiter84 r D i = m - 9.4 + 0.005 * x /\
  magUranus84 r D = m - 7.19 /\ magNeptune84 r D = m - 6.87 /\ magPluto84 r D = m - 1.
Proof.
  cbv zeta. set (m := 5 * log10 (r * D)). set (s := Rabs (sin B)).
  unfold magMercury, magVenus, magMars, magJupiter, magSaturn, magUranus, magNeptune, magMercury84, magVenus84, magMars84, magJupiter84, magUranus84, magNeptune84, magPluto84, HornerR.
  cbv zeta. rewrite !AngleDeg_degrees. fold m. fold s. clearbody m s. cbn. repeat split; lra.
Qed.
Lemma eccentricity_value T : solarEccentricity T = 0.016708634 - 0.000042037 * T - 0.0000001267 * T ^ 2.
Proof. unfold solarEccentricity, HornerR. cbn. lra. Qed.
Lemma sun_node_value jd : sun_K jd = degrees (73.6667 + 1.3958333 * ((jd - 2396758) / 36525)).
Proof. unfold sun_K, AngleFromDeg, degrees. lra. Qed.
Lemma moon_equator_value : moonI = degrees 1.54242.
Proof. unfold moonI, AngleFromDeg, degrees. lra. Qed.
Lemma eclipse_values : forall k, let T := k / 1236.85 in let E := 1 - 0.002516 * T - 0.0000074 * T ^ 2 in let M := ec_M T in let M1 := ec_M1 T in let F1 := ec_F T - degrees 0.02665 * sin (ec_Om T) in
  let P := 0.2070 * E * sin M + 0.0024 * E * sin (2 * M) - 0.0392 * sin M1 + 0.0116 * sin (2 * M1) - 0.0073 * E * sin (M1 + M) + 0.0067 * E * sin (M1 - M) + 0.0118 * sin (2 * F1) in
  let Q := 5.2207 - 0.0048 * E * cos M + 0.0020 * E * cos (2 * M) - 0.3299 * cos M1 - 0.0060 * E * cos (M1 + M) + 0.0041 * E * cos (M1 - M) in
  gammaOf k = (P * cos F1 + Q * sin F1) * (1 - 0.0048 * Rabs (cos F1)) /\
  uOf k = 0.0059 + 0.0046 * E * cos M - 0.0182 * cos M1 + 0.0004 * cos (2 * M1) - 0.0005 * cos (M + M1).
Proof.
  intros k T. assert (ET : k * ec_ck = T) by (unfold ec_ck, T; lra). unfold gammaOf, uOf. cbv zeta. rewrite ET. clearbody T.
  assert (EE : ec_E T = 1 - 0.002516 * T - 0.0000074 * T ^ 2) by (unfold ec_E, HornerR; cbn; lra). rewrite EE.
  assert (EF : ec_F1 T = ec_F T - degrees 0.02665 * sin (ec_Om T)) by (unfold ec_F1, degrees, p_; ring). rewrite EF.
  set (E := 1 - 0.002516 * T - 0.0000074 * T ^ 2). set (F1 := ec_F T - degrees 0.02665 * sin (ec_Om T)). clearbody E F1.
  unfold ec_gam, ec_P, ec_Q, ec_u. cbv zeta. split; [|lra]. f_equal. f_equal; f_equal; lra.
Qed.
Lemma FK_values : FK_Lp = degrees 4.50001688 /\ FK_L = degrees 5.19856209 /\ FK_J = degrees 0.00651966.
Proof. unfold FK_Lp, FK_L, FK_J, AngleFromDeg, degrees. repeat split; lra. Qed.
