(** Constants and series that other theorems refer to by name, as decimals (C49, C58, C71, C76, C82, C87).
    The decimals were read from the Go source; they have not been compared with the book. *)
From Coq Require Import ZArith Reals List Lra.
From Verif Require Import GoFloat GoMath S_solar M_base M_coord M_precess M_light M_vsop M_solar M_solardisk M_moon M_lunar M_eclipse L_values.
Local Open Scope R_scope.

(** Least distance gamma of the axis of the shadow and radius u of the umbral cone, for lunation k. *)
Theorem C49_elements : forall k, let T := k / 1236.85 in let E := 1 - 0.002516 * T - 0.0000074 * T ^ 2 in let M := ec_M T in let M1 := ec_M1 T in let F1 := ec_F T - degrees 0.02665 * sin (ec_Om T) in
  let P := 0.2070 * E * sin M + 0.0024 * E * sin (2 * M) - 0.0392 * sin M1 + 0.0116 * sin (2 * M1) - 0.0073 * E * sin (M1 + M) + 0.0067 * E * sin (M1 - M) + 0.0118 * sin (2 * F1) in
  let Q := 5.2207 - 0.0048 * E * cos M + 0.0020 * E * cos (2 * M) - 0.3299 * cos M1 - 0.0060 * E * cos (M1 + M) + 0.0041 * E * cos (M1 - M) in
  gammaOf k = (P * cos F1 + Q * sin F1) * (1 - 0.0048 * Rabs (cos F1)) /\
  uOf k = 0.0059 + 0.0046 * E * cos M - 0.0182 * cos M1 + 0.0004 * cos (2 * M1) - 0.0005 * cos (M + M1).
Proof. exact eclipse_values. Qed.
Print Assumptions C49_elements.

(** Magnitudes at phase angle x degrees; the 1984 formula of Saturn is in C71_saturn84_error. *)
Theorem C71_formulas : forall r D x B dU, let i := degrees x in let m := 5 * log10 (r * D) in let s := Rabs (sin B) in
  magMercury r D i = m + 1.16 + 0.02838 * (x - 50) + 0.0001023 * (x - 50) ^ 2 /\
  magVenus r D i = m - 4 + 0.01322 * x + 0.0000004247 * x ^ 3 /\ magMars r D i = m - 1.3 + 0.01486 * x /\ magJupiter r D = m - 8.93 /\
  magSaturn r D B (degrees dU) = m - 8.68 + 0.044 * Rabs dU - 2.6 * s + 1.25 * s ^ 2 /\ magUranus r D = m - 6.85 /\ magNeptune r D = m - 7.05 /\
  magMercury84 r D i = m - 0.42 + 0.038 * x - 0.000273 * x ^ 2 + 0.000002 * x ^ 3 /\
  magVenus84 r D i = m - 4.4 + 0.0009 * x - 0.000239 * x ^ 2 + 0.00000065 * x ^ 3 /\
  magMars84 r D i = m - 1.52 + 0.016 * x /\ magJupiter84 r D i = m - 9.4 + 0.005 * x /\
  magUranus84 r D = m - 7.19 /\ magNeptune84 r D = m - 6.87 /\ magPluto84 r D = m - 1.
Proof. exact mag_values. Qed.
Print Assumptions C71_formulas.

Theorem C76_eccentricity : forall T, solarEccentricity T = 0.016708634 - 0.000042037 * T - 0.0000001267 * T ^ 2.
Proof. exact eccentricity_value. Qed.
Print Assumptions C76_eccentricity.

(** Node of the solar equator on the ecliptic. *)
Theorem C82_node : forall jd, sun_K jd = degrees (73.6667 + 1.3958333 * ((jd - 2396758) / 36525)).
Proof. exact sun_node_value. Qed.
Print Assumptions C82_node.

(** Inclination of the mean lunar equator to the ecliptic. *)
Theorem C87_inclination : moonI = degrees 1.54242.
Proof. exact moon_equator_value. Qed.
Print Assumptions C87_inclination.

(** Angles between the equinoxes and ecliptics of B1950 (FK4) and J2000 (FK5). *)
Theorem C58_FK_angles : FK_Lp = degrees 4.50001688 /\ FK_L = degrees 5.19856209 /\ FK_J = degrees 0.00651966.
Proof. exact FK_values. Qed.
Print Assumptions C58_FK_angles.
