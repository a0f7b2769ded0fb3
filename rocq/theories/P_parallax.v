(** Property theorems: diurnal parallax (C55), semidiameters (C72), constants (C57). *)
From Coq Require Import ZArith Reals List Lra.
From Verif Require Import GoMath M_coord M_light M_parallax M_moonconst S_Sphere S_precess S_parallax S_moonconst L_precess L_light L_parallax L_parallax2 L_moonconst.
Import ListNotations.
Local Open Scope R_scope.

(** ** C55 *)
(** Hour angle and declination: the direction from the observer to the body. *)
Theorem C55_hour_angle_form : forall al de D rs rc L th0,
  let p := HorizontalParallax D in let T := vsub (body p al de) (observer rs rc (th0 - L)) in
  0 < sin p -> T <> vzero ->
  let '(H', de') := Topocentric3 al de D rs rc L th0 in
  seen_at T (th0 - L - H') de' /\ - PI < H' <= PI /\ - (PI / 2) <= de' <= PI / 2.
Proof. exact Topocentric3_geom. Qed.
Print Assumptions C55_hour_angle_form.

Theorem C55_topocentric_partial : forall al de D rs rc L th0,
  let p := HorizontalParallax D in let T := vsub (body p al de) (observer rs rc (th0 - L)) in
  0 < sin p -> 0 < cos de - rc * sin p * cos (Mod1 (th0 - L - al)) ->
  let '(al', de') := Topocentric al de D rs rc L th0 in
  seen_at T al' de' /\ 0 <= al' < 2 * PI /\ - (PI / 2) <= de' <= PI / 2.
Proof. exact Topocentric_geom. Qed.
Print Assumptions C55_topocentric_partial.
(** If the pole lies between the geocentric and the observed direction, the result is the
    direction opposite to the observed one. *)
Theorem C55_topocentric_refuted : forall al de D rs rc L th0,
  let p := HorizontalParallax D in let T := vsub (body p al de) (observer rs rc (th0 - L)) in
  0 < sin p -> cos de - rc * sin p * cos (Mod1 (th0 - L - al)) < 0 ->
  let '(al', de') := Topocentric al de D rs rc L th0 in seen_at (scale (-1) T) al' de'.
Proof. exact Topocentric_opposite. Qed.
Print Assumptions C55_topocentric_refuted.
Theorem C55_forms_agree : forall al de D rs rc L th0,
  let p := HorizontalParallax D in let H := th0 - L - al in 0 < sin p ->
  0 < cos de - rc * sin p * cos H ->
  let '(al', de') := Topocentric al de D rs rc L th0 in
  let '(H', de3) := Topocentric3 al de D rs rc L th0 in
  dir al' de' = dir (th0 - L - H') de3.
Proof. exact Topocentric_agree. Qed.
Print Assumptions C55_forms_agree.

Theorem C55_ecliptical : forall lam be s phi h eps theta p,
  let rs := fst (ParallaxConstants Earth76 phi h) in let rc := snd (ParallaxConstants Earth76 phi h) in
  let T := vsub (body p lam be) (app (rot_x eps) (observer rs rc (TimeRad theta))) in
  0 < sin p -> cos lam * cos be - rc * sin p * cos (TimeRad theta) <> 0 ->
  let '(lam', be', s') := TopocentricEcliptical lam be s phi h eps theta p in
  seen_at T lam' be' /\ 0 <= lam' < 2 * PI /\ - (PI / 2) < be' < PI / 2 /\
  (Rabs (sin s) * norm (body p lam be) <= norm T ->
   - (PI / 2) <= s' <= PI / 2 /\ sin s' * norm T = sin s * norm (body p lam be)).
Proof. exact TopocentricEcliptical_geom. Qed.
Print Assumptions C55_ecliptical.
Theorem C55_direction_unique : forall v a d a' d', seen_at v a d -> seen_at v a' d' -> dir a d = dir a' d'.
Proof. exact seen_dir. Qed.
Print Assumptions C55_direction_unique.
(** Topocentric2: its corrections are, on the sphere, the component across the line of sight of the
    displacement of the observer, times the parallax. *)
Theorem C55_Topocentric2_first_order : forall al de D rs rc L th0, - (PI / 2) < de < PI / 2 ->
  let '(da, dd) := Topocentric2 al de D rs rc L th0 in
  velocity al de da dd = across (scale (- HorizontalParallax D) (observer rs rc (th0 - L))) (dir al de).
Proof. exact Topocentric2_velocity. Qed.
Print Assumptions C55_Topocentric2_first_order.
(** The corrected place differs from the observed direction (a', d') by at most three times the square
    of the parallax over that of cos de, for bodies beyond 50 and observers within 1.0099 Earth radii. *)
Theorem C55_Topocentric2_error : forall al de D rs rc L th0 a' d', let p := HorizontalParallax D in
  - (PI / 2) < de < PI / 2 -> 0 < p <= 0.02 -> rc * rc + rs * rs <= 1.02 -> seen_at (vsub (body p al de) (observer rs rc (th0 - L))) a' d' ->
  let '(da, dd) := Topocentric2 al de D rs rc L th0 in
  norm (vsub (dir a' d') (dir (al + da) (de + dd))) <= 3 * (p * p) / (cos de * cos de).
Proof. exact Topocentric2_error. Qed.
Print Assumptions C55_Topocentric2_error.
(** The hypotheses hold for every body farther than 0.0001 AU and every observer nearer
    to the centre than the body. *)
Theorem C55_hypotheses : forall al de D rs rc L th0, 0.0001 <= D ->
  let p := HorizontalParallax D in
  0 < sin p /\ (rc * rc + rs * rs < 1 / (sin p * sin p) -> vsub (body p al de) (observer rs rc (th0 - L)) <> vzero).
Proof. exact (fun al de D rs rc L th0 H => conj (HorizontalParallax_sin D H) (Topocentric_nonzero al de D rs rc L th0 (HorizontalParallax_sin D H))). Qed.
Print Assumptions C55_hypotheses.
Example C55_nonvacuous : forall D rc, 0.0001 <= D -> 0 < rc ->
  0 < sin (HorizontalParallax D) /\
  cos (PI / 2) - rc * sin (HorizontalParallax D) * cos (Mod1 (0 - 0 - 0)) < 0 /\
  0 < cos (PI / 2) - rc * sin (HorizontalParallax D) * cos (Mod1 (PI - 0 - 0)).
Proof.
  intros D rc H R. pose proof (HorizontalParallax_sin D H) as S. rewrite !Mod1_cos, !Rminus_0_r, cos_0, cos_PI, cos_PI2.
  assert (0 < rc * sin (HorizontalParallax D)) by (apply Rmult_lt_0_compat; assumption). lra.
Qed.

(** ** C72 *)
(** Sine of the Moon's topocentric semidiameter: its radius, 0.272481 Earth radii, over its
    distance from the observer. *)
Theorem C72_moon_topocentric : forall D de H rs rc, let p := HorizontalParallax D in 0 < sin p ->
  forall al th, th - al = H -> let T := vsub (body p al de) (observer rs rc th) in T <> vzero ->
  MoonTopocentric D de H rs rc = 0.272481 / norm T.
Proof. exact MoonTopocentric_geom. Qed.
Print Assumptions C72_moon_topocentric.
(** The second method gives a Moon on the horizon 16% too small. *)
Theorem C72_moon_topocentric2_refuted : forall D, 0 < D -> MoonTopocentric2 D 0 < 84 / 100 * (0.272481 * HorizontalParallax D).
Proof. exact MoonTopocentric2_error. Qed.
Print Assumptions C72_moon_topocentric2_refuted.
(** Saturn: an ellipsoid seen at latitude B. *)
Theorem C72_saturn_ellipsoid : forall D B, 0 < D ->
  0 < SaturnApparentPolar D B /\
  D * SaturnApparentPolar D B * (D * SaturnApparentPolar D B) =
  SaturnEquatorial * SaturnEquatorial * (sin B * sin B) + SaturnPolar * SaturnPolar * (cos B * cos B).
Proof. exact SaturnApparentPolar_sq. Qed.
Print Assumptions C72_saturn_ellipsoid.
Theorem C72_saturn_between : forall D B, 0 < D ->
  Semidiameter SaturnPolar D <= SaturnApparentPolar D B <= Semidiameter SaturnEquatorial D.
Proof. exact SaturnApparentPolar_between. Qed.
Print Assumptions C72_saturn_between.
Theorem C72_saturn_ends : forall D, 0 < D ->
  SaturnApparentPolar D 0 = Semidiameter SaturnPolar D /\ SaturnApparentPolar D (PI / 2) = Semidiameter SaturnEquatorial D.
Proof. exact SaturnApparentPolar_ends. Qed.
Print Assumptions C72_saturn_ends.
(** Asteroids: reflected light is albedo times the square of the diameter. *)
Theorem C72_asteroid : forall H H' A A', 0 < A -> 0 < A' ->
  (A * (AsteroidDiameter H A * AsteroidDiameter H A)) * S_light.brightness H' =
  (A' * (AsteroidDiameter H' A' * AsteroidDiameter H' A')) * S_light.brightness H.
Proof. exact AsteroidDiameter_light. Qed.
Print Assumptions C72_asteroid.
Example C72_nonvacuous : 0 < sin (HorizontalParallax 0.0025).
Proof. apply HorizontalParallax_sin. decimals. lra. Qed.

(** ** C57: the third and fourth degree terms of the mean lunar arguments are dropped. *)
Theorem C57_node_refuted : exists jde, ~ same_angle (Node jde) (AngleFromDeg (docNode (century jde))) /\
  Rabs (docNode (century jde) - nodeDeg (century jde)) > 7 / 100.
Proof. exact Node_wrong. Qed.
Print Assumptions C57_node_refuted.
Theorem C57_perigee_refuted : exists jde, ~ same_angle (Perigee jde) (AngleFromDeg (docPerigee (century jde))) /\
  Rabs (docPerigee (century jde) - perigeeDeg (century jde)) > 37 / 100.
Proof. exact Perigee_wrong. Qed.
Print Assumptions C57_perigee_refuted.
Theorem C57_phase_angle_refuted : exists T,
  ~ same_angle (illumD T) (AngleFromDeg (docD T)) /\ ~ same_angle (illumM T) (AngleFromDeg (docM T)) /\ ~ same_angle (illumM' T) (AngleFromDeg (docM' T)).
Proof. exact illum_wrong. Qed.
Print Assumptions C57_phase_angle_refuted.
Theorem C57_semidiameter_refuted : Moon = AngleFromSec 2 /\ AngleFromSec 2.396 < AngleFromSec (358473400 / 149597870).
Proof. exact Moon_wrong. Qed.
Print Assumptions C57_semidiameter_refuted.
(** What is computed, and how far it is from the documented value (degrees). *)
Theorem C57_node_partial : forall jde,
  same_angle (Node jde) (AngleFromDeg (docNode (century jde) - (century jde ^ 3 / 467441 - century jde ^ 4 / 60616000))) /\ 0 <= Node jde < 2 * PI.
Proof. exact Node_good. Qed.
Print Assumptions C57_node_partial.
Theorem C57_perigee_partial : forall jde,
  same_angle (Perigee jde) (AngleFromDeg (docPerigee (century jde) - (- (century jde ^ 3) / 80053 + century jde ^ 4 / 18999000))) /\ 0 <= Perigee jde < 2 * PI.
Proof. exact Perigee_good. Qed.
Print Assumptions C57_perigee_partial.
Theorem C57_arguments_error : forall T,
  docNode T - nodeDeg T = T ^ 3 / 467441 - T ^ 4 / 60616000 /\
  docPerigee T - perigeeDeg T = - (T ^ 3) / 80053 + T ^ 4 / 18999000 /\
  docF T - argF T = - (T ^ 3) / 3526000 + T ^ 4 / 863310000 /\
  docD T - argD T = T ^ 3 / 545868 - T ^ 4 / 113065000 /\
  docM T - argM T = T ^ 3 / 24490000 /\
  docM' T - argM' T = T ^ 3 / 69699 - T ^ 4 / 14712000.
Proof. exact args_error. Qed.
Print Assumptions C57_arguments_error.
Theorem C57_arguments_this_century_partial : forall T, -1 <= T <= 1 ->
  Rabs (docNode T - nodeDeg T) <= 1 / 60000 /\ Rabs (docPerigee T - perigeeDeg T) <= 1 / 60000 /\ Rabs (docF T - argF T) <= 1 / 60000 /\
  Rabs (docD T - argD T) <= 1 / 60000 /\ Rabs (docM T - argM T) <= 1 / 60000 /\ Rabs (docM' T - argM' T) <= 1 / 60000.
Proof. exact args_small. Qed.
Print Assumptions C57_arguments_this_century_partial.
Example C57_nonvacuous : century 2451545 = 0 /\ century 2488070 = 1.
Proof. unfold century. split; field. Qed.
