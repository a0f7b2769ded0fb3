(** Properties C38, C59, C61, C62 and C66: orbits. *)
From Coq Require Import ZArith Reals Bool List Lra.
From Verif Require Import GoFloat GoMath S_base S_Sphere S_kepler S_ellipse M_kepler M_orbit L_trig L_kepler L_orbit L_orbit2 L_ellipse.
Import ListNotations.
Local Open Scope R_scope.

(** ** C38 *)
Theorem C38_parabolic : forall q T t, 0 < q ->
  let '(v, r) := Par_AnomalyDistance (mkPar T q) t in
  - PI < v < PI /\
  tan (v / 2) + tan (v / 2) * tan (v / 2) * tan (v / 2) / 3 = K / sqrt 2 * (t - T) / (q * sqrt q) /\
  0 < 1 + cos v /\ r = 2 * q / (1 + cos v) /\ q <= r /\ (r = q <-> t = T).
Proof. exact Par_ok. Qed.
Print Assumptions C38_parabolic.

Theorem C38_symmetric : forall q T t, 0 < q ->
  let '(v1, r1) := Par_AnomalyDistance (mkPar T q) (T + t) in
  let '(v2, r2) := Par_AnomalyDistance (mkPar T q) (T - t) in v2 = - v1 /\ r2 = r1.
Proof. exact Par_sym. Qed.
Print Assumptions C38_symmetric.

Example C38_nonvacuous : Par_AnomalyDistance (mkPar 2450000 1) 2450000 = (0, 1).
Proof. exact Par_example. Qed.

(** ** C59 *)

(** With enough fuel for its unbounded inner loop the function always returns:
    a value or the convergence error. *)
Theorem C59_terminates : forall e jde, exists N, forall m, NP_AnomalyDistance (N + m) e jde <> OutOfFuel.
Proof. exact NP_ends. Qed.
Print Assumptions C59_terminates.

(** The value returned does not depend on the fuel. *)
Theorem C59_fuel_irrelevant : forall e jde N m, NP_AnomalyDistance N e jde <> OutOfFuel ->
  NP_AnomalyDistance (N + m) e jde = NP_AnomalyDistance N e jde.
Proof. exact NP_fuel. Qed.
Print Assumptions C59_fuel_irrelevant.

Theorem C59_value : forall N e jde v r, 0 <= n_Ecc e -> NP_AnomalyDistance N e jde = Value (v, r) ->
  0 <= v < 2 * PI /\ v <> PI /\ r = n_PDis e * (1 + n_Ecc e) / (1 + n_Ecc e * cos v).
Proof. exact NP_value. Qed.
Print Assumptions C59_value.

(** An exactly parabolic orbit gives the result of package parabolic. *)
Theorem C59_parabolic : forall N q T t, 0 < q ->
  let '(v, r) := Par_AnomalyDistance (mkPar T q) t in
  exists v', NP_AnomalyDistance N (mkNP T q 1) t = Value (v', r) /\ same_angle v' v.
Proof. exact NP_parabolic. Qed.
Print Assumptions C59_parabolic.

Example C59_nonvacuous : NP_AnomalyDistance 0 (mkNP 2450000 1 (99 / 100)) 2450000 = Value (0, 1).
Proof. exact NP_example. Qed.

(** ** C61 *)

(** The time and distance of a node: the eccentric anomaly there satisfies
    Kepler's equation at that time and its true anomaly is [- argP] (ascending)
    or [PI - argP] (descending). *)
Definition at_anomaly (v axis ecc timeP jde r : R) : Prop :=
  exists E, solves ecc (K / (axis * sqrt axis) * (jde - timeP)) E /\ r = Radius E ecc axis /\
    sin (True E ecc) = sin v /\ cos (True E ecc) = cos v.

Theorem C61_EllipticAscending : forall axis ecc argP timeP, 0 < axis -> 0 <= ecc < 1 -> cos (- argP / 2) <> 0 ->
  let '(jde, r) := EllipticAscending axis ecc argP timeP in at_anomaly (- argP) axis ecc timeP jde r.
Proof. exact (fun a e w T => node_el_ok (- w) a e T). Qed.
Print Assumptions C61_EllipticAscending.

Theorem C61_EllipticDescending : forall axis ecc argP timeP, 0 < axis -> 0 <= ecc < 1 -> cos ((PI - argP) / 2) <> 0 ->
  let '(jde, r) := EllipticDescending axis ecc argP timeP in at_anomaly (PI - argP) axis ecc timeP jde r.
Proof. exact (fun a e w T => node_el_ok (PI - w) a e T). Qed.
Print Assumptions C61_EllipticDescending.

(** Parabolic orbits: the constant 27.403895 makes the time since perihelion
    right to one part in 10^7; the distance is exact. *)
Definition at_anomaly_par (v q timeP jde r : R) : Prop :=
  exists t, (let '(v', r') := Par_AnomalyDistance (mkPar timeP q) t in sin v' = sin v /\ cos v' = cos v /\ r = r') /\
    Rabs (jde - t) <= 1 / 10000000 * Rabs (t - timeP).

Theorem C61_ParabolicAscending : forall q argP timeP, 0 < q -> cos (- argP / 2) <> 0 ->
  let '(jde, r) := ParabolicAscending q argP timeP in at_anomaly_par (- argP) q timeP jde r.
Proof. exact (fun q w T => node_pa_ok (- w) q T). Qed.
Print Assumptions C61_ParabolicAscending.

Theorem C61_ParabolicDescending : forall q argP timeP, 0 < q -> cos ((PI - argP) / 2) <> 0 ->
  let '(jde, r) := ParabolicDescending q argP timeP in at_anomaly_par (PI - argP) q timeP jde r.
Proof. exact (fun q w T => node_pa_ok (PI - w) q T). Qed.
Print Assumptions C61_ParabolicDescending.

(** Position angle and separation of a binary star: the projected true orbit. *)
Theorem C61_binary_Position : forall e a i Om om E, 0 <= e < 1 -> 0 <= a -> cos (E / 2) <> 0 ->
  let '(th, rho) := binary_Position e a i Om om E in
  let r := Radius E e a in let v := True E e in
  0 <= th < 2 * PI /\ 0 <= rho /\ rho * cos (th - Om) = r * cos (v + om) /\ rho * sin (th - Om) = r * sin (v + om) * cos i.
Proof. exact binary_Position_ok. Qed.
Print Assumptions C61_binary_Position.

Theorem C61_binary_M : forall year T P, P <> 0 -> 0 <= binary_M year T P < 2 * PI /\ same_angle (binary_M year T P) (2 * PI * ((year - T) / P)).
Proof. exact binary_M_ok. Qed.
Print Assumptions C61_binary_M.

Theorem C61_ApparentEccentricity : forall e i om, 0 <= e < 1 -> cos i <> 0 ->
  on_ellipse (proj_x e om) (proj_y e i om) (ApparentEccentricity e i om).
Proof. exact apparent_ellipse. Qed.
Print Assumptions C61_ApparentEccentricity.

(** An orbit seen face on keeps its eccentricity. *)
Theorem C61_ApparentEccentricity_face_on : forall e om, 0 <= e < 1 -> ApparentEccentricity e 0 om = e.
Proof. exact apparent_face. Qed.
Print Assumptions C61_ApparentEccentricity_face_on.

Example C61_nonvacuous : cos (- (PI / 2) / 2) <> 0 /\ cos ((PI - PI / 2) / 2) <> 0 /\ cos (PI / 4) <> 0.
Proof. exact node_example. Qed.

(** ** C62 *)
Theorem C62_Velocity_decreasing : forall a r1 r2, 0 < a -> 0 < r1 < r2 -> r2 <= 2 * a -> Velocity a r2 < Velocity a r1.
Proof. exact Velocity_dec. Qed.
Print Assumptions C62_Velocity_decreasing.

Theorem C62_VPerihelion : forall a e, 0 < a -> 0 <= e < 1 ->
  Rabs (Velocity a (a * (1 - e)) - VPerihelion a e) <= 1 / 1000000 * VPerihelion a e.
Proof. exact vel_perihelion. Qed.
Print Assumptions C62_VPerihelion.

Theorem C62_VAphelion : forall a e, 0 < a -> 0 <= e < 1 ->
  Rabs (Velocity a (a * (1 + e)) - VAphelion a e) <= 1 / 1000000 * VAphelion a e.
Proof. exact vel_aphelion. Qed.
Print Assumptions C62_VAphelion.

Theorem C62_circle : forall n a, 0 < a -> Length1 a 0 = 2 * PI * a /\ Length2 a 0 = 2 * PI * a /\ Length4_after n a 0 = 2 * PI * a.
Proof. exact Length_circle. Qed.
Print Assumptions C62_circle.

(** Lengths lie between the circumferences of the circles with the mean of the
    semiaxes and the semimajor axis as radius; the partial sums of Length4 increase. *)
Theorem C62_Length_bounds_partial : forall a e, 0 < a -> 0 <= e < 1 ->
  let b := a * sqrt (1 - e * e) in
  PI * (a + b) <= Length1 a e <= 2 * PI * a /\ PI * (a + b) <= Length2 a e <= 2 * PI * a /\
  forall n, PI * (a + b) <= Length4_after n a e <= 2 * PI * a /\ Length4_after n a e <= Length4_after (S n) a e.
Proof. exact Length_bounds. Qed.
Print Assumptions C62_Length_bounds_partial.

(** The perimeter of an ellipse is at least twice its long axis: so is Length2;
    Length1 is less than that for high eccentricities. *)
Theorem C62_Length2_axis : forall a e, 0 < a -> 0 <= e < 1 -> 4 * a <= Length2 a e.
Proof. exact Length2_4a. Qed.
Print Assumptions C62_Length2_axis.
Theorem C62_Length1_refuted : exists e, 0 <= e < 1 /\ forall a, 0 < a -> Length1 a e < 4 * a.
Proof. exact Length1_short. Qed.
Print Assumptions C62_Length1_refuted.

(** The ellipse has exactly one length (see S_ellipse); it is at least twice the long axis. *)
Theorem C62_length_exists : forall a e, 0 < a -> 0 <= e < 1 -> let b := a * sqrt (1 - e * e) in
  exists L, perimeter a b L /\ (forall L', perimeter a b L' -> L' = L) /\ 4 * a <= L <= 2 * PI * a.
Proof. exact perimeter_spec. Qed.
Print Assumptions C62_length_exists.
(** The sums of Length4 converge to that length, as fast as the powers of m. *)
Theorem C62_Length4_exact : forall a e L, 0 < a -> 0 <= e < 1 -> perimeter a (a * sqrt (1 - e * e)) L ->
  let b := a * sqrt (1 - e * e) in let m := (a - b) / (a + b) in
  (forall n, (1 <= n)%nat -> Rabs (L - Length4_after n a e) <= 8 * PI * (a + b) * m ^ S n) /\ Un_cv (fun n => Length4_after n a e) L.
Proof. exact Length4_limit. Qed.
Print Assumptions C62_Length4_exact.
(** Length1 is never too long, Length2 never too short; both differ from the length by a small multiple of m^6. *)
Theorem C62_Length1_Length2 : forall a e L, 0 < a -> 0 <= e < 1 -> perimeter a (a * sqrt (1 - e * e)) L ->
  let b := a * sqrt (1 - e * e) in let m := (a - b) / (a + b) in
  0 <= L - Length1 a e <= PI * (a + b) * (m ^ 6 / 100) /\ 0 <= Length2 a e - L <= PI * (a + b) * (3 / 64 * m ^ 6).
Proof. exact Length12. Qed.
Print Assumptions C62_Length1_Length2.

Example C62_nonvacuous : 0 < 1 < 2 /\ 2 <= 2 * 1 /\ Velocity 1 2 = 0.
Proof. exact Velocity_example. Qed.

(** ** C66 *)

(** The heliocentric position of a body on an elliptic orbit: the point of the
    orbital plane with the true anomaly of an eccentric anomaly satisfying
    Kepler's equation to 10^-15, turned by argument of perihelion, inclination,
    node and obliquity. *)
Theorem C66_heliocentric : forall se ce k jde,
  let n := K / (e_Axis k * sqrt (e_Axis k)) in
  0 < e_Axis k -> 0 <= e_Ecc k < 1 ->
  exists E m, same_angle m (n * (jde - e_TimeP k)) /\ Rabs (E - e_Ecc k * sin E - m) <= 1 / 1000000000000000 /\
  let r := Radius E (e_Ecc k) (e_Axis k) in let v := True E (e_Ecc k) in
  let w := e_ArgP k + v in
  let ecl := app (transpose (rot_z (e_Node k))) (app (transpose (rot_x (e_Inc k))) (mkvec (r * cos w) (r * sin w) 0)) in
  Ell_xyz se ce k jde = (vx ecl, vy ecl * ce - vz ecl * se, vy ecl * se + vz ecl * ce).
Proof. exact Ell_xyz_ok. Qed.
Print Assumptions C66_heliocentric.

(** Astrometric direction and elongation: the direction of the vector from the
    Earth to the body at the time the light left it, and the angle to the Sun. *)
Theorem C66_astrometric : forall lt sun f jde X Y Z x0 y0 z0 x y z,
  sun jde = (X, Y, Z) -> f jde = (x0, y0, z0) ->
  let D0 := sqrt ((X + x0) * (X + x0) + (Y + y0) * (Y + y0) + (Z + z0) * (Z + z0)) in
  f (jde - lt D0) = (x, y, z) ->
  let u := mkvec (X + x) (Y + y) (Z + z) in let s := mkvec X Y Z in
  u <> vzero -> s <> vzero ->
  let '(ra, dec, psi) := AstrometricJ2000 lt sun f jde in
  0 <= ra < 2 * PI /\ - (PI / 2) <= dec <= PI / 2 /\ scale (norm u) (dir ra dec) = u /\
  0 <= psi <= PI /\ cos psi * (norm u * norm s) = dot u s.
Proof. exact Astrometric_ok. Qed.
Print Assumptions C66_astrometric.

Example C66_nonvacuous : mkvec (1 + 1) (0 + 1) (0 + 0) <> vzero /\ mkvec 1 0 0 <> vzero.
Proof. exact vec_example. Qed.
