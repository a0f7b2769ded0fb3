(** Property C120: the orbit packages obey one law of areas. *)
From Coq Require Import ZArith Reals.
From Verif Require Import S_kepler S_conic M_iterate M_kepler M_orbit L_areas.
Local Open Scope R_scope.

(** The law of areas determines the time of passage. *)
Theorem C120_passage_unique : forall k q e tau1 tau2 phi, passage_time k q e tau1 -> passage_time k q e tau2 ->
  0 <= e -> - PI < phi < PI -> 0 < 1 + e * cos phi -> tau1 phi = tau2 phi.
Proof. exact passage_unique. Qed.
Print Assumptions C120_passage_unique.

(** kepler.True and kepler.Radius: for an ellipse of semimajor axis [a] the point
    of eccentric anomaly [E] is passed when Kepler's equation says so. *)
Theorem C120_kepler : forall a e tau E, 0 < a -> 0 <= e < 1 -> - PI < E < PI -> passage_time K (a * (1 - e)) e tau ->
  - PI < True E e < PI /\ Radius E e a = conic_radius (a * (1 - e)) e (True E e) /\
  forall t, K / (a * sqrt a) * (tau (True E e) - t) = E - e * sin E - K / (a * sqrt a) * t.
Proof. exact kepler_areas. Qed.
Print Assumptions C120_kepler.

Theorem C120_Kepler2b : forall a e tau t p E, 0 < a -> 0 <= e < 1 -> passage_time K (a * (1 - e)) e tau ->
  Kepler2b e (K / (a * sqrt a) * t) p = Ok E -> - PI < E < PI ->
  Rabs (tau (True E e) - t) <= e * powerRZ 10 (- (2 * p)) / (K / (a * sqrt a)).
Proof. exact kepler2b_areas. Qed.
Print Assumptions C120_Kepler2b.

(** parabolic. *)
Theorem C120_parabolic : forall q T t tau, 0 < q -> passage_time K q 1 tau ->
  let '(v, r) := Par_AnomalyDistance (mkPar T q) t in - PI < v < PI /\ tau v = t - T /\ r = conic_radius q 1 v.
Proof. exact parabolic_areas. Qed.
Print Assumptions C120_parabolic.

(** node: the anomaly is minus the argument of perihelion, or half a turn more. *)
Theorem C120_EllipticAscending : forall a e w T tau, 0 < a -> 0 <= e < 1 -> - PI < - w < PI -> passage_time K (a * (1 - e)) e tau ->
  EllipticAscending a e w T = (T + tau (- w), conic_radius (a * (1 - e)) e (- w)).
Proof. exact (fun a e w T => node_el_areas (- w) a e T). Qed.
Print Assumptions C120_EllipticAscending.

Theorem C120_EllipticDescending : forall a e w T tau, 0 < a -> 0 <= e < 1 -> - PI < PI - w < PI -> passage_time K (a * (1 - e)) e tau ->
  EllipticDescending a e w T = (T + tau (PI - w), conic_radius (a * (1 - e)) e (PI - w)).
Proof. exact (fun a e w T => node_el_areas (PI - w) a e T). Qed.
Print Assumptions C120_EllipticDescending.

Theorem C120_ParabolicAscending : forall q w T tau, 0 < q -> - PI < - w < PI -> passage_time K q 1 tau ->
  let '(jde, r) := ParabolicAscending q w T in
  r = conic_radius q 1 (- w) /\ Rabs (jde - (T + tau (- w))) <= 1 / 50000000 * Rabs (tau (- w)).
Proof. exact (fun q w T => node_pa_areas (- w) q T). Qed.
Print Assumptions C120_ParabolicAscending.

Theorem C120_ParabolicDescending : forall q w T tau, 0 < q -> - PI < PI - w < PI -> passage_time K q 1 tau ->
  let '(jde, r) := ParabolicDescending q w T in
  r = conic_radius q 1 (PI - w) /\ Rabs (jde - (T + tau (PI - w))) <= 1 / 50000000 * Rabs (tau (PI - w)).
Proof. exact (fun q w T => node_pa_areas (PI - w) q T). Qed.
Print Assumptions C120_ParabolicDescending.

(** nearparabolic and kepler agree: a value returned for an ellipse satisfies
    Kepler's equation to 4e-7 times sqrt((1-e)/(1+e)) r/a. *)
Theorem C120_nearparabolic_kepler : forall N T a e jde v r, 0 < a -> 1 / 2 <= e < 1 ->
  NP_AnomalyDistance N (mkNP T (a * (1 - e)) e) jde = Value (v, r) ->
  exists E, - PI < E < PI /\ same_angle v (True E e) /\ r = Radius E e a /\
    Rabs (E - e * sin E - K / (a * sqrt a) * (jde - T)) <= 4 / 10000000 * (sqrt ((1 - e) / (1 + e)) * (1 - e * cos E)).
Proof. exact nearpar_kepler. Qed.
Print Assumptions C120_nearparabolic_kepler.

(** Kepler2b returns such an anomaly, and nearparabolic returns a value for an
    ellipse of eccentricity 0.999. *)
Example C120_nonvacuous_Kepler2b : exists t E, 0 < t /\ Kepler2b (1 / 10) (K / (1 * sqrt 1) * t) 4 = Ok E /\ - PI < E < PI.
Proof. exact kepler2b_example. Qed.
Example C120_nonvacuous_nearparabolic : forall T, exists v r, 0 < v < PI / 2 /\
  NP_AnomalyDistance 1 (mkNP T (1000 * (1 - 999 / 1000)) (999 / 1000)) (T + 1) = Value (v, r).
Proof. exact nearpar_example. Qed.
