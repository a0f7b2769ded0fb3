(** Properties C119 and C121: near-parabolic motion against Kepler's second law. *)
From Coq Require Import ZArith Reals.
From Verif Require Import S_kepler S_conic M_orbit L_nearpar L_nearpar2.
Local Open Scope R_scope.

(** A true anomaly and distance returned for eccentricities 1/2 to 2 are those
    of a point of the orbit, and the comet is at that point at the time asked
    for within 4e-7 of the time q r / (areal rate). *)
Theorem C119_accurate : forall N el jde v r tau, 0 < n_PDis el -> 1 / 2 <= n_Ecc el <= 2 ->
  passage_time K (n_PDis el) (n_Ecc el) tau -> NP_AnomalyDistance N el jde = Value (v, r) ->
  exists phi, - PI < phi < PI /\ same_angle v phi /\ 0 < 1 + n_Ecc el * cos phi /\ r = conic_radius (n_PDis el) (n_Ecc el) phi /\
    Rabs (tau phi - (jde - n_TimeP el)) <= 4 / 10000000 * (n_PDis el * r / areal_rate K (n_PDis el) (n_Ecc el)).
Proof. exact NP_accurate. Qed.
Print Assumptions C119_accurate.

(** Every such orbit has a time of passage. *)
Theorem C119_passage_exists : forall k q e, 0 < k -> 0 < q -> 0 < 1 + e -> exists tau, passage_time k q e tau.
Proof. exact passage_exists. Qed.
Print Assumptions C119_passage_exists.

(** A value is returned one day after perihelion of an orbit of eccentricity 0.999. *)
Example C119_nonvacuous : forall T, exists v r, 0 < v < PI / 2 /\
  NP_AnomalyDistance 1 (mkNP T 1 (999 / 1000)) (T + 1) = Value (v, r).
Proof. exact NP_returns. Qed.

(** ** C121 *)

(** Near the parabola the function returns a value: if [s0] is the tangent of half
    the anomaly that Barker's equation gives for the time, at most 44, and
    |1-e|/(1+e) s0^2 is at most 1/27. *)
Theorem C121_converges : forall el jde s0, let q := n_PDis el in let e := n_Ecc el in 0 < q -> 1 / 2 <= e <= 2 ->
  s0 + s0 * s0 * s0 / 3 = K * sqrt ((1 + e) / q) / (2 * q) * (jde - n_TimeP el) ->
  Rabs s0 <= 44 -> Rabs ((1 - e) / (1 + e)) * (s0 * s0) <= 1 / 27 ->
  exists N, forall m, exists v r, NP_AnomalyDistance (N + m) el jde = Value (v, r).
Proof. exact NP_converges. Qed.
Print Assumptions C121_converges.

(** Eccentricity 0.98, a quarter of a turn after perihelion on the parabola. *)
Example C121_nonvacuous : exists jde, 10 < jde /\ 1 + 1 * 1 * 1 / 3 = K * sqrt ((1 + 98 / 100) / 1) / (2 * 1) * (jde - 0) /\
  Rabs 1 <= 44 /\ Rabs ((1 - 98 / 100) / (1 + 98 / 100)) * (1 * 1) <= 1 / 27.
Proof. exact NP_converges_example. Qed.
