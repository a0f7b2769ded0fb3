(** Motion on a conic section about the Sun. *)
From Coq Require Import Reals.
Local Open Scope R_scope.

(** Distance from the focus at true anomaly [phi], for perihelion distance [q]
    and eccentricity [e]. *)
Definition conic_radius (q e phi : R) : R := q * (1 + e) / (1 + e * cos phi).

(** Twice the area swept in unit time: [k] is the Gaussian constant and
    [q * (1 + e)] the semi-latus rectum. *)
Definition areal_rate (k q e : R) : R := k * sqrt (q * (1 + e)).

(** [tau phi] is the time from perihelion to true anomaly [phi]: Kepler's
    second law, r^2 d(phi) = (areal rate) dt, over all anomalies the orbit reaches. *)
Definition passage_time (k q e : R) (tau : R -> R) : Prop :=
  tau 0 = 0 /\
  forall phi, - PI < phi < PI -> 0 < 1 + e * cos phi ->
    derivable_pt_lim tau phi (conic_radius q e phi * conic_radius q e phi / areal_rate k q e).
