(** Kepler's equation and the ellipse. *)
From Coq Require Import ZArith Reals.
Local Open Scope R_scope.

(** E is the eccentric anomaly belonging to the mean anomaly M. *)
Definition solves (e M E : R) : Prop := E - e * sin E = M.

(** Angles equal up to full turns. *)
Definition same_angle (a b : R) : Prop := exists k, a = b + IZR k * (2 * PI).

(** A point of the orbit with unit semimajor axis, eccentricity e, relative to
    the centre of the ellipse, turned by the argument om of periastron and
    projected on the sky with inclination i; E is the eccentric anomaly. *)
Definition proj_x (e om E : R) : R := cos E * cos om - sqrt (1 - e * e) * sin E * sin om.
Definition proj_y (e i om E : R) : R := (cos E * sin om + sqrt (1 - e * e) * sin E * cos om) * cos i.

(** The curve through the points (px t, py t) lies on an ellipse of
    eccentricity ec about the origin: a quadratic form with eigenvalues
    0 < l2 <= l1 is constant on it, and ec^2 = 1 - l2/l1. *)
Definition on_ellipse (px py : R -> R) (ec : R) : Prop :=
  exists qa qb qc k l1 l2 : R, 0 < k /\
    (forall t, qa * (px t * px t) + 2 * qb * (px t * py t) + qc * (py t * py t) = k) /\
    l1 + l2 = qa + qc /\ l1 * l2 = qa * qc - qb * qb /\ 0 < l2 <= l1 /\ ec * ec = 1 - l2 / l1 /\ 0 <= ec < 1.
