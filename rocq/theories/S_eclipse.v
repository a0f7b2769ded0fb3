(** Specification for eclipses: discs and shadows, in equatorial Earth radii. *)
From Coq Require Import Reals.
From Verif Require Import M_eclipse. (* for the type eclipseType only *)
Local Open Scope R_scope.

(** Radius of the Moon; radius of the Earth as used for solar eclipses. *)
Definition moonRadius : R := 0.2725.
Definition earthRadius : R := 0.9972.

(** A disc of radius r whose centre is at distance g from the centre of a circle of
    radius s: inside it, meeting it, outside it. *)
Definition disc_inside (g r s : R) : Prop := g + r < s.
Definition disc_meets (g r s : R) : Prop := g < s + r.
Definition disc_outside (g r s : R) : Prop := s + r < g.

(** Distance, at time t (hours) from the middle, of a centre moving at speed n on a
    straight line at least distance g. *)
Definition track (g n t : R) : R := sqrt (g * g + (n * t) * (n * t)).

(** Radii of the Earth's shadow cones at the Moon, from u; the Moon's disc of radius
    [moonRadius] passes at distance g from their axis. *)
Definition umbra (u : R) : R := 0.7403 - u.
Definition penumbra (u : R) : R := 1.2848 + u.
Definition lunarKind (g u : R) (t : eclipseType) : Prop :=
  match t with
  | ETotal => disc_inside g moonRadius (umbra u)
  | EUmbral => ~ disc_inside g moonRadius (umbra u) /\ disc_meets g moonRadius (umbra u)
  | EPenumbral => ~ disc_meets g moonRadius (umbra u) /\ ~ disc_outside g moonRadius (penumbra u)
  | ENone => disc_outside g moonRadius (penumbra u)
  | _ => False
  end.
(** n, the hourly motion used for the semidurations. *)
Definition lunarMotion (M1 : R) : R := 0.5458 + 0.04 * cos M1.

(** Solar eclipses: radius of the penumbral cone; g is the distance of the shadow axis
    from the Earth's centre. *)
Definition solarPenumbra (u : R) : R := u + 0.5461.
(** [grazing]: the umbral cone meets the Earth although its axis does not; the code
    looks for this only when the axis is within 1.026. *)
Definition solarKind (g u : R) (t : eclipseType) : Prop :=
  let outside := disc_outside g (solarPenumbra u) earthRadius in
  let axis := g < earthRadius in
  let grazing := g < 1.026 /\ disc_meets g (Rabs u) earthRadius in
  match t with
  | ENone => outside
  | EPartial => ~ outside /\ ~ axis /\ ~ grazing
  | ETotal => (axis /\ u < 0) \/ (~ axis /\ grazing)
  | EAnnular => axis /\ 0 <= u /\ (0.0047 < u \/ 0.00464 * sqrt (1 - g * g) <= u)
  | EAnnularTotal => axis /\ 0 <= u <= 0.0047 /\ u < 0.00464 * sqrt (1 - g * g)
  | _ => False
  end.
