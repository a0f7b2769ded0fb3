(** Property theorems: the standard altitudes of rise (C114) and the semidiameter of an asteroid (C115). *)
From Coq Require Import Reals Lra.
From Verif Require Import GoMath M_solar M_moon M_light M_refraction M_rise M_semidiameter S_solar S_stdalt L_precess L_stdalt.
Local Open Scope R_scope.

(** ** C114 *)
(** The Moon, a sphere of 0.272481 Earth radii: Stdh0Lunar of its parallax is the altitude of its centre when the upper limb,
    raised by 34 minutes of arc, is on the horizon. *)
Theorem C114_moon : forall D s, 350000 <= D <= 415000 -> subtends (0.272481 * 6378.14) D s ->
  Rabs (Stdh0Lunar (MoonParallax D) - limb_altitude (MoonParallax D) s (AngleFromMin 34)) <= arcsec 0.13.
Proof. exact stdalt_moon. Qed.
Print Assumptions C114_moon.
(** The mean value is never more than 206 seconds of arc from the one for the distance of the date. *)
Theorem C114_moon_mean : forall jde, let T := (jde - 2451545) / 36525 in Rabs T <= 20 ->
  let '(_, _, r) := MoonPosition jde in Rabs (Stdh0Lunar (MoonParallax r) - Stdh0LunarMean) <= arcsec 206.
Proof. exact stdalt_moon_mean. Qed.
Print Assumptions C114_moon_mean.
(** The Sun, of semidiameter 959.63 seconds of arc at the mean distance and no parallax, through the year. *)
Theorem C114_sun : forall T, Rabs T <= 100 -> Rabs (Stdh0Solar - limb_altitude 0 (Semidiameter Sun (Radius T)) (AngleFromMin 34)) <= arcsec 21.
Proof. exact stdalt_sun. Qed.
Print Assumptions C114_sun.
(** A star: the refraction that package refraction gives on the horizon, to a minute of arc. *)
Theorem C114_star : Rabs (Stdh0Stellar - limb_altitude 0 0 (Bennett 0)) <= AngleFromMin 1.
Proof. exact stdalt_star. Qed.
Print Assumptions C114_star.
Example C114_nonvacuous : subtends (0.272481 * 6378.14) 384400 (asin (0.272481 * 6378.14 / 384400)).
Proof. exact stdalt_example. Qed.

(** ** C115 *)
(** The full property, that Asteroid returns the semidiameter of a sphere of the given diameter, is false: the value
    exceeds 1.9 times the semidiameter, at every distance. *)
Theorem C115_asteroid_refuted : forall d D s, 0 < d -> 0 < D -> d <= D * au_km -> subtends (d / 2) (D * au_km) s -> 19 / 10 * s < Asteroid d D.
Proof. exact asteroid_half. Qed.
Print Assumptions C115_asteroid_refuted.
(** It is the angular diameter. *)
Theorem C115_asteroid_partial : forall d D s, 0 < d -> 0 < D -> d <= D * au_km / 100 -> subtends (d / 2) (D * au_km) s -> Rabs (Asteroid d D - 2 * s) <= s / 10000.
Proof. exact asteroid_diameter. Qed.
Print Assumptions C115_asteroid_partial.
(** A diameter of one kilometre at one astronomical unit. *)
Example C115_nonvacuous : 0 < 1 /\ 1 <= 1 * au_km / 100 /\ subtends (1 / 2) (1 * au_km) (asin (1 / 2 / au_km)).
Proof. split; [lra|]. split; [unfold au_km; lra | exact asteroid_example]. Qed.
