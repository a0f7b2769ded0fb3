(** Specification vocabulary for the horizon: equatorial frame with the vernal equinox on the
    first axis, so that [dir] takes right ascension and declination and the zenith is
    [dir theta phi]; or, turned, hour angles H as [dir (- H) dec] with the zenith [dir 0 phi]. *)
From Coq Require Import Reals.
From Verif Require Import S_Sphere.
Local Open Scope R_scope.

(** The point of the ecliptic with longitude l, its direction of increasing longitude, and the
    north pole of the ecliptic, for the obliquity eps. *)
Definition ecliptic_point (eps l : R) : vec := app (rot_x (- eps)) (dir l 0).
Definition ecliptic_tangent (eps l : R) : vec := app (rot_x (- eps)) (dir (l + PI / 2) 0).
Definition ecliptic_pole (eps : R) : vec := app (rot_x (- eps)) (mkvec 0 0 1).

(** A direction of hour angle H and declination dec on the horizon of latitude phi. *)
Definition on_horizon (phi H dec : R) : Prop := dot (dir (- H) dec) (dir 0 phi) = 0.
