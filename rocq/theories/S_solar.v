(** Specification vocabulary for planetary series, solar coordinates and nutation. *)
From Coq Require Import ZArith List Reals.
From Verif Require Import GoMath S_base S_Sphere S_vsop.
Import ListNotations.
Local Open Scope R_scope.

Definition sumR (l : list R) : R := fold_right Rplus 0 l.

(** The sum of A cos(B + C tau) over the terms (A, B, C) of a series. *)
Definition periodic (tau : R) (terms : list (R * R * R)) : R :=
  sumR (map (fun t => let '(a, b, c) := t in a * cos (b + c * tau)) terms).

(** The value of the series of one variable: each is multiplied by a power of time. *)
Definition theory (tau : R) (ss : list (@series R)) : R :=
  sumR (map (fun s => tau ^ s_power s * periodic tau (s_terms s)) ss).

(** Two angles differ by whole turns. *)
Definition same_angle (a b : R) : Prop := exists k, a = b + IZR k * (2 * PI).

(** Seconds of arc. *)
Definition arcsec (x : R) : R := x * (PI / 180 / 3600).
Definition degrees (x : R) : R := x * (PI / 180).

(** The right ascension a and declination d of the point of the sphere with ecliptic
    longitude l and latitude b, for the obliquity eps. *)
Definition equatorial_of (l b eps a d : R) : Prop :=
  0 <= a < 2 * PI /\ - (PI / 2) <= d <= PI / 2 /\ dir a d = app (rot_x (- eps)) (dir l b).

(** A vector of three coordinates. *)
Definition vec_of (p : R * R * R) : vec := let '(x, y, z) := p in mkvec x y z.
