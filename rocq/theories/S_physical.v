(** Specification vocabulary for the physical ephemerides of Mars, Jupiter and Saturn's ring. *)
From Coq Require Import Reals List.
From Verif Require Import GoFloat S_Sphere S_precess S_solar M_vsop M_physical.
Import ListNotations.
Local Open Scope R_scope.

(** Coordinates relative to a plane inclined by i with its ascending node at longitude W: first
    axis to the node, third axis to the north pole of the plane. *)
Definition plane_frame (i W : R) (v : vec) : vec := app (rot_x i) (app (rot_z W) v).
(** The frame of the equator of a planet whose pole has right ascension a0 and declination d0. *)
Definition equator_frame (a0 d0 : R) (v : vec) : vec := plane_frame (PI / 2 - d0) (a0 + PI / 2) v.
(** The direction opposite to v, and the direction of v. *)
Definition opposite (v : vec) : vec := scale (-1) v.
Definition unit_of (v : vec) : vec := scale (/ norm v) v.
(** The Earth's motion, in units of the speed of light, for a circular orbit at longitude l0. *)
Definition earth_motion (l0 : R) : vec := scale (degrees 0.005693) (dir (l0 + PI / 2) 0).
(** The direction with coordinates (l, b) moved by (dl, db) is moved by w, to first order. *)
Definition moved_by (l b dl db : R) (w : vec) : Prop := velocity l b dl db = across w (dir l b).
(** Nutation by (dpsi, deps) turns the sky about the poles of the ecliptic and about the equinox. *)
Definition nutation_motion (dpsi deps eps : R) (p : vec) : vec := vadd (scale dpsi (cross (app (rot_x (- eps)) (mkvec 0 0 1)) p)) (scale deps (cross (mkvec 1 0 0) p)).
(** The geocentric position the code works with, and the Earth's position as the code takes it:
    its latitude b0 enters the third component only. *)
Definition gvec (g : geoc) : vec := mkvec (gx g) (gy g) (gz g).
Definition evec (e : R * R * R) : vec := let '(l0, b0, R0) := e in mkvec (R0 * cos l0) (R0 * sin l0) (R0 * sin b0).
(** A planet at rest on the ecliptic of 2000. *)
Definition fixed (L r : R) : @V87Planet R := mkV87 [[(L, 0, 0)]] [[(0, 0, 0)]] [[(r, 0, 0)]].
