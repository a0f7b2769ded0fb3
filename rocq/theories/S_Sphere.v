(** Directions on the sphere as unit vectors. *)
From Coq Require Import Reals List.
Local Open Scope R_scope.

Record vec := mkvec { vx : R; vy : R; vz : R }.

(** The direction with longitude (right ascension) l and latitude (declination) b. *)
Definition dir (l b : R) : vec := mkvec (cos b * cos l) (cos b * sin l) (sin b).

Definition dot (u v : vec) : R := vx u * vx v + vy u * vy v + vz u * vz v.
Definition cross (u v : vec) : vec :=
  mkvec (vy u * vz v - vz u * vy v) (vz u * vx v - vx u * vz v) (vx u * vy v - vy u * vx v).
Definition vadd (u v : vec) : vec := mkvec (vx u + vx v) (vy u + vy v) (vz u + vz v).
Definition scale (k : R) (u : vec) : vec := mkvec (k * vx u) (k * vy u) (k * vz u).
Definition vsub (u v : vec) : vec := vadd u (scale (-1) v).
Definition norm (u : vec) : R := sqrt (dot u u).
Definition vzero : vec := mkvec 0 0 0.

(** theta is the angular distance of the unit vectors u and v. *)
Definition separation (u v : vec) (theta : R) : Prop := 0 <= theta <= PI /\ cos theta = dot u v.

(** theta is the distance of the unit vector p from the great circle through u and v. *)
Definition distance_to_circle (u v p : vec) (theta : R) : Prop :=
  0 <= theta <= PI / 2 /\ sin theta * norm (cross u v) = Rabs (dot (cross u v) p).

(** Unit vectors toward east and north at the direction (l, b). *)
Definition east (l b : R) : vec := mkvec (- sin l) (cos l) 0.
Definition north (l b : R) : vec := mkvec (- sin b * cos l) (- sin b * sin l) (cos b).

(** theta is the position angle (from north through east) of the direction p as
    seen from the direction (l, b), for p neither that direction nor its opposite. *)
Definition position_angle (l b : R) (p : vec) (theta : R) : Prop :=
  exists r, 0 < r /\ dot p (north l b) = r * cos theta /\ dot p (east l b) = r * sin theta.

(** A 3x3 matrix by rows, its action, and rotations (orthogonal, determinant 1). *)
Record mat := mkmat { r1 : vec; r2 : vec; r3 : vec }.
Definition app (m : mat) (v : vec) : vec := mkvec (dot (r1 m) v) (dot (r2 m) v) (dot (r3 m) v).
Definition rotation (m : mat) : Prop :=
  dot (r1 m) (r1 m) = 1 /\ dot (r2 m) (r2 m) = 1 /\ dot (r1 m) (r2 m) = 0 /\ r3 m = cross (r1 m) (r2 m).
Definition transpose (m : mat) : mat :=
  mkmat (mkvec (vx (r1 m)) (vx (r2 m)) (vx (r3 m)))
        (mkvec (vy (r1 m)) (vy (r2 m)) (vy (r3 m)))
        (mkvec (vz (r1 m)) (vz (r2 m)) (vz (r3 m))).
(** Rotation of the coordinate axes by the angle t about the x or the z axis. *)
Definition rot_x (t : R) : mat := mkmat (mkvec 1 0 0) (mkvec 0 (cos t) (sin t)) (mkvec 0 (- sin t) (cos t)).
Definition rot_z (t : R) : mat := mkmat (mkvec (cos t) (sin t) 0) (mkvec (- sin t) (cos t) 0) (mkvec 0 0 1).
Definition rot_y (t : R) : mat := mkmat (mkvec (cos t) 0 (- sin t)) (mkvec 0 1 0) (mkvec (sin t) 0 (cos t)).
