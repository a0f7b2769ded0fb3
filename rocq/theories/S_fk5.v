(** The rotation from the dynamical equinox of VSOP87 to that of the FK5 catalogue. *)
From Coq Require Import Reals.
From Verif Require Import GoFloat S_Sphere.
Local Open Scope R_scope.

Definition arcsec (x : R) : R := x / 3600 * PI / 180.
(** T centuries after J2000, general precession has carried the equinox by this angle. *)
Definition carried (T : R) : R := (1397 / 1000 * T + 31 / 100000 * T * T) * PI / 180.
(** The rotation vector: fixed in the axes of J2000, written in the axes of date.  To first order
    a direction p moves by the cross product of this vector and p. *)
Definition fk5_rotation (T : R) : vec := app (rot_z (- carried T)) (mkvec (- arcsec (3916 / 100000)) (- arcsec (3916 / 100000)) (- arcsec (9033 / 100000))).
Definition centuries (jde : R) : R := (jde - 2451545) / 36525.
