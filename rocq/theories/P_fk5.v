(** C111: planetposition.ToFK5 is one small rotation of the whole sky. *)
From Coq Require Import Reals.
From Verif Require Import GoMath S_Sphere S_precess S_fk5 M_solar L_fk5.
Local Open Scope R_scope.

(** The changes of longitude and latitude are, to first order exactly, those of a rotation by the
    vector -(0.03916, 0.03916, 0.09033) arc seconds, fixed in the axes of J2000, whatever the direction. *)
Theorem C111_motion : forall L B jde, cos B <> 0 ->
  let '(L5, B5) := ToFK5 L B jde in velocity L B (L5 - L) (B5 - B) = cross (fk5_rotation (centuries jde)) (dir L B).
Proof. exact fk5_motion. Qed.
Print Assumptions C111_motion.

(** The direction returned is the rotated one, up to 4e-13 (8e-8 arc seconds) over the square of cos B. *)
Theorem C111_rotation : forall L B jde, cos B <> 0 -> let '(L5, B5) := ToFK5 L B jde in
  norm (vsub (dir L5 B5) (vadd (dir L B) (cross (fk5_rotation (centuries jde)) (dir L B)))) <= 4 / 10 ^ 13 / (cos B * cos B).
Proof. exact fk5_rotates. Qed.
Print Assumptions C111_rotation.

(** No direction moves by more than 0.106 arc seconds and that error. *)
Theorem C111_size : forall L B jde, cos B <> 0 -> let '(L5, B5) := ToFK5 L B jde in
  norm (vsub (dir L5 B5) (dir L B)) <= arcsec (106 / 1000) + 4 / 10 ^ 13 / (cos B * cos B).
Proof. exact fk5_moves. Qed.
Print Assumptions C111_size.

(** The cosine of the separation of two places is kept. *)
Theorem C111_separation : forall L B l b jde, cos B <> 0 -> cos b <> 0 ->
  let '(L5, B5) := ToFK5 L B jde in let '(l5, b5) := ToFK5 l b jde in
  Rabs (dot (dir L5 B5) (dir l5 b5) - dot (dir L B) (dir l b)) <= 6 / 10 ^ 13 * (/ (cos B * cos B) + / (cos b * cos b)).
Proof. exact fk5_isometry. Qed.
Print Assumptions C111_separation.

Example C111_nonvacuous : cos 0 <> 0 /\ ToFK5 0 0 2451545 = (arcsec (- (9033 / 100000)), arcsec (3916 / 100000)) /\
  carried (centuries 2451545) = 0 /\ carried (centuries (2451545 + 36525)) <> 0.
Proof. exact fk5_example. Qed.
