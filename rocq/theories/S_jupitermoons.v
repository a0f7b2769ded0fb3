(** Specification: satellites of Jupiter. *)
From Coq Require Import Reals.
From Verif Require Import S_Sphere.
Local Open Scope R_scope.

(** From coordinates in the plane of an equator inclined by I0 to an orbit (x axis towards the node of the
    equator on the orbit, at Phi from the node of the orbit) to the ecliptic; the orbit has inclination i and node Om. *)
Definition equator_to_ecliptic (I0 Phi i Om : R) (v : vec) : vec :=
  app (transpose (rot_z Om)) (app (transpose (rot_x i)) (app (transpose (rot_z Phi)) (app (transpose (rot_x I0)) v))).
