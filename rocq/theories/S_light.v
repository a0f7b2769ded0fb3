(** Specification for illumination and magnitudes. *)
From Coq Require Import Reals List.
From Verif Require Import S_Sphere.
Import ListNotations.
Local Open Scope R_scope.

(** theta is the angle at the point p between the directions of the points a and b. *)
Definition angle_at (p a b : vec) (theta : R) : Prop :=
  0 <= theta <= PI /\ norm (vsub a p) * norm (vsub b p) * cos theta = dot (vsub a p) (vsub b p).
(** Possible sides of a triangle. *)
Definition triangle (a b c : R) : Prop := 0 < a /\ 0 < b /\ Rabs (a - b) <= c <= a + b.

(** Brightness of a star of magnitude m (Pogson's scale). *)
Definition brightness (m : R) : R := Rpower 10 (- (2 / 5) * m).
Definition total_brightness (l : list R) : R := fold_right (fun m s => brightness m + s) 0 l.
