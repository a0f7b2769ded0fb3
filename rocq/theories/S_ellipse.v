(** Specification for C62: the length of an ellipse. *)
From Coq Require Import Reals.
Local Open Scope R_scope.

(** Speed of the point (a cos t, b sin t). *)
Definition speed (a b t : R) : R := sqrt ((a * sin t) ^ 2 + (b * cos t) ^ 2).
(** [L] is the length of the ellipse with semiaxes a and b: the increase over one turn of a function of t whose
    derivative is the speed. *)
Definition perimeter (a b L : R) : Prop :=
  exists s : R -> R, (forall t, 0 <= t <= 2 * PI -> derivable_pt_lim s t (speed a b t)) /\ L = s (2 * PI) - s 0.
