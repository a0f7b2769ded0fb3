(** Points of the Euclidean plane and enclosing circles. *)
From Coq Require Import Reals.
Local Open Scope R_scope.

Record pt := mkpt { px : R; py : R }.
Definition pdist (p q : pt) : R := sqrt ((px p - px q) * (px p - px q) + (py p - py q) * (py p - py q)).

(** The circle of centre o and radius rho contains (or passes through) the three points. *)
Definition encloses (o : pt) (rho : R) (a b c : pt) : Prop :=
  pdist o a <= rho /\ pdist o b <= rho /\ pdist o c <= rho.
(** rho is the radius of the smallest circle containing the three points. *)
Definition smallest_enclosing (rho : R) (a b c : pt) : Prop :=
  (exists o, encloses o rho a b c) /\ (forall o rho', encloses o rho' a b c -> rho <= rho').
