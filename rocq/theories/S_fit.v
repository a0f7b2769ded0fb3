(** Specification vocabulary for package fit. *)
From Coq Require Import Reals List.
Import ListNotations.
Local Open Scope R_scope.

(** Sum of the squared residuals of the curve y = g x over the data. *)
Fixpoint squared_residuals (g : R -> R) (p : list (R * R)) : R :=
  match p with
  | [] => 0
  | (x, y) :: p => (y - g x) * (y - g x) + squared_residuals g p
  end.

(** The data contain two (three) points of different abscissa; two of different ordinate. *)
Definition two_x (p : list (R * R)) : Prop :=
  exists x1 y1 x2 y2, In (x1, y1) p /\ In (x2, y2) p /\ x1 <> x2.
Definition two_y (p : list (R * R)) : Prop :=
  exists x1 y1 x2 y2, In (x1, y1) p /\ In (x2, y2) p /\ y1 <> y2.
Definition three_x (p : list (R * R)) : Prop :=
  exists x1 y1 x2 y2 x3 y3, In (x1, y1) p /\ In (x2, y2) p /\ In (x3, y3) p /\
    x1 <> x2 /\ x1 <> x3 /\ x2 <> x3.

(** No nontrivial combination of the three functions vanishes on all the data. *)
Definition independent_on (p : list (R * R)) (g0 g1 g2 : R -> R) : Prop :=
  forall u v w, (forall x y, In (x, y) p -> u * g0 x + v * g1 x + w * g2 x = 0) ->
    u = 0 /\ v = 0 /\ w = 0.
