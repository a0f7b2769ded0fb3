(** Specification vocabulary for package iterate. *)
From Coq Require Import ZArith Reals.
From Verif Require Export S_base.
Local Open Scope R_scope.

(** f is continuous at every point between a and b. *)
Definition continuous_between (f : R -> R) (a b : R) : Prop :=
  forall x, between a b x -> continuity_pt f x.

(** The k-th iterate of f from x. *)
Fixpoint iter_n {A : Type} (f : A -> A) (k : nat) (x : A) : A :=
  match k with O => x | S k => f (iter_n f k x) end.

(** f moves any two points closer by the factor q. *)
Definition contraction (f : R -> R) (q : R) : Prop :=
  0 <= q < 1 /\ forall x y, Rabs (f x - f y) <= q * Rabs (x - y).
