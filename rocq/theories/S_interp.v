(** Specification vocabulary for package interp. *)
From Coq Require Import ZArith List Reals.
From Verif Require Import S_base.
Import ListNotations.
Local Open Scope R_scope.

(** The k-th abscissa (counting from 0) of a table of n rows equally spaced from x1 to xn. *)
Definition abscissa (x1 xn : R) (n : Z) (k : Z) : R := x1 + IZR k * (xn - x1) / IZR (n - 1).

(** y is the table of values of f at n abscissae equally spaced from x1 to xn. *)
Definition tabulates (f : R -> R) (x1 xn : R) (y : list R) : Prop :=
  forall k, (k < length y)%nat ->
    nth k y 0 = f (abscissa x1 xn (Z.of_nat (length y)) (Z.of_nat k)).

(** f is a polynomial function of degree at most n. *)
Definition poly_degree_le (n : nat) (f : R -> R) : Prop :=
  exists c, (length c <= S n)%nat /\ forall x, f x = poly c x.

(** Global extremum. *)
Definition is_maximum (f : R -> R) (x : R) : Prop := forall x', f x' <= f x.
Definition is_minimum (f : R -> R) (x : R) : Prop := forall x', f x <= f x'.

(** Stationary point. *)
Definition stationary (f : R -> R) (x : R) : Prop := derivable_pt_lim f x 0.
