(** Specification vocabulary for package base. *)
From Coq Require Import ZArith List Reals.
Import ListNotations.

(** n <= x / y, as rational numbers, for y <> 0. *)
Definition le_quot (n x y : Z) : Prop :=
  ((0 < y -> n * y <= x) /\ (y < 0 -> x <= n * y))%Z.

(** q is the floor of x / y: the largest integer not greater than it. *)
Definition is_floor (q x y : Z) : Prop :=
  le_quot q x y /\ forall n, le_quot n x y -> (n <= q)%Z.

(** c0 + c1 x + c2 x^2 + ... *)
Fixpoint poly_from (k : nat) (c : list R) (x : R) : R :=
  match c with
  | [] => 0%R
  | c0 :: c' => (c0 * x ^ k + poly_from (S k) c' x)%R
  end.
Definition poly (c : list R) (x : R) : R := poly_from 0 c x.

Definition strictly_increasing (f : R -> R) : Prop := forall x y, (x < y)%R -> (f x < f y)%R.

(** x lies between a and b, in either order. *)
Definition between (a b x : R) : Prop := (Rmin a b <= x <= Rmax a b)%R.
