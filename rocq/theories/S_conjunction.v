(** Specification vocabulary for conjunctions. *)
From Coq Require Import Reals List ZArith.
From Verif Require Import S_base S_interp.
Import ListNotations.
Local Open Scope R_scope.

(** The differences of two columns of five rows. *)
Definition diff (l2 l1 : list R) (k : nat) : R := nth k l2 0 - nth k l1 0.

(** Nearly uniform relative motion: the second difference around the middle row and all third
    and fourth differences are at most a hundredth of the change over the middle interval. *)
Definition nearly_uniform (y : nat -> R) : Prop :=
  let D := Rabs (y 3%nat - y 1%nat) in 0 < D /\
  Rabs (y 3%nat - 2 * y 2%nat + y 1%nat) <= D / 100 /\
  Rabs (y 3%nat - 3 * y 2%nat + 3 * y 1%nat - y 0%nat) <= D / 100 /\
  Rabs (y 4%nat - 3 * y 3%nat + 3 * y 2%nat - y 1%nat) <= D / 100 /\
  Rabs (y 4%nat - 4 * y 3%nat + 6 * y 2%nat - 4 * y 1%nat + y 0%nat) <= D / 100.

(** f is the quartic through the five rows. *)
Definition quartic (f : R -> R) (t1 t5 : R) (y : list R) : Prop := poly_degree_le 4 f /\ tabulates f t1 t5 y.

(** t is in the part of [t1, t5] between fractions a and b of it. *)
Definition within (t1 t5 a b t : R) : Prop := exists s, a <= s <= b /\ t = t1 + s * (t5 - t1).

(** Five rows of a coordinate passing x0 + A in the middle with B per row. *)
Definition column (x0 A B : R) : list R := [x0 + (A - 2 * B); x0 + (A - B); x0 + A; x0 + (A + B); x0 + (A + 2 * B)].
