(** Specification vocabulary for statements about float64 results. *)
From Coq Require Import ZArith Bool Reals.
From Flocq Require Import Core IEEE754.BinarySingleNaN.
From Verif Require Import GoFloat S_base.
Local Open Scope R_scope.

(** v is a number within d of x. *)
Definition close64 (v : float64) (x d : R) : Prop := is_finite v = true /\ Rabs (B2R v - x) <= d.

(** The rounding error of one operation on numbers up to M: half a unit in the last place, or half the smallest positive number. *)
Definition unit64 (M : R) : R := / 2 ^ 53 * M + bpow radix2 (-1075).

(** f keeps the order of the numbers up to b in magnitude, and takes them to numbers. *)
Definition increasing64 (f : float64 -> float64) (b : R) : Prop :=
  forall x y : float64, is_finite x = true -> is_finite y = true -> Rabs (B2R x) <= b -> Rabs (B2R y) <= b -> B2R x <= B2R y ->
  is_finite (f x) = true /\ is_finite (f y) = true /\ B2R (f x) <= B2R (f y).

(** Either f r is zero, or somewhere between a and b, within d of r, the sign of f is the other one. *)
Definition zero_or_change (f : float64 -> float64) (a b r : float64) (d : R) : Prop :=
  Beqb (f r) (fconst (Flt := BFlt) 0 1) = true \/
  exists q, is_finite q = true /\ between (B2R a) (B2R b) (B2R q) /\ Bsign (f q) <> Bsign (f r) /\ Rabs (B2R q - B2R r) <= d.

(** x is a multiple of 2^-e, of magnitude at most 2^(50-e). *)
Definition on_grid (e : Z) (x : float64) : Prop :=
  is_finite x = true /\ exists k : Z, (Z.abs k <= 2 ^ 50)%Z /\ B2R x = IZR k * bpow radix2 (- e).

(** Every double precision Julian Day from 2^21 to just below 2^22: the years 1029 to 6767, where neighbouring numbers are 2^-31 day (40 microseconds) apart. *)
Definition in_range64 (jd : float64) : Prop := is_finite jd = true /\ 2097152 <= B2R jd <= 4192776.
