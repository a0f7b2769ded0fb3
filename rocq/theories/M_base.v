(** Model of package base (v3/base): base/math.go, julian.go. *)
From Coq Require Import ZArith Bool List Reals.
From Verif Require Import GoInt GoFloat.
Import ListNotations.
Local Open Scope Z_scope.
Local Open Scope go_scope.

(** base/math.go:42-48 FloorDiv (and 55-61 FloorDiv64, the same text on int64),
    for a divisor known to be non-zero. *)
Definition floordiv (x y : Z) : Z :=
  let q := x /! y in
  if xorb (x <? 0) (y <? 0) && negb (x %! y =? 0) then q -! 1 else q.

(** base/math.go:42-48.  [None] is the run-time panic "integer divide by zero". *)
Definition FloorDiv (x y : Z) : option Z :=
  if y =? 0 then None else Some (floordiv x y).

(** base/math.go:55-61. *)
Definition FloorDiv64 (x y : Z) : option Z := FloorDiv x y.

Section Generic.
Context {fl : Flt}.
Local Open Scope flt_scope.

(** base/math.go:68-76 *)
Definition Cmp (a b : F) : Z :=
  if a <? b then (-1)%Z else if b <? a then 1%Z else 0%Z.

(** base/math.go:27-35.  The loop [for i > 0 { i--; y = y*x + c[i] }] walks the
    slice from the last coefficient to the first, i.e. over the reversed list. *)
Fixpoint horner_loop (x y : F) (rc : list F) : F :=
  match rc with
  | [] => y
  | ci :: rest => horner_loop x (y * x + ci) rest
  end.

(** base/math.go:27-35.  [None] is the index-out-of-range panic of c[len(c)-1]. *)
Definition Horner (x : F) (c : list F) : option F :=
  match rev c with
  | [] => None
  | y :: rest => Some (horner_loop x y rest)
  end.

(** base/julian.go:13-28 *)
Definition J2000 : F := fconst 2451545 1.
Definition JulianYear : F := fconst 36525 100.
Definition JulianCentury : F := fconst 36525 1.
Definition BesselianYear : F := fconst 3652421988 10000000.
Definition B1900 : F := fconst 24150203135 10000.
Definition B1950 : F := fconst 24332824235 10000.

(** base/julian.go:32-34 *)
Definition JulianYearToJDE (jy : F) : F := J2000 + JulianYear * (jy - fconst 2000 1).
(** base/julian.go:37-39 *)
Definition JDEToJulianYear (jde : F) : F := fconst 2000 1 + (jde - J2000) / JulianYear.
(** base/julian.go:42-44 *)
Definition BesselianYearToJDE (b : F) : F := B1900 + BesselianYear * (b - fconst 1900 1).
(** base/julian.go:47-49 *)
Definition JDEToBesselianYear (jde : F) : F := fconst 1900 1 + (jde - B1900) / BesselianYear.
(** base/julian.go:54-60 *)
Definition J2000Century (jde : F) : F := (jde - J2000) / JulianCentury.
End Generic.
