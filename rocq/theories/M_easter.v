(** Model of package easter (v3/easter/easter.go). *)
From Coq Require Import ZArith Bool.
From Verif Require Import GoInt.
Local Open Scope Z_scope.
Local Open Scope go_scope.

(** easter/easter.go:8-22 *)
Definition Gregorian (y : Z) : Z * Z :=
  let a := y %! 19 in
  let b := y /! 100 in let c := y %! 100 in
  let d := b /! 4 in let e := b %! 4 in
  let f := (b +! 8) /! 25 in
  let g := ((b -! f) +! 1) /! 3 in
  let h := ((((19 *! a) +! b) -! d) -! g +! 15) %! 30 in
  let i := c /! 4 in let k := c %! 4 in
  let l := (((32 +! 2 *! e) +! 2 *! i) -! h -! k) %! 7 in
  let m := ((a +! 11 *! h) +! 22 *! l) /! 451 in
  let n := ((h +! l) -! 7 *! m) +! 114 in
  (n /! 31, n %! 31 +! 1).

(** easter/easter.go:25-34 *)
Definition Julian (y : Z) : Z * Z :=
  let a := y %! 4 in
  let b := y %! 7 in
  let c := y %! 19 in
  let d := (19 *! c +! 15) %! 30 in
  let e := (((2 *! a) +! 4 *! b) -! d +! 34) %! 7 in
  let f := (d +! e) +! 114 in
  (f /! 31, f %! 31 +! 1).
