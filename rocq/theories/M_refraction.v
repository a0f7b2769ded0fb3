(** Model of refraction over the real numbers.  h.Deg() is h * 180 / pi, Min() is h * 60 * 180 / pi. *)
From Coq Require Import Reals.
From Verif Require Import GoMath.
Local Open Scope R_scope.

(** refraction/refract.go:15-20 *)
Definition gt15true1 : R := AngleFromSec (58294 / 1000).
Definition gt15true2 : R := AngleFromSec (668 / 10000).
Definition gt15app1 : R := AngleFromSec (58276 / 1000).
Definition gt15app2 : R := AngleFromSec (824 / 10000).

(** refraction/refract.go:29-33 *)
Definition Gt15True (h0 : R) : R :=
  let t := tan (PI / 2 - h0) in gt15true1 * t - gt15true2 * (t * t * t).
(** refraction/refract.go:42-46 *)
Definition Gt15Apparent (h : R) : R :=
  let t := tan (PI / 2 - h) in gt15app1 * t - gt15app2 * (t * t * t).

(** refraction/refract.go:56-60 *)
Definition Bennett (h0 : R) : R :=
  let hd := h0 * 180 / PI in
  AngleFromMin (1 / tan ((hd + 731 / 100 / (hd + 44 / 10)) * PI / 180)).
(** refraction/refract.go:68-71 *)
Definition Bennett2 (h0 : R) : R :=
  let R0 := Bennett h0 * 180 / PI * 60 in
  AngleFromMin (R0 - 6 / 100 * sin ((147 / 10 * R0 + 13) * PI / 180)).
(** refraction/refract.go:82-86 *)
Definition Saemundsson (h : R) : R :=
  let hd := h * 180 / PI in
  AngleFromMin (102 / 100 / tan ((hd + 103 / 10 / (hd + 511 / 100)) * PI / 180)).
