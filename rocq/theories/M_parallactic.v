(** Model of parallactic over the real numbers; DiurnalPathAtHorizon over the reals with
    infinities and NaN, because tan of latitude 0 is divided by. *)
From Coq Require Import ZArith Reals.
From Flocq Require Import Core.
From Verif Require Import GoFloat GoMath M_coord.
Local Open Scope R_scope.

(** parallactic/parallactic.go:17-22 *)
Definition ParallacticAngle (phi dec H : R) : R :=
  atan2 (sin H) (tan phi * cos dec - sin dec * cos H).

(** parallactic/parallactic.go:27-29 *)
Definition ParallacticAngleOnHorizon (phi dec : R) : R := acos (sin phi / cos dec).

(** parallactic/parallactic.go:41-52; theta in seconds of time. *)
Definition EclipticAtHorizon (eps phi theta : R) : R * R * R :=
  let st := sin (TimeRad theta) in let ct := cos (TimeRad theta) in
  let l := atan2 (- ct) (sin eps * (sin phi / cos phi) + cos eps * st) in
  let l := if Rlt_bool l 0 then l + PI else l in
  (l, l + PI, acos (cos eps * sin phi - sin eps * cos phi * st)).

(** parallactic/parallactic.go:62-64 *)
Definition EclipticAtEquator (l eps : R) : R := atan (- cos l * tan eps).

(** parallactic/parallactic.go:71-76 *)
Definition DiurnalPathAtHorizon (dec phi : R) : xreal :=
  let tp := tan phi in
  let b := tan dec * tp in
  let c := xsqrt (Fin (1 - b * b)) in
  xatan (xdiv (xmul c (Fin (cos dec))) (Fin tp)).
