(** Model of the standard semidiameter of the Sun (the others that are used: M_light, M_parallax). *)
From Coq Require Import Reals.
From Verif Require Import GoMath.
Local Open Scope R_scope.

(** semidiameter/semidiameter.go:17 *)
Definition Sun : R := AngleFromSec 959.63.
