(** Specification for P_eqtime: seconds of time as an angle, in radians. *)
From Coq Require Import Reals.
Local Open Scope R_scope.
Definition seconds (x : R) : R := x * (2 * PI / 86400).
