(** Specification of uniform rotation. *)
From Coq Require Import Reals.
Local Open Scope R_scope.

(** The angle W, a function of the Julian day, makes one turn in sec seconds, to 5 milliseconds. *)
Definition turns_in (W : R -> R) (sec : R) : Prop := forall jd,
  W (jd + (sec - 0.005) / 86400) - W jd < 2 * PI < W (jd + (sec + 0.005) / 86400) - W jd.
