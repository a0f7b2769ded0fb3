(** The parabola through three values at -1, 0 and 1, and the path of a point in the plane whose
    two coordinates follow such parabolas. *)
From Coq Require Import Reals List.
Local Open Scope R_scope.

Definition parabola (y0 y1 y2 n : R) : R := y1 + n * (y2 - y0) / 2 + n * n * (y0 - 2 * y1 + y2) / 2.
(** [closest u v n] : the distance of the moving point (u, v) to the origin is least at time n. *)
Definition distance0 (u v : R -> R) (n : R) : R := sqrt (u n * u n + v n * v n).
Definition closest (u v : R -> R) (n : R) : Prop := forall n', distance0 u v n <= distance0 u v n'.
(** The four slices of a table of three rows. *)
Definition three (l : list R) : Prop := length l = 3%nat.
(** Nearly uniform motion: with [s] the motion per row, the second differences at most s/20 and the middle row not farther than s. *)
Definition nearly_uniform (u v : R -> R) (s : R) : Prop :=
  0 < s /\ ((u 1 - u (-1)) / 2) * ((u 1 - u (-1)) / 2) + ((v 1 - v (-1)) / 2) * ((v 1 - v (-1)) / 2) = s * s /\
  distance0 u v 0 <= s /\ (u (-1) - 2 * u 0 + u 1) * (u (-1) - 2 * u 0 + u 1) + (v (-1) - 2 * v 0 + v 1) * (v (-1) - 2 * v 0 + v 1) <= (s / 20) * (s / 20).
