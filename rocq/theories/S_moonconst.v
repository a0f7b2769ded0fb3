(** The mean lunar arguments as the source documents them (degrees, T in Julian
    centuries from J2000). *)
From Coq Require Import Reals.
Local Open Scope R_scope.

Definition poly4 (a b c d e T : R) : R := a + b * T + c * T ^ 2 + d * T ^ 3 + e * T ^ 4.
Definition docNode : R -> R := poly4 125.0445479 (-1934.1362891) 0.0020754 (1 / 467441) (-1 / 60616000).
Definition docPerigee : R -> R := poly4 83.3532465 4069.0137287 (-0.01032) (-1 / 80053) (1 / 18999000).
Definition docF : R -> R := poly4 93.272095 483202.0175233 (-0.0036539) (-1 / 3526000) (1 / 863310000).
Definition docD : R -> R := poly4 297.8501921 445267.1114034 (-0.0018819) (1 / 545868) (-1 / 113065000).
Definition docM : R -> R := poly4 357.5291092 35999.0502909 (-0.0001535) (1 / 24490000) 0.
Definition docM' : R -> R := poly4 134.9633964 477198.8675055 0.0087414 (1 / 69699) (-1 / 14712000).
(** Two angles (radians) name one direction. *)
Definition same_angle (a b : R) : Prop := cos a = cos b /\ sin a = sin b.
