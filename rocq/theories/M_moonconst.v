(** Models of the mean lunar arguments of moonposition/moonposition.go and moon/moon.go,
    over the real numbers, with Go's rule that a quotient of integer constants is an integer. *)
From Coq Require Import ZArith Reals List.
From Verif Require Import GoMath M_precess M_light.
Import ListNotations.
Local Open Scope R_scope.

Definition century (jde : R) : R := (jde - 2451545) / 36525.
(** moonposition/moonposition.go:251-254; the same coefficients are in moon/moon.go:65-66. *)
Definition nodeDeg (T : R) : R := HornerR T [125.0445479; -1934.1362891; 0.0020754; intConst 1 467441; intConst (-1) 60616000].
Definition Node (jde : R) : R := Mod1 (AngleFromDeg (nodeDeg (century jde))).
(** moonposition/moonposition.go:257-260 *)
Definition perigeeDeg (T : R) : R := HornerR T [83.3532465; 4069.0137287; -0.01032; intConst (-1) 80053; intConst 1 18999000].
Definition Perigee (jde : R) : R := Mod1 (AngleFromDeg (perigeeDeg (century jde))).
(** moon/moon.go:62-63, 70-71, 72-73, 74-75 *)
Definition argF (T : R) : R := HornerR T [93.272095; 483202.0175233; -0.0036539; intConst (-1) 3526000; intConst 1 863310000].
Definition argD (T : R) : R := HornerR T [297.8501921; 445267.1114034; -0.0018819; intConst 1 545868; intConst (-1) 113065000].
Definition argM (T : R) : R := HornerR T [357.5291092; 35999.0502909; -0.0001535; intConst 1 24490000].
Definition argM' (T : R) : R := HornerR T [134.9633964; 477198.8675055; 0.0087414; intConst 1 69699; intConst (-1) 14712000].
