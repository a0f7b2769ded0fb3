(** Model of package eclipse (v3/eclipse/eclipse.go), on exact reals (see GoMath).
    The values γ and u of a lunation are separate definitions so that they can be
    spoken of when the early test of the code rejects the lunation. *)
From Coq Require Import ZArith Reals List Bool.
From Flocq Require Import Core.
From Verif Require Import GoMath M_precess M_lunar.
Import ListNotations.
Local Open Scope R_scope.

Definition ec_ck : R := 1 / 1236.85.
(** eclipse/eclipse.go:18-20, 25-31, 34 *)
Definition ec_F (T : R) : R := HornerR T [160.7108 * p_; 390.67050284 * p_ / ec_ck; -0.0016118 * p_; -0.00000227 * p_; 0.000000011 * p_].
Definition ec_E (T : R) : R := HornerR T [1; -0.002516; -0.0000074].
Definition ec_M (T : R) : R := HornerR T [2.5534 * p_; 29.1053567 * p_ / ec_ck; -0.0000014 * p_; -0.00000011 * p_].
Definition ec_Om (T : R) : R := HornerR T [124.7746 * p_; -1.56375588 * p_ / ec_ck; 0.0020672 * p_; 0.00000215 * p_].
Definition ec_A1 (T : R) : R := HornerR T [299.77 * p_; 0.107408 * p_ / ec_ck; -0.009173 * p_].
Definition ec_M1 (T : R) : R := HornerR T [201.5643 * p_; 385.81693528 * p_ / ec_ck; 0.0107582 * p_; 0.00001238 * p_; -0.000000058 * p_].
(** eclipse/eclipse.go:32-33 *)
Definition ec_F1 (T : R) : R := ec_F T - 0.02665 * p_ * sin (ec_Om T).
(** eclipse/eclipse.go:36-52 *)
Definition ec_jmax (jm c1 c2 E M M1 F1 Om A1 : R) : R :=
    jm + c1 * sin (M1) + c2 * sin (M) * E + 0.0161 * sin (2 * M1) + -0.0097 * sin (2 * F1) + 0.0073 * sin (M1 - M) * E
    + -0.005 * sin (M1 + M) * E + -0.0023 * sin (M1 - 2 * F1) + 0.0021 * sin (2 * M) * E + 0.0012 * sin (M1 + 2 * F1) +
    0.0006 * sin (2 * M1 + M) * E + -0.0004 * sin (3 * M1) + -0.0003 * sin (M + 2 * F1) * E + 0.0003 * sin (A1) +
    -0.0002 * sin (M - 2 * F1) * E + -0.0002 * sin (2 * M1 - M) * E + -0.0002 * sin (Om).
(** eclipse/eclipse.go:53-59 *)
Definition ec_P (E M M1 F1 : R) : R :=
    0.207 * sin (M) * E + 0.0024 * sin (2 * M) * E + -0.0392 * sin (M1) + 0.0116 * sin (2 * M1) + -0.0073 * sin (M1 +
    M) * E + 0.0067 * sin (M1 - M) * E + 0.0118 * sin (2 * F1).
(** eclipse/eclipse.go:60-65 *)
Definition ec_Q (E M M1 : R) : R :=
    5.2207 + -0.0048 * cos (M) * E + 0.002 * cos (2 * M) * E + -0.3299 * cos (M1) + -0.006 * cos (M1 + M) * E + 0.0041
    * cos (M1 - M) * E.
(** eclipse/eclipse.go:66-68 *)
Definition ec_gam (E M M1 F1 : R) : R :=
  let W := Rabs (cos F1) in
  (ec_P E M M1 F1 * cos F1 + ec_Q E M M1 * sin F1) * (1 - 0.0048 * W).
(** eclipse/eclipse.go:69-73 *)
Definition ec_u (E M M1 : R) : R :=
    0.0059 + 0.0046 * cos (M) * E + -0.0182 * cos (M1) + 0.0004 * cos (2 * M1) + -0.0005 * cos (M + M1).

(** eclipse/eclipse.go:91-94 *)
Definition ec_snap (y q : R) : R := let k := (y - 2000) * 12.3685 in Floor (k - q + 0.5) + q.
(** γ and u of lunation k. *)
Definition gammaOf (k : R) : R := let T := k * ec_ck in ec_gam (ec_E T) (ec_M T) (ec_M1 T) (ec_F1 T).
Definition uOf (k : R) : R := let T := k * ec_ck in ec_u (ec_E T) (ec_M T) (ec_M1 T).
(** eclipse/eclipse.go:15-75: eclipse, jmax, γ, u, M′; zeros when the sine of F is too large. *)
Definition ec_g (k jm c1 c2 : R) : bool * R * R * R * R :=
  let T := k * ec_ck in
  if Rlt_bool 0.36 (Rabs (sin (ec_F T))) then (false, 0, 0, 0, 0)
  else (true, ec_jmax jm c1 c2 (ec_E T) (ec_M T) (ec_M1 T) (ec_F1 T) (ec_Om T) (ec_A1 T), gammaOf k, uOf k, ec_M1 T).

(** eclipse/eclipse.go:78-86 *)
Inductive eclipseType := ENone | EPartial | EAnnular | EAnnularTotal | EPenumbral | EUmbral | ETotal.

(** eclipse/eclipse.go:126-154, on γ and u: type, central, magnitude. *)
Definition solarType (gam u : R) : eclipseType * bool * R :=
  let ag := Rabs gam in
  if Rlt_bool (1.5433 + u) ag then (ENone, false, 0)
  else
    let central := Rlt_bool ag 0.9972 in
    let t :=
      if negb central then
        if Rlt_bool ag 1.026 && Rlt_bool ag (0.9972 + Rabs u) then ETotal else EPartial
      else if Rlt_bool u 0 then ETotal
      else if Rlt_bool 0.0047 u then EAnnular
      else
        let ome := 0.00464 * sqrt (1 - gam * gam) in
        if Rlt_bool u ome then EAnnularTotal else EAnnular in
    (t, central, match t with EPartial => (1.5433 + u - ag) / (0.5461 + 2 * u) | _ => 0 end).
(** eclipse/eclipse.go:119-156: type, central, jmax, γ, u, p, mag *)
Definition Solar (year : R) : eclipseType * bool * R * R * R * R * R :=
  let '(e, jmax, gam, u, _) := ec_g (ec_snap year 0) (MeanNew year) (-0.4075) 0.1721 in
  let p := u + 0.5461 in
  if negb e then (ENone, false, jmax, gam, u, p, 0)
  else let '(t, central, mag) := solarType gam u in (t, central, jmax, gam, u, p, mag).

(** unit.TimeFromHour: seconds. *)
Definition TimeFromHour (h : R) : R := h * 3600.
(** eclipse/eclipse.go:190-218, on γ, u and M′: type, magnitude, semidurations of the
    total, partial and penumbral phases. *)
Definition lunarType (gam u M1 : R) : eclipseType * R * R * R * R :=
  let ag := Rabs gam in
  let mag := (1.0128 - u - ag) / 0.545 in
  let '(t, mag) :=
    if Rlt_bool 1 mag then (ETotal, mag)
    else if Rlt_bool 0 mag then (EUmbral, mag)
    else
      let mag := (1.5573 + u - ag) / 0.545 in
      if Rlt_bool mag 0 then (ENone, mag) else (EPenumbral, mag) in
  let p := 1.0128 - u in
  let s := 0.4678 - u in
  let n := 0.5458 + 0.04 * cos M1 in
  let g2 := gam * gam in
  let h := 1.5573 + u in
  let total := TimeFromHour (sqrt (s * s - g2) / n) in
  let partial := TimeFromHour (sqrt (p * p - g2) / n) in
  let penumbral := TimeFromHour (sqrt (h * h - g2) / n) in
  match t with
  | ENone => (t, mag, 0, 0, 0)
  | ETotal => (t, mag, total, partial, penumbral)
  | EUmbral => (t, mag, 0, partial, penumbral)
  | _ => (t, mag, 0, 0, penumbral)
  end.
(** eclipse/eclipse.go:180-220: type, jmax, γ, ρ, σ, mag, semidurations *)
Definition Lunar (year : R) : eclipseType * R * R * R * R * R * R * R * R :=
  let '(e, jmax, gam, u, M1) := ec_g (ec_snap year 0.5) (MeanFull year) (-0.4065) 0.1727 in
  if negb e then (ENone, jmax, gam, 0, 0, 0, 0, 0, 0)
  else
    let '(t, mag, sdT, sdP, sdN) := lunarType gam u M1 in
    (t, jmax, gam, 1.2848 + u, 0.7403 - u, mag, sdT, sdP, sdN).
