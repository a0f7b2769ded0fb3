(** Model of solardisk over the real numbers. *)
From Coq Require Import ZArith Reals.
From Verif Require Import GoFloat GoMath M_precess M_vsop M_solar.
Local Open Scope R_scope.

(** solardisk/solardisk.go:24-27 *)
Definition sun_theta (jd : R) : R := (jd - 2398220) * 2 * PI / (2538 / 100).
Definition sun_I : R := AngleFromDeg (725 / 100).
Definition sun_K (jd : R) : R := AngleFromDeg (736667 / 10000) + AngleFromDeg (13958333 / 10000000) * ((jd - 2396758) / 36525).
(** solardisk/solardisk.go:29-34 *)
Definition sun_lambda (e : @V87Planet R) (jd : R) : R := let '(L, _, r) := TrueVSOP87 e jd in L - AngleFromSec (204898 / 10000) / r.
Definition sun_eps (jd : R) : R := let '(_, deps) := Nutation jd in MeanObliquity jd + deps.
Definition sun_lambdap (e : @V87Planet R) (jd : R) : R := let '(dpsi, _) := Nutation jd in sun_lambda e jd + dpsi.

(** solardisk/solardisk.go:23-46 *)
Definition Ephemeris (jd : R) (e : @V87Planet R) : R * R * R :=
  let l := sun_lambda e jd in let K := sun_K jd in let i := sun_I in
  let tx := - (cos (sun_lambdap e jd) * tan (sun_eps jd)) in
  let ty := - (cos (l - K) * tan i) in
  let P := atan tx + atan ty in
  let B0 := asin (sin (l - K) * sin i) in
  let eta := atan2 (- sin (l - K) * cos i) (- cos (l - K)) in
  (P, B0, Mod1 (eta - sun_theta jd)).

(** solardisk/solardisk.go:53-59 *)
Definition Cycle (c : Z) : R :=
  let cf := IZR c in
  let jde := 2398140227 / 1000 + 272752316 / 10000000 * cf in
  let m := 28196 / 100 * PI / 180 + 26882476 / 1000000 * PI / 180 * cf in
  jde + 1454 / 10000 * sin m - 85 / 10000 * sin (2 * m) - 141 / 10000 * cos (2 * m).
