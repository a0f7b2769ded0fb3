(** Models of packages parabolic, nearparabolic, elliptic, node and binary on exact reals. *)
From Coq Require Import ZArith Reals List.
From Verif Require Import GoFloat GoMath M_iterate M_kepler.
Local Open Scope R_scope.

(** math.Cbrt *)
Definition cbrt (x : R) : R :=
  if Rlt_dec 0 x then exp (ln x / 3) else if Rlt_dec x 0 then - exp (ln (- x) / 3) else 0.

(** base/const.go:7 *)
Definition K : R := 1720209895 / 100000000000.
(** base/const.go:18-19 *)
Definition SOblJ2000 : R := 397777156 / 1000000000.
Definition COblJ2000 : R := 917482062 / 1000000000.

(** ** parabolic *)
(** parabolic/parabolic.go:15-18 *)
Record ParElements := mkPar { p_TimeP : R; p_PDis : R }.
(** parabolic/parabolic.go:23-31 *)
Definition Par_AnomalyDistance (e : ParElements) (jde : R) : R * R :=
  let W := 3 * K / sqrt 2 * (jde - p_TimeP e) / p_PDis e / sqrt (p_PDis e) in
  let G := W * (5 / 10) in
  let Y := cbrt (G + sqrt (G * G + 1)) in
  let s := Y - 1 / Y in
  (2 * atan s, p_PDis e * (1 + s * s)).

(** ** nearparabolic *)
(** nearparabolic/nearparabolic.go:16-20 *)
Record NPElements := mkNP { n_TimeP : R; n_PDis : R; n_Ecc : R }.

(** Outcome of a loop or function: a value, an error, or out of fuel. *)
Inductive outcome (A : Type) : Type := Value (a : A) | NoConvergence | OutOfFuel.
Arguments Value {A} _. Arguments NoConvergence {A}. Arguments OutOfFuel {A}.

(** nearparabolic/nearparabolic.go:50-62, the series loop.  The counter z is a
    small integer; the loop ends by z > 50, so 50 units of fuel suffice. *)
Fixpoint NP_series (g y : R) (z : Z) (g1 q3 : R) (fuel : nat) : outcome R :=
  match fuel with
  | O => OutOfFuel
  | S fuel =>
      let z := (z + 1)%Z in
      let g1 := - g1 * g * y in
      let z1 := (IZR z - (IZR z + 1) * g) / (2 * IZR z + 1) in
      let f := z1 * g1 in
      let q3 := q3 + f in
      if orb (50 <? z)%Z (if Rlt_dec 10000 (Rabs f) then true else false) then NoConvergence
      else if Rle_dec (Rabs f) (1 / 1000000000) then Value q3
      else NP_series g y z g1 q3 fuel
  end.

(** nearparabolic/nearparabolic.go:69 *)
Definition NP_newton (q3 s : R) : R := (2 * s * s * s / 3 + q3) / (s * s + 1).
(** nearparabolic/nearparabolic.go:67-73, the loop without bound in the code. *)
Fixpoint NP_newton_loop (q3 s : R) (fuel : nat) : outcome R :=
  match fuel with
  | O => OutOfFuel
  | S fuel =>
      let s1 := s in
      let s := NP_newton q3 s in
      if Rle_dec (Rabs (s - s1)) (1 / 1000000000) then Value s else NP_newton_loop q3 s fuel
  end.

(** nearparabolic/nearparabolic.go:43-77, the outer loop; l counts to 50. *)
Fixpoint NP_outer (g q2 s : R) (l : Z) (fuelN fuel : nat) : outcome R :=
  match fuel with
  | O => OutOfFuel
  | S fuel =>
      let s0 := s in
      let y := s * s in
      let g1 := - y * s in
      let q3 := q2 + 2 * g * s * y / 3 in
      match NP_series g y 1 g1 q3 50 with
      | Value q3 =>
          let l := (l + 1)%Z in
          if (50 <? l)%Z then NoConvergence
          else match NP_newton_loop q3 s fuelN with
               | Value s => if Rle_dec (Rabs (s - s0)) (1 / 1000000000) then Value s else NP_outer g q2 s l fuelN fuel
               | NoConvergence => NoConvergence
               | OutOfFuel => OutOfFuel
               end
      | NoConvergence => NoConvergence
      | OutOfFuel => OutOfFuel
      end
  end.

(** nearparabolic/nearparabolic.go:37-38 *)
Definition NP_start (q2 : R) : R := 2 / tan (2 * atan (cbrt (tan (atan (2 / (3 * Rabs q2)) / 2)))).

(** nearparabolic/nearparabolic.go:26-85.  The outer loop makes at most 51 rounds;
    [fuelN] bounds the rounds of each Newton loop, which the code does not bound. *)
Definition NP_AnomalyDistance (fuelN : nat) (e : NPElements) (jde : R) : outcome (R * R) :=
  let q1 := K * sqrt ((1 + n_Ecc e) / n_PDis e) / (2 * n_PDis e) in
  let g := (1 - n_Ecc e) / (1 + n_Ecc e) in
  let t := jde - n_TimeP e in
  if Req_EM_T t 0 then Value (0, n_PDis e)
  else
    let q2 := q1 * t in
    let s := NP_start q2 in
    let s := if Rlt_dec t 0 then - s else s in
    match (if Req_EM_T (n_Ecc e) 1 then Value s else NP_outer g q2 s 0 fuelN 51) with
    | Value s =>
        let v := 2 * atan s in
        let r := n_PDis e * (1 + n_Ecc e) / (1 + n_Ecc e * cos v) in
        Value (if Rlt_dec v 0 then v + 2 * PI else v, r)
    | NoConvergence => NoConvergence
    | OutOfFuel => OutOfFuel
    end.

(** ** elliptic *)
(** elliptic/elliptic.go:63-70 *)
Record EllElements := mkEll { e_Axis : R; e_Ecc : R; e_Inc : R; e_ArgP : R; e_Node : R; e_TimeP : R }.
(** elliptic/elliptic.go:78-115: the function f of Elements.Position, the
    heliocentric equatorial coordinates at a time; [se], [ce] stand for the
    constants base.SOblJ2000 and base.COblJ2000. *)
Definition Ell_xyz (se ce : R) (k : EllElements) (jde : R) : R * R * R :=
  let n := K / e_Axis k / sqrt (e_Axis k) in
  let sO := sin (e_Node k) in let cO := cos (e_Node k) in
  let si := sin (e_Inc k) in let ci := cos (e_Inc k) in
  let F := cO in
  let G := sO * ce in
  let H := sO * se in
  let P := - sO * ci in
  let Q := cO * ci * ce - si * se in
  let R_ := cO * ci * se + si * ce in
  let A := atan2 F P in
  let B := atan2 G Q in
  let C := atan2 H R_ in
  let a := hypot F P in
  let b := hypot G Q in
  let c := hypot H R_ in
  let M := n * (jde - e_TimeP k) in
  let E := match Kepler2b (e_Ecc k) M 15 with Ok E => E | MaxIterations => Kepler3 (e_Ecc k) M end in
  let v := M_kepler.True E (e_Ecc k) in
  let r := Radius E (e_Ecc k) (e_Axis k) in
  (r * a * sin (A + e_ArgP k + v), r * b * sin (B + e_ArgP k + v), r * c * sin (C + e_ArgP k + v)).

(** elliptic/elliptic.go:126-147.  [sun] is solarxyz.PositionJ2000 and [f] the
    body's heliocentric position; base.LightTime is a multiplication (base/const.go). *)
Definition AstrometricJ2000 (lightTime : R -> R) (sun : R -> R * R * R) (f : R -> R * R * R) (jde : R) : R * R * R :=
  let '(X, Y, Z) := sun jde in
  let '(x, y, z) := f jde in
  let xi := X + x in let eta := Y + y in let zeta := Z + z in
  let D := sqrt (xi * xi + eta * eta + zeta * zeta) in
  let tau := lightTime D in
  let '(x, y, z) := f (jde - tau) in
  let xi := X + x in let eta := Y + y in let zeta := Z + z in
  let D := sqrt (xi * xi + eta * eta + zeta * zeta) in
  let R0 := sqrt (X * X + Y * Y + Z * Z) in
  (RAFromRad (atan2 eta xi), asin (zeta / D), acos ((xi * X + eta * Y + zeta * Z) / R0 / D)).

(** elliptic/elliptic.go:155-157 *)
Definition Velocity (a r : R) : R := 421219 / 10000 * sqrt (1 / r - 5 / 10 / a).
(** elliptic/elliptic.go:164-166 *)
Definition VAphelion (a e : R) : R := 297847 / 10000 * sqrt ((1 - e) / (1 + e) / a).
(** elliptic/elliptic.go:173-175 *)
Definition VPerihelion (a e : R) : R := 297847 / 10000 * sqrt ((1 + e) / (1 - e) / a).
(** elliptic/elliptic.go:183-186 *)
Definition Length1 (a e : R) : R :=
  let b := a * sqrt (1 - e * e) in
  PI * (3 * (a + b) - sqrt ((a + 3 * b) * (3 * a + b))).
(** elliptic/elliptic.go:194-202 *)
Definition Length2 (a e : R) : R :=
  let b := a * sqrt (1 - e * e) in
  let s := a + b in
  let p := a * b in
  let A := s * (5 / 10) in
  let G := sqrt p in
  let H := 2 * p / s in
  PI * (21 * A - 2 * G - 3 * H) * (125 / 1000).
(** elliptic/elliptic.go:243-249, the loop: sums of the series after n rounds.  In
    exact arithmetic the code's loop does not end unless a term is zero; it ends
    in float64 by absorption.  [Length4_loop] is the value of sum0 after n rounds. *)
Fixpoint Length4_loop (m2 term nf df sum0 sum1 : R) (n : nat) : R :=
  match n with
  | O => sum0
  | S n =>
      let nf := nf + 2 in
      let df := df + 2 in
      let term := term * (nf * nf * m2 / (df * df)) in
      Length4_loop m2 term nf df sum1 (sum1 + term) n
  end.
(** elliptic/elliptic.go:234-251, stopped after n rounds. *)
Definition Length4_after (n : nat) (a e : R) : R :=
  let b := a * sqrt (1 - e * e) in
  let m := (a - b) / (a + b) in
  let m2 := m * m in
  let term := m2 * (25 / 100) in
  2 * PI * a * Length4_loop m2 term (-1) 2 1 (1 + term) n / (1 + m).

(** ** node *)
(** node/node.go:34-42 *)
Definition node_el (v axis ecc timeP : R) : R * R :=
  let E := 2 * atan (sqrt ((1 - ecc) / (1 + ecc)) * tan (v * (5 / 10))) in
  let M := E - ecc * sin E in
  let n := K / axis / sqrt axis in
  (timeP + M / n, axis * (1 - ecc * cos E)).
(** node/node.go:20-22 *)
Definition EllipticAscending (axis ecc argP timeP : R) : R * R := node_el (- argP) axis ecc timeP.
(** node/node.go:30-32 *)
Definition EllipticDescending (axis ecc argP timeP : R) : R * R := node_el (PI - argP) axis ecc timeP.
(** node/node.go:64-69 *)
Definition node_pa (v q timeP : R) : R * R :=
  let s := tan (v * (5 / 10)) in
  (timeP + 27403895 / 1000000 * s * (s * s + 3) * q * sqrt q, q * (1 + s * s)).
(** node/node.go:50-52 *)
Definition ParabolicAscending (q argP timeP : R) : R * R := node_pa (- argP) q timeP.
(** node/node.go:60-62 *)
Definition ParabolicDescending (q argP timeP : R) : R * R := node_pa (PI - argP) q timeP.

(** ** binary *)
(** binary/binary.go:18-21 *)
Definition binary_M (year T P : R) : R := Mod1 (2 * PI / P * (year - T)).
(** binary/binary.go:35-44 *)
Definition binary_Position (e a i Om om E : R) : R * R :=
  let r := a * (1 - e * cos E) in
  let v := 2 * atan (sqrt ((1 + e) / (1 - e)) * tan (E / 2)) in
  let s := sin (v + om) in let c := cos (v + om) in
  let ci := cos i in
  let num := s * ci in
  (Mod1 (atan2 num c + Om), r * sqrt (num * num + c * c)).
(** binary/binary.go:52-61 *)
Definition ApparentEccentricity (e i om : R) : R :=
  let ci := cos i in
  let so := sin om in let co := cos om in
  let A := (1 - e * e * co * co) * ci * ci in
  let B := e * e * so * co * ci in
  let C := 1 - e * e * so * so in
  let d := A - C in
  let sD := sqrt (d * d + 4 * B * B) in
  sqrt (2 * sD / (A + C + sD)).
