(** Model of package kepler (v3/kepler/kepler.go) on exact reals. *)
From Coq Require Import ZArith Reals.
From Verif Require Import GoFloat GoMath M_iterate.
Local Open Scope R_scope.

(** kepler/kepler.go:17-20 *)
Definition True (E e : R) : R := 2 * atan (sqrt ((1 + e) / (1 - e)) * tan (E * (1 / 2))).

(** kepler/kepler.go:27-30 *)
Definition Radius (E e a : R) : R := a * (1 - e * cos E).

(** math.Pow(10, n) for an integer n. *)
Definition pow10 (n : Z) : R := powerRZ 10 n.

(** kepler/kepler.go:45-51 *)
Definition Kepler1 (e M : R) (places : Z) : res R :=
  DecimalPlaces (fl := RFlt) pow10 (fun E0 : R => M + e * sin E0) M places (places * 5).

(** kepler/kepler.go:66-73 *)
Definition Kepler2 (e M : R) (places : Z) : res R :=
  DecimalPlaces (fl := RFlt) pow10 (fun E0 : R => E0 + (M + e * sin E0 - E0) / (1 - e * cos E0)) M places places.

(** kepler/kepler.go:84-92 *)
Definition Kepler2a (e M : R) (places : Z) : res R :=
  DecimalPlaces (fl := RFlt) pow10
    (fun E0 : R => E0 + asin (sin ((M + e * sin E0 - E0) / (1 - e * cos E0)))) M places (places * 5).

(** kepler/kepler.go:103-117 *)
Definition Kepler2b (e M : R) (places : Z) : res R :=
  DecimalPlaces (fl := RFlt) pow10
    (fun E0 : R =>
       let d := (M + e * sin E0 - E0) / (1 - e * cos E0) in
       let d := if Rlt_dec (5 / 10) d then 5 / 10 else if Rlt_dec d (- (5 / 10)) then - (5 / 10) else d in
       E0 + d) M places places.

(** kepler/kepler.go:134-142, the loop. *)
Fixpoint Kepler3_loop (e MR E0 d : R) (n : nat) : R :=
  match n with
  | O => E0
  | S n =>
      let M1 := E0 - e * sin E0 in
      let E0 := if Rlt_dec (MR - M1) 0 then E0 - d else E0 + d in
      Kepler3_loop e MR E0 (d * (5 / 10)) n
  end.
(** kepler/kepler.go:124-147 *)
Definition Kepler3 (e M : R) : R :=
  let MR := Mod1 M in
  let '(f, MR) := if Rlt_dec PI MR then ((-1)%Z, 2 * PI - MR) else (1%Z, MR) in
  let E0 := Kepler3_loop e MR (PI * (5 / 10)) (PI * (25 / 100)) 53 in
  if (f <? 0)%Z then - E0 else E0.

(** kepler/kepler.go:156-159 *)
Definition Kepler4 (e M : R) : R := atan2 (sin M) (cos M - e).
