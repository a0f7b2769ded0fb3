(** Model of elliptic.Length4 (v3/elliptic/elliptic.go) with the test that ends its loop, over any arithmetic. *)
From Coq Require Import ZArith Bool.
From Verif Require Import GoInt GoFloat.
Section Generic.
Context {fl : Flt}.
Local Open Scope flt_scope.

(** elliptic/elliptic.go:243-249, the loop; [None] when [fuel] rounds were not enough. *)
Fixpoint Length4_rounds (m2 term nf df sum0 sum1 : F) (fuel : nat) : option F :=
  if sum1 =? sum0 then Some sum0
  else match fuel with
       | O => None
       | S fuel =>
           let nf := nf + fconst 2 1 in
           let df := df + fconst 2 1 in
           let term := term * (nf * nf * m2 / (df * df)) in
           Length4_rounds m2 term nf df sum1 (sum1 + term) fuel
       end.

(** The constant 2*math.Pi as a float64: 7074237752028440 / 2^50. *)
Definition twoPi : F := fconst 7074237752028440 1125899906842624.

(** elliptic/elliptic.go:234-251, with [fuel] for the loop. *)
Definition Length4 (fuel : nat) (a e : F) : option F :=
  let b := a * fsqrt (fconst 1 1 - e * e) in
  let m := (a - b) / (a + b) in
  let m2 := m * m in
  let sum0 := fconst 1 1 in
  let term := m2 * fconst 25 100 in
  let sum1 := fconst 1 1 + term in
  match Length4_rounds m2 term (fconst (-1) 1) (fconst 2 1) sum0 sum1 fuel with
  | None => None
  | Some sum0 => Some (twoPi * a * sum0 / (fconst 1 1 + m))
  end.
End Generic.
