(** Model of package fit (v3/fit/fit.go). *)
From Coq Require Import ZArith Bool List.
From Verif Require Import GoInt GoFloat.
Import ListNotations.

Section Generic.
Context {fl : Flt}.
Local Open Scope flt_scope.
Local Notation f0 := (fconst 0 1).

(** The accumulation loops [for i := range p { s += t(x, y) }]; the loops of the
    code update several such sums side by side. *)
Definition sum (t : F -> F -> F) (p : list (F * F)) : F :=
  fold_left (fun s '(x, y) => s + t x y) p f0.
Definition count (p : list (F * F)) : F := fofZ (Z.of_nat (length p)).

(** fit/fit.go:13-29 *)
Definition Linear (p : list (F * F)) : F * F :=
  let sx := sum (fun x y => x) p in
  let sy := sum (fun x y => y) p in
  let sx2 := sum (fun x y => x * x) p in
  let sxy := sum (fun x y => x * y) p in
  let n := count p in
  let d := n * sx2 - sx * sx in
  ((n * sxy - sx * sy) / d, (sy * sx2 - sx * sxy) / d).

(** fit/fit.go:32-46 *)
Definition CorrelationCoefficient (p : list (F * F)) : F :=
  let sx := sum (fun x y => x) p in
  let sy := sum (fun x y => y) p in
  let sx2 := sum (fun x y => x * x) p in
  let sy2 := sum (fun x y => y * y) p in
  let sxy := sum (fun x y => x * y) p in
  let n := count p in
  (n * sxy - sx * sy) / (fsqrt (n * sx2 - sx * sx) * fsqrt (n * sy2 - sy * sy)).

(** fit/fit.go:52-74 *)
Definition Quadratic_D (p : list (F * F)) : F :=
  let P := sum (fun x y => x) p in
  let Q := sum (fun x y => x * x) p in
  let R := sum (fun x y => x * (x * x)) p in
  let S := sum (fun x y => (x * x) * (x * x)) p in
  let N := count p in
  N * Q * S + fconst 2 1 * P * Q * R - Q * Q * Q - P * P * S - N * R * R.
Definition Quadratic (p : list (F * F)) : F * F * F :=
  let P := sum (fun x y => x) p in
  let Q := sum (fun x y => x * x) p in
  let R := sum (fun x y => x * (x * x)) p in
  let S := sum (fun x y => (x * x) * (x * x)) p in
  let T := sum (fun x y => y) p in
  let U := sum (fun x y => x * y) p in
  let V := sum (fun x y => (x * x) * y) p in
  let N := count p in
  let D := Quadratic_D p in
  ((N * Q * V + P * R * T + P * Q * U - Q * Q * T - P * P * V - N * R * U) / D,
   (N * S * U + P * Q * V + Q * R * T - Q * Q * U - P * S * T - N * R * V) / D,
   (Q * S * T + Q * R * U + P * R * V - Q * Q * V - P * S * U - R * R * T) / D).

(** fit/fit.go:81-105 *)
Definition Func3_D (p : list (F * F)) (g0 g1 g2 : F -> F) : F :=
  let M := sum (fun x y => g0 x * g0 x) p in
  let P := sum (fun x y => g0 x * g1 x) p in
  let Q := sum (fun x y => g0 x * g2 x) p in
  let R := sum (fun x y => g1 x * g1 x) p in
  let S := sum (fun x y => g1 x * g2 x) p in
  let T := sum (fun x y => g2 x * g2 x) p in
  M * R * T + fconst 2 1 * P * Q * S - M * S * S - R * Q * Q - T * P * P.
Definition Func3 (p : list (F * F)) (g0 g1 g2 : F -> F) : F * F * F :=
  let M := sum (fun x y => g0 x * g0 x) p in
  let P := sum (fun x y => g0 x * g1 x) p in
  let Q := sum (fun x y => g0 x * g2 x) p in
  let R := sum (fun x y => g1 x * g1 x) p in
  let S := sum (fun x y => g1 x * g2 x) p in
  let T := sum (fun x y => g2 x * g2 x) p in
  let U := sum (fun x y => y * g0 x) p in
  let V := sum (fun x y => y * g1 x) p in
  let W := sum (fun x y => y * g2 x) p in
  let D := Func3_D p g0 g1 g2 in
  ((U * (R * T - S * S) + V * (Q * S - P * T) + W * (P * S - Q * R)) / D,
   (U * (S * Q - P * T) + V * (M * T - Q * Q) + W * (P * Q - M * S)) / D,
   (U * (P * S - R * Q) + V * (P * Q - M * S) + W * (M * R - P * P)) / D).

(** fit/fit.go:111-121 *)
Definition Func1 (p : list (F * F)) (f : F -> F) : F :=
  sum (fun x y => y * f x) p / sum (fun x y => f x * f x) p.

End Generic.
