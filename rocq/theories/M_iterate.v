(** Model of package iterate (v3/iterate/iterate.go). *)
From Coq Require Import ZArith Bool List.
From Verif Require Import GoInt GoFloat.
Local Open Scope Z_scope.

(** A result or an error (Go's [(T, error)] with one error value). *)
Inductive res (A : Type) : Type := Ok (a : A) | MaxIterations.
Arguments Ok {A} _. Arguments MaxIterations {A}.

Section Generic.
Context {fl : Flt}.
Local Open Scope flt_scope.

(** iterate/iterate.go:24-34, the loop, with [fuel] iterations left. *)
Fixpoint DecimalPlaces_loop (better : F -> F) (d start : F) (fuel : nat) : res F :=
  match fuel with
  | O => MaxIterations
  | S fuel =>
      let n := better start in
      if fabs (n - start) <? d then Ok n
      else DecimalPlaces_loop better d n fuel
  end.

(** iterate/iterate.go:24-34.  [pow10 n] stands for math.Pow(10, float64(n)).  A
    negative iteration limit makes no iteration ([Z.to_nat] maps it to 0). *)
Definition DecimalPlaces (pow10 : Z -> F) (better : F -> F) (start : F) (places maxIterations : Z) : res F :=
  DecimalPlaces_loop better (pow10 (- places)%Z) start (Z.to_nat maxIterations).

(** iterate/iterate.go:42-51, the loop. *)
Fixpoint FullPrecision_loop (better : F -> F) (start : F) (fuel : nat) : res F :=
  match fuel with
  | O => MaxIterations
  | S fuel =>
      let n := better start in
      if fabs ((n - start) / n) <? fconst 1 1000000000000000 then Ok n
      else FullPrecision_loop better n fuel
  end.
(** iterate/iterate.go:42-51 *)
Definition FullPrecision (better : F -> F) (start : F) (maxIterations : Z) : res F :=
  FullPrecision_loop better start (Z.to_nat maxIterations).

(** iterate/iterate.go:62-78, the loop; [mid] is the last midpoint. *)
Fixpoint BinaryRoot_loop (f : F -> F) (lower upper yLower mid : F) (fuel : nat) : F :=
  match fuel with
  | O => mid
  | S fuel =>
      let mid := (lower + upper) / fconst 2 1 in
      let yMid := f mid in
      if yMid =? fconst 0 1 then mid
      else if Bool.eqb (fsignbit yLower) (fsignbit yMid)
      then BinaryRoot_loop f mid upper yMid mid fuel
      else BinaryRoot_loop f lower mid yLower mid fuel
  end.
(** iterate/iterate.go:62-78 *)
Definition BinaryRoot (f : F -> F) (lower upper : F) : F :=
  BinaryRoot_loop f lower upper (f lower) (fconst 0 1) 52.

End Generic.
