(** Semantics of Go's 64-bit signed integers ([int] on amd64/arm64, [int64]).

    A Go integer is an element of [Z] in the range [-2^63, 2^63).  Addition,
    subtraction and multiplication wrap around (Go specification, "Integer
    overflow"); [/] and [%] truncate towards zero (Go specification,
    "Integer operators"), with the single overflow -2^63 / -1 = -2^63. *)
From Coq Require Import ZArith Bool.
Local Open Scope Z_scope.

Definition two63 : Z := 9223372036854775808.
Definition two64 : Z := 18446744073709551616.

Definition wrap64 (z : Z) : Z := (z + two63) mod two64 - two63.

Definition in64 (z : Z) : Prop := - two63 <= z < two63.
Definition in64b (z : Z) : bool := (- two63 <=? z) && (z <? two63).

Declare Scope go_scope.
Delimit Scope go_scope with go.

Notation "a +! b" := (wrap64 (a + b)%Z) (at level 50, left associativity) : go_scope.
Notation "a -! b" := (wrap64 (a - b)%Z) (at level 50, left associativity) : go_scope.
Notation "a *! b" := (wrap64 (a * b)%Z) (at level 40, left associativity) : go_scope.
(** Only used with a non-zero divisor; division by zero is a panic and is
    modelled explicitly where the divisor is not a constant. *)
Notation "a /! b" := (wrap64 (Z.quot a b)) (at level 40, left associativity) : go_scope.
Notation "a %! b" := (Z.rem a b) (at level 40, left associativity) : go_scope.
