(** Model of package interp (v3/interp/interp.go). *)
From Coq Require Import ZArith Bool List.
From Verif Require Import GoInt GoFloat M_base.
Import ListNotations.
Local Open Scope Z_scope.

(** interp/interp.go:32-43 *)
Inductive error :=
  | ErrorNot3 | ErrorNot4 | ErrorNot5 | ErrorNoXRange | ErrorNOutOfRange | ErrorXOutOfRange
  | ErrorNoExtremum | ErrorExtremumOutside | ErrorZeroOutside | ErrorNoConverge.

(** Go's [(T, error)]. *)
Inductive result (A : Type) : Type := Ok (a : A) | Err (e : error).
Arguments Ok {A} _. Arguments Err {A} _.

Section Generic.
Context {fl : Flt}.
Local Open Scope flt_scope.
Local Notation f0 := (fconst 0 1).

(** interp/interp.go:46-51.  The copied slice [y] has three elements. *)
Record Len3 := mkLen3 {
  l3_x1 : F; l3_x3 : F;
  l3_y0 : F; l3_y1 : F; l3_y2 : F;
  l3_a : F; l3_b : F; l3_c : F;
  l3_abSum : F; l3_xSum : F; l3_xDiff : F }.

(** interp/interp.go:57-78 *)
Definition NewLen3 (x1 x3 : F) (y : list F) : result Len3 :=
  match y with
  | [y0; y1; y2] =>
      if x3 =? x1 then Err ErrorNoXRange
      else
        let a := y1 - y0 in
        let b := y2 - y1 in
        let c := b - a in
        Ok (mkLen3 x1 x3 y0 y1 y2 a b c (a + b) (x3 + x1) (x3 - x1))
  | _ => Err ErrorNot3
  end.

(** interp/interp.go:134-136 *)
Definition Len3_InterpolateN (d : Len3) (n : F) : F :=
  l3_y1 d + n * fconst 5 10 * (l3_abSum d + n * l3_c d).

(** interp/interp.go:112-115 *)
Definition Len3_InterpolateX (d : Len3) (x : F) : F :=
  let n := (fconst 2 1 * x - l3_xSum d) / l3_xDiff d in
  Len3_InterpolateN d n.

(** interp/interp.go:142-147 *)
Definition Len3_InterpolateNStrict (d : Len3) (n : F) : result F :=
  if (n <? fconst (-1) 1) || (fconst 1 1 <? n) then Err ErrorNOutOfRange
  else Ok (Len3_InterpolateN d n).

(** interp/interp.go:119-126 *)
Definition Len3_InterpolateXStrict (d : Len3) (x : F) : result F :=
  let n := (fconst 2 1 * x - l3_xSum d) / l3_xDiff d in
  match Len3_InterpolateNStrict d n with
  | Err ErrorNOutOfRange => Err ErrorXOutOfRange
  | r => r
  end.

(** interp/interp.go:153-164 *)
Definition Len3_Extremum (d : Len3) : result (F * F) :=
  if l3_c d =? f0 then Err ErrorNoExtremum
  else
    let n := l3_abSum d / (fconst (-2) 1 * l3_c d) in
    if (n <? fconst (-1) 1) || (fconst 1 1 <? n) then Err ErrorExtremumOutside
    else
      Ok (fconst 5 10 * (l3_xSum d + l3_xDiff d * n),
          l3_y1 d - (l3_abSum d * l3_abSum d) / (fconst 8 1 * l3_c d)).

(** interp/interp.go:207-219; [None] is ok = false.  Comparisons with NaN are
    false, as in Go. *)
Fixpoint iterate_loop (n0 : F) (f : F -> F) (fuel : nat) : option F :=
  match fuel with
  | O => None
  | S fuel =>
      let n1 := f n0 in
      if negb (ffin n1) then None
      else if fabs ((n1 - n0) / n0) <? fconst 1 1000000000000000 then Some n1
      else iterate_loop n1 f fuel
  end.
Definition iterate (n0 : F) (f : F -> F) : option F := iterate_loop n0 f 50.

(** interp/interp.go:182-203 *)
Definition Len3_Zero_step (d : Len3) (strong : bool) (n0 : F) : F :=
  if strong
  then n0 - (fconst 2 1 * l3_y1 d + n0 * (l3_abSum d + l3_c d * n0)) /
            (l3_abSum d + fconst 2 1 * l3_c d * n0)
  else fconst (-2) 1 * l3_y1 d / (l3_abSum d + l3_c d * n0).
Definition Len3_Zero (d : Len3) (strong : bool) : result F :=
  match iterate f0 (Len3_Zero_step d strong) with
  | None => Err ErrorNoConverge
  | Some n0 =>
      if (fconst 1 1 <? n0) || (n0 <? fconst (-1) 1) then Err ErrorZeroOutside
      else Ok (fconst 5 10 * (l3_xSum d + l3_xDiff d * n0))
  end.

(** interp/interp.go:92-109.  [unspec] is the value of the conversion int(v) when
    v is outside the int range, which the Go specification leaves open. *)
Definition Len3ForInterpolateX (unspec : F -> Z) (x x1 xn : F) (y : list F) : result Len3 :=
  let len := Z.of_nat (length y) in
  if (3 <? len)%Z then
    let interval := (xn - x1) / fofZ (len - 1)%Z in
    if interval =? f0 then Err ErrorNoXRange
    else
      let v := (x - x1) / interval + fconst 5 10 in
      let nearestX := match fint64 v with Some k => k | None => unspec v end in
      let nearestX := (if nearestX <? 1 then 1
                       else if len - 2 <? nearestX then len - 2 else nearestX)%Z in
      let y' := firstn 3 (skipn (Z.to_nat (nearestX - 1)) y) in
      NewLen3 (x1 + fofZ (nearestX - 1)%Z * interval) (x1 + fofZ (nearestX + 1)%Z * interval) y'
  else NewLen3 x1 xn y.

(** interp/interp.go:222-228 *)
Definition Len4Half (y : list F) : result F :=
  match y with
  | [y0; y1; y2; y3] => Ok ((fconst 9 1 * (y1 + y2) - y0 - y3) / fconst 16 1)
  | _ => Err ErrorNot4
  end.

(** interp/interp.go:231-240 *)
Record Len5 := mkLen5 {
  l5_x1 : F; l5_x5 : F; l5_y : list F;
  l5_b : F; l5_c : F; l5_f : F; l5_h : F; l5_j : F; l5_k : F;
  l5_y3 : F; l5_xSum : F; l5_xDiff : F; l5_coeff : list F }.

(** interp/interp.go:246-284 *)
Definition NewLen5 (x1 x5 : F) (y : list F) : result Len5 :=
  match y with
  | [y0; y1; y2; y3; y4] =>
      if x5 =? x1 then Err ErrorNoXRange
      else
        let a := y1 - y0 in let b := y2 - y1 in let c := y3 - y2 in let d := y4 - y3 in
        let e := b - a in let f := c - b in let g := d - c in
        let h := f - e in let j := g - f in
        let k := j - h in
        Ok (mkLen5 x1 x5 y b c f h j k y2 (x5 + x1) (x5 - x1)
              [y2;
               (b + c) / fconst 2 1 - (h + j) / fconst 12 1;
               f / fconst 2 1 - k / fconst 24 1;
               (h + j) / fconst 12 1;
               k / fconst 24 1])
  | _ => Err ErrorNot5
  end.

(** base.Horner on a slice known to be non-empty. *)
Definition horner (x : F) (c : list F) : F :=
  match Horner x c with Some v => v | None => f0 end.

(** interp/interp.go:307-309 *)
Definition Len5_InterpolateN (d : Len5) (n : F) : F := horner n (l5_coeff d).

(** interp/interp.go:287-290 *)
Definition Len5_InterpolateX (d : Len5) (x : F) : F :=
  let n := (fconst 4 1 * x - fconst 2 1 * l5_xSum d) / l5_xDiff d in
  Len5_InterpolateN d n.

(** interp/interp.go:315-320 *)
Definition Len5_InterpolateNStrict (d : Len5) (n : F) : result F :=
  if (n <? fconst (-1) 1) || (fconst 1 1 <? n) then Err ErrorNOutOfRange
  else Ok (horner n (l5_coeff d)).

(** interp/interp.go:294-301 *)
Definition Len5_InterpolateXStrict (d : Len5) (x : F) : result F :=
  let n := (fconst 4 1 * x - fconst 2 1 * l5_xSum d) / l5_xDiff d in
  match Len5_InterpolateNStrict d n with
  | Err ErrorNOutOfRange => Err ErrorXOutOfRange
  | r => r
  end.

(** interp/interp.go:327-351 *)
Definition Len5_Extremum_step (d : Len5) (n0 : F) : F :=
  let nCoeff := [fconst 6 1 * (l5_b d + l5_c d) - l5_h d - l5_j d;
                 f0;
                 fconst 3 1 * (l5_h d + l5_k d);
                 fconst 2 1 * l5_k d] in
  horner n0 nCoeff / (l5_k d - fconst 12 1 * l5_f d).
Definition Len5_Extremum (d : Len5) : result (F * F) :=
  if l5_k d - fconst 12 1 * l5_f d =? f0 then Err ErrorExtremumOutside
  else
    match iterate f0 (Len5_Extremum_step d) with
    | None => Err ErrorNoConverge
    | Some n0 =>
        if (n0 <? fconst (-2) 1) || (fconst 2 1 <? n0) then Err ErrorExtremumOutside
        else Ok (fconst 5 10 * l5_xSum d + fconst 25 100 * l5_xDiff d * n0, horner n0 (l5_coeff d))
    end.

(** interp/interp.go:369-406 *)
Definition Len5_Zero_step (d : Len5) (strong : bool) (n0 : F) : F :=
  if strong then
    let M := l5_k d / fconst 24 1 in
    let N := (l5_h d + l5_j d) / fconst 12 1 in
    let P := l5_f d / fconst 2 1 - M in
    let Q := (l5_b d + l5_c d) / fconst 2 1 - N in
    n0 - horner n0 [l5_y3 d; Q; P; N; M] /
         horner n0 [Q; fconst 2 1 * P; fconst 3 1 * N; fconst 4 1 * M]
  else
    horner n0 [fconst (-24) 1 * l5_y3 d; f0; l5_k d - fconst 12 1 * l5_f d;
               fconst (-2) 1 * (l5_h d + l5_j d); - l5_k d] /
    (fconst 12 1 * (l5_b d + l5_c d) - fconst 2 1 * (l5_h d + l5_j d)).
Definition Len5_Zero (d : Len5) (strong : bool) : result F :=
  match iterate f0 (Len5_Zero_step d strong) with
  | None => Err ErrorNoConverge
  | Some n0 =>
      if (fconst 2 1 <? n0) || (n0 <? fconst (-2) 1) then Err ErrorZeroOutside
      else Ok (fconst 5 10 * l5_xSum d + fconst 25 100 * l5_xDiff d * n0)
  end.

(** interp/interp.go:414-429.  [for i := range table] over the index-value pairs. *)
Definition indexed {A} (l : list A) : list (nat * A) := combine (seq 0 (length l)) l.

Definition Lagrange_prod (x : F) (table : list (F * F)) (i : nat) (xi : F) : F :=
  fold_left (fun prod (jt : nat * (F * F)) =>
      let '(j, (xj, _)) := jt in
      if Nat.eqb i j then prod else prod * ((x - xj) / (xi - xj)))
    (indexed table) (fconst 1 1).
Definition Lagrange (x : F) (table : list (F * F)) : F :=
  fold_left (fun sum (it : nat * (F * F)) =>
      let '(i, (xi, yi)) := it in sum + yi * Lagrange_prod x table i xi)
    (indexed table) f0.

(** Slice element read and update. *)
Definition get (l : list F) (i : nat) : F := nth i l f0.
Fixpoint set (l : list F) (i : nat) (v : F) : list F :=
  match l, i with
  | [], _ => []
  | _ :: t, O => v :: t
  | h :: t, S i => h :: set t i v
  end.

(** interp/interp.go:455-457: [for k := n; k < last; k++ { prod[k] -= prod[k+1] * xj }],
    [cnt] iterations from [k]. *)
Fixpoint LP_inner (prod : list F) (xj : F) (k cnt : nat) : list F :=
  match cnt with
  | O => prod
  | S cnt => LP_inner (set prod k (get prod k - get prod (S k) * xj)) xj (S k) cnt
  end.
(** interp/interp.go:451-461; state (prod, den, n). *)
Definition LP_row (last : nat) (i : nat) (xi : F) (st : list F * F * nat) (jt : nat * (F * F))
  : list F * F * nat :=
  let '(prod, den, n) := st in
  let '(j, (xj, _)) := jt in
  if Nat.eqb i j then st
  else
    let prod := set prod (n - 1)%nat (get prod n * - xj) in
    let prod := LP_inner prod xj n (last - n)%nat in
    (prod, den * (xi - xj), (n - 1)%nat).
(** interp/interp.go:445-465; state (sum, prod). *)
Definition LP_outer (table : list (F * F)) (st : list F * list F) (it : nat * (F * F))
  : list F * list F :=
  let '(sum, prod) := st in
  let '(i, (xi, yi)) := it in
  let last := (length table - 1)%nat in
  let prod := set prod last (fconst 1 1) in
  let '(prod, den, _) := fold_left (LP_row last i xi) (indexed table) (prod, fconst 1 1, last) in
  let sum := map (fun '(sj, pj) => sj + yi * pj / den) (combine sum prod) in
  (sum, prod).
(** interp/interp.go:439-467 *)
Definition LagrangePoly (table : list (F * F)) : list F :=
  let z := repeat f0 (length table) in
  fst (fold_left (LP_outer table) (indexed table) (z, z)).

End Generic.
