(** Model of package sundial (v3/sundial/sundial.go) over the real numbers.  A quotient by
    zero, which is infinite or not a number in Go, is [None]; the arc cosine of a number
    outside [-1, 1] is not a number, for which the test [aH > H0] is false. *)
From Coq Require Import ZArith Reals List Bool.
From Flocq Require Import Core.
Import ListNotations.
Local Open Scope R_scope.

Definition fdiv (x y : R) : option R := if Req_bool y 0 then None else Some (x / y).
Definition fmulo (x : option R) (y : R) : option R := match x with Some v => Some (v * y) | None => None end.
(** sundial/sundial.go:14-16 *)
Definition Point : Type := (option R * option R)%type.
(** sundial/sundial.go:19-22 *)
Definition Line : Type := (Z * list Point)%type.
(** sundial/sundial.go:24 *)
Definition decs : list R := [-23.44; -20.15; -11.47; 0; 11.47; 20.15; 23.44].
Definition tanDec (d : R) : R := tan (d * PI / 180).
(** sundial/sundial.go:48 and the same lines of the other functions *)
Definition hourAngle (i : Z) : R := IZR (i - 12) * 15 * PI / 180.
(** sundial/sundial.go:51-56: the test [math.Abs(H) > math.Acos(-tφ * tδ)].  A latitude
    with zero cosine makes tφ infinite and the arc cosine not a number. *)
Definition belowHorizon (sphi cphi td H : R) : bool :=
  if Req_bool cphi 0 then false else
  let x := - (sphi / cphi) * td in
  if Rlt_bool 1 (Rabs x) then false else Rlt_bool (acos x) (Rabs H).
(** The loops of sundial/sundial.go:46-69: [f H tδ] is the point appended, if any. *)
Fixpoint keep (f : R -> option Point) (l : list R) : list Point :=
  match l with
  | [] => []
  | d :: r => match f (tanDec d) with Some p => p :: keep f r | None => keep f r end
  end.
Fixpoint hours (f : R -> R -> option Point) (l : list Z) : list Line :=
  match l with
  | [] => []
  | i :: r => match keep (f (hourAngle i)) decs with [] => hours f r | ps => (i, ps) :: hours f r end
  end.
Definition allHours : list Z := map Z.of_nat (seq 0 24).
Definition linesOf (f : R -> R -> option Point) : list Line := hours f allHours.

(** sundial/sundial.go:39-74 *)
Definition genP (phi D z : R) : R := sin phi * cos z - cos phi * sin z * cos D.
Definition genQ (phi D z H td : R) : R :=
  sin D * sin z * sin H + (cos phi * cos z + sin phi * sin z * cos D) * cos H + genP phi D z * td.
Definition genNx (phi D z H td : R) : R := cos D * sin H - sin D * (sin phi * cos H - cos phi * td).
Definition genNy (phi D z H td : R) : R :=
  cos z * sin D * sin H - (cos phi * sin z - sin phi * cos z * cos D) * cos H - (sin phi * sin z + cos phi * cos z * cos D) * td.
Definition genPoint (phi D a z H td : R) : option Point :=
  if belowHorizon (sin phi) (cos phi) td H then None
  else if Rlt_bool (genQ phi D z H td) 0 then None
  else Some (fdiv (a * genNx phi D z H td) (genQ phi D z H td), fdiv (a * genNy phi D z H td) (genQ phi D z H td)).
Definition General (phi D a z : R) : list Line * Point * option R * R :=
  let P := genP phi D z in
  (linesOf (genPoint phi D a z),
   (fmulo (fmulo (fdiv a P) (cos phi)) (sin D), fmulo (fdiv (- a) P) (sin phi * sin z + cos phi * cos z * cos D)),
   fdiv a (Rabs P), asin (Rabs P)).

(** sundial/sundial.go:85-115: the north and south sides. *)
Definition eqPoint (north : bool) (phi a H td : R) : option Point :=
  if belowHorizon (sin phi) (cos phi) td H then None
  else
    let x := fdiv (- a * sin H) td in let yy := fdiv (a * cos H) td in
    if Rlt_bool td 0 then (if north then None else Some (x, yy))
    else (if north then Some (x, fmulo yy (-1)) else None).
Definition Equatorial (phi a : R) : list Line * list Line := (linesOf (eqPoint true phi a), linesOf (eqPoint false phi a)).

(** sundial/sundial.go:125-151 *)
Definition horPoint (phi a H td : R) : option Point :=
  if belowHorizon (sin phi) (cos phi) td H then None
  else
    let Q := cos phi * cos H + sin phi * td in
    Some (fdiv (a * sin H) Q, fdiv (a * (sin phi * cos H - cos phi * td)) Q).
Definition Horizontal (phi a : R) : list Line * Point * option R :=
  (linesOf (horPoint phi a),
   (Some 0, match fdiv (sin phi) (cos phi) with Some tphi => fdiv (- a) tphi | None => Some 0 end),
   fdiv a (Rabs (sin phi))).

(** sundial/sundial.go:163-194 *)
Definition verPoint (phi D a H td : R) : option Point :=
  if belowHorizon (sin phi) (cos phi) td H then None
  else
    let Q := sin D * sin H + sin phi * cos D * cos H - cos phi * cos D * td in
    if Rlt_bool Q 0 then None
    else Some (fdiv (a * (cos D * sin H - sin phi * sin D * cos H + cos phi * sin D * td)) Q,
               fdiv (- a * (cos phi * cos H + sin phi * td)) Q).
Definition Vertical (phi D a : R) : list Line * Point * option R :=
  (linesOf (verPoint phi D a),
   (fdiv (- a * sin D) (cos D), match fdiv (sin phi) (cos phi) with Some tphi => fdiv (a * tphi) (cos D) | None => None end),
   fdiv a (Rabs (cos phi * cos D))).
