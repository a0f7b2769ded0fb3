(** Model of package jm (v3/jm/jm.go). *)
From Coq Require Import ZArith Bool List Reals String.
From Verif Require Import GoInt GoFloat M_base M_julian.
Local Open Scope Z_scope.
Local Open Scope go_scope.

(** jm/jm.go:148-165 *)
Definition ymd (b : Z) : Z * Z * Z :=
  let c := floordiv (b *! 100 -! 12210) 36525 in
  let d := floordiv (36525 *! c) 100 in
  let e := floordiv ((b -! d) *! 10000) 306001 in
  let d := (b -! d) -! floordiv (306001 *! e) 10000 in
  let m := if e <? 14 then e -! 1 else e -! 13 in
  let y := if 2 <? m then c -! 4716 else c -! 4715 in
  (y, m, d).

(** jm/jm.go:137-146 *)
Definition JulianToGregorian (y dn : Z) : Z * Z * Z :=
  let JD := (floordiv (36525 *! (y -! 1)) 100 +! 1721423) +! dn in
  let alpha := floordiv (JD *! 100 -! 186721625) 3652425 in
  let beta := if 2299161 <=? JD then JD +! ((1 +! alpha) -! floordiv alpha 4) else JD in
  ymd (beta +! 1524).

(** jm/jm.go:174-185 *)
Definition GregorianToJulian (y m d : Z) : Z * Z * Z :=
  let y' := if m <? 3 then y -! 1 else y in
  let m' := if m <? 3 then m +! 12 else m in
  let alpha := floordiv y' 100 in
  let beta := (2 -! alpha) +! floordiv alpha 4 in
  let b := (((floordiv (36525 *! y') 100 +! floordiv (306001 *! (m' +! 1)) 10000)
             +! d) +! 1722519) +! beta in
  ymd b.

(** jm/jm.go:168-171 *)
Definition MoslemLeapYear (y : Z) : bool :=
  let R := y %! 30 in
  18 <? (11 *! R +! 3) %! 30.

(** jm/jm.go:112-134 *)
Definition MoslemToJulian (y m d : Z) : Z * Z :=
  let N := d +! floordiv (295001 *! (m -! 1) +! 9900) 10000 in
  let Q := floordiv y 30 in
  let R := y %! 30 in
  let A := floordiv (11 *! R +! 3) 30 in
  let W := ((404 *! Q +! 354 *! R) +! 208) +! A in
  let Q1 := floordiv W 1461 in
  let Q2 := W %! 1461 in
  let G := (621 +! 28 *! Q) +! 4 *! Q1 in
  let K := floordiv (Q2 *! 10000) 3652422 in
  let E := floordiv (3652422 *! K) 10000 in
  let J := ((Q2 -! E) +! N) -! 1 in
  let X := G +! K in
  if (366 <? J) && (X %! 4 =? 0) then (X +! 1, J -! 366)
  else if (365 <? J) && (0 <? X %! 4) then (X +! 1, J -! 365)
  else (X, J).

(** jm/jm.go:232-256.  [None] is the index-out-of-range panic. *)
Definition mmonths : list string :=
  ("Muḥarram" :: "Ṣafar" :: "Rabīʿ I" :: "Rabīʿ II" :: "Jumādā I" :: "Jumādā II" :: "Rajab" ::
   "Shaʿbān" :: "Ramaḍān" :: "Shawwāl" :: "Dhū al-Qaʿda" :: "Dhū al-Ḥijja" :: nil)%string.
Definition MMonth_String (m : Z) : option string :=
  let i := m -! 1 in
  if (0 <=? i) && (i <? 12) then nth_error mmonths (Z.to_nat i) else None.

Section Generic.
Context {fl : Flt}.

(** jm/jm.go:196-204, the closure [C2].  [None] if the float-to-int conversion
    is out of range. *)
Definition C2 (A : Z) : option Z :=
  let C := A %! 4 in
  let C1 := (fconst 36525001 100000 * fofZ C)%flt in
  let C2 := ffloor C1 in
  if (fconst 1 2 <? C1 - C2)%flt
  then match fint64 C2 with Some k => Some (k +! 1) | None => None end
  else fint64 C2.

(** jm/jm.go:188-230 *)
Definition JulianToMoslem (y m d : Z) : option (Z * Z * Z) :=
  let W := if y %! 4 =? 0 then 1 else 2 in
  let N := ((floordiv (275 *! m) 9 -! W *! floordiv (m +! 9) 12) +! d) -! 30 in
  let A := y -! 623 in
  let B := floordiv A 4 in
  match C2 A with
  | None => None
  | Some C2 =>
    let Dp := (1461 *! B +! 170) +! C2 in
    let Q := floordiv Dp 10631 in
    let R := Dp %! 10631 in
    let J := floordiv R 354 in
    let K := R %! 354 in
    let O := floordiv (11 *! J +! 14) 30 in
    let H := (30 *! Q +! J) +! 1 in
    let JJ := ((K -! O) +! N) -! 1 in
    let days := if MoslemLeapYear y then 355 else 354 in
    let H' := if days <? JJ then H +! 1 else H in
    let JJ' := if days <? JJ then JJ -! days else JJ in
    Some (if JJ' =? 355 then (H', 12, 30)
          else let S := floordiv ((JJ' -! 1) *! 10) 295 in
               (H', 1 +! S, floordiv (10 *! JJ' -! 295 *! S) 10))
  end.

(** jm/jm.go:83-109.  [None] if the float-to-int conversion is out of range. *)
Definition bigD (y : Z) : option Z :=
  let C := floordiv y 100 in
  let S := if 1583 <=? y then floordiv (3 *! C -! 5) 4 else 0 in
  let a := (12 *! y +! 12) %! 19 in
  let b := y %! 4 in
  let Q := ((fconst (-1904412361576) 1000000000000 +
             fconst 1554241796621 1000000000000 * fofZ a +
             fconst 25 100 * fofZ b) -
            fconst 3177794022 1000000000000 * fofZ y + fofZ S)%flt in
  let fq := ffloor Q in
  match fint64 fq with
  | None => None
  | Some iq =>
    let j := ((((iq +! 3 *! y) +! 5 *! b) +! 2) -! S) %! 7 in
    let r := (Q - fq)%flt in
    Some (if (j =? 2) || (j =? 4) || (j =? 6) then iq +! 23
          else if (j =? 1) && (6 <? a) && (fconst 63287037 100000000 <=? r)%flt then iq +! 24
          else if (j =? 0) && (11 <? a) && (fconst 897723765 1000000000 <=? r)%flt then iq +! 23
          else iq +! 22)
  end.

Record jewish := mkjewish {
  jc_A : Z; jc_mP : Z; jc_dP : Z; jc_mNY : Z; jc_dNY : Z; jc_months : Z; jc_days : Z }.

(** jm/jm.go:41-81 *)
Definition JewishCalendar (y : Z) : option jewish :=
  let A := y +! 3760 in
  match bigD y, bigD (y +! 1) with
  | Some D, Some D1 =>
    let mP := if 31 <? D then 4 else 3 in
    let dP := if 31 <? D then D -! 31 else D in
    let mNY := if 30 <? D -! 21 then 10 else 9 in
    let dNY := if 30 <? D -! 21 then (D -! 21) -! 30 else D -! 21 in
    let k := A %! 19 in
    let months := if (k =? 0) || (k =? 3) || (k =? 6) || (k =? 8) || (k =? 11) || (k =? 14) || (k =? 17)
                  then 13 else 12 in
    let y1 := y +! 1 in
    let leap := if y1 <? 1583 then LeapYearJulian y1 else LeapYearGregorian y1 in
    let days := (if leap then 366 else 365) +! (D1 -! D) in
    Some (mkjewish A mP dP mNY dNY months days)
  | _, _ => None
  end.

End Generic.
