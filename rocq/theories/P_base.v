(** Property theorems: package base (C01, C15, C16). *)
From Coq Require Import ZArith Bool List Reals Lra Lia.
From Flocq Require Import Core IEEE754.BinarySingleNaN.
From Verif Require Import GoInt GoFloat M_base S_base L_base.
Import ListNotations.

(** ** C01 *)
Theorem C01_FloorDiv_floor : forall x y, in64 x -> in64 y -> y <> 0%Z -> ~ (x = - two63 /\ y = -1)%Z ->
  exists q, FloorDiv x y = Some q /\ in64 q /\ is_floor q x y.
Proof. exact FloorDiv_correct. Qed.
Print Assumptions C01_FloorDiv_floor.

Theorem C01_FloorDiv64_floor : forall x y, in64 x -> in64 y -> y <> 0%Z -> ~ (x = - two63 /\ y = -1)%Z ->
  exists q, FloorDiv64 x y = Some q /\ in64 q /\ is_floor q x y.
Proof. exact FloorDiv_correct. Qed.
Print Assumptions C01_FloorDiv64_floor.

Theorem C01_FloorDiv_panics : forall x y, FloorDiv x y = None <-> y = 0%Z.
Proof. exact FloorDiv_panics. Qed.
Print Assumptions C01_FloorDiv_panics.

Theorem C01_FloorDiv_overflow : FloorDiv (- two63) (-1) = Some (- two63)%Z.
Proof. exact FloorDiv_overflow. Qed.
Print Assumptions C01_FloorDiv_overflow.

Example C01_nonvacuous : in64 (-7) /\ in64 2 /\ FloorDiv (-7) 2 = Some (-4)%Z /\ FloorDiv 7 (-2) = Some (-4)%Z
  /\ FloorDiv (-7) (-2) = Some 3%Z.
Proof. unfold in64, two63. repeat split; lia || reflexivity. Qed.

(** ** C15 *)
Theorem C15_Horner_poly : forall (x : R) (c : list R), c <> [] -> Horner (fl := RFlt) x c = Some (poly c x).
Proof. exact Horner_poly. Qed.
Print Assumptions C15_Horner_poly.

Theorem C15_Horner_panics : forall (fl : Flt) x c, Horner x c = None <-> c = [].
Proof. exact Horner_panics. Qed.
Print Assumptions C15_Horner_panics.

Example C15_nonvacuous : [1; 2; 3]%R <> [] /\ poly [1; 2; 3]%R 2 = 17%R.
Proof. split; [discriminate|]. unfold poly. cbn. lra. Qed.

(** ** C16 *)
Theorem C16_julian_years : forall y j : R,
  JDEToJulianYear (fl := RFlt) (JulianYearToJDE (fl := RFlt) y) = y /\
  JulianYearToJDE (fl := RFlt) (JDEToJulianYear (fl := RFlt) j) = j /\
  strictly_increasing (JulianYearToJDE (fl := RFlt)) /\ strictly_increasing (JDEToJulianYear (fl := RFlt)).
Proof.
  exact (fun y j => conj (julian_year_inv y) (conj (julian_year_inv' j) (conj julian_year_mono julian_year_mono'))).
Qed.
Print Assumptions C16_julian_years.

Theorem C16_besselian_years : forall y j : R,
  JDEToBesselianYear (fl := RFlt) (BesselianYearToJDE (fl := RFlt) y) = y /\
  BesselianYearToJDE (fl := RFlt) (JDEToBesselianYear (fl := RFlt) j) = j /\
  strictly_increasing (BesselianYearToJDE (fl := RFlt)) /\ strictly_increasing (JDEToBesselianYear (fl := RFlt)).
Proof.
  exact (fun y j => conj (besselian_year_inv y) (conj (besselian_year_inv' j) (conj besselian_year_mono besselian_year_mono'))).
Qed.
Print Assumptions C16_besselian_years.

Theorem C16_epoch_anchors : JulianYearToJDE (fl := RFlt) 2000%R = 2451545%R /\
  JulianYearToJDE (fl := RFlt) 2001%R = (2451545 + 365.25)%R /\
  BesselianYearToJDE (fl := RFlt) 1900%R = 2415020.3135%R /\
  (Rabs (BesselianYearToJDE (fl := RFlt) 1950%R - B1950 (fl := RFlt)) < 1 / 1000)%R.
Proof. exact epoch_anchors. Qed.
Print Assumptions C16_epoch_anchors.

Theorem C16_J2000Century : forall j : R, J2000Century (fl := RFlt) j = ((j - 2451545) / 36525)%R.
Proof. exact J2000Century_affine. Qed.
Print Assumptions C16_J2000Century.

Theorem C16_Cmp_order : forall a b : R,
  (Cmp (fl := RFlt) a b = (-1)%Z <-> (a < b)%R) /\ (Cmp (fl := RFlt) a b = 0%Z <-> a = b) /\
  (Cmp (fl := RFlt) a b = 1%Z <-> (b < a)%R).
Proof. exact Cmp_R_order. Qed.
Print Assumptions C16_Cmp_order.

Theorem C16_Cmp_float64 : forall a b : float64, is_finite a = true -> is_finite b = true ->
  Cmp (fl := BFlt) a b = Cmp (fl := RFlt) (B2R a) (B2R b).
Proof. exact Cmp_b64_finite. Qed.
Print Assumptions C16_Cmp_float64.

Example C16_nonvacuous : is_finite (b64_ofZ 3) = true /\ Cmp (fl := BFlt) (b64_ofZ 3) (b64_ofZ 4) = (-1)%Z.
Proof. split; vm_compute; reflexivity. Qed.
