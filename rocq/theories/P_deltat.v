(** Property theorems: delta-T (C60). *)
From Coq Require Import ZArith Bool List Reals Lra Lia.
From Verif Require Import GoInt GoFloat M_base M_interp M_julian M_deltat S_base S_interp S_Calendar S_deltat L_deltat.
Import ListNotations.
Local Open Scope R_scope.

(** The table interpolation never panics, from 4712 BC January 1 on. *)
Theorem C60_total : forall unspec jde, - / 2 <= jde <= 60000000000000000 -> exists v, Interp10A (fl := RFlt) unspec jde = Some v.
Proof. exact Interp_total. Qed.
Print Assumptions C60_total.

(** The answer is on the parabola through three consecutive rows of the table around the row
    nearest to the date, where the date is a year with fraction counted in whole days. *)
Theorem C60_interpolates : forall unspec jde y, (1583 <= y <= 100000)%Z -> in_year y jde ->
  exists k f, (1 <= k <= 194)%Z /\ poly_degree_le 2 f /\
  (forall z, (z = 1620 + 2 * (k - 1) \/ z = 1620 + 2 * k \/ z = 1620 + 2 * (k + 1))%Z -> f (IZR z) = row table10A_tenths z) /\
  Interp10A (fl := RFlt) unspec jde = Some (f (year_with_fraction y jde)) /\
  (1620 <= year_with_fraction y jde <= 2010 -> forall j, (1 <= j <= 194)%Z ->
    Rabs (year_with_fraction y jde - IZR (1620 + 2 * k)) <= Rabs (year_with_fraction y jde - IZR (1620 + 2 * j))).
Proof. exact Interp_value. Qed.
Print Assumptions C60_interpolates.

(** The row of a year is returned on the day that ends half a day before that year begins. *)
Theorem C60_reproduces_shifted : forall unspec jde y, (1620 <= y <= 2010)%Z -> Z.even y = true -> january1 y - 3 / 2 <= jde < january1 y - / 2 ->
  Interp10A (fl := RFlt) unspec jde = Some (row table10A_tenths y).
Proof. exact Interp_reproduces. Qed.
Print Assumptions C60_reproduces_shifted.

(** At the date of a row the row is missed, by at most a fiftieth of a second. *)
Theorem C60_rows_partial : forall unspec y, (1622 <= y <= 2008)%Z -> Z.even y = true ->
  exists v : R, Interp10A (fl := RFlt) unspec (january1 y) = Some v /\ Rabs (v - row table10A_tenths y) <= 1 / 50.
Proof. intros unspec y H E. destruct (Interp_january unspec y H E) as (v & A & B & _). exists v. split; assumption. Qed.
Print Assumptions C60_rows_partial.

Theorem C60_rows_refuted : exists y, (1620 <= y <= 2010)%Z /\ Z.even y = true /\
  forall unspec, Interp10A (fl := RFlt) unspec (january1 y) <> Some (row table10A_tenths y).
Proof. exact Interp_row_missed. Qed.
Print Assumptions C60_rows_refuted.

(** The polynomials for years, u centuries from 2000: before 948 2177 + 497 u + 44.1 u^2, later
    102 + 102 u + 25.3 u^2, with a correction up to 2100 that vanishes there. *)
Theorem C60_year_polynomials : forall year,
  PolyBefore948 (fl := RFlt) year = 2177 + 497 * ((year - 2000) / 100) + 44.1 * ((year - 2000) / 100) ^ 2 /\
  Poly948to1600 (fl := RFlt) year = 102 + 102 * ((year - 2000) / 100) + 25.3 * ((year - 2000) / 100) ^ 2 /\
  (2100 <= year -> PolyAfter2000 (fl := RFlt) year = 102 + 102 * ((year - 2000) / 100) + 25.3 * ((year - 2000) / 100) ^ 2) /\
  (year <= 2100 -> PolyAfter2000 (fl := RFlt) year = 102 + 102 * ((year - 2000) / 100) + 25.3 * ((year - 2000) / 100) ^ 2 + 0.37 * (year - 2100)).
Proof. exact polys. Qed.
Print Assumptions C60_year_polynomials.

(** The documented accuracies of the three polynomials for dates, at every row of the table in
    their range: 2.3 seconds, 0.9 seconds and 0.9 seconds. *)
Theorem C60_accuracy : forall y, Z.even y = true ->
  ((1800 <= y <= 1997)%Z -> Rabs (Poly1800to1997 (fl := RFlt) (january1 y) - row table10A_tenths y) <= 2.3) /\
  ((1800 <= y <= 1899)%Z -> Rabs (Poly1800to1899 (fl := RFlt) (january1 y) - row table10A_tenths y) <= 0.9) /\
  ((1900 <= y <= 1997)%Z -> Rabs (Poly1900to1997 (fl := RFlt) (january1 y) - row table10A_tenths y) <= 0.9).
Proof. exact accuracy. Qed.
Print Assumptions C60_accuracy.

(** 1990 January 1: the table has 56.9 seconds, the day before but one gives exactly that. *)
Example C60_nonvacuous : january1 1990 = 2447892.5 /\ row table10A_tenths 1990 = 56.9 /\ in_year 1990 2448000.
Proof. exact example_1990. Qed.
Print Assumptions C60_nonvacuous.
