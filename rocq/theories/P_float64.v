(** Property theorems: rounding errors in float64 arithmetic (C103-C106).
    [float64] is Flocq's IEEE binary64 and every operation rounds to nearest even; [B2R] is the value of a number. *)
From Coq Require Import ZArith Bool List Reals Lra Lia.
From Flocq Require Import Core IEEE754.BinarySingleNaN.
From Verif Require Import GoInt GoFloat M_base M_iterate M_interp S_base S_interp S_float64 L_b64 L_round L_horner64 L_bisect64 L_interp64 L_epoch64.
Import ListNotations.
Local Open Scope R_scope.

(** ** C103: bisection, for any function on float64, NaN results included *)
Theorem C103_bisection : forall (f : float64 -> float64) (lower upper : float64), is_finite lower = true -> is_finite upper = true ->
  let M := Rmax (Rabs (B2R lower)) (Rabs (B2R upper)) in M <= 2 ^ 1022 ->
  let r := BinaryRoot (fl := BFlt) f lower upper in
  is_finite r = true /\ between (B2R lower) (B2R upper) (B2R r) /\
  (Bsign (f lower) <> Bsign (f upper) -> zero_or_change f lower upper r ((Rabs (B2R upper - B2R lower) + M) / 2 ^ 52 + / 2 ^ 1073)).
Proof. exact BinaryRoot64. Qed.
Print Assumptions C103_bisection.

(** x - 3 changes sign between 2 and 10, which are in range. *)
Example C103_nonvacuous : let z n := fconst (Flt := BFlt) n 1 in let f x := fsub (Flt := BFlt) x (z 3%Z) in
  is_finite (z 2%Z) = true /\ is_finite (z 10%Z) = true /\ Bsign (f (z 2%Z)) <> Bsign (f (z 10%Z)) /\ Rmax (Rabs (B2R (z 2%Z))) (Rabs (B2R (z 10%Z))) <= 2 ^ 1022.
Proof. exact bisect_example. Qed.

(** ** C104: Horner's rule *)
Theorem C104_horner_error : forall (x : float64) (c : list float64) (r : float64),
  Horner (fl := BFlt) x c = Some r -> is_finite r = true -> (Z.of_nat (length c) <= 1000000)%Z ->
  Rabs (B2R r - poly (map B2R c) (B2R x)) <=
    INR (length c) / 2 ^ 51 * poly (map (fun a => Rabs (B2R a)) c) (Rabs (B2R x)) + / 2 ^ 1073 * poly (repeat 1 (length c - 1)) (Rabs (B2R x)).
Proof. exact Horner64_bound. Qed.
Print Assumptions C104_horner_error.

Example C104_nonvacuous : let z n := fconst (Flt := BFlt) n 1 in exists r, Horner (fl := BFlt) (z 2%Z) [z 1%Z; z 2%Z; z 3%Z] = Some r /\ is_finite r = true.
Proof. exact horner_example. Qed.

(** ** C105: interpolation in a table of three rows *)
Theorem C105_value : forall e (x1 x3 x y0 y1 y2 : float64) d M (f : R -> R), (0 <= e <= 1000)%Z -> on_grid e x1 -> on_grid e x3 -> on_grid e x ->
  is_finite y0 = true -> is_finite y1 = true -> is_finite y2 = true -> Rabs (B2R y0) <= M -> Rabs (B2R y1) <= M -> Rabs (B2R y2) <= M -> M <= 2 ^ 1000 ->
  poly_degree_le 2 f -> tabulates f (B2R x1) (B2R x3) [B2R y0; B2R y1; B2R y2] ->
  NewLen3 (fl := BFlt) x1 x3 [y0; y1; y2] = Ok d -> between (B2R x1) (B2R x3) (B2R x) ->
  close64 (Len3_InterpolateX (fl := BFlt) d x) (f (B2R x)) (33 * unit64 M).
Proof. exact Len3_value_grid. Qed.
Print Assumptions C105_value.

(** The same for the normalised argument, which may be any number from -1 to 1. *)
Theorem C105_value_n : forall (x1 x3 y0 y1 y2 : float64) d (n : float64) M,
  NewLen3 (fl := BFlt) x1 x3 [y0; y1; y2] = Ok d -> is_finite y0 = true -> is_finite y1 = true -> is_finite y2 = true ->
  Rabs (B2R y0) <= M -> Rabs (B2R y1) <= M -> Rabs (B2R y2) <= M -> M <= bpow radix2 1000 -> is_finite n = true -> Rabs (B2R n) <= 1 ->
  let v := Len3_InterpolateN (fl := BFlt) d n in let t := B2R n in
  close64 v (B2R y1 + t * / 2 * ((B2R y2 - B2R y0) + t * (B2R y2 - 2 * B2R y1 + B2R y0))) (27 * unit64 M).
Proof. exact Len3_InterpolateN64. Qed.
Print Assumptions C105_value_n.

(** On a grid of binary fractions the strict form accepts exactly the arguments in the range of the table. *)
Theorem C105_strict_partial : forall e (x1 x3 x : float64) (y : list float64) d, (0 <= e <= 1000)%Z -> on_grid e x1 -> on_grid e x3 -> on_grid e x ->
  NewLen3 (fl := BFlt) x1 x3 y = Ok d ->
  (between (B2R x1) (B2R x3) (B2R x) -> Len3_InterpolateXStrict (fl := BFlt) d x = Ok (Len3_InterpolateX (fl := BFlt) d x)) /\
  (~ between (B2R x1) (B2R x3) (B2R x) -> Len3_InterpolateXStrict (fl := BFlt) d x = Err ErrorXOutOfRange).
Proof. exact Len3_strict_grid. Qed.
Print Assumptions C105_strict_partial.

(** In general it does not: every table from 0.1 to 0.2 rejects its own first abscissa. *)
Theorem C105_strict_refuted : let x1 := fconst (Flt := BFlt) 1 10 in let x3 := fconst (Flt := BFlt) 2 10 in forall y0 y1 y2 : float64,
  exists d, NewLen3 (fl := BFlt) x1 x3 [y0; y1; y2] = Ok d /\ Len3_InterpolateXStrict (fl := BFlt) d x1 = Err ErrorXOutOfRange.
Proof. exact Len3_strict_tenth. Qed.
Print Assumptions C105_strict_refuted.

Example C105_nonvacuous : let z n := fconst (Flt := BFlt) n 1 in on_grid 0 (z 10%Z) /\ on_grid 0 (z 20%Z) /\ on_grid 0 (z 13%Z) /\
  between (B2R (z 10%Z)) (B2R (z 20%Z)) (B2R (z 13%Z)) /\
  poly_degree_le 2 (fun x => x * x) /\ tabulates (fun x => x * x) (B2R (z 10%Z)) (B2R (z 20%Z)) [B2R (z 100%Z); B2R (z 225%Z); B2R (z 400%Z)].
Proof. exact Len3_grid_example. Qed.

(** ** C106: epochs *)
Theorem C106_julian_epochs :
  (forall y : float64, is_finite y = true -> Rabs (B2R y) <= 10000 -> close64 (JulianYearToJDE (fl := BFlt) y) (2451545 + 365.25 * (B2R y - 2000)) 2e-9) /\
  (forall j : float64, is_finite j = true -> Rabs (B2R j) <= 7e6 -> close64 (JDEToJulianYear (fl := BFlt) j) (2000 + (B2R j - 2451545) / 365.25) 1e-11).
Proof. exact (conj JulianYearToJDE64 JDEToJulianYear64). Qed.
Print Assumptions C106_julian_epochs.

Theorem C106_besselian_epochs :
  (forall y : float64, is_finite y = true -> Rabs (B2R y) <= 10000 -> close64 (BesselianYearToJDE (fl := BFlt) y) (2415020.3135 + 365.2421988 * (B2R y - 1900)) 3e-9) /\
  (forall j : float64, is_finite j = true -> Rabs (B2R j) <= 7e6 -> close64 (JDEToBesselianYear (fl := BFlt) j) (1900 + (B2R j - 2415020.3135) / 365.2421988) 1.5e-11).
Proof. exact (conj BesselianYearToJDE64 JDEToBesselianYear64). Qed.
Print Assumptions C106_besselian_epochs.

Theorem C106_round_trip : forall y : float64, is_finite y = true -> Rabs (B2R y) <= 10000 ->
  close64 (JDEToJulianYear (fl := BFlt) (JulianYearToJDE (fl := BFlt) y)) (B2R y) 1.6e-11 /\
  close64 (JDEToBesselianYear (fl := BFlt) (BesselianYearToJDE (fl := BFlt) y)) (B2R y) 2.4e-11.
Proof. exact (fun y F B => conj (julian_round_trip64 y F B) (besselian_round_trip64 y F B)). Qed.
Print Assumptions C106_round_trip.

Theorem C106_order : increasing64 (JulianYearToJDE (fl := BFlt)) 1e6 /\ increasing64 (BesselianYearToJDE (fl := BFlt)) 1e6 /\
  increasing64 (JDEToJulianYear (fl := BFlt)) 1e9 /\ increasing64 (JDEToBesselianYear (fl := BFlt)) 1e9.
Proof. exact epochs_increasing64. Qed.
Print Assumptions C106_order.

Theorem C106_century : forall j : float64, is_finite j = true -> Rabs (B2R j) <= 1e9 ->
  let T := (B2R j - 2451545) / 36525 in close64 (J2000Century (fl := BFlt) j) T (3 * / 2 ^ 53 * Rabs T + 2 * bpow radix2 (-1075)).
Proof. exact J2000Century64. Qed.
Print Assumptions C106_century.

Example C106_nonvacuous : let y := fconst (Flt := BFlt) 19865 10 in is_finite y = true /\ B2R y = 1986.5 /\ Rabs (B2R y) <= 10000.
Proof. exact epoch_example. Qed.
