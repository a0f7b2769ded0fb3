(** Property theorems: apparent.Position and PositionRonVondrak give the same place (C113). *)
From Coq Require Import Reals Lra.
From Verif Require Import GoFloat GoMath M_base M_precess M_apparent S_Sphere S_precess S_solar L_apparent5.
Local Open Scope R_scope.

(** A star given for J2000 with its proper motion, a date from 1900 to 2100.  Position moves the mean place of the date by
    nutation and aberration; PositionRonVondrak moves the place of J2000 by the velocity of its table, precesses and moves
    by nutation.  The two directions differ by at most 0.084 seconds of arc and, as the corrections are added to the
    coordinates, 0.017 over the square of the cosine of the declination. *)
Theorem C113_same_place : forall eq e ma md k, 1900 <= e <= 2100 ->
  let q := Position eq 2000 e ma md in let d := eqDec eq + md * (e - 2000) in
  1 / 10 <= k -> - (PI / 2) < d < PI / 2 -> - (PI / 2) < eqDec q < PI / 2 -> k <= cos d -> k <= cos (eqDec q) ->
  let a := ApparentPosition eq 2000 e ma md in let b := PositionRonVondrak eq e ma md in
  norm (vsub (dir (eqRA b) (eqDec b)) (dir (eqRA a) (eqDec a))) <= arcsec (0.084 + 0.017 / (k * k)).
Proof. intros eq e ma md k He. exact (agree eq e ma md k He). Qed.
Print Assumptions C113_same_place.
Theorem C113_RA : forall eq e ma md, 0 <= eqRA (PositionRonVondrak eq e ma md) < 2 * PI.
Proof. exact RonVondrak_RA. Qed.
Print Assumptions C113_RA.
Example C113_nonvacuous : let q := Position (mkEq 1 (1 / 2)) 2000 2000 0 0 in
  - (PI / 2) < 1 / 2 + 0 * (2000 - 2000) < PI / 2 /\ - (PI / 2) < eqDec q < PI / 2 /\ 1 / 2 <= cos (1 / 2 + 0 * (2000 - 2000)) /\ 1 / 2 <= cos (eqDec q).
Proof. exact agree_example. Qed.
