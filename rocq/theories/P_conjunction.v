(** Property theorems: conjunctions (C64). *)
From Coq Require Import ZArith Bool List Reals Lra Lia.
From Verif Require Import GoInt GoFloat M_base M_interp M_conjunction S_base S_interp S_conjunction L_conjunction.
Import ListNotations.
Local Open Scope R_scope.

(** An answer without error is an instant in the middle half of the table where the
    interpolated longitudes agree, with the difference of the interpolated latitudes there. *)
Theorem C64_planetary_sound : forall t1 t5 r1 d1 r2 d2 f1 g1 f2 g2 t d Y,
  quartic f1 t1 t5 r1 -> quartic g1 t1 t5 d1 -> quartic f2 t1 t5 r2 -> quartic g2 t1 t5 d2 ->
  (forall k, (k < 5)%nat -> Rabs (diff r2 r1 k) <= Y) ->
  Planetary (fl := XFlt) (Fin t1) (Fin t5) (map Fin r1) (map Fin d1) (map Fin r2) (map Fin d2) = (t, d, None) ->
  exists x, t = Fin x /\ within t1 t5 (1 / 4) (3 / 4) x /\ Rabs (f2 x - f1 x) <= 1 / 1000000000000 * Y /\ d = Fin (g2 x - g1 x).
Proof. exact Planetary_sound. Qed.
Print Assumptions C64_planetary_sound.

(** A conjunction well inside the middle half of the table and not at its middle is found, if
    the relative motion is nearly uniform. *)
Theorem C64_planetary_found_partial : forall t1 t5 r1 d1 r2 d2 f1 g1 f2 g2 x, t1 <> t5 ->
  length r1 = 5%nat -> length d1 = 5%nat -> length r2 = 5%nat -> length d2 = 5%nat ->
  quartic f1 t1 t5 r1 -> quartic g1 t1 t5 d1 -> quartic f2 t1 t5 r2 -> quartic g2 t1 t5 d2 ->
  nearly_uniform (diff r2 r1) ->
  f1 x = f2 x -> within t1 t5 (1 / 4 + 1 / 1000) (3 / 4 - 1 / 1000) x -> x <> (t1 + t5) / 2 ->
  exists t, Planetary (fl := XFlt) (Fin t1) (Fin t5) (map Fin r1) (map Fin d1) (map Fin r2) (map Fin d2) = (Fin t, Fin (g2 t - g1 t), None) /\
    Rabs (t - x) <= 1 / 1000000000000000 * Rabs (t5 - t1).
Proof. exact Planetary_complete. Qed.
Print Assumptions C64_planetary_found_partial.

Theorem C64_errors : forall t1 t5 r1 d1 r2 d2,
  let all5 := length r1 = 5%nat /\ length d1 = 5%nat /\ length r2 = 5%nat /\ length d2 = 5%nat in
  let res := Planetary (fl := XFlt) (Fin t1) (Fin t5) (map Fin r1) (map Fin d1) (map Fin r2) (map Fin d2) in
  (~ all5 -> snd res = Some ErrorRows) /\ (all5 -> t1 = t5 -> snd res = Some (ErrorInterp ErrorNoXRange)).
Proof. exact Planetary_errors. Qed.
Print Assumptions C64_errors.

(** A star is an object that does not move, in any arithmetic. *)
Theorem C64_stellar : forall (fl : Flt) t1 t5 r1 d1 r2 d2,
  Stellar t1 t5 r1 d1 r2 d2 = Planetary t1 t5 (repeat r1 5) (repeat d1 5) r2 d2.
Proof. exact @Stellar_Planetary. Qed.
Print Assumptions C64_stellar.

(** A conjunction in the outer half of the table is an error, for every uniform motion. *)
Theorem C64_outer_refuted : forall t1 t5 r1 d1 A B d2, t1 <> t5 -> length d2 = 5%nat -> Rabs B < Rabs A <= 2 * Rabs B ->
  exists f t, quartic f t1 t5 (column r1 A B) /\ within t1 t5 0 1 t /\ f t = r1 /\
  Stellar (fl := XFlt) (Fin t1) (Fin t5) (Fin r1) (Fin d1) (map Fin (column r1 A B)) (map Fin d2) = (Fin t, Fin 0, Some (ErrorInterp ErrorXOutOfRange)).
Proof. exact Stellar_outer. Qed.
Print Assumptions C64_outer_refuted.

(** A conjunction at the middle row is an error, for every ephemeris. *)
Theorem C64_middle_refuted : forall t1 t5 r1 d1 r2 d2, t1 <> t5 -> length r2 = 5%nat -> length d2 = 5%nat -> nth 2 r2 0 = r1 ->
  snd (Stellar (fl := XFlt) (Fin t1) (Fin t5) (Fin r1) (Fin d1) (map Fin r2) (map Fin d2)) = Some (ErrorInterp ErrorNoConverge).
Proof. exact Stellar_middle. Qed.
Print Assumptions C64_middle_refuted.

(** Right ascensions are compared as numbers: the same directions, a turn later, are not found. *)
Theorem C64_wrap_refuted : forall t1 t5 r1 d1 A B d2, t1 <> t5 -> length d2 = 5%nat -> 0 < Rabs A <= Rabs B -> Rabs B <= 1 ->
  snd (Stellar (fl := XFlt) (Fin t1) (Fin t5) (Fin r1) (Fin d1) (map Fin (column r1 A B)) (map Fin d2)) = None /\
  snd (Stellar (fl := XFlt) (Fin t1) (Fin t5) (Fin r1) (Fin d1) (map Fin (map (fun r => r + 2 * PI) (column r1 A B))) (map Fin d2)) = Some (ErrorInterp ErrorZeroOutside).
Proof. exact Stellar_wrap. Qed.
Print Assumptions C64_wrap_refuted.

Example C64_nonvacuous : quartic (fun t => 3 + 1 / 2 + 1 * (4 * (t - (0 + 4) / 2) / (4 - 0))) 0 4 (column 3 (1 / 2) 1) /\
  quartic (fun t => 3 + 0 + 0 * (4 * (t - (0 + 4) / 2) / (4 - 0))) 0 4 (column 3 0 0) /\
  nearly_uniform (diff (column 3 (1 / 2) 1) (column 3 0 0)) /\ within 0 4 (1 / 4 + 1 / 1000) (3 / 4 - 1 / 1000) (3 / 2).
Proof.
  split; [apply column_line; lra|]. split; [apply column_line; lra|]. split.
  - unfold nearly_uniform, diff, column. cbn [nth]. cbv zeta.
    assert (E : 3 + (1 / 2 + 1) - (3 + (0 + 0)) - (3 + (1 / 2 - 1) - (3 + (0 - 0))) = 2) by lra. rewrite E, (Rabs_right 2) by lra.
    split; [lra|]. repeat split; apply Rabs_le; lra.
  - exists (3 / 8). lra.
Qed.
