(** Property theorems: mean orbital elements of the planets (C81). *)
From Coq Require Import ZArith Reals List.
From Verif Require Import GoMath S_solar S_planetelements M_planetelements L_planetelements.
Local Open Scope R_scope.

(** "Argument p must be a planet const": Mean and Node panic for one of these constants. *)
Theorem C81_total_refuted : forall jde, Mean Earth jde = None /\ Node Earth jde = None.
Proof. exact (fun jde => conj eq_refl eq_refl). Qed.
Print Assumptions C81_total_refuted.
Theorem C81_panics : forall p jde, (Mean p jde = None <-> ~ (0 <= p < 8)%Z \/ p = Earth) /\ (Node p jde = None <-> ~ (0 <= p < 8)%Z \/ p = Earth).
Proof. exact (fun p jde => conj (Mean_panics p jde) (Node_panics p jde)). Qed.
Print Assumptions C81_panics.

(** For the other planets and 20 centuries around 2000: the semimajor axis is the planet's distance
    to 0.1 %, eccentricity, inclination and angles are in range, and Inc and Node agree with Mean. *)
Theorem C81_elements : forall p jde, (0 <= p < 8)%Z -> p <> Earth -> Rabs ((jde - 2451545) / 36525) <= 20 ->
  exists e, Mean p jde = Some e /\ Inc p jde = Some (eInc e) /\ Node p jde = Some (eNode e) /\
  0 <= eLon e < 2 * PI /\ Rabs (eAxis e - nth (Z.to_nat p) mean_distance 0) <= nth (Z.to_nat p) mean_distance 0 / 1000 /\ 0 < eEcc e < 0.21 /\
  0 < eInc e < degrees 7.1 /\ 0 < eNode e < 2 * PI /\ - degrees 20 < ePeri e < 2 * PI + degrees 20.
Proof. exact elements_range. Qed.
Print Assumptions C81_elements.

(** The orbits do not meet: the aphelion of a planet is inside the perihelion of any farther one. *)
Theorem C81_orbits_apart : forall p q jde jde', (0 <= p < 8)%Z -> (0 <= q < 8)%Z -> p <> Earth -> q <> Earth -> (p < q)%Z ->
  Rabs ((jde - 2451545) / 36525) <= 20 -> Rabs ((jde' - 2451545) / 36525) <= 20 ->
  exists e f, Mean p jde = Some e /\ Mean q jde' = Some f /\ eAxis e * (1 + eEcc e) < eAxis f * (1 - eEcc f).
Proof. exact no_meeting. Qed.
Print Assumptions C81_orbits_apart.

(** The mean longitude turns at the rate of the tropical period, to 0.1 %. *)
Theorem C81_mean_motion : forall p, (0 <= p < 8)%Z -> p <> Earth -> exists L : R -> R,
  (forall jde e, Mean p jde = Some e -> same_angle (eLon e) (L jde)) /\
  forall s t, Rabs ((s - 2451545) / 36525) <= 20 -> Rabs ((t - 2451545) / 36525) <= 20 -> s <= t ->
    Rabs (L t - L s - 2 * PI * (t - s) / nth (Z.to_nat p) tropical_period 0) <= 2 * PI * (t - s) / nth (Z.to_nat p) tropical_period 0 / 1000.
Proof. exact (fun p P N => ex_intro _ (unwound p) (conj (Lon_unwound p) (fun s t => mean_motion p s t P N))). Qed.
Print Assumptions C81_mean_motion.

Example C81_nonvacuous : (0 <= Mercury < 8)%Z /\ Mercury <> Earth /\ Rabs ((2475460.5 - 2451545) / 36525) <= 20.
Proof. exact elements_example. Qed.
Print Assumptions C81_nonvacuous.
