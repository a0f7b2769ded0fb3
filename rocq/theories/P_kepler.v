(** Properties C35-C37 and C65: Kepler's equation, true anomaly and radius. *)
From Coq Require Import ZArith Reals Bool List Lra.
From Verif Require Import GoFloat GoMath S_base M_base M_iterate S_kepler M_kepler L_trig L_kepler L_kepler2 L_kepler3 L_kepler4 L_orbit.
Import ListNotations.
Local Open Scope R_scope.

(** ** C35 *)

(** Kepler's equation has exactly one solution, and an equation residual of r
    is an error of at most r/(1-e) in the eccentric anomaly. *)
Theorem C35_one_solution : forall e M, 0 <= e < 1 -> exists! E, solves e M E.
Proof. exact kepler_total. Qed.
Print Assumptions C35_one_solution.

Theorem C35_error_bound : forall e M E Es r, 0 <= e < 1 -> solves e M Es ->
  Rabs (E - e * sin E - M) <= r -> Rabs (E - Es) <= r / (1 - e).
Proof. exact residual_error. Qed.
Print Assumptions C35_error_bound.

Theorem C35_Kepler1 : forall e M p E, 0 <= e < 1 -> Kepler1 e M p = Ok E ->
  Rabs (E - e * sin E - M) <= e * powerRZ 10 (- p).
Proof. exact Kepler1_ok. Qed.
Print Assumptions C35_Kepler1.

(** For moderate eccentricities the simple iteration always succeeds. *)
Theorem C35_Kepler1_succeeds : forall e M p, 0 <= e <= 63 / 100 -> (1 <= p)%Z -> exists E, Kepler1 e M p = Ok E.
Proof. exact Kepler1_total. Qed.
Print Assumptions C35_Kepler1_succeeds.

Theorem C35_Kepler2 : forall e M p E, 0 <= e < 1 -> Kepler2 e M p = Ok E ->
  Rabs (E - e * sin E - M) <= e * powerRZ 10 (- (2 * p)).
Proof. exact Kepler2_ok. Qed.
Print Assumptions C35_Kepler2.

Theorem C35_Kepler2b : forall e M p E, 0 <= e < 1 -> Kepler2b e M p = Ok E ->
  Rabs (E - e * sin E - M) <= e * powerRZ 10 (- (2 * p)).
Proof. exact Kepler2b_ok. Qed.
Print Assumptions C35_Kepler2b.

(** Missing: eccentricities with pi - 10^-p < e / sqrt(1 - e^2). The property fails for every
    eccentricity with pi <= e / sqrt(1 - e^2), that is from 0.9529 on (C35_Kepler2a_sharp). *)
Theorem C35_Kepler2a_partial : forall e M p E, 0 <= e < 1 -> e * e <= (PI - powerRZ 10 (- p)) ^ 2 * (1 - e * e) -> Kepler2a e M p = Ok E ->
  Rabs (E - e * sin E - M) <= e * powerRZ 10 (- (2 * p)).
Proof. exact Kepler2a_all. Qed.
Print Assumptions C35_Kepler2a_partial.
Theorem C35_Kepler2a_949 : forall e M p E, 0 <= e <= 949 / 1000 -> Kepler2a e M p = Ok E ->
  Rabs (E - e * sin E - M) <= e * powerRZ 10 (- (2 * p)).
Proof. exact Kepler2a_949. Qed.
Print Assumptions C35_Kepler2a_949.
Theorem C35_Kepler2a_952 : forall e M p E, 0 <= e <= 952 / 1000 -> (2 <= p)%Z -> Kepler2a e M p = Ok E ->
  Rabs (E - e * sin E - M) <= e * powerRZ 10 (- (2 * p)).
Proof. exact Kepler2a_952. Qed.
Print Assumptions C35_Kepler2a_952.
(** Kepler2a limits its step with asin(sin step): a step of half a turn looks
    like no step at all and is taken for convergence. *)
Theorem C35_Kepler2a_sharp : forall e, 0 <= e < 1 -> PI ^ 2 * (1 - e * e) <= e * e -> exists M, 0 <= M <= PI / 2 /\
  forall p, (1 <= p)%Z -> Kepler2a e M p = Ok M /\ PI * (1 - e) <= Rabs (M - e * sin M - M).
Proof. exact Kepler2a_sharp. Qed.
Print Assumptions C35_Kepler2a_sharp.

(** With enough places Kepler2b succeeds for every eccentricity, and Kepler2a for every
    eccentricity below that limit. *)
Theorem C35_Kepler2b_converges : forall e, 0 <= e < 1 -> exists P, forall M p, (P <= p)%Z -> exists E, Kepler2b e M p = Ok E.
Proof. exact Kepler2b_eventually. Qed.
Print Assumptions C35_Kepler2b_converges.
Theorem C35_Kepler2a_converges : forall e, 0 <= e < 1 -> e * e < PI ^ 2 * (1 - e * e) -> exists P, forall M p, (P <= p)%Z -> exists E, Kepler2a e M p = Ok E.
Proof. exact Kepler2a_eventually. Qed.
Print Assumptions C35_Kepler2a_converges.
(** How many places are enough for large eccentricities. *)
Theorem C35_Kepler2a_succeeds_84 : forall e M p, 0 <= e <= 84 / 100 -> (2 <= p)%Z -> exists E, Kepler2a e M p = Ok E.
Proof. exact Kepler2a_84. Qed.
Print Assumptions C35_Kepler2a_succeeds_84.
Theorem C35_Kepler2a_succeeds_94 : forall e M p, 0 <= e <= 94 / 100 -> (3 <= p)%Z -> exists E, Kepler2a e M p = Ok E.
Proof. exact Kepler2a_94. Qed.
Print Assumptions C35_Kepler2a_succeeds_94.
Theorem C35_Kepler2a_succeeds_952 : forall e M p, 0 <= e <= 952 / 1000 -> (10 <= p)%Z -> exists E, Kepler2a e M p = Ok E.
Proof. exact Kepler2a_952t. Qed.
Print Assumptions C35_Kepler2a_succeeds_952.
Theorem C35_Kepler2_succeeds_84 : forall e M p, 0 <= e <= 84 / 100 -> (13 <= p)%Z -> exists E, Kepler2 e M p = Ok E.
Proof. exact Kepler2_84. Qed.
Print Assumptions C35_Kepler2_succeeds_84.
Theorem C35_Kepler2b_succeeds_90 : forall e M p, 0 <= e <= 9 / 10 -> (13 <= p)%Z -> exists E, Kepler2b e M p = Ok E.
Proof. exact Kepler2b_90. Qed.
Print Assumptions C35_Kepler2b_succeeds_90.

(** Newton's method converges quadratically from the start the code uses, so for moderate
    eccentricities the iteration limits are enough. *)
Theorem C35_Kepler2a_succeeds : forall e M p, 0 <= e <= 65 / 100 -> (1 <= p)%Z -> exists E, Kepler2a e M p = Ok E.
Proof. exact Kepler2a_total. Qed.
Print Assumptions C35_Kepler2a_succeeds.
Theorem C35_Kepler2_succeeds : forall e M p, 0 <= e <= 65 / 100 -> (8 <= p)%Z -> exists E, Kepler2 e M p = Ok E.
Proof. exact Kepler2_total. Qed.
Print Assumptions C35_Kepler2_succeeds.
Theorem C35_Kepler2b_succeeds : forall e M p, 0 <= e <= 4 / 10 -> (4 <= p)%Z -> exists E, Kepler2b e M p = Ok E.
Proof. exact Kepler2b_total. Qed.
Print Assumptions C35_Kepler2b_succeeds.

(** Kepler2a limits its step with asin(sin step): a step of half a turn looks
    like no step at all and is taken for convergence. *)
Theorem C35_Kepler2a_refuted : exists e M, 0 <= e < 1 /\ 0 <= M <= PI / 2 /\
  forall p, (1 <= p)%Z -> exists E, Kepler2a e M p = Ok E /\ 1 / 5 <= Rabs (E - e * sin E - M).
Proof. exact Kepler2a_false. Qed.
Print Assumptions C35_Kepler2a_refuted.

Example C35_nonvacuous : (exists E, Kepler1 (1 / 2) 1 10 = Ok E) /\ Kepler2 (1 / 2) PI 10 = Ok PI /\ Kepler2b (1 / 2) PI 10 = Ok PI /\
  Kepler2a (3 / 10) PI 10 = Ok PI.
Proof. exact kepler_examples. Qed.

Example C35_large_nonvacuous : (exists E, Kepler2a (9 / 10) 1 10 = Ok E /\ Rabs (E - 9 / 10 * sin E - 1) <= 9 / 10 * powerRZ 10 (- (2 * 10))) /\
  (exists E, Kepler2b (9 / 10) 1 15 = Ok E) /\ PI ^ 2 * (1 - 96 / 100 * (96 / 100)) <= 96 / 100 * (96 / 100).
Proof. exact kepler_large_examples. Qed.

(** ** C36 *)
Theorem C36_Kepler3 : forall e M, 0 <= e < 1 -> exists Es m,
  solves e m Es /\ same_angle m M /\ - PI <= Es <= PI /\ Rabs (Kepler3 e M - Es) <= PI / 2 ^ 54.
Proof. exact Kepler3_ok. Qed.
Print Assumptions C36_Kepler3.

(** ** C37 *)
Theorem C37_True_anomaly : forall e E, 0 <= e < 1 -> cos (E / 2) <> 0 ->
  let v := True E e in
  - PI < v < PI /\ (1 - e * cos E) * cos v = cos E - e /\ (1 - e * cos E) * sin v = sqrt (1 - e * e) * sin E.
Proof. exact True_ok. Qed.
Print Assumptions C37_True_anomaly.

Theorem C37_Radius : forall e E a, 0 <= e < 1 -> cos (E / 2) <> 0 ->
  0 < 1 + e * cos (True E e) /\ Radius E e a = a * (1 - e * e) / (1 + e * cos (True E e)).
Proof. exact Radius_ok. Qed.
Print Assumptions C37_Radius.

Theorem C37_ellipse : forall e E a, 0 <= e < 1 -> cos (E / 2) <> 0 ->
  let r := Radius E e a in let v := True E e in
  r * cos v = a * (cos E - e) /\ r * sin v = a * sqrt (1 - e * e) * sin E.
Proof. exact Ellipse_ok. Qed.
Print Assumptions C37_ellipse.

Example C37_nonvacuous : cos (PI / 2 / 2) <> 0 /\ Radius (PI / 2) (1 / 2) 2 = 2.
Proof. exact True_example. Qed.

(** ** C65 *)
Theorem C65_Kepler4 : forall e M, 0 <= e < 1 -> exists E, same_angle (Kepler4 e M) E /\ Rabs (E - e * sin E - M) <= e * e * e.
Proof. exact Kepler4_ok. Qed.
Print Assumptions C65_Kepler4.

Example C65_nonvacuous : 0 <= 1 / 10 < 1.
Proof. split; lra. Qed.
