(** Periods of rotation and poles of Mars and Jupiter. *)
From Coq Require Import ZArith Reals List Lra.
From Verif Require Import GoFloat GoMath S_solar S_rotation M_base M_coord M_precess M_physical L_trig.
Local Open Scope R_scope.

Lemma mars_rotation : turns_in mars_W (24 * 3600 + 37 * 60 + 22.66) /\ mars_W 2433282.5 = degrees 11.504.
Proof. pose proof PI_RGT_0. split; [intros t|]; unfold mars_W, deg, degrees; lra. Qed.
Lemma jup_rotation : turns_in jup_W1 (9 * 3600 + 50 * 60 + 30.003) /\ jup_W1 2433282.5 = degrees 17.71 /\
  turns_in jup_W2 (9 * 3600 + 55 * 60 + 40.632) /\ jup_W2 2433282.5 = degrees 16.838.
Proof. pose proof PI_RGT_0. split; [intros t|split; [|split; [intros t|]]]; unfold jup_W1, jup_W2, deg, degrees; lra. Qed.
Lemma mars_pole_value T : mars_lambda0 T = degrees (352.9065 + 1.1733 * T) /\ mars_beta0 T = degrees (63.2818 - 0.00394 * T).
Proof. unfold mars_lambda0, mars_beta0, deg, degrees. split; lra. Qed.
Lemma jup_pole_value jd : let T := (jd - 2433282.5) / 36525 in jup_pole jd = (degrees (268 + 0.1061 * T), degrees (64.5 - 0.0164 * T)).
Proof. cbv zeta. unfold jup_pole, deg, degrees. f_equal; lra. Qed.
(** Light from the Sun to Mars and to Saturn: aberration seen from the planet. *)
Lemma mars_sun_value T l b r : mars_sun T l b r = (l - degrees 0.00697 / r, b - degrees 0.000225 * cos (l - degrees (49.5581 + 0.7721 * T)) / r).
Proof.
  unfold mars_sun. cbv zeta. replace (degrees (49.5581 + 0.7721 * T)) with (495581 / 10000 * deg + 7721 / 10000 * deg * T) by (unfold deg, degrees; lra). reflexivity.
Qed.
Lemma ring_sun_value T l b r : ring_sun T l b r = (l - degrees 0.01759 / r, b - degrees 0.000764 * cos (l - degrees (113.6655 + 0.8771 * T)) / r).
Proof.
  unfold ring_sun. cbv zeta. replace (degrees (113.6655 + 0.8771 * T)) with (AngleFromDeg (1136655 / 10000 + 8771 / 10000 * T)) by (unfold AngleFromDeg, degrees; lra).
  set (c := cos _). clearbody c. unfold AngleFromDeg, degrees. f_equal; unfold Rdiv; set (i := / r); clearbody i; lra.
Qed.
Lemma ring_plane_value T : ring_i T = degrees (28.075216 - 0.012998 * T + 0.000004 * T ^ 2) /\ ring_node T = degrees (169.50847 + 1.394681 * T + 0.000412 * T ^ 2).
Proof. unfold ring_i, ring_node, AngleFromDeg, degrees, HornerR. cbn. split; lra. Qed.
Lemma light_time_value : LightTime 1 = 0.0057755183.
Proof. unfold LightTime. lra. Qed.
