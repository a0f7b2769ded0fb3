(** Property theorems: orientation of the solar disk and synodic rotations (C82). *)
From Coq Require Import ZArith Reals.
From Verif Require Import GoFloat GoMath S_Sphere S_solar S_parallactic S_solardisk M_vsop M_solar M_solardisk L_solardisk.
Local Open Scope R_scope.

(** The Earth seen from the Sun (ecliptic longitude l + PI) stands over heliographic latitude B0 and
    over the longitude L0 of the sphere turned by sun_theta; the disk never tilts by more than the
    inclination of the Sun's equator. *)
Theorem C82_center : forall jd e, let l := sun_lambda e jd in let '(_, B0, L0) := Ephemeris jd e in
  0 <= L0 < 2 * PI /\ - sun_I <= B0 <= sun_I /\ sun_frame sun_I (sun_K jd) (dir (l + PI) 0) = dir (L0 + sun_theta jd) B0.
Proof. exact heliographic_center. Qed.
Print Assumptions C82_center.
(** The rotation angle grows by a turn every 25.38 days. *)
Theorem C82_rotation : forall jd, sun_theta (jd + 25.38) = sun_theta jd + 2 * PI.
Proof. exact rotation_period. Qed.
Print Assumptions C82_rotation.
Theorem C82_pole : sun_I = degrees 7.25 /\ forall i K, sun_frame i K (sun_pole i K) = mkvec 0 0 1.
Proof. exact (conj sun_I_value sun_pole_frame). Qed.
Print Assumptions C82_pole.

(** P is the position angle of the north pole of the ecliptic plus that of the Sun's north pole
    measured from the pole of the ecliptic. *)
Theorem C82_position_angle : forall jd e, let '(P, _, _) := Ephemeris jd e in 0 < cos (sun_eps jd) -> exists P1 P2, P = P1 + P2 /\
  (forall a d, 0 < cos d -> equatorial_of (sun_lambdap e jd) 0 (sun_eps jd) a d -> position_angle a d (ecliptic_pole (sun_eps jd)) P1) /\
  position_angle (sun_lambda e jd) 0 (sun_pole sun_I (sun_K jd)) P2 /\ - (PI / 2) < P1 < PI / 2 /\ - sun_I <= P2 <= sun_I.
Proof. exact disk_P. Qed.
Print Assumptions C82_position_angle.

(** Successive rotations start 27.19 to 27.37 days apart and stay within 0.17 days of the mean. *)
Theorem C82_cycle : forall c, Rabs (Cycle (c + 1) - Cycle c - 27.2752316) <= 0.09 /\ Rabs (Cycle c - (2398140.227 + 27.2752316 * IZR c)) <= 0.17.
Proof. exact (fun c => conj (cycle_spacing c) (cycle_mean c)). Qed.
Print Assumptions C82_cycle.
Theorem C82_cycle_order : forall c d, (c < d)%Z -> Cycle c + 27.18 * IZR (d - c) < Cycle d.
Proof. exact cycle_order. Qed.
Print Assumptions C82_cycle_order.

(** The hypothesis of C82_position_angle holds for 20 centuries around 2000. *)
Example C82_nonvacuous : forall jd, Rabs ((jd - 2451545) / 36525) <= 20 -> 0 < cos (sun_eps jd).
Proof. exact sun_eps_cos. Qed.
Print Assumptions C82_nonvacuous.
