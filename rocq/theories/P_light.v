(** Property theorems: illumination (C51), stellar magnitudes (C54),
    planetary magnitudes (C71), semidiameters (C72). *)
From Coq Require Import ZArith Reals List Lra Permutation.
From Verif Require Import GoMath M_light S_Sphere S_light L_precess L_light.
Import ListNotations.
Local Open Scope R_scope.

(** ** C51 *)
Theorem C51_illuminated_range : forall i, 0 <= Illuminated i <= 1.
Proof. exact Illuminated_range. Qed.
Print Assumptions C51_illuminated_range.

Theorem C51_phase_angle_law_of_cosines : forall r D R0, triangle r D R0 ->
  0 <= PhaseAngle r D R0 <= PI /\ R0 * R0 = r * r + D * D - 2 * r * D * cos (PhaseAngle r D R0).
Proof. exact PhaseAngle_law. Qed.
Print Assumptions C51_phase_angle_law_of_cosines.

Theorem C51_fraction_is_illuminated : forall r D R0, triangle r D R0 ->
  Fraction r D R0 = Illuminated (PhaseAngle r D R0) /\ 0 <= Fraction r D R0 <= 1.
Proof. exact (fun r D R0 T => conj (Fraction_Illuminated r D R0 T) (Fraction_range r D R0 T)). Qed.
Print Assumptions C51_fraction_is_illuminated.

(** The three phase angle functions give the angle at the planet between the Sun (the
    origin) and the Earth. *)
Theorem C51_phase_angle : forall L B Rp E, 0 < Rp -> let P := scale Rp (dir L B) in 0 < norm (vsub P E) ->
  angle_at P vzero E (PhaseAngle (norm P) (norm (vsub P E)) (norm E)).
Proof. exact PhaseAngle_geom. Qed.
Print Assumptions C51_phase_angle.
Theorem C51_phase_angle2 : forall L B Rp E, 0 < Rp -> let P := scale Rp (dir L B) in 0 < norm (vsub P E) ->
  forall L0 R0, E = scale R0 (dir L0 0) -> angle_at P vzero E (PhaseAngle2 L B Rp L0 R0 (norm (vsub P E))).
Proof. exact PhaseAngle2_geom. Qed.
Print Assumptions C51_phase_angle2.
Theorem C51_phase_angle3 : forall L B Rp E, 0 < Rp -> let P := scale Rp (dir L B) in 0 < norm (vsub P E) ->
  angle_at P vzero E (PhaseAngle3 L B (vx P - vx E) (vy P - vy E) (vz P - vz E) (norm (vsub P E))).
Proof. exact PhaseAngle3_geom. Qed.
Print Assumptions C51_phase_angle3.
Theorem C51_angle_unique : forall p a b s t, 0 < norm (vsub a p) -> 0 < norm (vsub b p) ->
  angle_at p a b s -> angle_at p a b t -> s = t.
Proof. exact angle_at_unique. Qed.
Print Assumptions C51_angle_unique.

(** Moon: the angle at the Moon between the Earth (the origin) and the Sun. *)
Theorem C51_moon_equatorial : forall al de D al0 de0 R_, 0 < D -> 0 < R_ ->
  let M := scale D (dir al de) in let S := scale R_ (dir al0 de0) in
  0 < norm (vsub S M) -> angle_at M vzero S (PhaseAngleEq al de D al0 de0 R_).
Proof. exact PhaseAngleEq_geom. Qed.
Print Assumptions C51_moon_equatorial.
Theorem C51_moon_ecliptical : forall lam be D lam0 R_, 0 < D -> 0 < R_ ->
  let M := scale D (dir lam be) in let S := scale R_ (dir lam0 0) in
  0 < norm (vsub S M) -> angle_at M vzero S (PhaseAngleEcl lam be D lam0 R_).
Proof. exact PhaseAngleEcl_geom. Qed.
Print Assumptions C51_moon_ecliptical.
(** The forms without distances exceed the others by the angle at the Sun. *)
Theorem C51_moon_equatorial2 : forall al de D al0 de0 R_, 0 < D < R_ ->
  0 <= PhaseAngleEq2 al de al0 de0 - PhaseAngleEq al de D al0 de0 R_ <= asin (D / R_).
Proof. exact PhaseAngleEq2_error. Qed.
Print Assumptions C51_moon_equatorial2.
Theorem C51_moon_ecliptical2 : forall lam be D lam0 R_, 0 < D < R_ ->
  0 <= PhaseAngleEcl2 lam be lam0 - PhaseAngleEcl lam be D lam0 R_ <= asin (D / R_).
Proof. exact PhaseAngleEcl2_error. Qed.
Print Assumptions C51_moon_ecliptical2.

(** Position angle of the bright limb: the direction of the Sun, counted from north to east. *)
Theorem C51_limb : forall al de al0 de0, 0 <= Limb al de al0 de0 < 2 * PI /\
  (dot (dir al de) (dir al0 de0) * dot (dir al de) (dir al0 de0) <> 1 -> position_angle al de (dir al0 de0) (Limb al de al0 de0)).
Proof. exact (fun al de al0 de0 => conj (Limb_range al de al0 de0) (Limb_geom al de al0 de0)). Qed.
Print Assumptions C51_limb.

(** The low accuracy fraction for Venus exceeds 1, by less than 5e-7. *)
Theorem C51_venus_partial : forall jde, 0 < FractionVenus jde < 1.0000005.
Proof. exact Venus_range. Qed.
Print Assumptions C51_venus_partial.
Theorem C51_venus_refuted : exists jde, 1 < FractionVenus jde.
Proof. exact Venus_exceeds. Qed.
Print Assumptions C51_venus_refuted.
(** The phase angle of the Moon for a date is negative in the second half of a lunation. *)
Theorem C51_moon_date_refuted : exists jde, PhaseAngleDate jde < -1.
Proof. exact PhaseAngleDate_negative. Qed.
Print Assumptions C51_moon_date_refuted.

Example C51_nonvacuous : triangle 0.724604 0.910947 0.983824.
Proof. unfold triangle. decimals. rewrite Rabs_left; lra. Qed.

(** ** C54 *)
Theorem C54_ratio_is_brightness_ratio : forall m1 m2, Ratio m1 m2 * brightness m2 = brightness m1.
Proof. exact Ratio_brightness. Qed.
Print Assumptions C54_ratio_is_brightness_ratio.
Theorem C54_difference_of_ratio : forall m1 m2, Difference (Ratio m1 m2) = m2 - m1.
Proof. exact Difference_Ratio. Qed.
Print Assumptions C54_difference_of_ratio.
Theorem C54_ratio_of_difference : forall m1 m2 q, 0 < q -> m2 - m1 = Difference q -> Ratio m1 m2 = q.
Proof. exact Ratio_Difference. Qed.
Print Assumptions C54_ratio_of_difference.
Theorem C54_sum_adds_brightness : forall l, l <> [] -> brightness (SumN l) = total_brightness l.
Proof. exact SumN_brightness. Qed.
Print Assumptions C54_sum_adds_brightness.
Theorem C54_sum_two : forall m1 m2, Sum m1 m2 = SumN [m1; m2].
Proof. exact Sum_SumN. Qed.
Print Assumptions C54_sum_two.
Theorem C54_sum_symmetric : forall m1 m2, Sum m1 m2 = Sum m2 m1.
Proof. exact Sum_sym. Qed.
Print Assumptions C54_sum_symmetric.
Theorem C54_sum_order : forall l l', Permutation l l' -> SumN l = SumN l'.
Proof. exact SumN_perm. Qed.
Print Assumptions C54_sum_order.
Theorem C54_sum_groups : forall a b, a <> [] -> b <> [] -> SumN (a ++ b) = Sum (SumN a) (SumN b).
Proof. exact SumN_app. Qed.
Print Assumptions C54_sum_groups.
Theorem C54_sum_brighter : forall l m, In m l -> (2 <= length l)%nat -> SumN l < m.
Proof. exact SumN_brighter. Qed.
Print Assumptions C54_sum_brighter.
Theorem C54_sum_one : forall m, SumN [m] = m.
Proof. exact SumN_one. Qed.
Print Assumptions C54_sum_one.
Theorem C54_absolute_agree : forall m d, 0 < d -> AbsoluteByParallax m (AngleFromSec (1 / d)) = AbsoluteByDistance m d.
Proof. exact Absolute_agree. Qed.
Print Assumptions C54_absolute_agree.
(** The absolute magnitude is the one at 10 parsecs. *)
Theorem C54_absolute_at_10pc : forall m d, 0 < d -> brightness (AbsoluteByDistance m d) * (10 * 10) = brightness m * (d * d).
Proof. exact Absolute_10pc. Qed.
Print Assumptions C54_absolute_at_10pc.
Example C54_nonvacuous : Difference 1 = Difference (Ratio 3 3) /\ In 2 [1; 2; 3].
Proof. split; [rewrite Difference_Ratio; unfold Difference, log10; rewrite ln_1; unfold Rdiv; ring|cbn; auto]. Qed.

(** ** C71: multiplying a distance by k makes every planet fainter by 5 log10 k. *)
Theorem C71_inverse_square : forall i B dU, Forall
  (fun f => forall r D k, 0 < r -> 0 < D -> 0 < k -> f (k * r) D = f r D + 5 * log10 k /\ f r (k * D) = f r D + 5 * log10 k)
  [fun r D => magMercury r D i; fun r D => magVenus r D i; fun r D => magMars r D i; magJupiter; fun r D => magSaturn r D B dU; magUranus; magNeptune;
   fun r D => magMercury84 r D i; fun r D => magVenus84 r D i; fun r D => magMars84 r D i; fun r D => magJupiter84 r D i;
   fun r D => magSaturn84 r D B dU; magUranus84; magNeptune84; magPluto84].
Proof. exact mag_inverse_square. Qed.
Print Assumptions C71_inverse_square.
Theorem C71_fainter_with_phase : forall r D i i', i <= i' ->
  magMars r D i <= magMars r D i' /\ magMars84 r D i <= magMars84 r D i' /\ magJupiter84 r D i <= magJupiter84 r D i' /\
  (0 <= i -> magMercury r D i <= magMercury r D i' /\ magVenus r D i <= magVenus r D i' /\
             magMercury84 r D i <= magMercury84 r D i').
Proof. exact mag_monotone. Qed.
Print Assumptions C71_fainter_with_phase.
Theorem C71_saturn_fainter_with_phase : forall r D B dU dU', Rabs dU <= Rabs dU' -> magSaturn r D B dU <= magSaturn r D B dU'.
Proof. exact Saturn_monotone. Qed.
Print Assumptions C71_saturn_fainter_with_phase.
(** The 1984 formula for Saturn divides by the phase: Saturn vanishes at opposition. *)
Theorem C71_saturn84_refuted : forall r D B K, exists dU, 0 < dU <= AngleFromDeg 1 /\ K < magSaturn84 r D B dU.
Proof. exact Saturn84_unbounded. Qed.
Print Assumptions C71_saturn84_refuted.
Theorem C71_saturn84_error : forall r D B dU,
  magSaturn84 r D B dU - (-8.88 + 5 * log10 (r * D) + 0.044 * Rabs (AngleDeg dU) - 2.6 * Rabs (sin B) + 1.25 * Rabs (sin B) * Rabs (sin B)) =
  0.044 * (1 / Rabs (AngleDeg dU) - Rabs (AngleDeg dU)).
Proof. exact Saturn84_documented_diff. Qed.
Print Assumptions C71_saturn84_error.
(** Venus, 1984 formula: the magnitude first decreases with the phase angle. *)
Theorem C71_venus84_refuted : exists i i', 0 <= i < i' /\ forall r D, magVenus84 r D i' < magVenus84 r D i.
Proof. exact Venus84_decreasing. Qed.
Print Assumptions C71_venus84_refuted.
Example C71_nonvacuous : 0 < 0.72 /\ 0 < AngleFromDeg 72.
Proof. unfold AngleFromDeg. pose proof PI_RGT_0. decimals. split; lra. Qed.
