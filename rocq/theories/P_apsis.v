(** Property theorems: the parallax of the Moon at perigee and apogee (C112). *)
From Coq Require Import Reals Lra.
From Verif Require Import GoMath M_lunar M_moon S_solar S_fk5 L_precess L_apsis.
From Verif Require Import S_meanmotion.
Local Open Scope R_scope.

(** At perigee: between 3547.3 and 3697.2 seconds of arc; large (a near perigee) at new and full Moon, small at the quarters.
    The sine of the mean elongation D of the Moon from the Sun is small at new and full Moon, its cosine at the quarters. *)
Theorem C112_perigee : forall year, Rabs (year - 2000) <= 2000 -> let D := degrees (elongation (centuries (MeanPerigee year))) in
  arcsec 3547.3 <= PerigeeParallax year <= arcsec 3697.2 /\
  (Rabs (sin D) <= 1 / 11 -> arcsec 3673 <= PerigeeParallax year) /\ (Rabs (cos D) <= 1 / 11 -> PerigeeParallax year <= arcsec 3573).
Proof. exact perigee_parallax. Qed.
Print Assumptions C112_perigee.

(** At apogee: between 3232.9 and 3257.6 seconds of arc; small (a far apogee) at new and full Moon, large at the quarters. *)
Theorem C112_apogee : forall year, Rabs (year - 2000) <= 2000 -> let D := degrees (elongation (centuries (MeanApogee year))) in
  arcsec 3232.9 <= ApogeeParallax year <= arcsec 3257.6 /\
  (Rabs (sin D) <= 1 / 11 -> ApogeeParallax year <= arcsec 3239.5) /\ (Rabs (cos D) <= 1 / 11 -> arcsec 3251 <= ApogeeParallax year).
Proof. exact apogee_parallax. Qed.
Print Assumptions C112_apogee.

(** In terms of the distance in kilometres to which moonposition.Parallax gives that parallax. *)
Theorem C112_perigee_distance : forall year, Rabs (year - 2000) <= 2000 -> exists d, MoonParallax d = PerigeeParallax year /\ 355800 <= d <= 370950.
Proof. exact perigee_distance. Qed.
Print Assumptions C112_perigee_distance.
Theorem C112_apogee_distance : forall year, Rabs (year - 2000) <= 2000 -> exists d, MoonParallax d = ApogeeParallax year /\ 403800 <= d <= 407000.
Proof. exact apogee_distance. Qed.
Print Assumptions C112_apogee_distance.

(** Both cases occur: perigees near full Moon in mid 2000 and near a quarter in 1999, apogees likewise. *)
Example C112_nonvacuous : Rabs (2000.5 - 2000) <= 2000 /\
  Rabs (sin (degrees (elongation (centuries (MeanPerigee 2000.5))))) <= 1 / 11 /\ Rabs (cos (degrees (elongation (centuries (MeanPerigee 1999.67))))) <= 1 / 11 /\
  Rabs (sin (degrees (elongation (centuries (MeanApogee 1999.93))))) <= 1 / 11 /\ Rabs (cos (degrees (elongation (centuries (MeanApogee 2000.23))))) <= 1 / 11.
Proof. split; [apply Rabs_le; decimals; lra | exact apsis_examples]. Qed.
Print Assumptions C112_nonvacuous.
