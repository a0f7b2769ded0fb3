(** Property theorems: the longitude of the Sun referred to J2000 (C116). *)
From Coq Require Import Reals Lra.
From Verif Require Import GoMath M_precess M_solar S_solar S_moon L_sun2000.
Local Open Scope R_scope.

(** From 1900 to 2100: the point of the ecliptic of J2000 at the longitude that True2000 returns, precessed to the date, has
    the longitude that True returns, to 1.3 seconds of arc, and is within 47.1 seconds of arc of the ecliptic of date. *)
Theorem C116_True2000 : forall T, Rabs T <= 1 -> let q := EclPrecess (NewEclipticPrecessor 2000 (2000 + 100 * T)) (mkEcl (fst (True2000 T)) 0) in
  near_turns (eclLon q - fst (solarTrue T)) (arcsec 1.3) /\ Rabs (eclLat q) <= arcsec 47.1 /\ snd (True2000 T) = snd (solarTrue T).
Proof. exact True2000_place. Qed.
Print Assumptions C116_True2000.
Example C116_nonvacuous : Rabs 1 <= 1 /\ fst (True2000 1) <> fst (solarTrue 1).
Proof. split; [rewrite Rabs_R1; lra|]. unfold True2000, AngleFromDeg. destruct (solarTrue 1) as [s nu]. cbn [fst]. pose proof PI_RGT_0. lra. Qed.
