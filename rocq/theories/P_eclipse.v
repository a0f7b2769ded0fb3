(** C49 (lunar eclipses), C50 (solar eclipses). *)
From Coq Require Import ZArith Reals List Lra.
From Verif Require Import GoMath M_lunar M_eclipse S_event S_eclipse L_precess L_event L_eclipse.
Local Open Scope R_scope.

(** ** C49.  For the full moon of index k nearest to the year, the Moon's disc passing
    at g = |γ| from the axis of the shadow: the type is the geometric one (also for the
    lunations rejected early), the semidurations are the times of the contacts, all
    square roots being of non-negative numbers. *)
Theorem C49_lunar : forall y, 1001 <= y <= 2999 ->
  let k := ec_snap y 0.5 in let g := Rabs (gammaOf k) in let u := uOf k in
  let '(t, jmax, gam, rho, sigma, mag, a, b, c) := Lunar y in
  nearest_index 0.5 ((y - 2000) * 12.3685) k /\
  (forall t', t' = t <-> lunarKind g u t') /\
  0 <= a <= b /\ b <= c /\
  (t <> ENone -> gam = gammaOf k /\ rho = penumbra u /\ sigma = umbra u /\
     mag = (match t with EPenumbral => rho | _ => sigma end + moonRadius - g) / (2 * moonRadius) /\
     let n := lunarMotion (ec_M1 (k * ec_ck)) in
     match t with
     | ETotal => track g n (a / 3600) = sigma - moonRadius /\ track g n (b / 3600) = sigma + moonRadius
     | EUmbral => a = 0 /\ track g n (b / 3600) = sigma + moonRadius
     | _ => a = 0 /\ b = 0
     end /\ track g n (c / 3600) = rho + moonRadius).
Proof. exact Lunar_correct. Qed.
Print Assumptions C49_lunar.

(** The greatest eclipse is within an hour of the full moon of moonphase.Full. *)
Theorem C49_lunar_time : forall y, 1001 <= y <= 2999 ->
  let '(t, jmax, _, _, _, _, _, _, _) := Lunar y in t <> ENone -> Rabs (jmax - mpFull y) <= 0.04.
Proof. exact Lunar_jmax. Qed.
Print Assumptions C49_lunar_time.

(** The classification for any γ, u in range, and it distinguishes all cases. *)
Theorem C49_lunar_type : forall gam u M1, -0.1 <= u -> lunarKind (Rabs gam) u (fst (fst (fst (fst (lunarType gam u M1))))).
Proof. exact lunarType_kind. Qed.
Print Assumptions C49_lunar_type.
Theorem C49_lunar_type_unique : forall g u t t', -0.1 <= u -> lunarKind g u t -> lunarKind g u t' -> t = t'.
Proof. exact lunarKind_unique. Qed.
Print Assumptions C49_lunar_type_unique.

Example C49_nonvacuous : lunarKind 0.3 0 ETotal /\ lunarKind 0.5 0 EUmbral /\ lunarKind 1.2 0 EPenumbral /\ lunarKind 1.6 0 ENone.
Proof. unfold lunarKind, disc_inside, disc_meets, disc_outside, umbra, penumbra, moonRadius. decimals. lra. Qed.

(** ** C50 *)
Theorem C50_solar : forall y, 1001 <= y <= 2999 ->
  let k := ec_snap y 0 in let g := Rabs (gammaOf k) in let u := uOf k in
  let '(t, central, jmax, gam, u', p, mag) := Solar y in
  nearest_index 0 ((y - 2000) * 12.3685) k /\
  (forall t', t' = t <-> solarKind g u t') /\
  (central = true <-> g < earthRadius) /\
  (t <> ENone -> gam = gammaOf k /\ u' = u /\ p = solarPenumbra u) /\
  (t = EPartial -> mag = (earthRadius + p - g) / (p + u) /\ 0 <= mag <= 1) /\
  (t <> EPartial -> mag = 0).
Proof. exact Solar_correct. Qed.
Print Assumptions C50_solar.

Theorem C50_solar_time : forall y, 1001 <= y <= 2999 ->
  let '(t, _, jmax, _, _, _, _) := Solar y in t <> ENone -> Rabs (jmax - mpNew y) <= 0.04.
Proof. exact Solar_jmax. Qed.
Print Assumptions C50_solar_time.

Theorem C50_solar_type : forall gam u, Rabs u <= 0.1 -> solarKind (Rabs gam) u (fst (fst (solarType gam u))).
Proof. exact solarType_kind. Qed.
Print Assumptions C50_solar_type.
Theorem C50_solar_type_unique : forall g u t t', Rabs u <= 0.1 -> solarKind g u t -> solarKind g u t' -> t = t'.
Proof. exact solarKind_unique. Qed.
Print Assumptions C50_solar_type_unique.

(** The lunations rejected early have no eclipse of either kind. *)
Theorem C50_early_rejection_sound : forall y q, 0 <= q <= 1 -> 1001 <= y <= 2999 ->
  0.36 < Rabs (sin (ec_F (ec_snap y q * ec_ck))) -> 1.5573 + uOf (ec_snap y q) < Rabs (gammaOf (ec_snap y q)).
Proof. exact lunation_prefilter. Qed.
Print Assumptions C50_early_rejection_sound.

Example C50_nonvacuous : solarKind 0.3 (-0.01) ETotal /\ solarKind 0.3 0.02 EAnnular /\ solarKind 1.01 0.02 ETotal /\ solarKind 1.2 0.01 EPartial /\ solarKind 1.6 0 ENone.
Proof.
  unfold solarKind, disc_meets, disc_outside, solarPenumbra, earthRadius.
  rewrite (Rabs_right 0.02), (Rabs_right 0.01) by (decimals; lra). decimals. repeat split; intros; try lra.
Qed.
