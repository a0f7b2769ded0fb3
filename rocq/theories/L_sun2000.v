(** Lemmas for solar.True2000. *)
From Coq Require Import ZArith Reals Lra Psatz.
From Flocq Require Import Core.
From Verif Require Import GoFloat GoMath M_precess M_solar S_Sphere S_precess S_solar S_moon L_trig L_coord L_kepler L_precess L_solar L_refraction L_elements L_physical L_apparent3 L_moon3 L_precess2 L_fk5.
Local Open Scope R_scope.

(** A point of the old ecliptic, in the new one. *)
Lemma carry eta pi p L l b : Rabs eta <= 1 / 1000 -> - (PI / 2) <= b <= PI / 2 -> dir l b = ecliptic_precession eta pi p (dir L 0) ->
  near_turns (l - (L + p)) (arcsec 0.06) /\ Rabs (sin b) <= Rabs eta.
Proof.
  intros He Hb E. pose proof PI_fine as PF. unfold ecliptic_precession, dir, app, rot_z, rot_x, dot in E. cbn [vx vy vz r1 r2 r3] in E. rewrite cos_0, sin_0, cos_neg, sin_neg in E. injection E as E1 E2 E3.
  set (a := L - pi). assert (Ca : cos pi * (1 * cos L) + sin pi * (1 * sin L) + 0 * 0 = cos a) by (unfold a; rewrite cos_minus; ring). assert (Sa : - sin pi * (1 * cos L) + cos pi * (1 * sin L) + 0 * 0 = sin a) by (unfold a; rewrite sin_minus; ring).
  rewrite Ca, Sa in E1, E2, E3. clear Ca Sa. set (g := pi + p) in *. replace (l - (L + p)) with (l - (g + a)) by (unfold g, a; ring). clearbody a g.
  assert (F1 : cos b * cos l = cos g * cos a - sin g * (cos eta * sin a)) by (rewrite E1; ring). assert (F2 : cos b * sin l = sin g * cos a + cos g * (cos eta * sin a)) by (rewrite E2; ring). assert (F3 : sin b = - sin eta * sin a) by (rewrite E3; ring). clear E1 E2 E3.
  pose proof (sin_lip eta 0) as SE. rewrite sin_0, !Rminus_0_r in SE. assert (SB : Rabs (sin b) <= Rabs eta). { rewrite F3, Rabs_mult, Rabs_Ropp. pose proof (Rabs_pos (sin eta)). assert (Rabs (sin a) <= 1) by (apply Rabs_le, SIN_bound). pose proof (Rabs_pos (sin a)). nra. }
  split; [|exact SB]. pose proof (L_fk5.cos_tangent 0 eta) as CT. rewrite cos_0, sin_0, Rplus_0_l, Rmult_0_r, Rplus_0_r in CT. apply Rabs_le_inv in CT. apply Rabs_le_inv in He. assert (Q : eta * eta <= 1 / 1000000) by nra.
  assert (CB : 999 / 1000 <= cos b). { assert (0 <= cos b) by (apply cos_ge_0; lra). pose proof (sc1 b). apply Rabs_le_inv in SB. assert (Rabs eta <= 1 / 1000) by (apply Rabs_le; lra). assert (sin b * sin b <= 1 / 1000000) by nra. nra. }
  pose proof (sc1 g) as G. pose proof (sc1 a) as A. set (ce := cos eta) in *.
  assert (S : cos b * sin (l - (g + a)) = (ce - 1) * (sin a * cos a)).
  { rewrite sin_minus, cos_plus, sin_plus. transitivity ((cos b * sin l) * (cos g * cos a - sin g * sin a) - (cos b * cos l) * (sin g * cos a + cos g * sin a)); [ring|]. rewrite F1, F2. transitivity ((sin g * sin g + cos g * cos g) * (ce - 1) * (sin a * cos a)); [ring | rewrite G; ring]. }
  assert (C : cos b * cos (l - (g + a)) = cos a * cos a + ce * (sin a * sin a)).
  { rewrite cos_minus, cos_plus, sin_plus. transitivity ((cos b * cos l) * (cos g * cos a - sin g * sin a) + (cos b * sin l) * (sin g * cos a + cos g * sin a)); [ring|]. rewrite F1, F2. transitivity ((sin g * sin g + cos g * cos g) * (cos a * cos a + ce * (sin a * sin a))); [ring | rewrite G; ring]. }
  assert (X : Rabs (sin a * cos a) <= 1 / 2) by (apply Rabs_le; pose proof (Rle_0_sqr (sin a + cos a)); pose proof (Rle_0_sqr (sin a - cos a)); unfold Rsqr in *; nra).
  apply near_sin.
  - unfold arcsec. decimals. lra.
  - assert (0 < cos a * cos a + ce * (sin a * sin a)) by (pose proof (Rle_0_sqr (sin a)); pose proof (Rle_0_sqr (cos a)); unfold Rsqr in *; nra). rewrite <- C in H. nra.
  - destruct (sin_cubic_pos (arcsec 0.06) ltac:(unfold arcsec; decimals; lra)) as (L1 & _). assert (U : 29 / 100000000 <= arcsec 0.06 <= 30 / 100000000) by (unfold arcsec; decimals; lra). set (u := arcsec 0.06) in *. clearbody u.
    assert (L2 : 28 / 100000000 <= sin u) by (assert (u * u <= 1 / 1000000) by nra; assert (u * u * u <= 1 / 1000000 * u) by nra; lra). set (w := sin (l - (g + a))) in *. clearbody w.
    assert (M : cos b * Rabs w <= 1 / 4000000). { rewrite <- (Rabs_pos_eq (cos b)) by lra. rewrite <- Rabs_mult, S, Rabs_mult. assert (Rabs (ce - 1) <= 1 / 2000000) by (apply Rabs_le; lra). pose proof (Rabs_pos (ce - 1)). pose proof (Rabs_pos (sin a * cos a)). nra. }
    pose proof (Rabs_pos w). nra.
Qed.
Lemma True2000_place T : Rabs T <= 1 -> let q := EclPrecess (NewEclipticPrecessor 2000 (2000 + 100 * T)) (mkEcl (fst (True2000 T)) 0) in
  near_turns (eclLon q - fst (solarTrue T)) (arcsec 1.3) /\ Rabs (eclLat q) <= arcsec 47.1 /\ snd (True2000 T) = snd (solarTrue T).
Proof.
  intros HT q. pose proof PI_fine as PF. unfold True2000 in *. destruct (solarTrue T) as [s nu]. cbn [fst snd] in *. set (L := s - _) in *. set (P := NewEclipticPrecessor 2000 (2000 + 100 * T)) in *.
  destruct (EclPrecess_dir P (mkEcl L 0)) as (_ & B & E). fold q in B, E. cbn [eclLon eclLat] in E. destruct (NewEclipticPrecessor_poly 2000 (2000 + 100 * T)) as (P1 & _ & P3). fold P in P1, P3. apply Rabs_le_inv in HT.
  replace ((2000 - 2000) / 100) with 0 in P1, P3 by field. replace ((2000 + 100 * T - 2000) / 100) with T in P1, P3 by field.
  assert (T2 : 0 <= T * T <= 1) by nra. assert (T3 : - 1 <= T * T * T <= 1) by nra.
  assert (ET : Rabs (epeta P) <= arcsec 47.05). { rewrite P1. unfold AngleFromSec, arcsec. rewrite Rabs_mult, (Rabs_pos_eq (PI / 180 / 3600)) by lra. apply Rmult_le_compat_r; [lra|]. decimals. apply Rabs_le. split; nra. }
  destruct (carry (epeta P) (eppi P) (epp P) L (eclLon q) (eclLat q)) as (N & S); [eapply Rle_trans; [exact ET|]; unfold arcsec; decimals; lra | exact B | exact E |].
  split; [|split; [|reflexivity]].
  - replace (eclLon q - s) with ((eclLon q - (L + epp P)) + (epp P - AngleFromDeg (1397 / 100000) * (T * 100))) by (unfold L; ring). replace (arcsec 1.3) with (arcsec 0.06 + arcsec 1.24) by (unfold arcsec; decimals; field). apply near_add; [exact N|].
    rewrite P3. match goal with |- Rabs ?x <= _ => replace x with ((- 0.1034 * T + 1.11113 * T * T - 0.000006 * (T * T * T)) * (PI / 180 / 3600)) by (unfold AngleFromSec, AngleFromDeg; decimals; field) end.
    unfold arcsec. rewrite Rabs_mult, (Rabs_pos_eq (PI / 180 / 3600)) by lra. apply Rmult_le_compat_r; [lra|]. decimals. apply Rabs_le. split; nra.
  - assert (U : arcsec 47.05 <= 229 / 1000000) by (unfold arcsec; decimals; lra). assert (V : 22834 / 100000000 <= arcsec 47.1 <= 1) by (unfold arcsec; decimals; lra). assert (W : arcsec 47.05 <= 22811 / 100000000) by (unfold arcsec; decimals; lra). 
    destruct (sin_cubic_pos (arcsec 47.1) ltac:(lra)) as (K & _). assert (V2 : arcsec 47.1 <= 1 / 1000) by (unfold arcsec; decimals; lra). set (v := arcsec 47.1) in *. clearbody v. assert (v * v * v <= 1 / 1000000 * v) by (assert (v * v <= 1 / 1000000) by nra; nra).
    assert (SS : Rabs (sin (eclLat q)) <= sin v) by lra. apply Rabs_le_inv in SS. apply Rabs_le. split; apply Rnot_lt_le; intros G.
    + assert (sin (eclLat q) < sin (- v)) by (apply sin_increasing_1; lra). rewrite sin_neg in H0. lra.
    + assert (sin v < sin (eclLat q)) by (apply sin_increasing_1; lra). lra.
Qed.
