(** A case in which the hypotheses of the theorems on Pluto and the satellites of Saturn are met. *)
From Coq Require Import ZArith Reals Lra Lia List Psatz.
From Flocq Require Import Core.
From Verif Require Import GoFloat GoMath S_Sphere S_precess S_solar S_physical S_saturnmoons M_base M_coord M_precess M_vsop M_light M_solar M_physical M_pluto M_saturnmoons
  L_trig L_angle L_vec L_coord L_precess L_elements L_solar L_refraction L_parallactic L_solardisk L_physical L_physical2 L_physical3 L_pluto L_saturnmoons L_saturnmoons2.
Import ListNotations.
Local Open Scope R_scope.

Lemma fixed_sun L jde : 0 < norm (vec_of (PositionJ2000 (fixed L 1) jde)) <= 20.
Proof.
  unfold PositionJ2000, xyz. rewrite fixed_2000. cbv zeta. rewrite Ropp_0, cos_0, sin_0. unfold vec_of, norm, dot. cbn [vx vy vz]. set (s := Mod1 L + PI). pose proof (sc1 s) as K. set (c := cos s) in *. set (d := sin s) in *. clearbody c d.
  match goal with |- 0 < sqrt ?e <= 20 => assert (B : 1 / 2 <= e <= 2) by nra; set (q := e) in * end. clearbody q. split; [apply sqrt_lt_R0; lra|]. rewrite <- (sqrt_square 20) by lra. apply sqrt_le_1_alt. lra.
Qed.
Lemma fixed_saturn L : let '(l0, b0, Delta, J) := sat_direction 2451545 (fixed L 1) (fixed 0 10) in Rabs (q_t11 J) <= 5 /\ Rabs (sin b0) < 0.5 /\ 1 <= Delta.
Proof.
  pose proof (sat_direction_value 2451545 (fixed L 1) (fixed 0 10)) as H.
  assert (HS : let '(s, b, R0) := TrueVSOP87 (fixed L 1) 2451545 in R0 = 1 /\ Rabs (sin b) <= 1 / 100000).
  { unfold TrueVSOP87. pose proof (fixed_near L 1 2451545) as N. rewrite Rminus_eq_0, Rabs_R0 in N. specialize (N ltac:(lra)). destruct (PlanetPosition (fixed L 1) 2451545) as [[l b] R0]. cbv zeta. destruct N as (-> & B & _ & _ & N3). split; [reflexivity|].
    set (lp := HornerR _ _). unfold dir in N3. cbn [vz] in N3. rewrite sin_0, Rminus_0_r in N3. set (db := AngleFromSec (3916 / 100000) * (cos lp - sin lp)).
    assert (Hd : Rabs db <= 1 / 1000000). { unfold db, AngleFromSec. pose proof PI_fine. pose proof (COS_bound lp). pose proof (SIN_bound lp). set (c := cos lp - sin lp). assert (-2 <= c <= 2) by (unfold c; lra). clearbody c. apply Rabs_le. nra. }
    pose proof (sin_lip (db - b) (- b)) as Q. replace (db - b - - b) with db in Q by ring. rewrite sin_neg in Q. apply Rabs_le_inv in N3. pose proof (Rle_trans _ _ _ Q Hd) as Q'. apply Rabs_le_inv in Q'. apply Rabs_le. lra. }
  destruct (TrueVSOP87 (fixed L 1) 2451545) as [[s b] R0]. destruct HS as (-> & Sb). destruct (sat_direction 2451545 (fixed L 1) (fixed 0 10)) as [[[l0 b0] Delta] J].
  destruct H as (v1 & v2 & la & be & P1 & P2 & ED & EJ & _ & HU & HD). apply Rabs_le_inv in Sb.
  assert (G : forall D v, 0 <= D <= 50 -> (exists l b1 r l' b', PlanetPosition (fixed 0 10) (2451545 - LightTime D) = (l, b1, r) /\ ToFK5 l b1 (2451545 - LightTime D) = (l', b') /\ v = vadd (mkvec (1 * cos s) (1 * sin s) (1 * sin b)) (scale r (dir l' b'))) ->
    8.9 <= vx v <= 11.1 /\ -1.1 <= vy v <= 1.1 /\ -0.001 <= vz v <= 0.001).
  { intros D v HDD (l & b1 & r & l' & b' & E1 & E2 & ->). assert (T : Rabs (2451545 - LightTime D - 2451545) <= 1) by (unfold LightTime; apply Rabs_le; lra). pose proof (fixed_near 0 10 _ T) as N. rewrite E1 in N. destruct N as (-> & B & N). pose proof (fk5_near_t l b1 0 (2451545 - LightTime D) B N) as K. rewrite E2 in K. destruct K as ((K1 & K2 & K3) & _).
    unfold dir in K1, K2, K3. cbn [vx vy vz] in K1, K2, K3. rewrite sin_0, cos_0 in *. apply Rabs_le_inv in K1, K2, K3. unfold vadd, scale, dir. cbn [vx vy vz]. pose proof (COS_bound s). pose proof (SIN_bound s). decimals. lra. }
  assert (GN : forall v, 8.9 <= vx v <= 11.1 -> -1.1 <= vy v <= 1.1 -> -0.001 <= vz v <= 0.001 -> 8.9 <= norm v <= 12).
  { intros v A B C. decimals_in A. decimals_in B. decimals_in C. decimals. unfold norm, dot. split.
    - apply Rle_trans with (sqrt (89 / 10 * (89 / 10))); [rewrite sqrt_square; lra|]. apply sqrt_le_1_alt. nra.
    - rewrite <- (sqrt_square 12) by lra. apply sqrt_le_1_alt. nra. }
  destruct (G 9 v1 ltac:(lra) P1) as (X1 & Y1 & Z1). pose proof (GN v1 X1 Y1 Z1) as N1. decimals_in N1. destruct (G (norm v1) v2 ltac:(lra) P2) as (X2 & Y2 & Z2). pose proof (GN v2 X2 Y2 Z2) as N2. decimals_in X2. decimals_in Z2. decimals_in N2.
  split; [|split; [|rewrite ED; lra]].
  - rewrite EJ. unfold q_t11, q_t10, LightTime. apply Rabs_le. lra.
  - assert (NX : vx v2 <> 0) by (apply Rgt_not_eq; lra). specialize (HU (or_introl NX)). assert (SBE : Rabs (sin be) <= 1 / 1000).
    { assert (E : sin be = / norm v2 * vz v2) by (apply (f_equal vz) in HU; exact HU). rewrite E, Rabs_mult. assert (0 < / norm v2 <= 1) by (split; [apply Rinv_0_lt_compat; lra|]; rewrite <- Rinv_1; apply Rinv_le_contravar; lra). rewrite (Rabs_pos_eq (/ _)) by lra. assert (Rabs (vz v2) <= 1 / 1000) by (apply Rabs_le; lra). pose proof (Rabs_pos (vz v2)). nra. }
    apply (f_equal vz) in HD. assert (E : sin b0 = sin b0) by reflexivity. unfold dir at 1 in HD. cbn [vz] in HD. rewrite HD. clear HD E.
    assert (EY : JDEToJulianYear (fl := RFlt) 2451545 = 2000) by (unfold JDEToJulianYear, J2000, JulianYear; cbn -[IZR]; decimals; field). assert (EB : JDEToJulianYear (fl := RFlt) 2433282.4235 = 2000 + (2433282.4235 - 2451545) / 365.25) by (unfold JDEToJulianYear, J2000, JulianYear; cbn -[IZR]; decimals; field). rewrite EY, EB. clear EY EB.
    unfold NewEclipticPrecessor. rewrite Req_bool_true by reflexivity. cbn [epeta eppi epp]. set (t := (2000 + (2433282.4235 - 2451545) / 365.25 - 2000) * (1 / 100)). assert (Ht : - (51 / 100) <= t <= - (49 / 100)) by (unfold t; decimals; lra). clearbody t.
    set (q := HornerR t pit). set (p := HornerR t pt * t). clearbody p q. unfold etat, scaled. cbn [map]. rewrite !HornerR3. unfold s_, M_precess.d_. assert (HP := PI_fine). match goal with |- context [ecliptic_precession ?x q p] => set (e := x) end.
    assert (He : Rabs e <= 1 / 100). { unfold e. assert (0 <= t * t <= 1) by nra. assert (Hk : 4848 / 1000000000 < PI / 180 / 3600 < 4849 / 1000000000) by lra. set (k := PI / 180 / 3600) in *. clearbody k.
      match goal with |- Rabs ?x <= _ => match x with ((?a * k) + t * ((?b * k) + t * (?c * k))) * t => replace x with (k * ((a + t * (b + t * c)) * t)) by ring; assert (Rabs ((a + t * (b + t * c)) * t) <= 50) by (apply Rabs_le; nra); set (w := (a + t * (b + t * c)) * t) in * end end.
      rewrite Rabs_mult, (Rabs_pos_eq k) by lra. pose proof (Rabs_pos w). nra. }
    clearbody e. pose proof (sin_eta e) as SE. unfold ecliptic_precession, rot_z, rot_x, app, dot, dir. cbn [r1 r2 r3 vx vy vz]. pose proof (COS_bound e). pose proof (COS_bound la). pose proof (SIN_bound la). pose proof (COS_bound be). pose proof (COS_bound q). pose proof (SIN_bound q).
    match goal with |- Rabs ?x < _ => replace x with (- sin e * (cos be * (sin la * cos q - cos la * sin q)) + cos e * sin be) by ring end. rewrite <- sin_minus. pose proof (SIN_bound (la - q)).
    assert (Rabs (- sin e * (cos be * sin (la - q))) <= 1 / 100) by (apply mul_le1; [rewrite Rabs_Ropp; lra|]; apply Rabs_le; nra). assert (Rabs (cos e * sin be) <= 1 / 1000) by (rewrite Rmult_comm; apply mul_le1; [exact SBE|apply rabs_cos]).
    eapply Rle_lt_trans; [apply Rabs_triang|]. decimals. lra.
Qed.
