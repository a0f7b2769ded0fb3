(** Lemmas for packages precess, elementequinox and apparent. *)
From Coq Require Import ZArith Reals List Lra Psatz Bool Nsatz.
From Flocq Require Import Core.
From Verif Require Import GoFloat GoMath M_base M_angle M_coord M_precess S_Sphere S_precess L_trig L_angle L_vec L_coord.
Import ListNotations.
Local Open Scope R_scope.

(** ** Both forms of the declination *)
Lemma poleSafe_asin A B C : A * A + B * B + C * C = 1 -> poleSafe A B C = asin C.
Proof.
  intros H. unfold poleSafe. case Rlt_bool_spec; [reflexivity|]. intros _. cbv zeta.
  assert (BC : -1 <= C <= 1) by nra.
  assert (E : hypot A B = sqrt (1 - Rsqr C)). { unfold hypot, Rsqr. f_equal. lra. }
  pose proof PI_bounds as P.
  case Rlt_bool_spec; intros HC.
  - rewrite E. rewrite <- (Ropp_involutive (asin C)). f_equal. rewrite <- asin_opp.
    replace (1 - Rsqr C) with (1 - Rsqr (- C)) by (unfold Rsqr; ring).
    rewrite <- cos_asin by lra. apply acos_cos. pose proof (asin_bound (- C)). split; [|lra].
    assert (0 < asin (- C)); [|lra]. apply Rnot_le_lt. intros N. pose proof (asin_bound (- C)) as Q.
    assert (sin (asin (- C)) <= 0). { rewrite <- sin_0. apply sin_incr_1; lra. }
    rewrite sin_asin in H1 by lra. lra.
  - rewrite E, <- cos_asin by lra. apply acos_cos. pose proof (asin_bound C) as Q. split; [|lra].
    apply Rnot_lt_le. intros N. assert (sin (asin C) < 0). { rewrite <- sin_0. apply sin_increasing_1; lra. }
    rewrite sin_asin in H0 by lra. lra.
Qed.

Lemma poleSafe_bound A B C : A * A + B * B + C * C = 1 -> - (PI / 2) <= poleSafe A B C <= PI / 2.
Proof. intros H. rewrite (poleSafe_asin A B C H). apply asin_bound. Qed.

(** ** Precessor *)
Lemma Precess_dir p eq : let q := Precess p eq in
  0 <= eqRA q < 2 * PI /\ - (PI / 2) <= eqDec q <= PI / 2 /\
  dir (eqRA q) (eqDec q) = precession (pzeta p) (pz p) (ptheta p) (dir (eqRA eq) (eqDec eq)).
Proof.
  intros q. unfold q, Precess. cbn [eqRA eqDec]. destruct eq as [a d]. destruct p as [ze z th]. cbn [eqRA eqDec pzeta pz ptheta].
  split; [apply RAFromRad_bound|].
  set (A := cos d * sin (a + ze)). set (B := cos th * cos d * cos (a + ze) - sin th * sin d). set (C := sin th * cos d * cos (a + ze) + cos th * sin d).
  assert (N : B * B + A * A + C * C = 1).
  { unfold A, B, C. pose proof (sc1 d) as D1. pose proof (sc1 th) as T1. pose proof (sc1 (a + ze)) as A1.
    transitivity ((sin th * sin th + cos th * cos th) * (cos d * cos d * (cos (a + ze) * cos (a + ze)) + sin d * sin d) + cos d * cos d * (sin (a + ze) * sin (a + ze))); [ring|].
    rewrite T1. transitivity (cos d * cos d * (sin (a + ze) * sin (a + ze) + cos (a + ze) * cos (a + ze)) + sin d * sin d); [ring|]. rewrite A1. lra. }
  assert (N' : A * A + B * B + C * C = 1) by lra.
  split; [apply poleSafe_bound, N'|]. rewrite (poleSafe_asin A B C N').
  transitivity (dir (atan2 A B + z) (asin C)). { unfold dir. rewrite cos_RAFromRad, sin_RAFromRad. reflexivity. }
  replace (atan2 A B + z) with (atan2 A B - - z) by ring. unfold precession. rewrite <- rot_z_dir. f_equal.
  rewrite rot_z_dir. replace (a - - ze) with (a + ze) by ring.
  rewrite (dir_unit_vec B A C (atan2 A B) N) by tauto.
  unfold dir, app, rot_y, dot. cbn [r1 r2 r3 vx vy vz]. unfold A, B, C. apply mkvec_eq; ring.
Qed.

Lemma EclPrecess_dir p ecl : let q := EclPrecess p ecl in
  epp p + eppi p - PI <= eclLon q < epp p + eppi p + PI /\ - (PI / 2) <= eclLat q <= PI / 2 /\
  dir (eclLon q) (eclLat q) = ecliptic_precession (epeta p) (eppi p) (epp p) (dir (eclLon ecl) (eclLat ecl)).
Proof.
  intros q. unfold q, EclPrecess. cbn [eclLon eclLat]. destruct ecl as [l b]. destruct p as [et pi p]. cbn [eclLon eclLat epeta eppi epp].
  set (A := cos et * cos b * sin (pi - l) - sin et * sin b). set (B := cos b * cos (pi - l)). set (C := cos et * sin b + sin et * cos b * sin (pi - l)).
  assert (N : B * B + - A * - A + C * C = 1).
  { unfold A, B, C. pose proof (sc1 b) as D1. pose proof (sc1 et) as T1. pose proof (sc1 (pi - l)) as A1.
    transitivity ((sin et * sin et + cos et * cos et) * (cos b * cos b * (sin (pi - l) * sin (pi - l)) + sin b * sin b) + cos b * cos b * (cos (pi - l) * cos (pi - l))); [ring|].
    rewrite T1. transitivity (cos b * cos b * (sin (pi - l) * sin (pi - l) + cos (pi - l) * cos (pi - l)) + sin b * sin b); [ring|]. rewrite A1. lra. }
  assert (N' : A * A + B * B + C * C = 1) by lra.
  pose proof (atan2_bound A B). split; [lra|].
  split; [apply poleSafe_bound, N'|]. rewrite (poleSafe_asin A B C N').
  unfold ecliptic_precession. rewrite rot_z_dir.
  replace (p + pi - atan2 A B) with (- atan2 A B - - (pi + p)) by ring. rewrite <- rot_z_dir. f_equal.
  rewrite (dir_unit_vec B (- A) C (- atan2 A B) N).
  - unfold dir, app, rot_x, dot. cbn [r1 r2 r3 vx vy vz]. unfold A, B, C.
    replace (l - pi) with (- (pi - l)) by ring. rewrite cos_neg, sin_neg. apply mkvec_eq; ring.
  - intros HN. rewrite sin_neg, cos_neg.
    assert (H0 : B <> 0 \/ A <> 0) by (destruct HN as [?|X]; [left; assumption|right; intros E; apply X; rewrite E; ring]).
    destruct (atan2_spec B A H0) as [E1 E2]. pose proof (hypot_gt0 B A H0) as HP.
    destruct (atan2_cs B (- A) (hypot B A) (- atan2 A B) HP) as [E3 E4].
    + rewrite cos_neg. symmetry. exact E1.
    + rewrite sin_neg. transitivity (- (hypot B A * sin (atan2 A B))); [rewrite E2; reflexivity|ring].
    + rewrite <- sin_neg, <- cos_neg. split; symmetry; assumption.
Qed.

(** ** Equal epochs, and the branch for J2000 *)
Lemma HornerR3 x a b c : HornerR x [a; b; c] = a + x * (b + x * c).
Proof. unfold HornerR. unfold Horner. cbn [rev List.app horner_loop]. cbn [fadd fmul RFlt]. ring. Qed.

Lemma NewPrecessor_same e : NewPrecessor e e = mkPrecessor 0 0 0.
Proof.
  unfold NewPrecessor. destruct (if Req_bool e 2000 then _ else _) as [[x y] z]. cbv zeta.
  replace ((e - e) * (1 / 100)) with 0 by ring. rewrite !Rmult_0_r. reflexivity.
Qed.
Lemma NewEclipticPrecessor_same e : let p := NewEclipticPrecessor e e in epeta p = 0 /\ epp p = 0.
Proof.
  cbv zeta. unfold NewEclipticPrecessor. destruct (if Req_bool e 2000 then _ else _) as [[x y] z]. cbn [epeta epp].
  replace ((e - e) * (1 / 100)) with 0 by ring. rewrite !Rmult_0_r. split; reflexivity.
Qed.

Ltac decimals := unfold Q2R; cbn [QArith_base.Qnum QArith_base.Qden].

Lemma NewPrecessor_poly e1 e2 : let T := (e1 - 2000) / 100 in let t := (e2 - e1) / 100 in
  let p := NewPrecessor e1 e2 in
  pzeta p = AngleFromSec ((2306.2181 + 1.39656 * T - 0.000139 * T * T) * t + (0.30188 - 0.000344 * T) * t * t + 0.017998 * t * t * t) /\
  pz p = AngleFromSec ((2306.2181 + 1.39656 * T - 0.000139 * T * T) * t + (1.09468 + 0.000066 * T) * t * t + 0.018203 * t * t * t) /\
  ptheta p = AngleFromSec ((2004.3109 - 0.8533 * T - 0.000217 * T * T) * t - (0.42665 + 0.000217 * T) * t * t - 0.041833 * t * t * t).
Proof.
  cbv zeta. unfold NewPrecessor. case Req_bool_spec; intros H; cbv beta iota zeta; cbn [pzeta pz ptheta];
    unfold zetat, zt, thetat, zetaT, zT, thetaT, scaled; cbn [map]; rewrite ?HornerR3; unfold s_, d_, AngleFromSec; decimals.
  - rewrite H. repeat split; field.
  - repeat split; field.
Qed.
Lemma NewEclipticPrecessor_poly e1 e2 : let T := (e1 - 2000) / 100 in let t := (e2 - e1) / 100 in
  let p := NewEclipticPrecessor e1 e2 in
  epeta p = AngleFromSec ((47.0029 - 0.06603 * T + 0.000598 * T * T) * t + (- 0.03302 + 0.000598 * T) * t * t + 0.000060 * t * t * t) /\
  eppi p = AngleFromDeg 174.876384 + AngleFromSec (3289.4789 * T + 0.60622 * T * T - (869.8089 + 0.50491 * T) * t + 0.03536 * t * t) /\
  epp p = AngleFromSec ((5029.0966 + 2.22226 * T - 0.000042 * T * T) * t + (1.11113 - 0.000042 * T) * t * t - 0.000006 * t * t * t).
Proof.
  cbv zeta. unfold NewEclipticPrecessor. case Req_bool_spec; intros H; cbv beta iota zeta; cbn [epeta eppi epp];
    unfold etat, pit, pt, etaT, piT, pT, scaled; cbn [map]; rewrite ?HornerR3; unfold s_, d_, AngleFromSec, AngleFromDeg; decimals.
  - rewrite H. repeat split; field.
  - repeat split; field.
Qed.

Lemma rot0 v : app (rot_z 0) v = v /\ app (rot_x 0) v = v /\ app (rot_y 0) v = v.
Proof.
  destruct v as [x y z]. unfold app, rot_x, rot_y, rot_z, dot. cbn [r1 r2 r3 vx vy vz]. rewrite sin_0, cos_0.
  repeat split; apply mkvec_eq; ring.
Qed.

Lemma Precess_same e eq : 0 <= eqRA eq < 2 * PI -> - (PI / 2) < eqDec eq < PI / 2 -> Precess (NewPrecessor e e) eq = eq.
Proof.
  intros HA HD. destruct (Precess_dir (NewPrecessor e e) eq) as (RA & RD & E). rewrite NewPrecessor_same in *. cbn [pzeta pz ptheta] in E.
  unfold precession in E. rewrite Ropp_0 in E. rewrite !(proj1 (rot0 _)), (proj2 (proj2 (rot0 _))) in E.
  symmetry in E. destruct (dir_inj _ _ _ _ HD RD E) as (Ed & Es & Ec).
  destruct (Precess (mkPrecessor 0 0 0) eq) as [a d]. destruct eq as [a0 d0]. cbn [eqRA eqDec] in *. subst d. f_equal.
  symmetry. apply (angle_eq_range a0 a 0); lra.
Qed.
Lemma EclPrecess_same e ecl : - (PI / 2) < eclLat ecl < PI / 2 -> let q := EclPrecess (NewEclipticPrecessor e e) ecl in
  eclLat q = eclLat ecl /\ exists k : Z, eclLon q = eclLon ecl + 2 * PI * IZR k.
Proof.
  intros HD q. destruct (EclPrecess_dir (NewEclipticPrecessor e e) ecl) as (RA & RD & E). fold q in RA, RD, E.
  destruct (NewEclipticPrecessor_same e) as [E1 E2]. rewrite E1, E2 in E. unfold ecliptic_precession in E.
  rewrite (proj1 (proj2 (rot0 _))), Rplus_0_r in E.
  rewrite rot_z_inv in E. symmetry in E. destruct (dir_inj _ _ _ _ HD RD E) as (Ed & Es & Ec).
  split; [congruence|]. destruct (angle_eq (eclLon q) (eclLon ecl)) as [k Hk]; [congruence..|]. exists k. lra.
Qed.
