(** Lemmas for P_apparent: the displacements of the apparent place. *)
From Coq Require Import ZArith Reals List Lra Lia Psatz.
From Flocq Require Import Core.
From Verif Require Import GoFloat GoMath M_base M_angle M_precess M_solar M_apparent S_Sphere S_precess S_solar S_apparent L_trig L_coord L_kepler L_precess L_solar L_elements L_physical L_apparent L_apparent2 L_apparent3.
Import ListNotations.
Local Open Scope R_scope.

Lemma RonVondrak_displacement ra dec jd : - (PI / 2) < dec < PI / 2 ->
  let '(da, dd) := AberrationRonVondrak ra dec jd in velocity ra dec da dd = across (rv_velocity jd) (dir ra dec).
Proof.
  intros H. unfold AberrationRonVondrak, rv_velocity. rewrite century. destruct (rv_sum _) as [[X Y] Z]. exact (RonVondrak_velocity X Y Z ra dec H).
Qed.
Lemma dir_unit a b : dot (dir a b) (dir a b) = 1.
Proof. rewrite L_physical.dot_dir. replace (a - a) with 0 by ring. rewrite cos_0, Rmult_1_r. apply sc1. Qed.
Lemma across_norm v u : dot u u = 1 -> norm (across v u) <= norm v.
Proof.
  intros U. apply norm_le; [apply norm_pos0|]. rewrite norm2. unfold across, vsub, vadd, scale, dot in *. destruct v as [x y z], u as [a b c]. cbn [vx vy vz] in *.
  set (k := x * a + y * b + z * c). apply Rle_trans with (x * x + y * y + z * z - 2 * (k * k) + k * k * (a * a + b * b + c * c)); [right; unfold k; ring|]. rewrite U. pose proof (Rle_0_sqr k). unfold Rsqr in *. lra.
Qed.
Lemma across_sub v w u : vsub (across v u) (across w u) = across (vsub v w) u.
Proof. unfold across, vsub, vadd, scale, dot. cbn [vx vy vz]. apply mkvec_eq; ring. Qed.
(** Rotations of the frame, on vectors. *)
Definition linear_isometry (f : vec -> vec) : Prop :=
  (forall u v, dot (f u) (f v) = dot u v) /\ (forall u v, f (vadd u v) = vadd (f u) (f v)) /\ (forall k u, f (scale k u) = scale k (f u)).
Lemma iso_across f v u : linear_isometry f -> f (across v u) = across (f v) (f u).
Proof. intros (D & A & K). unfold across, vsub. rewrite A, !K, D. reflexivity. Qed.
Lemma iso_comp f g : linear_isometry f -> linear_isometry g -> linear_isometry (fun v => f (g v)).
Proof. intros (D & A & K) (D' & A' & K'). split; [|split]; intros; rewrite ?D, ?D', ?A', ?A, ?K', ?K; reflexivity. Qed.
Lemma iso_rot_x t : linear_isometry (app (rot_x t)).
Proof.
  split; [|split]; [|intros; apply app_vadd|intros; apply app_scale]. intros [a b c] [d e f]. unfold app, rot_x, dot. cbn [r1 r2 r3 vx vy vz]. pose proof (sc1 t) as Q.
  transitivity (a * d + (sin t * sin t + cos t * cos t) * (b * e + c * f)); [ring|rewrite Q; ring].
Qed.
Lemma iso_rot_z t : linear_isometry (app (rot_z t)).
Proof. split; [|split]; [|intros; apply app_vadd|intros; apply app_scale]. intros. apply rot_z_dot. Qed.
Lemma iso_ecl a b c : linear_isometry (ecliptic_precession a b c).
Proof. unfold ecliptic_precession. exact (iso_comp _ _ (iso_rot_z _) (iso_comp _ _ (iso_rot_x _) (iso_rot_z _))). Qed.
Lemma iso_norm f v : linear_isometry f -> norm (f v) = norm v.
Proof. intros (D & _). unfold norm. rewrite D. reflexivity. Qed.

Lemma iso_date jd : linear_isometry (to_ecliptic_of_date jd).
Proof. unfold to_ecliptic_of_date. exact (iso_comp _ _ (iso_ecl _ _ _) (iso_rot_x _)). Qed.
Lemma RonVondrak_ecliptic ra dec lon lat jd : Rabs ((jd - 2451545) / 36525) <= 1 -> - (PI / 2) < dec < PI / 2 -> - (PI / 2) < lat < PI / 2 ->
  dir lon lat = to_ecliptic_of_date jd (dir ra dec) ->
  let '(da, dd) := AberrationRonVondrak ra dec jd in let '(dl, db) := EclipticAberration lon lat jd in
  norm (vsub (to_ecliptic_of_date jd (velocity ra dec da dd)) (velocity lon lat dl db)) <= arcsec 0.08.
Proof.
  intros HT HD HL E. pose proof (RonVondrak_displacement ra dec jd HD) as A. destruct (AberrationRonVondrak ra dec jd) as [da dd].
  pose proof (EclAberration_velocity lon lat jd HL) as B. destruct (EclipticAberration lon lat jd) as [dl db]. rewrite A, B, (iso_across _ _ _ (iso_date jd)), <- E, across_sub.
  eapply Rle_trans; [apply across_norm, dir_unit|]. exact (RonVondrak_agrees jd HT).
Qed.
Lemma RonVondrak_equatorial ra dec ra' dec' jd : Rabs ((jd - 2451545) / 36525) <= 1 -> - (PI / 2) < dec < PI / 2 -> - (PI / 2) < dec' < PI / 2 ->
  dir ra' dec' = to_equator_of_date jd (dir ra dec) ->
  let '(da, dd) := AberrationRonVondrak ra dec jd in let '(da', dd') := Aberration ra' dec' jd in
  norm (vsub (to_equator_of_date jd (velocity ra dec da dd)) (velocity ra' dec' da' dd')) <= arcsec 0.08.
Proof.
  intros HT HD HL E. set (f := to_equator_of_date jd) in *. pose proof (RonVondrak_displacement ra dec jd HD) as A. destruct (AberrationRonVondrak ra dec jd) as [da dd].
  assert (HC : cos (MeanObliquity jd) <> 0).
  { pose proof (obliquity_range jd ltac:(lra)) as OR. pose proof PI_10. apply Rgt_not_eq, cos_gt_0; unfold degrees in OR; lra. }
  pose proof (EqAberration_velocity ra' dec' jd HL HC) as B. destruct (Aberration ra' dec' jd) as [da' dd'].
  assert (F : linear_isometry f) by exact (iso_comp _ _ (iso_rot_x _) (iso_date jd)). rewrite A, B, (iso_across _ _ _ F), <- E, across_sub.
  eapply Rle_trans; [apply across_norm, dir_unit|]. unfold f, to_equator_of_date. rewrite <- app_vsub, norm_rot_x. exact (RonVondrak_agrees jd HT).
Qed.
(** Sizes *)
Lemma earthV_norm jd : Rabs ((jd - 2451545) / 36525) <= 1 -> norm (earthV jd) <= arcsec 20.845.
Proof.
  intros HT. pose proof (earthV_uT jd) as E. cbv zeta in E. rewrite E, norm_rot_z, norm_scale. pose proof (uT_norm _ HT) as U. pose proof (norm_pos0 (uT ((jd - 2451545) / 36525))). pose proof PI_10.
  rewrite Rabs_pos_eq by (unfold kappa, AngleFromSec; lra). apply Rle_trans with (kappa * 1.017); [apply Rmult_le_compat_l; [unfold kappa, AngleFromSec; lra|exact U]|]. unfold kappa, AngleFromSec, arcsec. lra.
Qed.
Lemma Aberration_size ra dec jd : Rabs ((jd - 2451545) / 36525) <= 1 -> - (PI / 2) < dec < PI / 2 ->
  let '(da, dd) := Aberration ra dec jd in norm (velocity ra dec da dd) <= arcsec 20.845.
Proof.
  intros HT HD. assert (HC : cos (MeanObliquity jd) <> 0).
  { pose proof (obliquity_range jd ltac:(lra)) as OR. pose proof PI_10. apply Rgt_not_eq, cos_gt_0; unfold degrees in OR; lra. }
  pose proof (EqAberration_velocity ra dec jd HD HC) as B. destruct (Aberration ra dec jd) as [da dd]. rewrite B. eapply Rle_trans; [apply across_norm, dir_unit|]. rewrite norm_rot_x. apply earthV_norm, HT.
Qed.
Lemma norm_velocity l b ml mb : norm (velocity l b ml mb) * norm (velocity l b ml mb) = (cos b * ml) * (cos b * ml) + mb * mb.
Proof.
  rewrite norm2. unfold velocity, vadd, scale, east, north, dot. cbn [vx vy vz]. pose proof (sc1 l) as Q1. pose proof (sc1 b) as Q2.
  set (sl := sin l) in *. set (cl := cos l) in *. set (sb := sin b) in *. set (cb := cos b) in *. clearbody sl cl sb cb.
  transitivity ((cb * ml) * (cb * ml) * (sl * sl + cl * cl) + mb * mb * (sb * sb * (sl * sl + cl * cl) + cb * cb)); [ring|]. rewrite Q1. rewrite Rmult_1_r, Rmult_1_r, Q2. ring.
Qed.
Lemma velocity_dec l b ml mb : Rabs mb <= norm (velocity l b ml mb).
Proof.
  pose proof (norm_velocity l b ml mb) as N. pose proof (norm_pos0 (velocity l b ml mb)) as P. set (n := norm _) in *. clearbody n.
  pose proof (Rle_0_sqr (cos b * ml)) as Q. unfold Rsqr in Q. apply Rabs_le. split; nra.
Qed.
Lemma Nutation_size ra dec jd : Rabs ((jd - 2451545) / 36525) <= 1 -> - (PI / 2) < dec < PI / 2 ->
  let '(da, dd) := NutationEq ra dec jd in norm (velocity ra dec da dd) <= arcsec 29.53.
Proof.
  intros HT HD. unfold NutationEq. pose proof (Nutation_bound jd) as N. cbv zeta in N. destruct (Nutation jd) as [dpsi deps]. cbn [fst snd] in N. destruct N as [N1 N2].
  pose proof (Nutation_velocity dpsi deps ra dec jd HD) as B. destruct (NutationCorr dpsi deps ra dec jd) as [da dd]. rewrite B. clear B.
  assert (X : forall u v, dot u u = 1 -> dot v v = 1 -> norm (cross u v) <= 1).
  { intros [a b c] [d e f] U V. apply norm_le; [lra|]. unfold cross, dot in *. cbn [vx vy vz] in *.
    apply Rle_trans with ((a * a + b * b + c * c) * (d * d + e * e + f * f) - (a * d + b * e + c * f) * (a * d + b * e + c * f)); [right; ring|]. rewrite U, V. pose proof (Rle_0_sqr (a * d + b * e + c * f)). unfold Rsqr in *. lra. }
  eapply Rle_trans; [apply norm_add|]. rewrite !norm_scale.
  pose proof (X (app (rot_x (- MeanObliquity jd)) (mkvec 0 0 1)) (dir ra dec)) as X1. pose proof (X (mkvec 1 0 0) (dir ra dec)) as X2.
  assert (D1 : dot (app (rot_x (- MeanObliquity jd)) (mkvec 0 0 1)) (app (rot_x (- MeanObliquity jd)) (mkvec 0 0 1)) = 1).
  { destruct (iso_rot_x (- MeanObliquity jd)) as (D & _). rewrite D. unfold dot. cbn [vx vy vz]. ring. }
  specialize (X1 D1 (dir_unit ra dec)). specialize (X2 ltac:(unfold dot; cbn [vx vy vz]; ring) (dir_unit ra dec)). clear X D1.
  set (n1 := norm _) in *. set (n2 := norm (cross (mkvec 1 0 0) _)) in *. assert (0 <= n1) by apply norm_pos0. assert (0 <= n2) by apply norm_pos0. clearbody n1 n2.
  unfold arcsec in *. pose proof PI_10. pose proof (Rabs_pos dpsi). pose proof (Rabs_pos deps). set (T := (jd - 2451545) / 36525) in *.
  assert (Rabs dpsi <= 19.45 * (PI / 180 / 3600)) by (eapply Rle_trans; [exact N1|]; apply Rmult_le_compat_r; lra).
  assert (Rabs deps <= 10.075 * (PI / 180 / 3600)) by (eapply Rle_trans; [exact N2|]; apply Rmult_le_compat_r; lra). nra.
Qed.
Lemma velocity_add l b m1 n1 m2 n2 : velocity l b (m1 + m2) (n1 + n2) = vadd (velocity l b m1 n1) (velocity l b m2 n2).
Proof. unfold velocity, vadd, scale. cbn [vx vy vz]. apply mkvec_eq; ring. Qed.
Lemma Position_jd e : JulianYearToJDE (fl := RFlt) e = 2451545 + 365.25 * (e - 2000).
Proof. unfold JulianYearToJDE, J2000, JulianYear. cbn -[IZR]. decimals. field. Qed.
Lemma ApparentPosition_size eq e1 e2 ma md : 1900 <= e2 <= 2100 -> let q := Position eq e1 e2 ma md in let a := ApparentPosition eq e1 e2 ma md in
  - (PI / 2) < eqDec q < PI / 2 ->
  exists da, same_angle (eqRA a) (eqRA q + da) /\ 0 <= eqRA a < 2 * PI /\ norm (velocity (eqRA q) (eqDec q) da (eqDec a - eqDec q)) <= arcsec 50.375.
Proof.
  intros HE q a HD. unfold a, ApparentPosition, apparentPosition. fold q. cbv zeta. rewrite Position_jd. set (jd := 2451545 + 365.25 * (e2 - 2000)).
  assert (HT : Rabs ((jd - 2451545) / 36525) <= 1) by (unfold jd; apply Rabs_le; lra).
  pose proof (Nutation_size (eqRA q) (eqDec q) jd HT HD) as N. destruct (NutationEq (eqRA q) (eqDec q) jd) as [da1 dd1].
  pose proof (Aberration_size (eqRA q) (eqDec q) jd HT HD) as B. destruct (Aberration (eqRA q) (eqDec q) jd) as [da2 dd2]. cbn [eqRA eqDec].
  exists (da1 + da2). unfold RAAdd, RAFromRad. split; [apply Mod1_same|]. split; [apply Mod1_bound|]. replace (eqDec q + (dd1 + dd2) - eqDec q) with (dd1 + dd2) by ring. rewrite velocity_add.
  eapply Rle_trans; [apply norm_add|]. unfold arcsec in *. lra.
Qed.
Lemma ApparentPosition_range eq e1 e2 ma md : 1900 <= e2 <= 2100 -> let q := Position eq e1 e2 ma md in let a := ApparentPosition eq e1 e2 ma md in
  Rabs (eqDec q) <= PI / 2 - arcsec 50.375 -> Rabs (eqDec a) <= PI / 2.
Proof.
  intros HE q a HD. pose proof PI_10 as P. assert (A0 : 0 < arcsec 50.375) by (unfold arcsec; lra). apply abs_le_inv in HD.
  destruct (ApparentPosition_size eq e1 e2 ma md HE) as (da & _ & _ & N). { fold q. lra. } fold q a in N. pose proof (velocity_dec (eqRA q) (eqDec q) da (eqDec a - eqDec q)) as V.
  assert (V' := Rle_trans _ _ _ V N). apply abs_le_inv in V'. apply Rabs_le. lra.
Qed.
(** A star at the pole. *)
Lemma atan2_00 : atan2 0 0 = 0.
Proof. unfold atan2. destruct (Rlt_dec 0 0); [lra|]. reflexivity. Qed.
Lemma PMod_0 : PMod 0 (2 * PI) = 0.
Proof. pose proof (Mod1_same 0) as [k K]. pose proof (Mod1_bound 0) as B. unfold Mod1 in *. pose proof PI_10. rewrite Rplus_0_l in K. assert (k = 0%Z).
  { assert (IZR k < 1) by nra. assert (-1 < IZR k) by nra. apply lt_IZR in H0. apply (lt_IZR (-1)) in H1. lia. }
  subst k. rewrite K. ring. Qed.
Lemma NewPrecessor_2000 : NewPrecessor 2000 2000 = mkPrecessor 0 0 0.
Proof. unfold NewPrecessor. destruct (Req_bool 2000 2000); cbv beta iota zeta; f_equal; replace ((2000 - 2000) * (1 / 100)) with 0 by ring; apply Rmult_0_r. Qed.
Lemma pole_J2000 : Position (mkEq 0 (PI / 2)) 2000 2000 0 0 = mkEq 0 (PI / 2).
Proof.
  unfold Position, Precess. cbv zeta. rewrite NewPrecessor_2000. cbn [eqRA eqDec pzeta pz ptheta].
  replace (PI / 2 + 0 * (2000 - 2000)) with (PI / 2) by ring. rewrite sin_PI2, cos_PI2, sin_0, cos_0.
  set (a := RAFromRad (0 + 0 * (2000 - 2000))). replace (0 * sin (a + 0)) with 0 by ring. replace (1 * 0 * cos (a + 0) - 0 * 1) with 0 by ring. replace (0 * 0 * cos (a + 0) + 1 * 1) with 1 by ring.
  rewrite atan2_00, Rplus_0_r. unfold RAFromRad. rewrite PMod_0. f_equal. unfold poleSafe, hypot. rewrite Rabs_R1. pose proof (COS_bound SmallAngle) as C. fold CosSmallAngle in C.
  case Rlt_bool_spec; intros H; [lra|]. case Rlt_bool_spec; intros H1; [lra|]. replace (0 * 0 + 0 * 0) with 0 by ring. rewrite sqrt_0. apply acos_0.
Qed.
Lemma ApparentPosition_pole : eqDec (ApparentPosition (mkEq 0 (PI / 2)) 2000 2000 0 0) > PI / 2 + arcsec 11.
Proof.
  unfold ApparentPosition, apparentPosition. rewrite pole_J2000. cbv zeta. cbn [eqRA eqDec]. rewrite Position_jd. set (jd := 2451545 + 365.25 * (2000 - 2000)).
  assert (J : jd = 2451545) by (unfold jd; ring). rewrite J. clearbody jd. clear J jd.
  unfold NutationEq, NutationCorr, Aberration. rewrite century. replace ((2451545 - 2451545) / 36525) with 0 by field.
  pose proof (Nutation_bound 2451545) as N. cbv zeta in N. destruct (Nutation 2451545) as [dpsi deps]. cbn [fst snd] in N. destruct N as [N _]. replace ((2451545 - 2451545) / 36525) with 0 in N by field. rewrite Rabs_R0 in N.
  assert (E0 : MeanObliquity 2451545 = eps0).
  { unfold eps0, MeanObliquity, J2000Century, J2000, JulianCentury, HornerR, Horner. cbn [rev List.app horner_loop fadd fmul fsub fdiv fconst RFlt]. f_equal. field. }
  rewrite E0. cbv beta iota zeta. cbn [eqDec]. rewrite sin_0, cos_0, sin_PI2, cos_PI2.
  pose proof (solarTrue_value 0) as SV. destruct (solarTrue 0) as [s nu]. cbv zeta in SV. destruct SV as (_ & _ & SV & _). cbn [fst].
  fold (MT 0) in SV. fold (CT 0) in SV. fold (L0T 0) in SV. destruct (same_angle_sc _ _ SV) as [S1 _]. clear SV.
  pose proof (C_bound 0 ltac:(rewrite Rabs_R0; lra)) as CB. pose proof PI_10 as P. assert (L : L0T 0 = 3 * (PI / 2) + 10.46646 * (PI / 180)) by (unfold L0T, degrees; decimals; field). rewrite L in S1.
  set (d := 10.46646 * (PI / 180) + CT 0) in *. replace (3 * (PI / 2) + 10.46646 * (PI / 180) + CT 0) with (3 * (PI / 2) + d) in S1 by (unfold d; ring).
  assert (D : Rabs d <= 0.2167). { unfold d. apply abs_le_inv in CB. apply Rabs_le. lra. } clearbody d. clear L CB.
  rewrite sin_plus in S1. replace (sin (3 * (PI / 2))) with (-1) in S1 by (rewrite sin_3PI2; reflexivity). replace (cos (3 * (PI / 2))) with 0 in S1 by (rewrite cos_3PI2; reflexivity).
  assert (CD : 0.976 <= cos d).
  { pose proof (cos_2a_sin (d / 2)) as C2. replace (2 * (d / 2)) with d in C2 by field. pose proof (sin_abs_le (d / 2)) as SS. apply Rsqr_le_abs_1 in SS. unfold Rsqr in SS. apply abs_le_inv in D. nra. }
  pose proof eps0_sc as [SE _]. assert (EC : Rabs (solarEccentricity 0) <= 0.017). { unfold solarEccentricity. rewrite HornerR3. apply Rabs_le. lra. }
  set (p := perihelion 0). set (e := solarEccentricity 0) in *. pose proof (bnm e (sin p) 0.017 1 EC ltac:(apply Rabs_le, SIN_bound)) as EP. apply abs_le_inv in EP.
  pose proof (bnm dpsi (sin eps0) (arcsec (19.4316 + 0.01823 * 0)) 0.4 N ltac:(apply Rabs_le; lra)) as NP. apply abs_le_inv in NP.
  set (se := sin eps0) in *. set (ce := cos eps0). set (te := tan eps0). set (cp := cos p). set (cs := cos s).
  replace (PI / 2 + (dpsi * (se * 1) + deps * 0 + kappa * (e * (cp * (ce * (te * 0 - 0 * 1)) + sin p * (1 * 1)) - (cs * (ce * (te * 0 - 0 * 1)) + sin s * (1 * 1)))))
    with (PI / 2 + dpsi * se + kappa * (e * sin p - sin s)) by ring. rewrite S1. set (sp := sin p) in *. clearbody e sp.
  unfold arcsec in *. assert (K : 0 < kappa) by (unfold kappa, AngleFromSec; lra). assert (0.958 * kappa <= kappa * (e * sp - (-1 * cos d + 0 * sin d))) by nra.
  unfold kappa, AngleFromSec in *. lra.
Qed.
Lemma date_J2000 : dir 0 0 = to_ecliptic_of_date 2451545 (dir 0 0) /\ dir 0 0 = to_equator_of_date 2451545 (dir 0 0).
Proof.
  assert (A : forall t, app (rot_x t) (dir 0 0) = dir 0 0). { intros. unfold app, rot_x, dir, dot. cbn [r1 r2 r3 vx vy vz]. rewrite !sin_0. apply mkvec_eq; ring. }
  assert (B : to_ecliptic_of_date 2451545 (dir 0 0) = dir 0 0).
  { unfold to_ecliptic_of_date. cbv zeta. replace (2000 + (2451545 - 2451545) / 365.25) with 2000 by (decimals; field). rewrite A.
    pose proof (NewEclipticPrecessor_poly 2000 2000) as P. cbv zeta in P. destruct P as (P1 & _ & P3). replace (epeta (NewEclipticPrecessor 2000 2000)) with 0 by (rewrite P1; unfold AngleFromSec; decimals; field).
    replace (epp (NewEclipticPrecessor 2000 2000)) with 0 by (rewrite P3; unfold AngleFromSec; decimals; field). set (P := eppi _). unfold ecliptic_precession. destruct (rot0 (app (rot_z P) (dir 0 0))) as (_ & -> & _). rewrite Rplus_0_r. apply rot_z_inv. }
  split; [symmetry; exact B|]. unfold to_equator_of_date. rewrite B, A. reflexivity.
Qed.
Lemma position_J2000 : let q := Position (mkEq 1 (1 / 2)) 2000 2000 0 0 in Rabs (eqDec q) <= PI / 2 - arcsec 50.375 /\ - (PI / 2) < eqDec q < PI / 2.
Proof.
  cbv zeta. pose proof PI_10 as P. assert (E : eqDec (Position (mkEq 1 (1 / 2)) 2000 2000 0 0) = 1 / 2).
  { unfold Position. cbn [eqRA eqDec]. rewrite Precess_same; cbn [eqDec eqRA]; [ring|apply Mod1_bound|lra]. }
  rewrite E. split; [|lra]. unfold arcsec. rewrite Rabs_pos_eq; lra.
Qed.
