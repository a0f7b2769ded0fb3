(** Lemmas for P_apparent2: apparent.Position and PositionRonVondrak give the same place. *)
From Coq Require Import ZArith Reals List Lra Lia Psatz.
From Flocq Require Import Core.
From Verif Require Import GoFloat GoMath M_base M_angle M_precess M_solar M_apparent S_Sphere S_precess S_solar S_apparent L_trig L_coord L_kepler L_precess L_solar L_elements L_physical L_apparent L_apparent2 L_apparent3 L_apparent4 L_precess2 L_fk5.
Import ListNotations.
Local Open Scope R_scope.

Lemma iso_rot_y t : linear_isometry (app (rot_y t)).
Proof.
  split; [|split]; [|intros; apply app_vadd|intros; apply app_scale]. intros [a b c] [d e f]. unfold app, rot_y, dot. cbn [r1 r2 r3 vx vy vz]. pose proof (sc1 t) as Q.
  transitivity (b * e + (sin t * sin t + cos t * cos t) * (a * d + c * f)); [ring|rewrite Q; ring].
Qed.
Lemma iso_precession a b c : linear_isometry (precession a b c).
Proof. unfold precession. exact (iso_comp _ _ (iso_rot_z _) (iso_comp _ _ (iso_rot_y _) (iso_rot_z _))). Qed.
Lemma iso_sub f u v : linear_isometry f -> f (vsub u v) = vsub (f u) (f v).
Proof. intros (_ & A & K). unfold vsub. rewrite A, K. reflexivity. Qed.
(** One step: a displacement by da, dd whose first-order size is at most n. *)
Lemma step l b x y n c : 0 < c <= 1 -> c <= cos b * cos b -> norm (velocity l b x y) <= n ->
  norm (vsub (dir (l + x) (b + y)) (vadd (dir l b) (velocity l b x y))) <= 867 / 1000 * (n * n) / c.
Proof.
  intros C H N. eapply Rle_trans; [apply dir_tangent|]. pose proof (norm_velocity l b x y) as E. pose proof (norm_pos0 (velocity l b x y)) as P. set (v := norm _) in *. clearbody v.
  assert (V : v * v <= n * n) by nra. assert (X : 0 <= x * x) by apply Rle_0_sqr. assert (Y : 0 <= y * y) by apply Rle_0_sqr.
  assert (K : c * (x * x + y * y) <= n * n). { assert (c * (x * x) <= cos b * cos b * (x * x)) by (apply Rmult_le_compat_r; assumption). assert (c * (y * y) <= 1 * (y * y)) by (apply Rmult_le_compat_r; lra). nra. }
  apply (Rmult_le_reg_r c); [lra|]. unfold Rdiv. rewrite !Rmult_assoc, Rinv_l by lra. lra.
Qed.
Lemma norm_cross2 w u : norm (cross w u) <= norm w * norm u.
Proof.
  apply norm_le; [apply Rmult_le_pos; apply norm_pos0|]. replace (norm w * norm u * (norm w * norm u)) with ((norm w * norm w) * (norm u * norm u)) by ring. rewrite !norm2. destruct w as [a b c], u as [d e f]. unfold cross, dot. cbn [vx vy vz].
  apply Rle_trans with ((a * a + b * b + c * c) * (d * d + e * e + f * f) - (a * d + b * e + c * f) * (a * d + b * e + c * f)); [right; ring|]. pose proof (Rle_0_sqr (a * d + b * e + c * f)). unfold Rsqr in *. lra.
Qed.
(** The rotation of nutation. *)
Definition turn_nut (jd : R) (u : vec) : vec := vadd (scale (fst (Nutation jd)) (cross (app (rot_x (- MeanObliquity jd)) (mkvec 0 0 1)) u)) (scale (snd (Nutation jd)) (cross (mkvec 1 0 0) u)).
Lemma turn_nut_sub jd u v : turn_nut jd (vsub u v) = vsub (turn_nut jd u) (turn_nut jd v).
Proof. unfold turn_nut. generalize (app (rot_x (- MeanObliquity jd)) (mkvec 0 0 1)). intros w. unfold vsub, vadd, scale, cross. cbn [vx vy vz]. apply mkvec_eq; ring. Qed.
Lemma norm_e3 : norm (mkvec 0 0 1) = 1. Proof. unfold norm, dot. cbn [vx vy vz]. replace (0 * 0 + 0 * 0 + 1 * 1) with 1 by ring. apply sqrt_1. Qed.
Lemma norm_e1 : norm (mkvec 1 0 0) = 1. Proof. unfold norm, dot. cbn [vx vy vz]. replace (1 * 1 + 0 * 0 + 0 * 0) with 1 by ring. apply sqrt_1. Qed.
Lemma turn_nut_norm jd u : Rabs ((jd - 2451545) / 36525) <= 1 -> norm (turn_nut jd u) <= arcsec 29.53 * norm u.
Proof.
  intros HT. unfold turn_nut. pose proof (Nutation_bound jd) as N. cbv zeta in N. destruct (Nutation jd) as [dpsi deps]. cbn [fst snd] in *. destruct N as [N1 N2].
  eapply Rle_trans; [apply norm_add|]. rewrite !norm_scale. pose proof (norm_cross2 (app (rot_x (- MeanObliquity jd)) (mkvec 0 0 1)) u) as A. pose proof (norm_cross2 (mkvec 1 0 0) u) as B. rewrite norm_rot_x, norm_e3 in A. rewrite norm_e1 in B.
  set (n1 := norm (cross (app _ _) u)) in *. set (n2 := norm (cross (mkvec 1 0 0) _)) in *. assert (0 <= n1) by apply norm_pos0. assert (0 <= n2) by apply norm_pos0. clearbody n1 n2.
  unfold arcsec in *. pose proof PI_10. pose proof (Rabs_pos dpsi). pose proof (Rabs_pos deps). pose proof (norm_pos0 u). set (nu := norm u) in *. clearbody nu. set (T := (jd - 2451545) / 36525) in *.
  assert (D1 : Rabs dpsi <= 19.45 * (PI / 180 / 3600)) by (eapply Rle_trans; [exact N1|]; apply Rmult_le_compat_r; lra).
  assert (D2 : Rabs deps <= 10.075 * (PI / 180 / 3600)) by (eapply Rle_trans; [exact N2|]; apply Rmult_le_compat_r; lra).
  assert (E1 : Rabs dpsi * n1 <= 19.45 * (PI / 180 / 3600) * nu) by (apply Rmult_le_compat; lra). assert (E2 : Rabs deps * n2 <= 10.075 * (PI / 180 / 3600) * nu) by (apply Rmult_le_compat; lra).
  assert (0 <= PI / 180 / 3600 * nu) by (apply Rmult_le_pos; lra). lra.
Qed.
Lemma nut_velocity ra dec jd : - (PI / 2) < dec < PI / 2 -> let '(da, dd) := NutationEq ra dec jd in velocity ra dec da dd = turn_nut jd (dir ra dec).
Proof. intros H. unfold NutationEq, turn_nut. destruct (Nutation jd) as [dpsi deps]. exact (Nutation_velocity dpsi deps ra dec jd H). Qed.
(** The velocity of the table. *)
Lemma rv_norm jd : Rabs ((jd - 2451545) / 36525) <= 1 -> norm (rv_velocity jd) <= arcsec 20.925.
Proof.
  intros HT. pose proof (RonVondrak_agrees jd HT : norm (vsub (to_ecliptic_of_date jd (rv_velocity jd)) (earthV jd)) <= arcsec 0.08) as A. pose proof (earthV_norm jd HT) as B. rewrite <- (iso_norm _ (rv_velocity jd) (iso_date jd)). set (u := to_ecliptic_of_date jd (rv_velocity jd)) in *.
  pose proof (norm_sub3 u (earthV jd) vzero) as C. rewrite !norm_sub0 in C. unfold arcsec in *. pose proof PI_10. lra.
Qed.
Lemma rv_at_date e jd : 1900 <= e <= 2100 -> jd = 2451545 + 365.25 * (e - 2000) -> let p := NewPrecessor 2000 e in
  norm (vsub (precession (pzeta p) (pz p) (ptheta p) (rv_velocity jd)) (app (rot_x (- MeanObliquity jd)) (earthV jd))) <= arcsec 0.0801.
Proof.
  intros He J p. assert (HT : Rabs ((jd - 2451545) / 36525) <= 1) by (rewrite J; apply Rabs_le; lra). pose proof (rv_norm jd HT) as N. pose proof (RonVondrak_agrees jd HT : norm (vsub (to_ecliptic_of_date jd (rv_velocity jd)) (earthV jd)) <= arcsec 0.08) as A. destruct (two_forms e (rv_velocity jd)) as [F _]. specialize (F He).
  unfold eps_year in F. rewrite !Position_jd in F. rewrite <- J in F. replace (2451545 + 365.25 * (2000 - 2000)) with 2451545 in F by (decimals; ring). unfold to_ecliptic_of_date in A. replace (2000 + (jd - 2451545) / 365.25) with e in A by (rewrite J; decimals; field).
  fold p in F. set (v := rv_velocity jd) in *. set (w := precession _ _ _ v) in *. set (q := NewEclipticPrecessor 2000 e) in *. set (g := ecliptic_precession _ _ _ _) in *.
  rewrite <- (norm_rot_x (MeanObliquity jd) (vsub w _)), app_vsub, (proj2 (rot_x_inv (MeanObliquity jd) (earthV jd))). eapply Rle_trans; [apply (norm_sub3 _ g)|].
  pose proof PI_10. pose proof (norm_pos0 v). unfold arcsec in *. assert (norm v <= 1 / 10) by lra. set (nv := norm v) in *. clearbody nv. assert (0.0002 * (PI / 180 / 3600) * nv <= 0.0002 * (PI / 180 / 3600) * (1 / 10)) by (apply Rmult_le_compat_l; lra).
  lra.
Qed.

Lemma dir_RAAdd a x b : dir (RAAdd a x) b = dir (a + x) b.
Proof. apply dir_turn. unfold RAAdd, RAFromRad. apply Mod1_same. Qed.
(** The second direction of the nutation step is not at a pole. *)
Lemma cos_near q q1 : - (PI / 2) <= q1 <= PI / 2 -> 1 / 100 <= cos q * cos q -> Rabs (sin q1 - sin q) <= 1025 / 10000000 -> 979 / 1000 * (cos q * cos q) <= cos q1 * cos q1 /\ - (PI / 2) < q1 < PI / 2.
Proof.
  intros R C H. apply Rabs_le_inv in H. pose proof (sc1 q) as E. pose proof (sc1 q1) as E1. pose proof (SIN_bound q). pose proof (SIN_bound q1).
  assert (K : 979 / 1000 * (cos q * cos q) <= cos q1 * cos q1).
  { set (s := sin q) in *. set (s1 := sin q1) in *. set (c := cos q * cos q) in *. set (c1 := cos q1 * cos q1) in *. clearbody s s1 c c1. assert (s1 * s1 - s * s <= 205 / 1000000) by (replace (s1 * s1 - s * s) with ((s1 - s) * (s1 + s)) by ring; apply Rle_trans with (Rabs ((s1 - s) * (s1 + s))); [apply Rle_abs|]; rewrite Rabs_mult; assert (Rabs (s1 - s) <= 1025 / 10000000) by (apply Rabs_le; lra); assert (Rabs (s1 + s) <= 2) by (apply Rabs_le; lra); pose proof (Rabs_pos (s1 - s)); pose proof (Rabs_pos (s1 + s)); nra). lra. }
  split; [exact K|]. split; apply Rnot_le_lt; intros Q.
  - assert (q1 = - (PI / 2)) by lra. subst q1. rewrite cos_neg, cos_PI2 in K. lra.
  - assert (q1 = PI / 2) by lra. subst q1. rewrite cos_PI2 in K. lra.
Qed.
Lemma vz_norm u : Rabs (vz u) <= norm u.
Proof. pose proof (norm2 u) as N. pose proof (norm_pos0 u). unfold dot in N. pose proof (Rle_0_sqr (vx u)) as A. pose proof (Rle_0_sqr (vy u)) as B. unfold Rsqr in *. apply Rabs_le. split; nra. Qed.
Lemma vsub_vadd u w : vsub (vadd u w) u = w.
Proof. destruct u as [a b c], w as [d e f]. unfold vsub, vadd, scale. cbn [vx vy vz]. apply mkvec_eq; ring. Qed.
Section Agree.
Variables (eq : Equatorial) (e ma md k : R).
Hypothesis He : 1900 <= e <= 2100.
Let t := e - 2000.
Let q := Position eq 2000 e ma md.
Hypothesis Hk : 1 / 10 <= k.
Hypothesis D0 : - (PI / 2) < eqDec eq + md * t < PI / 2.
Hypothesis D1 : - (PI / 2) < eqDec q < PI / 2.
Hypothesis K0 : k <= cos (eqDec eq + md * t).
Hypothesis K1 : k <= cos (eqDec q).
Let A := ApparentPosition eq 2000 e ma md.
Let B := PositionRonVondrak eq e ma md.
Lemma agree : norm (vsub (dir (eqRA B) (eqDec B)) (dir (eqRA A) (eqDec A))) <= arcsec (0.084 + 0.017 / (k * k)).
Proof.
  set (jd := 2451545 + 365.25 * (e - 2000)). assert (HT : Rabs ((jd - 2451545) / 36525) <= 1) by (unfold jd; apply Rabs_le; lra).
  assert (KK : 1 / 100 <= k * k <= 1). { pose proof (COS_bound (eqDec q)). split; nra. }
  assert (C0 : k * k <= cos (eqDec eq + md * t) * cos (eqDec eq + md * t)) by nra. assert (C1 : k * k <= cos (eqDec q) * cos (eqDec q)) by nra.
  destruct (Position_dir eq 2000 e ma md) as (_ & _ & Eq). fold q t in Eq. set (P := precession _ _ _) in Eq. assert (IP : linear_isometry P) by apply iso_precession.
  (* the place with aberration, equator of J2000 *)
  unfold A, B, PositionRonVondrak, positionRonVondrak, ApparentPosition, apparentPosition. cbv zeta. fold t q. rewrite !Position_jd. fold jd.
  set (a1 := RAAdd (eqRA eq) (ma * t)). set (d1 := eqDec eq + md * t) in *. assert (E0 : dir (eqRA eq + ma * t) d1 = dir a1 d1) by (symmetry; apply dir_RAAdd). rewrite E0 in Eq.
  pose proof (RonVondrak_displacement a1 d1 jd D0) as V. destruct (AberrationRonVondrak a1 d1 jd) as [da dd]. change (scale (/ 17314463350) (vec_of (rv_sum ((jd - 2451545) / 36525)))) with (rv_velocity jd) in V.
  pose proof (rv_norm jd HT) as NR. assert (NV : norm (velocity a1 d1 da dd) <= arcsec 20.925) by (rewrite V; eapply Rle_trans; [apply across_norm, dir_unit | exact NR]).
  pose proof (step a1 d1 da dd _ (k * k) ltac:(lra) C0 NV) as S1. set (q1 := Position (mkEq (RAAdd a1 da) (d1 + dd)) 2000 e 0 0).
  destruct (Position_dir (mkEq (RAAdd a1 da) (d1 + dd)) 2000 e 0 0) as (_ & R1 & Eq1). cbn [eqRA eqDec] in Eq1. fold q1 P in R1, Eq1. rewrite !Rmult_0_l, !Rplus_0_r, dir_RAAdd in Eq1.
  set (p0 := dir a1 d1) in *. set (p1 := dir (a1 + da) (d1 + dd)) in *. set (v := velocity a1 d1 da dd) in *.
  (* the difference of the two mean places *)
  assert (S1' : norm (vsub (dir (eqRA q1) (eqDec q1)) (vadd (dir (eqRA q) (eqDec q)) (P v))) <= 867 / 1000 * (arcsec 20.925 * arcsec 20.925) / (k * k)).
  { rewrite Eq, Eq1. destruct IP as (ID & IA & IK). rewrite <- IA, <- (iso_sub P) by (split; [|split]; assumption). rewrite iso_norm by (split; [|split]; assumption). exact S1. }
  clear S1. assert (NP : norm (P v) <= arcsec 20.925) by (rewrite (iso_norm P _ IP); exact NV).
  assert (AB : norm (vsub (P v) (across (app (rot_x (- MeanObliquity jd)) (earthV jd)) (dir (eqRA q) (eqDec q)))) <= arcsec 0.0801).
  { rewrite V, (iso_across P _ _ IP), Eq, across_sub. eapply Rle_trans; [apply across_norm; rewrite <- Eq; apply dir_unit|]. exact (rv_at_date e jd He eq_refl). }
  assert (U : 0 < arcsec 20.925 <= 10146 / 100000000 /\ 0 < arcsec 29.53 <= 14317 / 100000000 /\ 0 < arcsec 50.375 <= 24423 / 100000000) by (unfold arcsec; pose proof PI_10; decimals; lra). destruct U as (U1 & U2 & U3).
  pose proof (Rmult_le_compat _ _ _ _ (Rlt_le _ _ (proj1 U1)) (Rlt_le _ _ (proj1 U1)) (proj2 U1) (proj2 U1)) as Q1. pose proof (Rmult_le_compat _ _ _ _ (Rlt_le _ _ (proj1 U2)) (Rlt_le _ _ (proj1 U2)) (proj2 U2) (proj2 U2)) as Q2. pose proof (Rmult_le_compat _ _ _ _ (Rlt_le _ _ (proj1 U3)) (Rlt_le _ _ (proj1 U3)) (proj2 U3) (proj2 U3)) as Q3.
  assert (IK : 1 <= / (k * k) <= 100). { split; [rewrite <- Rinv_1 at 1; apply Rinv_le; lra | replace 100 with (/ (1 / 100)) by field; apply Rinv_le; lra]. }
  set (u := dir (eqRA q) (eqDec q)) in *. set (u1 := dir (eqRA q1) (eqDec q1)) in *. unfold Rdiv in S1'. set (i := / (k * k)) in *.
  assert (S1 : norm (vsub u1 (vadd u (P v))) <= 893 / 100000000000 * i) by (eapply Rle_trans; [exact S1'|]; apply Rmult_le_compat_r; [lra|]; lra). clear S1'.
  assert (DU : norm (vsub u1 u) <= 1025 / 10000000).
  { eapply Rle_trans; [apply (norm_sub3 _ (vadd u (P v)))|]. replace (vsub (vadd u (P v)) u) with (P v) by (symmetry; apply vsub_vadd). lra. }
  destruct (cos_near (eqDec q) (eqDec q1) R1 ltac:(lra)) as (C2 & D2). { pose proof (vz_norm (vsub u1 u)) as Z. replace (vz (vsub u1 u)) with (sin (eqDec q1) - sin (eqDec q)) in Z by (unfold vsub, vadd, scale, u, u1, dir; cbn [vx vy vz]; ring). lra. }
  (* nutation of the second place *)
  pose proof (nut_velocity (eqRA q1) (eqDec q1) jd D2) as W1. pose proof (Nutation_size (eqRA q1) (eqDec q1) jd HT D2) as N1. destruct (NutationEq (eqRA q1) (eqDec q1) jd) as [da1 dd1].
  assert (S2 := step (eqRA q1) (eqDec q1) da1 dd1 _ (979 / 1000 * (k * k)) ltac:(lra) ltac:(lra) N1). rewrite W1 in S2. fold u1 in S2.
  (* nutation and aberration of the first *)
  pose proof (nut_velocity (eqRA q) (eqDec q) jd D1) as W2. pose proof (Nutation_size (eqRA q) (eqDec q) jd HT D1) as N2. destruct (NutationEq (eqRA q) (eqDec q) jd) as [da2 dd2].
  assert (HC : cos (MeanObliquity jd) <> 0). { pose proof (obliquity_range jd ltac:(lra)) as OR. pose proof PI_10. apply Rgt_not_eq, cos_gt_0; unfold degrees in OR; lra. }
  pose proof (EqAberration_velocity (eqRA q) (eqDec q) jd D1 HC) as W3. pose proof (Aberration_size (eqRA q) (eqDec q) jd HT D1) as N3. destruct (Aberration (eqRA q) (eqDec q) jd) as [da3 dd3]. fold u in W2, W3.
  assert (N23 : norm (velocity (eqRA q) (eqDec q) (da2 + da3) (dd2 + dd3)) <= arcsec 50.375) by (rewrite velocity_add; eapply Rle_trans; [apply norm_add|]; unfold arcsec in *; lra).
  assert (S3 := step (eqRA q) (eqDec q) _ _ _ (k * k) ltac:(lra) C1 N23). rewrite velocity_add, W2, W3 in S3. fold u in S3. set (ab := across _ u) in *.
  cbn [eqRA eqDec]. rewrite !dir_RAAdd. set (zb := dir (eqRA q1 + da1) _) in *. set (za := dir (eqRA q + _) _) in *.
  assert (I2 : 867 / 1000 * (arcsec 29.53 * arcsec 29.53) / (979 / 1000 * (k * k)) <= 1816 / 100000000000 * i) by (unfold Rdiv; rewrite Rinv_mult; fold i; assert (0 < i) by lra; rewrite <- !Rmult_assoc; apply Rmult_le_compat_r; [lra|]; lra).
  assert (I3 : 867 / 1000 * (arcsec 50.375 * arcsec 50.375) / (k * k) <= 5172 / 100000000000 * i) by (unfold Rdiv; fold i; apply Rmult_le_compat_r; [lra|]; lra).
  apply (fun H => Rle_trans _ _ _ H I2) in S2. apply (fun H => Rle_trans _ _ _ H I3) in S3.
  pose proof (turn_nut_norm jd (vsub u1 u) HT) as TN. rewrite turn_nut_sub in TN. set (t1 := turn_nut jd u1) in *. set (t0 := turn_nut jd u) in *.
  assert (TN' : norm (vsub t1 t0) <= 147 / 10000000000) by (eapply Rle_trans; [exact TN|]; pose proof (norm_pos0 (vsub u1 u)); nra).
  assert (M : norm (vsub (vadd u1 t1) (vadd u (vadd t0 ab))) <= 893 / 100000000000 * i + arcsec 0.0801 + 147 / 10000000000).
  { replace (vsub (vadd u1 t1) (vadd u (vadd t0 ab))) with (vadd (vadd (vsub u1 (vadd u (P v))) (vsub (P v) ab)) (vsub t1 t0)) by (unfold vsub, vadd, scale; cbn [vx vy vz]; apply mkvec_eq; ring). eapply Rle_trans; [apply norm_add|]. apply Rplus_le_compat; [|exact TN']. eapply Rle_trans; [apply norm_add|]. lra. }
  assert (S3' : norm (vsub (vadd u (vadd t0 ab)) za) <= 5172 / 100000000000 * i). { replace (vsub (vadd u (vadd t0 ab)) za) with (scale (-1) (vsub za (vadd u (vadd t0 ab)))) by (unfold vsub, vadd, scale; cbn [vx vy vz]; apply mkvec_eq; ring). rewrite norm_opp1. exact S3. }
  eapply Rle_trans; [apply (norm_sub3 _ (vadd u1 t1))|]. eapply Rle_trans; [apply Rplus_le_compat_l, (norm_sub3 _ (vadd u (vadd t0 ab)))|].
  apply Rle_trans with (arcsec 0.0801 + 147 / 10000000000 + 7881 / 100000000000 * i); [lra|]. replace (0.017 / (k * k)) with (0.017 * i) by reflexivity. unfold arcsec. pose proof PI_10. decimals. assert (0 <= (PI / 180 / 3600 - 4848 / 1000000000) * i) by (apply Rmult_le_pos; lra). lra.
Qed.
End Agree.
Lemma RonVondrak_RA eq e ma md : 0 <= eqRA (PositionRonVondrak eq e ma md) < 2 * PI.
Proof. unfold PositionRonVondrak, positionRonVondrak. cbv zeta. destruct (AberrationRonVondrak _ _ _) as [da dd]. destruct (NutationEq _ _ _) as [da1 dd1]. cbn [eqRA]. apply Mod1_bound. Qed.
Lemma agree_example : let q := Position (mkEq 1 (1 / 2)) 2000 2000 0 0 in - (PI / 2) < 1 / 2 + 0 * (2000 - 2000) < PI / 2 /\ - (PI / 2) < eqDec q < PI / 2 /\ 1 / 2 <= cos (1 / 2 + 0 * (2000 - 2000)) /\ 1 / 2 <= cos (eqDec q).
Proof.
  pose proof PI_10 as P. assert (C : 1 / 2 <= cos (1 / 2)). { pose proof (cos_tangent 0 (1 / 2)) as T. rewrite cos_0, sin_0, Rplus_0_l in T. apply Rabs_le_inv in T. lra. }
  assert (E : eqDec (Position (mkEq 1 (1 / 2)) 2000 2000 0 0) = 1 / 2).
  { unfold Position. cbn [eqRA eqDec]. rewrite Precess_same; cbn [eqDec eqRA]; [ring|apply Mod1_bound|lra]. }
  cbv zeta. rewrite E. rewrite Rmult_0_l, Rplus_0_r. repeat split; lra.
Qed.
