(** Lemmas for solardisk. *)
From Coq Require Import ZArith Reals Lra Lia.
From Flocq Require Import Core.
From Verif Require Import GoFloat GoMath S_Sphere S_solar S_parallactic S_solardisk M_vsop M_solar M_parallactic M_solardisk
  L_trig L_precess L_solar L_refraction L_parallactic.
Local Open Scope R_scope.

Lemma sun_pole_frame i K : sun_frame i K (sun_pole i K) = mkvec 0 0 1.
Proof. unfold sun_frame, sun_pole, rot_z. vecs. pose proof (sc1 i) as A. pose proof (sc1 K) as B. f_equal; [ring | |].
  - transitivity (sin i * cos i * (1 - (sin K * sin K + cos K * cos K))); [ring | rewrite B; ring].
  - transitivity (cos i * cos i + sin i * sin i * (sin K * sin K + cos K * cos K)); [ring | rewrite B; lra]. Qed.
Lemma heliographic_center jd e : let l := sun_lambda e jd in let '(_, B0, L0) := Ephemeris jd e in
  0 <= L0 < 2 * PI /\ - sun_I <= B0 <= sun_I /\ sun_frame sun_I (sun_K jd) (dir (l + PI) 0) = dir (L0 + sun_theta jd) B0.
Proof.
  cbv zeta. unfold Ephemeris. cbv zeta. set (l := sun_lambda e jd). set (K := sun_K jd). set (th := sun_theta jd).
  assert (HP := PI_fine). assert (HI : 0 < sun_I < PI / 2) by (unfold sun_I, AngleFromDeg; lra). set (i := sun_I) in *.
  assert (Si : 0 < sin i < 1) by (split; [apply sin_gt_0; lra | rewrite <- sin_PI2; apply sin_increasing_1; lra]).
  assert (Ci : 0 < cos i) by (apply cos_gt_0; lra).
  set (x := l - K). pose proof (sc1 x) as X. pose proof (sc1 i) as I2.
  assert (BS : - sin i <= sin x * sin i <= sin i) by (pose proof (SIN_bound x); nra).
  set (B := asin (sin x * sin i)).
  assert (SB : sin B = sin x * sin i) by (apply sin_asin; lra).
  assert (RB : - (PI / 2) <= B <= PI / 2) by (unfold B; apply asin_bound).
  split; [apply Mod1_bound|]. split.
  { split; [|]; apply Rnot_lt_le; intros H.
    - assert (H0 : sin B < sin (- i)) by (apply sin_increasing_1; lra). rewrite sin_neg in H0. lra.
    - assert (H0 : sin i < sin B) by (apply sin_increasing_1; lra). lra. }
  set (y1 := - sin x * cos i). set (x1 := - cos x).
  assert (N : x1 * x1 + y1 * y1 = cos B * cos B). { pose proof (sc1 B) as Q. rewrite SB in Q. unfold x1, y1. nra. }
  assert (NZ : 0 < x1 * x1 + y1 * y1). { unfold x1, y1. assert (0 < cos i * cos i) by nra. nra. }
  assert (Ch : 0 <= cos B) by (apply cos_ge_0; lra).
  assert (H : hypot x1 y1 = cos B) by (unfold hypot; rewrite N; change (cos B * cos B) with (Rsqr (cos B)); apply sqrt_Rsqr, Ch).
  assert (D : x1 <> 0 \/ y1 <> 0) by (destruct (Req_dec x1 0) as [E|E]; [right; intros E'; rewrite E, E' in NZ; lra | left; exact E]).
  destruct (atan2_spec x1 y1 D) as [A1 A2]. rewrite H in A1, A2. set (eta := atan2 y1 x1) in *.
  assert (Ec : cos (Mod1 (eta - th) + th) = cos eta). { destruct (Mod1_same (eta - th)) as (k & E). rewrite E. replace (eta - th + IZR k * (2 * PI) + th) with (eta + IZR k * (2 * PI)) by ring. apply cos_Z. }
  assert (Es : sin (Mod1 (eta - th) + th) = sin eta). { destruct (Mod1_same (eta - th)) as (k & E). rewrite E. replace (eta - th + IZR k * (2 * PI) + th) with (eta + IZR k * (2 * PI)) by ring. apply sin_Z. }
  unfold dir at 2. rewrite Ec, Es, A1, A2, SB.
  unfold sun_frame, rot_z. vecs. destruct (pi_shift l) as [-> ->]. rewrite sin_0, cos_0. unfold x1, y1, x. rewrite sin_minus, cos_minus. f_equal; ring.
Qed.
Lemma inclined_pole l i K : 0 < cos i -> position_angle l 0 (sun_pole i K) (atan (- (cos (l - K) * tan i))).
Proof.
  intros Ci. set (a := atan _). pose proof (atan_bound (- (cos (l - K) * tan i))) as BA. fold a in BA. assert (HP := PI_RGT_0).
  assert (Ca : 0 < cos a) by (apply cos_gt_0; lra).
  assert (T : sin a = - (cos (l - K) * tan i) * cos a). { pose proof (atan_right_inv (- (cos (l - K) * tan i))) as T. fold a in T. rewrite <- T. unfold tan. field. lra. }
  exists (cos i / cos a). split; [apply Rdiv_lt_0_compat; assumption|].
  unfold sun_pole. vecs. rewrite sin_0, cos_0. split; [field; lra|]. rewrite T. unfold tan. rewrite cos_minus. field. split; lra.
Qed.
(** The pole of the ecliptic seen from a point of the ecliptic. *)
Lemma ecliptic_pole_angle eps l a d : 0 < cos eps -> 0 < cos d -> equatorial_of l 0 eps a d -> position_angle a d (ecliptic_pole eps) (EclipticAtEquator l eps).
Proof.
  intros Ce Cd E. destruct (EclEq_value eps l a d Ce Cd E) as (_ & T1 & T2). exists 1. split; [lra|].
  destruct E as (_ & _ & E). unfold dir, app, rot_x, dot in E. cbn [r1 r2 r3 vx vy vz] in E. rewrite !sin_neg, !cos_neg, sin_0, cos_0 in E. injection E as E1 E2 E3.
  revert T1 T2. unfold ecliptic_tangent, ecliptic_pole. vecs. rewrite !sin_neg, !cos_neg, sin_0, cos_0. rewrite (cos_plus l), (sin_plus l), cos_PI2, sin_PI2. intros T1 T2.
  assert (W1 : cos d * cos a = cos l) by lra. assert (W2 : cos d * sin a = sin l * cos eps) by lra. assert (W3 : sin d = sin l * sin eps) by lra.
  pose proof (sc1 a) as A. pose proof (sc1 d) as D. pose proof (sc1 l) as L. pose proof (sc1 eps) as Ep.
  split; rewrite Rmult_1_l; [rewrite <- T1 | replace (sin (EclipticAtEquator l eps)) with (- (- sin (EclipticAtEquator l eps))) by ring; rewrite <- T2]; apply (Rmult_eq_reg_r (cos d)); try lra.
  - transitivity (sin d * (cos d * sin a) * sin eps + cos eps * (cos d * cos d)); [ring|].
    transitivity (sin l * (cos d * sin a) + cos l * cos eps * (cos d * cos a)); [|ring]. rewrite W1, W2. replace (cos d * cos d) with (1 - sin d * sin d) by lra. rewrite W3.
    transitivity (cos eps * (1 + sin l * sin l * (sin eps * sin eps - sin eps * sin eps))); [ring|]. replace (sin eps * sin eps - sin eps * sin eps) with 0 by ring.
    transitivity (cos eps * (sin l * sin l + cos l * cos l)); [rewrite L; ring | ring].
  - transitivity (- sin eps * (cos d * cos a)); [ring|].
    transitivity (- (sin l * sin d * (cos d * cos a) - cos l * cos eps * sin d * (cos d * sin a) + cos l * sin eps * (cos d * cos d))); [|ring]. rewrite W1, W2.
    replace (cos d * cos d) with (1 - sin d * sin d) by lra. rewrite W3.
    transitivity (- (cos l * sin eps * (1 + sin l * sin l * (1 - cos eps * cos eps - sin eps * sin eps)))); [|ring].
    replace (1 - cos eps * cos eps - sin eps * sin eps) with 0 by lra. ring.
Qed.
Lemma disk_P jd e : let '(P, _, _) := Ephemeris jd e in 0 < cos (sun_eps jd) -> exists P1 P2, P = P1 + P2 /\
  (forall a d, 0 < cos d -> equatorial_of (sun_lambdap e jd) 0 (sun_eps jd) a d -> position_angle a d (ecliptic_pole (sun_eps jd)) P1) /\
  position_angle (sun_lambda e jd) 0 (sun_pole sun_I (sun_K jd)) P2 /\ - (PI / 2) < P1 < PI / 2 /\ - sun_I <= P2 <= sun_I.
Proof.
  unfold Ephemeris. cbv zeta. intros Ce. do 2 eexists. split; [reflexivity|].
  assert (HP := PI_fine). assert (HI : 0 < sun_I < PI / 2) by (unfold sun_I, AngleFromDeg; lra).
  assert (Ci : 0 < cos sun_I) by (apply cos_gt_0; lra).
  split; [|split; [|split]].
  - intros a d Cd E. replace (atan (- (cos (sun_lambdap e jd) * tan (sun_eps jd)))) with (EclipticAtEquator (sun_lambdap e jd) (sun_eps jd)) by (unfold EclipticAtEquator; f_equal; ring).
    apply ecliptic_pole_angle; assumption.
  - apply inclined_pole, Ci.
  - pose proof (atan_bound (- (cos (sun_lambdap e jd) * tan (sun_eps jd)))). lra.
  - set (c := cos (sun_lambda e jd - sun_K jd)). assert (Bc : -1 <= c <= 1) by apply COS_bound.
    assert (T0 : 0 < tan sun_I) by (apply tan_gt_0; lra).
    assert (A : atan (tan sun_I) = sun_I) by (apply atan_tan; lra).
    assert (W1 : c * tan sun_I <= tan sun_I) by nra. assert (W2 : - tan sun_I <= c * tan sun_I) by nra.
    split.
    + rewrite <- A at 1. rewrite <- atan_opp. destruct (Rle_lt_or_eq_dec _ _ W1) as [L|E]; [left; apply atan_increasing; apply Ropp_lt_contravar, L | rewrite E; apply Rle_refl].
    + rewrite <- A at 2. destruct (Rle_lt_or_eq_dec _ _ W2) as [L|E]; [left; apply atan_increasing; lra | rewrite <- E, Ropp_involutive; apply Rle_refl].
Qed.

Lemma cos_lip x y : Rabs (cos x - cos y) <= Rabs (x - y).
Proof. rewrite <- !sin_shift. eapply Rle_trans; [apply sin_lip|]. replace (PI / 2 - x - (PI / 2 - y)) with (- (x - y)) by ring. rewrite Rabs_Ropp. lra. Qed.
Lemma cycle_spacing c : Rabs (Cycle (c + 1) - Cycle c - 27.2752316) <= 0.09.
Proof.
  unfold Cycle. cbv zeta. rewrite plus_IZR. set (cf := IZR c). set (m := 28196 / 100 * PI / 180 + 26882476 / 1000000 * PI / 180 * cf). set (d := 26882476 / 1000000 * PI / 180).
  replace (28196 / 100 * PI / 180 + d * (cf + 1)) with (m + d) by (unfold m, d; field).
  assert (HP := PI_fine). assert (Hd : 0 < d < 4692 / 10000) by (unfold d; lra).
  pose proof (sin_lip (m + d) m) as A. pose proof (sin_lip (2 * (m + d)) (2 * m)) as B. pose proof (cos_lip (2 * (m + d)) (2 * m)) as C.
  replace (m + d - m) with d in A by ring. replace (2 * (m + d) - 2 * m) with (2 * d) in B, C by ring.
  rewrite (Rabs_pos_eq d) in A by lra. rewrite (Rabs_pos_eq (2 * d)) in B, C by lra.
  apply Rabs_le_inv in A. apply Rabs_le_inv in B. apply Rabs_le_inv in C. decimals. apply Rabs_le. lra.
Qed.
Lemma cycle_mean c : Rabs (Cycle c - (2398140.227 + 27.2752316 * IZR c)) <= 0.17.
Proof.
  unfold Cycle. cbv zeta. set (m := 28196 / 100 * PI / 180 + 26882476 / 1000000 * PI / 180 * IZR c). pose proof (SIN_bound m). pose proof (SIN_bound (2 * m)). pose proof (COS_bound (2 * m)). decimals. apply Rabs_le. lra.
Qed.
Lemma cycle_order c d : (c < d)%Z -> Cycle c + 27.18 * IZR (d - c) < Cycle d.
Proof.
  intros H. assert (K : forall n : nat, Cycle c + 27.18 * INR (S n) < Cycle (c + Z.of_nat (S n))).
  { induction n as [|n IH].
    - pose proof (cycle_spacing c) as A. decimals_in A. decimals. apply Rabs_le_inv in A. change (Z.of_nat 1) with 1%Z. change (INR 1) with 1. lra.
    - pose proof (cycle_spacing (c + Z.of_nat (S n))) as A. decimals_in A. decimals_in IH. decimals. apply Rabs_le_inv in A.
      rewrite (S_INR (S n)). replace (c + Z.of_nat (S (S n)))%Z with (c + Z.of_nat (S n) + 1)%Z by lia. lra. }
  specialize (K (Z.to_nat (d - c - 1))). rewrite INR_IZR_INZ in K. replace (Z.of_nat (S (Z.to_nat (d - c - 1)))) with (d - c)%Z in K by lia. replace (c + (d - c))%Z with d in K by lia. exact K.
Qed.
Lemma rotation_period jd : sun_theta (jd + 25.38) = sun_theta jd + 2 * PI.
Proof. unfold sun_theta. decimals. field. Qed.
Lemma sun_I_value : sun_I = degrees 7.25.
Proof. unfold sun_I, AngleFromDeg, degrees. decimals. field. Qed.
Lemma sun_eps_range jd : Rabs ((jd - 2451545) / 36525) <= 20 -> degrees 21 < sun_eps jd < degrees 26.
Proof.
  intros H. pose proof (obliquity_range jd H) as A. destruct (Nutation_bound jd) as [_ B]. unfold sun_eps. destruct (Nutation jd) as [dpsi deps]. cbn [snd] in B.
  set (T := Rabs ((jd - 2451545) / 36525)) in *. unfold arcsec in B. decimals_in B. unfold degrees in *. apply Rabs_le_inv in B. assert (HP := PI_fine).
  assert (0 <= T) by apply Rabs_pos. assert (W : (100733 / 10000 + 141 / 100000 * T) * (PI / 180 / 3600) <= 11 * (PI / 180 / 3600)) by (apply Rmult_le_compat_r; lra).
  lra.
Qed.
Lemma sun_eps_cos jd : Rabs ((jd - 2451545) / 36525) <= 20 -> 0 < cos (sun_eps jd).
Proof. intros H. pose proof (sun_eps_range jd H) as A. unfold degrees in A. assert (HP := PI_fine). apply cos_gt_0; lra. Qed.
