(** Lemmas for parallactic. *)
From Coq Require Import ZArith Reals Lra Bool Nsatz.
From Flocq Require Import Core.
From Verif Require Import GoFloat GoMath S_Sphere S_solar S_parallactic M_coord M_parallactic L_trig L_angle L_coord L_solar.
Local Open Scope R_scope.

Ltac vecs := unfold app, rot_x, dot, dir, east, north, cross; cbn [r1 r2 r3 vx vy vz].
Lemma neg_sc x : sin (- x) = - sin x /\ cos (- x) = cos x.
Proof. split; [apply sin_neg | apply cos_neg]. Qed.
Lemma ptan phi : cos phi <> 0 -> tan phi * cos phi = sin phi.
Proof. intros H. unfold tan. field. exact H. Qed.

(** The object is neither at the zenith nor at the nadir. *)
Lemma tangent_norm H dec phi : (sin H * cos phi) ^ 2 + (sin phi * cos dec - sin dec * cos H * cos phi) ^ 2 =
  1 - (dot (dir (- H) dec) (dir 0 phi)) ^ 2.
Proof.
  vecs. rewrite !sin_neg, !cos_neg, sin_0, cos_0. pose proof (sc1 H) as A. pose proof (sc1 dec) as B. pose proof (sc1 phi) as C.
  revert A B C. generalize (sin H) (cos H) (sin dec) (cos dec) (sin phi) (cos phi). intros a b c d e f A B C.
  transitivity (a * a * (f * f) + (e * e + b * b * (f * f)) * (c * c + d * d) - (d * b * f + c * e) ^ 2); [ring|]. rewrite B.
  transitivity ((a * a + b * b) * (f * f) + e * e - (d * b * f + c * e) ^ 2); [ring|]. rewrite A, Rmult_1_l, (Rplus_comm (f * f)), C. ring.
Qed.
Lemma Parallactic_value phi dec H : 0 < cos phi -> (dot (dir (- H) dec) (dir 0 phi)) ^ 2 <> 1 ->
  - PI < ParallacticAngle phi dec H <= PI /\ position_angle (- H) dec (dir 0 phi) (ParallacticAngle phi dec H).
Proof.
  intros Cp N. split; [apply atan2_bound|].
  pose proof (tangent_norm H dec phi) as T. unfold ParallacticAngle.
  set (x := tan phi * cos dec - sin dec * cos H).
  assert (Ex : x * cos phi = sin phi * cos dec - sin dec * cos H * cos phi) by (unfold x; rewrite <- (ptan phi) by lra; ring).
  assert (NZ : x <> 0 \/ sin H <> 0).
  { destruct (Req_dec x 0) as [E|E]; [|left; exact E]. right. intros E2. apply N. rewrite <- Ex, E, E2 in T. lra. }
  destruct (atan2_spec x (sin H) NZ) as [A B].
  exists (hypot x (sin H) * cos phi). split; [apply Rmult_lt_0_compat; [apply hypot_gt0, NZ | exact Cp]|].
  vecs. rewrite !sin_neg, !cos_neg, sin_0, cos_0.
  replace (hypot x (sin H) * cos phi * cos (atan2 (sin H) x)) with (x * cos phi) by (rewrite <- A at 1; ring).
  replace (hypot x (sin H) * cos phi * sin (atan2 (sin H) x)) with (sin H * cos phi) by (rewrite <- B at 1; ring).
  rewrite Ex. split; ring.
Qed.

(** On the horizon. *)
Lemma OnHorizon_value phi dec H : 0 < cos phi -> 0 < cos dec -> on_horizon phi H dec -> 0 <= sin H ->
  Rabs (sin phi / cos dec) <= 1 /\
  ParallacticAngleOnHorizon phi dec = ParallacticAngle phi dec H /\ (0 < sin H -> ParallacticAngle phi dec (- H) = - ParallacticAngleOnHorizon phi dec).
Proof.
  intros Cp Cd O S. unfold on_horizon in O.
  pose proof (tangent_norm H dec phi) as T. rewrite O in T.
  revert O. vecs. rewrite !sin_neg, !cos_neg, sin_0, cos_0. intros O.
  pose proof (sc1 H) as A. pose proof (sc1 dec) as B. pose proof (sc1 phi) as C.
  assert (E : (tan phi * cos dec - sin dec * cos H) * cos phi = sin phi / cos dec).
  { replace ((tan phi * cos dec - sin dec * cos H) * cos phi) with (tan phi * cos phi * cos dec - sin dec * cos H * cos phi) by ring. rewrite ptan by lra.
    apply (Rmult_eq_reg_r (cos dec)); [|lra]. replace (sin phi / cos dec * cos dec) with (sin phi) by (field; lra). 
    assert (cos H * cos phi * cos dec = - (sin phi * sin dec)) by lra. nsatz. }
  set (x := tan phi * cos dec - sin dec * cos H) in *.
  assert (U : (sin phi / cos dec) ^ 2 + (sin H * cos phi) ^ 2 = 1).
  { rewrite <- E. unfold x. replace ((tan phi * cos dec - sin dec * cos H) * cos phi) with (tan phi * cos phi * cos dec - sin dec * cos H * cos phi) by ring. rewrite ptan by lra. lra. }
  assert (R1 : -1 <= sin phi / cos dec <= 1). { pose proof (pow2_ge_0 (sin H * cos phi)). split; nra. }
  split; [apply Rabs_le; exact R1|].
  unfold ParallacticAngleOnHorizon, ParallacticAngle. fold x.
  set (q := acos (sin phi / cos dec)). assert (Eq : cos q = sin phi / cos dec) by (apply cos_acos; exact R1).
  pose proof (acos_bound (sin phi / cos dec)) as Bq. fold q in Bq.
  assert (Sq : sin q = sin H * cos phi).
  { pose proof (sc1 q) as Q. rewrite Eq in Q. assert (0 <= sin q) by (apply sin_ge_0; lra). assert (0 <= sin H * cos phi) by nra.
    apply Rsqr_inj; [assumption|assumption|]. unfold Rsqr. nra. }
  assert (Ic : 0 < / cos phi) by (apply Rinv_0_lt_compat; exact Cp).
  assert (Ex : x = / cos phi * cos q) by (rewrite Eq, <- E; field; lra).
  assert (Es : sin H = / cos phi * sin q) by (rewrite Sq; field; lra).
  assert (HP := PI_RGT_0).
  split.
  - rewrite Ex, Es. symmetry. apply atan2_polar; [exact Ic | lra].
  - intros SH. rewrite sin_neg, cos_neg. fold x.
    assert (0 < sin q) by (rewrite Sq; nra). assert (q <> PI) by (intros ->; rewrite sin_PI in H0; lra).
    replace (- sin H) with (/ cos phi * sin (- q)) by (rewrite sin_neg, Es; ring). rewrite Ex. rewrite <- (cos_neg q). apply atan2_polar; [exact Ic | lra].
Qed.

(** The ecliptic and the horizon. *)
Lemma ecl_dot eps l theta phi : dot (ecliptic_point eps l) (dir theta phi) =
  cos l * (cos phi * cos theta) + sin l * (cos eps * cos phi * sin theta + sin eps * sin phi).
Proof. unfold ecliptic_point. vecs. rewrite !sin_neg, !cos_neg, sin_0, cos_0. ring. Qed.
Lemma ecl_pole_dot eps theta phi : dot (ecliptic_pole eps) (dir theta phi) = cos eps * sin phi - sin eps * cos phi * sin theta.
Proof. unfold ecliptic_pole. vecs. rewrite !sin_neg, !cos_neg. ring. Qed.
Lemma ecl_norm eps theta phi : (cos phi * cos theta) ^ 2 + (cos eps * cos phi * sin theta + sin eps * sin phi) ^ 2 = 1 - (dot (ecliptic_pole eps) (dir theta phi)) ^ 2.
Proof.
  rewrite ecl_pole_dot. pose proof (sc1 eps) as A. pose proof (sc1 phi) as B. pose proof (sc1 theta) as C.
  revert A B C. generalize (sin eps) (cos eps) (sin phi) (cos phi) (sin theta) (cos theta). intros a b c d e f A B C.
  transitivity (d * d * (f * f) + (a * a + b * b) * (d * d * (e * e) + c * c) - (b * c - a * d * e) ^ 2); [ring|]. rewrite A.
  transitivity (d * d * (e * e + f * f) + c * c - (b * c - a * d * e) ^ 2); [ring|]. rewrite C, Rmult_1_r, (Rplus_comm (d * d)), B. ring.
Qed.
Lemma atan2_perp x y : cos (atan2 y x) * y - sin (atan2 y x) * x = 0.
Proof.
  destruct (Req_dec x 0) as [Ex|Ex].
  - destruct (Req_dec y 0) as [Ey|Ey]; [subst; ring|]. destruct (atan2_spec x y (or_intror Ey)) as [A B]. revert A B. generalize (hypot x y) (atan2 y x). intros h t A B. rewrite <- A, <- B. ring.
  - destruct (atan2_spec x y (or_introl Ex)) as [A B]. revert A B. generalize (hypot x y) (atan2 y x). intros h t A B. rewrite <- A, <- B. ring.
Qed.
Lemma pi_shift x : sin (x + PI) = - sin x /\ cos (x + PI) = - cos x.
Proof. split; [apply neg_sin | apply neg_cos]. Qed.
Lemma EclHor_value eps phi theta : 0 < cos phi ->
  let '(l1, l2, i) := EclipticAtHorizon eps phi theta in let z := dir (TimeRad theta) phi in
  0 <= l1 <= PI /\ l2 = l1 + PI /\ dot (ecliptic_point eps l1) z = 0 /\ dot (ecliptic_point eps l2) z = 0 /\
  separation (ecliptic_pole eps) z i /\
  ((dot (ecliptic_pole eps) z) ^ 2 <> 1 -> forall l, dot (ecliptic_point eps l) z = 0 -> same_angle l l1 \/ same_angle l l2).
Proof.
  intros Cp. unfold EclipticAtHorizon. cbv zeta. set (th := TimeRad theta).
  set (y := - cos th). set (x := sin eps * (sin phi / cos phi) + cos eps * sin th). set (l0 := atan2 y x).
  set (l1 := if Rlt_bool l0 0 then l0 + PI else l0).
  pose proof (atan2_bound y x) as Bl. fold l0 in Bl. assert (HP := PI_RGT_0).
  assert (R1 : 0 <= l1 <= PI) by (unfold l1; destruct (Rlt_bool_spec l0 0); lra).
  assert (Xc : x * cos phi = cos eps * cos phi * sin th + sin eps * sin phi) by (unfold x; field; lra).
  assert (Yc : y * cos phi = - (cos phi * cos th)) by (unfold y; ring).
  assert (Z : forall l, dot (ecliptic_point eps l) (dir th phi) = - (cos l * y - sin l * x) * cos phi).
  { intros l. rewrite ecl_dot, <- Xc. unfold y. ring. }
  assert (Z0 : cos l0 * y - sin l0 * x = 0) by apply atan2_perp.
  assert (ZP : forall l, cos (l + PI) * y - sin (l + PI) * x = - (cos l * y - sin l * x)) by (intros l; destruct (pi_shift l) as [-> ->]; ring).
  assert (Z1 : cos l1 * y - sin l1 * x = 0) by (unfold l1; destruct (Rlt_bool l0 0); [rewrite ZP|]; lra).
  split; [exact R1|]. split; [reflexivity|]. split; [rewrite Z, Z1; ring|]. split; [rewrite Z, ZP, Z1; ring|].
  assert (Bd : -1 <= cos eps * sin phi - sin eps * cos phi * sin th <= 1).
  { rewrite <- ecl_pole_dot. pose proof (ecl_norm eps th phi) as N. set (d := dot (ecliptic_pole eps) (dir th phi)) in *. clearbody d. pose proof (pow2_ge_0 (cos phi * cos th)). pose proof (pow2_ge_0 (cos eps * cos phi * sin th + sin eps * sin phi)). assert (d * d <= 1) by lra. split; nra. }
  split; [split; [apply acos_bound|rewrite ecl_pole_dot; apply cos_acos, Bd]|].
  intros N l Hl. rewrite Z in Hl.
  assert (Hl' : cos l * y - sin l * x = 0) by nra.
  assert (NZ : 0 < x * x + y * y).
  { pose proof (ecl_norm eps th phi) as E. rewrite <- Xc in E. replace (cos phi * cos th) with (- (y * cos phi)) in E by (rewrite Yc; ring).
    assert (x * x + y * y <> 0). { intros E0. apply N. assert (x = 0) by nra. assert (y = 0) by nra. subst x. rewrite H, H0 in E. lra. } nra. }
  (* (cos l, sin l) and (cos l1, sin l1) are both parallel to (x, y) *)
  assert (P : sin (l - l1) = 0).
  { rewrite sin_minus. assert (Ex : (sin l * cos l1 - cos l * sin l1) * x = 0).
    { transitivity (cos l * (cos l1 * y - sin l1 * x) - cos l1 * (cos l * y - sin l * x)); [ring|]. rewrite Z1, Hl'. ring. }
    assert (Ey : (sin l * cos l1 - cos l * sin l1) * y = 0).
    { transitivity (sin l * (cos l1 * y - sin l1 * x) - sin l1 * (cos l * y - sin l * x)); [ring|]. rewrite Z1, Hl'. ring. }
    destruct (Rmult_integral _ _ Ex) as [E|E]; [exact E|]. destruct (Rmult_integral _ _ Ey) as [E'|E']; [exact E'|]. rewrite E, E' in NZ. lra. }
  assert (C : cos (l - l1) = 1 \/ cos (l - l1) = -1). { pose proof (sc1 (l - l1)) as Q. rewrite P in Q. destruct (Rle_dec 0 (cos (l - l1))); [left|right]; nra. }
  destruct C as [C|C].
  - left. destruct (angle_eq (l - l1) 0) as (k & E); [rewrite P, sin_0; reflexivity | rewrite C, cos_0; reflexivity|]. exists k. lra.
  - right. destruct (angle_eq (l - l1) PI) as (k & E); [rewrite P, sin_PI; reflexivity | rewrite C, cos_PI; reflexivity|]. exists k. lra.
Qed.

(** The ecliptic and the parallel of declination. *)
Lemma EclEq_value eps l a d : 0 < cos eps -> 0 < cos d -> equatorial_of l 0 eps a d ->
  - (PI / 2) < EclipticAtEquator l eps < PI / 2 /\
  dot (ecliptic_tangent eps l) (east a d) = cos (EclipticAtEquator l eps) /\ dot (ecliptic_tangent eps l) (north a d) = - sin (EclipticAtEquator l eps).
Proof.
  intros Ce Cd (_ & _ & E). unfold EclipticAtEquator. pose proof (atan_bound (- cos l * tan eps)) as AB. split; [lra|].
  assert (V := E). unfold dir, app, rot_x, dot in V. cbn [r1 r2 r3 vx vy vz] in V. rewrite !sin_neg, !cos_neg, sin_0, cos_0 in V. injection V as V1 V2 V3.
  set (S := atan (- cos l * tan eps)).
  assert (Cs : 0 < cos S) by (apply cos_gt_0; unfold S; lra).
  assert (T : sin S = - cos l * tan eps * cos S). { pose proof (atan_right_inv (- cos l * tan eps)) as T. fold S in T. rewrite <- T. unfold tan. field. lra. }
  unfold ecliptic_tangent. vecs. rewrite !sin_neg, !cos_neg, sin_0, cos_0. rewrite (cos_plus l), (sin_plus l), cos_PI2, sin_PI2.
  pose proof (sc1 l) as L. pose proof (sc1 eps) as Ep. pose proof (sc1 d) as D. pose proof (sc1 a) as A. pose proof (sc1 S) as SS.
  assert (Te : tan eps * cos eps = sin eps) by (unfold tan; field; lra).
  assert (Ts : sin S * cos eps = - cos l * sin eps * cos S) by (rewrite T, <- Te; ring).
  (* cos S cos d = cos eps *)
  assert (K : cos S * cos d = cos eps).
  { assert (K2 : (cos S * cos d) ^ 2 = cos eps ^ 2).
    { assert (Q : cos S * cos S * (cos eps * cos eps + cos l * cos l * (sin eps * sin eps)) = cos eps * cos eps) by nsatz.
      assert (W : cos d * cos d = cos eps * cos eps + cos l * cos l * (sin eps * sin eps)) by (assert (sin d = sin l * sin eps) by lra; nsatz).
      rewrite <- W in Q. lra. }
    apply Rsqr_inj; [nra | lra|]. unfold Rsqr. lra. }
  assert (W1 : cos d * cos a = cos l) by lra. assert (W2 : cos d * sin a = sin l * cos eps) by lra. assert (W3 : sin d = sin l * sin eps) by lra.
  split.
  - apply (Rmult_eq_reg_r (cos d)); [|lra]. rewrite K.
    transitivity (sin l * (cos d * sin a) + cos l * cos eps * (cos d * cos a)); [ring|]. rewrite W1, W2.
    transitivity (cos eps * (sin l * sin l + cos l * cos l)); [ring|]. rewrite L. ring.
  - apply (Rmult_eq_reg_r (cos d)); [|lra].
    assert (S' : sin S * cos d = - cos l * sin eps).
    { apply (Rmult_eq_reg_r (cos eps)); [|lra]. transitivity (sin S * cos eps * cos d); [ring|]. rewrite Ts. transitivity (- cos l * sin eps * (cos S * cos d)); [ring|]. rewrite K. ring. }
    replace (- sin S * cos d) with (cos l * sin eps) by lra.
    transitivity (sin l * sin d * (cos d * cos a) - cos l * cos eps * sin d * (cos d * sin a) + cos l * sin eps * (cos d * cos d)); [ring|]. rewrite W1, W2.
    replace (cos d * cos d) with (1 - sin d * sin d) by lra. rewrite W3.
    transitivity (cos l * sin eps * (1 + sin l * sin l * (1 - cos eps * cos eps - sin eps * sin eps))); [ring|].
    replace (1 - cos eps * cos eps - sin eps * sin eps) with 0 by lra. ring.
Qed.

(** The slope of the diurnal path. *)
Lemma DiurnalPath_value dec phi H : - (PI / 2) < phi < PI / 2 -> 0 < cos dec -> on_horizon phi H dec ->
  exists j, DiurnalPathAtHorizon dec phi = Fin j /\ - (PI / 2) <= j <= PI / 2 /\
    (0 <= phi -> sin j = Rabs (dot (east (- H) dec) (dir 0 phi))) /\ (phi < 0 -> sin j = - Rabs (dot (east (- H) dec) (dir 0 phi))).
Proof.
  intros Rp Cd O. assert (Cp : 0 < cos phi) by (apply cos_gt_0; lra).
  unfold on_horizon in O. pose proof (tangent_norm H dec phi) as T. rewrite O in T.
  revert O. vecs. rewrite !sin_neg, !cos_neg, sin_0, cos_0. intros O.
  replace (- - sin H * (cos phi * 1) + cos H * (cos phi * 0) + 0 * sin phi) with (sin H * cos phi) by ring.
  pose proof (sc1 H) as A. pose proof (sc1 dec) as B. pose proof (sc1 phi) as C.
  unfold DiurnalPathAtHorizon. cbv zeta.
  assert (Tp := ptan phi (Rgt_not_eq _ _ Cp)). assert (Td := ptan dec (Rgt_not_eq _ _ Cd)).
  assert (Eb : tan dec * tan phi = - cos H).
  { apply (Rmult_eq_reg_r (cos dec * cos phi)); [|nra]. transitivity (tan dec * cos dec * (tan phi * cos phi)); [ring|]. rewrite Tp, Td. lra. }
  rewrite Eb. replace (1 - - cos H * - cos H) with (sin H * sin H) by lra.
  unfold xsqrt. rewrite Rlt_bool_false by nra. change (sin H * sin H) with (Rsqr (sin H)) at 1. rewrite sqrt_Rsqr_abs. cbn [xmul xdiv].
  set (s := Rabs (sin H)). assert (Ps : 0 <= s) by apply Rabs_pos. assert (Ss : s * s = sin H * sin H) by (unfold s; rewrite <- Rabs_mult; apply Rabs_pos_eq; nra).
  assert (EA : Rabs (sin H * cos phi) = s * cos phi) by (rewrite Rabs_mult, (Rabs_pos_eq (cos phi)) by lra; reflexivity).
  rewrite EA. assert (HP := PI_RGT_0).
  destruct (Req_dec phi 0) as [->|Np].
  - rewrite tan_0, Req_bool_true by reflexivity. rewrite sin_0 in O. rewrite cos_0 in *. assert (cH : cos H = 0) by nra.
    assert (s = 1) by (rewrite cH in A; nra). rewrite Req_bool_false by nra. rewrite Rlt_bool_false by nra. cbn [xatan].
    exists (PI / 2). split; [reflexivity|]. split; [lra|]. rewrite sin_PI2. split; intros; lra.
  - assert (Sp : sin phi <> 0). { destruct (Rtotal_order phi 0) as [h|[h|h]]; [|contradiction|]; [pose proof (sin_lt_0_var phi ltac:(lra) h)|pose proof (sin_gt_0 phi h ltac:(lra))]; lra. }
    assert (Nt : tan phi <> 0) by (intros E; rewrite E in Tp; lra).
    rewrite Req_bool_false by exact Nt. cbn [xatan]. set (j := atan (s * cos dec / tan phi)). exists j.
    pose proof (atan_bound (s * cos dec / tan phi)) as BJ. fold j in BJ. split; [reflexivity|]. split; [lra|].
    assert (Cj : 0 < cos j) by (apply cos_gt_0; lra).
    assert (TJ : sin j * sin phi = s * cos dec * cos phi * cos j).
    { pose proof (atan_right_inv (s * cos dec / tan phi)) as TJ. fold j in TJ. unfold tan in TJ at 1.
      assert (sin j = s * cos dec / tan phi * cos j) by (rewrite <- TJ; field; lra). rewrite H0. rewrite <- Tp. field. exact Nt. }
    (* cos j = |sin phi| / cos dec *)
    assert (QJ : (cos j * cos dec) * (cos j * cos dec) = sin phi * sin phi).
    { pose proof (sc1 j) as J.
      assert (E1 : sin j * sin j * (sin phi * sin phi) = s * s * (cos dec * cos dec) * (cos phi * cos phi) * (cos j * cos j)) by (transitivity ((sin j * sin phi) * (sin j * sin phi)); [ring|rewrite TJ; ring]).
      assert (E2 : sin j * sin j = 1 - cos j * cos j) by lra. rewrite E2, Ss in E1.
      assert (E3 : sin H * sin H * (cos dec * cos dec) * (cos phi * cos phi) = cos dec * cos dec * (cos phi * cos phi) - sin phi * sin phi * (sin dec * sin dec)).
      { transitivity ((1 - cos H * cos H) * (cos dec * cos dec) * (cos phi * cos phi)); [rewrite <- A; ring|]. 
        assert (W : cos H * cos dec * cos phi = - (sin phi * sin dec)) by lra. 
        transitivity (cos dec * cos dec * (cos phi * cos phi) - (cos H * cos dec * cos phi) * (cos H * cos dec * cos phi)); [ring|]. rewrite W. ring. }
      assert (E4 : cos j * cos j * (sin H * sin H * (cos dec * cos dec) * (cos phi * cos phi) + sin phi * sin phi) = sin phi * sin phi) by lra.
      rewrite E3 in E4. rewrite <- E4 at 1. 
      replace (cos dec * cos dec * (cos phi * cos phi) - sin phi * sin phi * (sin dec * sin dec) + sin phi * sin phi) with (cos dec * cos dec); [ring|].
      replace (cos phi * cos phi) with (1 - sin phi * sin phi) by lra. replace (sin dec * sin dec) with (1 - cos dec * cos dec) by lra. ring. }
    assert (D : cos j * cos dec = Rabs (sin phi)).
    { apply Rsqr_inj; [nra | apply Rabs_pos|]. rewrite <- Rsqr_abs. exact QJ. }
    split; intros Hs.
    + assert (0 < sin phi) by (apply sin_gt_0; lra). rewrite Rabs_pos_eq in D by lra. apply (Rmult_eq_reg_r (sin phi)); [|exact Sp]. rewrite TJ, <- D. ring.
    + assert (sin phi < 0) by (apply sin_lt_0_var; lra). rewrite Rabs_left in D by lra. apply (Rmult_eq_reg_r (sin phi)); [|exact Sp]. rewrite TJ. replace (sin phi) with (- (cos j * cos dec)) by lra. ring.
Qed.
Lemma DiurnalPath_nan dec phi : 0 < cos phi -> 0 < cos dec -> (forall H, ~ on_horizon phi H dec) -> DiurnalPathAtHorizon dec phi = XNaN.
Proof.
  intros Cp Cd N. unfold DiurnalPathAtHorizon. cbv zeta. set (b := tan dec * tan phi).
  assert (Tp := ptan phi (Rgt_not_eq _ _ Cp)). assert (Td := ptan dec (Rgt_not_eq _ _ Cd)).
  destruct (Rle_dec (b * b) 1) as [L|L].
  - exfalso. apply (N (acos (- b))). unfold on_horizon. vecs. rewrite !sin_neg, !cos_neg, sin_0, cos_0. rewrite cos_acos by (split; nra).
    rewrite <- Tp, <- Td. unfold b. ring.
  - unfold xsqrt. rewrite Rlt_bool_true by lra. reflexivity.
Qed.
Lemma parallactic_examples :
  (on_horizon (PI / 4) (PI / 2) 0 /\ 0 < sin (PI / 2) /\ ParallacticAngleOnHorizon (PI / 4) 0 = PI / 4 /\ ParallacticAngle (PI / 4) 0 (PI / 2) = PI / 4 /\ DiurnalPathAtHorizon 0 (PI / 4) = Fin (PI / 4)) /\
  (forall eps, EclipticAtHorizon eps 0 0 = (PI / 2, PI / 2 + PI, PI / 2)).
Proof.
  assert (HP := PI_RGT_0). assert (O : on_horizon (PI / 4) (PI / 2) 0) by (unfold on_horizon; vecs; rewrite !sin_neg, !cos_neg, sin_0, cos_0, cos_PI2, sin_PI2; ring).
  assert (E : ParallacticAngleOnHorizon (PI / 4) 0 = PI / 4).
  { unfold ParallacticAngleOnHorizon. rewrite cos_0. replace (sin (PI / 4) / 1) with (cos (PI / 4)) by (rewrite <- sin_cos_PI4; field). apply acos_cos. lra. }
  split.
  - split; [exact O|]. split; [rewrite sin_PI2; lra|]. split; [exact E|]. split.
    + destruct (OnHorizon_value (PI / 4) 0 (PI / 2)) as (_ & P & _); [apply cos_gt_0; lra | rewrite cos_0; lra | exact O | rewrite sin_PI2; lra|]. rewrite <- P. exact E.
    + unfold DiurnalPathAtHorizon. cbv zeta. rewrite tan_PI4, tan_0, cos_0. unfold xsqrt. rewrite Rlt_bool_false by lra. cbn [xmul xdiv]. rewrite Req_bool_false by lra. cbn [xatan].
      replace (1 - 0 * 1 * (0 * 1)) with 1 by ring. rewrite sqrt_1. replace (1 * 1 / 1) with 1 by field. rewrite atan_1. reflexivity.
  - intros eps. unfold EclipticAtHorizon. cbv zeta. replace (TimeRad 0) with 0 by (unfold TimeRad; field). rewrite sin_0, cos_0.
    replace (sin eps * (0 / 1) + cos eps * 0) with (1 * cos (- (PI / 2))) by (rewrite cos_neg, cos_PI2; field).
    replace (- (1)) with (1 * sin (- (PI / 2))) by (rewrite sin_neg, sin_PI2; ring). rewrite atan2_polar by lra. rewrite Rlt_bool_true by lra.
    replace (- (PI / 2) + PI) with (PI / 2) by field. replace (cos eps * 0 - sin eps * 1 * 0) with 0 by ring. rewrite acos_0. reflexivity.
Qed.
