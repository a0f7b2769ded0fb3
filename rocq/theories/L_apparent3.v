(** Lemmas for P_apparent: the Ron-Vondrak expression agrees with the elliptic orbit. *)
From Coq Require Import ZArith Reals List Lra Lia Psatz.
From Verif Require Import GoFloat GoMath M_base M_precess M_solar M_apparent S_Sphere S_precess S_solar S_apparent L_trig L_coord L_kepler L_precess L_solar L_elements L_physical L_apparent L_apparent2.
Import ListNotations.
Local Open Scope R_scope.

Definition rv_norms : list (Z * Z) := ([(716, 0); (716, 0); (541, 7); (160, 0); (65, 0); (40, 0); (35, 0); (32, 0); (30, 0); (30, 0); (21, 0); (19, 0); (18, 0); (17, 0); (17, 0); (12, 0); (11, 0); (12, 0); (12, 0); (10, 0); (10, 0); (9, 0); (9, 0); (9, 0); (9, 0); (8, 0); (9, 0); (9, 0); (8, 0); (9, 0); (8, 0); (7, 0); (8, 0); (6, 0)])%Z.
Lemma rest_bound T : Rabs T <= 1 -> norm (vsum (map (fun row => vec_of (rv_value T row)) (skipn 2 rvTerm))) <= 2646.
Proof.
  intros HT. eapply Rle_trans; [apply (rows_bound T (skipn 2 rvTerm) rv_norms HT); vm_compute; reflexivity|].
  apply IZR_le. vm_compute. discriminate.
Qed.
Lemma vsub_add u v u' v' : vsub (vadd u v) (vadd u' v') = vadd (vsub u u') (vsub v v').
Proof. unfold vsub, vadd, scale. cbn [vx vy vz]. apply mkvec_eq; ring. Qed.
Lemma norm_sub_add u v u' v' a b : norm (vsub u u') <= a -> norm (vsub v v') <= b -> norm (vsub (vadd u v) (vadd u' v')) <= a + b.
Proof. intros H H0. rewrite vsub_add. eapply Rle_trans; [apply norm_add|]. lra. Qed.
Lemma sub_scale k u v : vsub (scale k u) (scale k v) = scale k (vsub u v).
Proof. unfold vsub, vadd, scale. cbn [vx vy vz]. apply mkvec_eq; ring. Qed.
Lemma sub_scale1 a b u : vsub (scale a u) (scale b u) = scale (a - b) u.
Proof. unfold vsub, vadd, scale. cbn [vx vy vz]. apply mkvec_eq; ring. Qed.
Lemma C_bound T : Rabs T <= 1 -> Rabs (CT T) <= 0.033858.
Proof.
  intros HT. pose proof PI_10 as P. destruct (T_powers T HT) as (T1 & _ & _). unfold CT, degrees.
  set (M := MT T). clearbody M. assert (B : forall x, Rabs (sin x) <= 1) by (intros; apply Rabs_le, SIN_bound).
  assert (H : Rabs ((1.914602 - 0.004817 * T - 0.000014 * T ^ 2) * sin M + (0.019993 - 0.000101 * T) * sin (2 * M) + 0.000289 * sin (3 * M)) <= 1.939822).
  { eapply Rle_trans; [apply Rabs_triang|]. eapply Rle_trans; [apply Rplus_le_compat_r, Rabs_triang|].
    pose proof (bnm (1.914602 - 0.004817 * T - 0.000014 * T ^ 2) (sin M) 1.919433 1 ltac:(apply Rabs_le; nra) (B _)).
    pose proof (bnm (0.019993 - 0.000101 * T) (sin (2 * M)) 0.0201 1 ltac:(apply Rabs_le; lra) (B _)).
    pose proof (bnm 0.000289 (sin (3 * M)) 0.000289 1 ltac:(apply Rabs_le; lra) (B _)). lra. }
  rewrite Rabs_mult, (Rabs_pos_eq (PI / 180)) by lra. nra.
Qed.
Lemma C_close T : Rabs T <= 1 -> Rabs (CT T - c10 * sin (rvA T - peri0)) <= 0.00063.
Proof.
  intros HT. pose proof PI_10 as P. destruct (T_powers T HT) as (T1 & _ & _). unfold CT, c10, degrees, AngleFromDeg.
  pose proof (M_close T HT) as MC. pose proof (periT_close T HT) as PC. set (M := MT T) in *. set (A := rvA T) in *. set (q := periT T) in *. set (q0 := peri0) in *. clearbody M A q q0.
  assert (B : forall x, Rabs (sin x) <= 1) by (intros; apply Rabs_le, SIN_bound).
  assert (SM : Rabs (sin M - sin (A - q0)) <= 0.005644).
  { replace (sin (A - q0)) with (sin (A - q0 + 2 * PI)) by (rewrite <- (sin_period (A - q0) 1); f_equal; cbn [INR]; ring).
    eapply Rle_trans; [apply sin_lip|]. apply abs_le_inv in MC, PC. apply Rabs_le. lra. }
  set (s0 := sin (A - q0)) in *. clearbody s0.
  match goal with |- Rabs ?x <= _ => replace x with ((1.914602 * (sin M - s0) + (- 0.004817 * T - 0.000014 * T ^ 2) * sin M + (0.019993 - 0.000101 * T) * sin (2 * M) + 0.000289 * sin (3 * M)) * (PI / 180)) by (decimals; field) end.
  assert (H : Rabs (1.914602 * (sin M - s0) + (- 0.004817 * T - 0.000014 * T ^ 2) * sin M + (0.019993 - 0.000101 * T) * sin (2 * M) + 0.000289 * sin (3 * M)) <= 0.03603).
  { eapply Rle_trans; [apply Rabs_triang|]. eapply Rle_trans; [apply Rplus_le_compat_r, Rabs_triang|]. eapply Rle_trans; [apply Rplus_le_compat_r, Rplus_le_compat_r, Rabs_triang|].
    pose proof (bnm 1.914602 (sin M - s0) 1.914602 0.005644 ltac:(apply Rabs_le; lra) SM).
    pose proof (bnm (- 0.004817 * T - 0.000014 * T ^ 2) (sin M) 0.004832 1 ltac:(apply Rabs_le; nra) (B _)).
    pose proof (bnm (0.019993 - 0.000101 * T) (sin (2 * M)) 0.0201 1 ltac:(apply Rabs_le; lra) (B _)).
    pose proof (bnm 0.000289 (sin (3 * M)) 0.000289 1 ltac:(apply Rabs_le; lra) (B _)). lra. }
  rewrite Rabs_mult, (Rabs_pos_eq (PI / 180)) by lra. nra.
Qed.
(** Velocity of the Earth in the ecliptic of J2000, in units of the mean velocity. *)
Definition uT (T : R) : vec := vadd (ev (L0T T + CT T - pA T - PI)) (scale (solarEccentricity T) (ev (periT T))).
Lemma uT_close T : Rabs T <= 1 -> norm (vsub (uT T) (vadd (ev (rvA T)) (scale (c10 / 2) (ev (2 * rvA T - peri0))))) <= 0.00135.
Proof.
  intros HT. pose proof PI_10 as P. pose proof (L0_close T HT) as LC. pose proof (periT_close T HT) as PC. pose proof (C_bound T HT) as CB. pose proof (C_close T HT) as CC. unfold uT.
  assert (E : Rabs (solarEccentricity T - c10 / 2) <= 0.0000428).
  { unfold solarEccentricity, c10, AngleFromDeg. rewrite HornerR3.
    match goal with |- Rabs ?x <= _ => replace x with (16708634 / 1000000000 - 1914602 / 1000000 * (PI / 180) / 2 + (- (42037 / 1000000000)) * T + (- (1267 / 10000000000)) * (T * T) + 0 * (T * T * T)) by field end.
    apply poly_bound with (ka := 0.0000006) (kb := 0.000042037) (kc := 0.00000013) (kd := 0); [exact HT|apply Rabs_le; lra..|lra]. }
  assert (G : 0 <= c10 / 2 <= 0.01671) by (unfold c10, AngleFromDeg; lra).
  set (d1 := L0T T - pA T - (rvA T + PI)) in *. replace (L0T T + CT T - pA T - PI) with (rvA T + CT T + d1) by (unfold d1; ring).
  set (A := rvA T) in *. set (C := CT T) in *. set (q := periT T) in *. set (q0 := peri0) in *. set (e := solarEccentricity T) in *. set (g := c10 / 2) in *. replace c10 with (2 * g) in CC by (unfold g; field).
  clearbody d1 A C q q0 e g. clear HT T.
  assert (N1 : norm (vsub (ev (A + C + d1)) (ev (A + C))) <= 0.000002).
  { eapply Rle_trans; [apply ev_close|]. replace (A + C + d1 - (A + C)) with d1 by ring. exact LC. }
  assert (N2 : norm (vsub (ev (A + C)) (vadd (ev A) (scale C (ev (A + PI / 2))))) <= 0.00058).
  { eapply Rle_trans; [apply ev_second; lra|]. assert (C * C = Rabs C * Rabs C) as -> by (rewrite <- Rabs_mult, Rabs_pos_eq; [reflexivity|apply Rle_0_sqr]).
    pose proof (Rabs_pos C). assert (Rabs C * Rabs C <= 0.033858 * 0.033858) by nra. assert (Rabs C * Rabs C * Rabs C <= 0.033858 * 0.033858 * 0.033858) by nra. lra. }
  assert (N3 : norm (vsub (scale C (ev (A + PI / 2))) (vsub (scale g (ev (2 * A - q0))) (scale g (ev q0)))) <= 0.00063).
  { replace (vsub (scale g (ev (2 * A - q0))) (scale g (ev q0))) with (scale (2 * g * sin (A - q0)) (ev (A + PI / 2))).
    - rewrite sub_scale1, norm_scale, ev_norm, Rmult_1_r. exact CC.
    - rewrite sub_scale, <- ev_product. unfold scale. cbn [vx vy vz]. apply mkvec_eq; ring. }
  assert (N4 : norm (vsub (scale e (ev q)) (scale g (ev q0))) <= 0.0001375).
  { eapply Rle_trans; [apply (norm_sub3 _ (scale g (ev q)))|]. rewrite sub_scale1, sub_scale, !norm_scale, ev_norm, Rmult_1_r.
    pose proof (ev_close q q0). rewrite (Rabs_pos_eq g) by lra. pose proof (norm_pos0 (vsub (ev q) (ev q0))). nra. }
  eapply Rle_trans; [apply (norm_sub3 _ (vadd (ev (A + C)) (scale e (ev q))))|].
  assert (S1 : norm (vsub (vadd (ev (A + C + d1)) (scale e (ev q))) (vadd (ev (A + C)) (scale e (ev q)))) <= 0.000002).
  { replace (vsub (vadd (ev (A + C + d1)) (scale e (ev q))) (vadd (ev (A + C)) (scale e (ev q)))) with (vsub (ev (A + C + d1)) (ev (A + C))); [exact N1|]. unfold vsub, vadd, scale. cbn [vx vy vz]. apply mkvec_eq; ring. }
  assert (S2 : norm (vsub (vadd (ev (A + C)) (scale e (ev q))) (vadd (ev A) (scale g (ev (2 * A - q0))))) <= 0.001348).
  { replace (vsub (vadd (ev (A + C)) (scale e (ev q))) (vadd (ev A) (scale g (ev (2 * A - q0))))) with
      (vadd (vsub (ev (A + C)) (vadd (ev A) (scale C (ev (A + PI / 2))))) (vadd (vsub (scale C (ev (A + PI / 2))) (vsub (scale g (ev (2 * A - q0))) (scale g (ev q0)))) (vsub (scale e (ev q)) (scale g (ev q0))))).
    - eapply Rle_trans; [apply norm_add|]. pose proof (norm_add (vsub (scale C (ev (A + PI / 2))) (vsub (scale g (ev (2 * A - q0))) (scale g (ev q0)))) (vsub (scale e (ev q)) (scale g (ev q0)))). lra.
    - unfold vsub, vadd, scale. cbn [vx vy vz]. apply mkvec_eq; ring. }
  lra.
Qed.
Lemma app_vadd m u v : app m (vadd u v) = vadd (app m u) (app m v).
Proof. unfold app, vadd, dot. cbn [vx vy vz]. apply mkvec_eq; ring. Qed.
Lemma app_scale m k u : app m (scale k u) = scale k (app m u).
Proof. unfold app, scale, dot. cbn [vx vy vz]. apply mkvec_eq; ring. Qed.
Lemma app_vsub m u v : app m (vsub u v) = vsub (app m u) (app m v).
Proof. unfold vsub. rewrite app_vadd, app_scale. reflexivity. Qed.
Lemma norm_rot_z t v : norm (app (rot_z t) v) = norm v.
Proof. unfold norm. rewrite rot_z_dot. reflexivity. Qed.
Lemma norm_sub0 u : norm (vsub u vzero) = norm u.
Proof. f_equal. destruct u as [u1 u2 u3]. unfold vsub, vadd, scale, vzero. cbn [vx vy vz]. apply mkvec_eq; ring. Qed.
Lemma rv_units T : Rabs T <= 1 -> norm (vsub (app (rot_x eps0) (vec_of (rv_sum T))) (scale KC (uT T))) <= 6227.
Proof.
  intros HT. rewrite rv_sum_vsum.
  change (vsum (map (fun row => vec_of (rv_value T row)) rvTerm)) with (vadd (vec_of (rv_value T row1)) (vadd (vec_of (rv_value T row2)) (vsum (map (fun row => vec_of (rv_value T row)) (skipn 2 rvTerm))))).
  pose proof (row1_bound T HT) as R1. pose proof (row2_bound T HT) as R2. pose proof (rest_bound T HT) as R3. pose proof (uT_close T HT) as U. pose proof KC_range as K.
  set (v1 := vec_of (rv_value T row1)) in *. set (v2 := vec_of (rv_value T row2)) in *. set (v3 := vsum _) in *. set (u := uT T) in *. clearbody v1 v2 v3 u.
  rewrite !app_vadd. set (x1 := ev (rvA T)) in *. set (x2 := ev (2 * rvA T - peri0)) in *. clearbody x1 x2.
  replace (scale (KC * (c10 / 2)) x2) with (scale KC (scale (c10 / 2) x2)) in R2 by (unfold scale; cbn [vx vy vz]; apply mkvec_eq; ring). set (x3 := scale (c10 / 2) x2) in *. clearbody x3.
  eapply Rle_trans; [apply (norm_sub3 _ (scale KC (vadd x1 x3)))|]. rewrite sub_scale, (norm_scale KC).
  replace (vsub (vadd x1 x3) u) with (scale (-1) (vsub u (vadd x1 x3))) by (unfold vsub, vadd, scale; cbn [vx vy vz]; apply mkvec_eq; ring). rewrite norm_opp1.
  replace (scale KC (vadd x1 x3)) with (vadd (scale KC x1) (vadd (scale KC x3) vzero)) by (unfold vadd, scale, vzero; cbn [vx vy vz]; apply mkvec_eq; ring).
  assert (B : norm (vsub (vadd (app (rot_x eps0) v1) (vadd (app (rot_x eps0) v2) (app (rot_x eps0) v3))) (vadd (scale KC x1) (vadd (scale KC x3) vzero))) <= 880 + (378 + 2646)).
  { apply norm_sub_add; [exact R1|]. apply norm_sub_add; [exact R2|]. rewrite norm_sub0, norm_rot_x. exact R3. }
  rewrite (Rabs_pos_eq KC) by lra. pose proof (norm_pos0 (vsub u (vadd x1 x3))). nra.
Qed.
Lemma uT_norm T : Rabs T <= 1 -> norm (uT T) <= 1.017.
Proof.
  intros HT. unfold uT. eapply Rle_trans; [apply norm_add|]. rewrite norm_scale, !ev_norm, Rmult_1_r.
  assert (Rabs (solarEccentricity T) <= 0.017); [|lra]. unfold solarEccentricity. rewrite HornerR3.
  match goal with |- Rabs ?x <= _ => replace x with (16708634 / 1000000000 + (- (42037 / 1000000000)) * T + (- (1267 / 10000000000)) * (T * T) + 0 * (T * T * T)) by ring end.
  apply poly_bound with (ka := 0.01671) (kb := 0.000043) (kc := 0.000001) (kd := 0); [exact HT|apply Rabs_le; lra..|lra].
Qed.
Lemma rot_x_close t v : norm (vsub (app (rot_x t) v) v) <= Rabs t * norm v.
Proof.
  apply norm_le. { pose proof (Rabs_pos t). pose proof (norm_pos0 v). nra. }
  replace (Rabs t * norm v * (Rabs t * norm v)) with ((Rabs t * Rabs t) * (norm v * norm v)) by ring. rewrite norm2, <- Rabs_mult, (Rabs_pos_eq (t * t)) by apply Rle_0_sqr.
  destruct v as [x y z]. unfold vsub, vadd, scale, app, rot_x, dot. cbn [r1 r2 r3 vx vy vz].
  assert (H : 2 - 2 * cos t <= t * t). { pose proof (cos_2a_sin (t / 2)) as C2. replace (2 * (t / 2)) with t in C2 by field. pose proof (sin_abs_le (t / 2)) as S. apply Rsqr_le_abs_1 in S. unfold Rsqr in S. lra. }
  pose proof (sc1 t) as Q. set (s := sin t) in *. set (c := cos t) in *. clearbody s c.
  apply Rle_trans with ((s * s + c * c + 1 - 2 * c) * (y * y + z * z)); [right; ring|]. rewrite Q.
  pose proof (Rle_0_sqr x). pose proof (Rle_0_sqr y). pose proof (Rle_0_sqr z). pose proof (Rle_0_sqr t). unfold Rsqr in *. nra.
Qed.
Lemma rot_ev t p : app (rot_z (- p)) (ev t) = ev (t + p).
Proof. unfold app, rot_z, ev, dot. cbn [r1 r2 r3 vx vy vz]. rewrite sin_neg, cos_neg, sin_plus, cos_plus. apply mkvec_eq; ring. Qed.
Lemma same_angle_sc a b : same_angle a b -> sin a = sin b /\ cos a = cos b.
Proof. intros [k ->]. split; [apply sin_Z|apply cos_Z]. Qed.
Lemma earthV_uT jd : let T := (jd - 2451545) / 36525 in earthV jd = app (rot_z (- pA T)) (scale kappa (uT T)).
Proof.
  cbv zeta. unfold earthV. rewrite century. set (T := (jd - 2451545) / 36525). pose proof (solarTrue_value T) as S. destruct (solarTrue T) as [s nu]. cbv zeta in S. destruct S as (_ & _ & S & _). cbn [fst].
  fold (MT T) in S. fold (CT T) in S. fold (L0T T) in S. destruct (same_angle_sc _ _ S) as [S1 S2].
  rewrite app_scale. f_equal. unfold uT. rewrite app_vadd, app_scale, !rot_ev. unfold periT.
  replace (L0T T + CT T - pA T - PI + pA T) with (L0T T + CT T - PI) by ring. replace (perihelion T - pA T + pA T) with (perihelion T) by ring.
  unfold earth_velocity, vadd, scale, ev. cbn [vx vy vz]. rewrite S1, S2, sin_minus, cos_minus, sin_PI, cos_PI. apply mkvec_eq; ring.
Qed.
Lemma RonVondrak_agrees jd : Rabs ((jd - 2451545) / 36525) <= 1 ->
  let p := NewEclipticPrecessor 2000 (2000 + (jd - 2451545) / 365.25) in
  norm (vsub (ecliptic_precession (epeta p) (eppi p) (epp p) (app (rot_x (MeanObliquity 2451545)) (scale (/ 17314463350) (vec_of (rv_sum ((jd - 2451545) / 36525)))))) (earthV jd)) <= arcsec 0.08.
Proof.
  intros HT p. pose proof (earthV_uT jd) as EV. cbv zeta in EV. rewrite EV. clear EV. pose proof (NewEclipticPrecessor_poly 2000 (2000 + (jd - 2451545) / 365.25)) as P. cbv zeta in P. fold p in P. destruct P as (E & _ & A).
  set (T := (jd - 2451545) / 36525) in *. assert (E0 : MeanObliquity 2451545 = eps0).
  { unfold eps0, MeanObliquity, J2000Century, J2000, JulianCentury, HornerR, Horner. cbn [rev List.app horner_loop fadd fmul fsub fdiv fconst RFlt]. f_equal. field. }
  rewrite E0. replace (epp p) with (pA T) in * by (rewrite A; unfold pA, T; f_equal; decimals; field).
  assert (H : Rabs (epeta p) <= 0.00022807).
  { rewrite E. pose proof PI_10. unfold AngleFromSec. set (t := (2000 + (jd - 2451545) / 365.25 - 2000) / 100). assert (Ht : t = T) by (unfold t, T; decimals; field). rewrite Ht.
    match goal with |- Rabs ?x <= _ => replace x with (0 + 47.0029 / 3600 * (PI / 180) * T + (- (0.03302 / 3600 * (PI / 180))) * (T * T) + 0.00006 / 3600 * (PI / 180) * (T * T * T)) by (decimals; field) end.
    apply poly_bound with (ka := 0) (kb := 0.00022788) (kc := 0.00000017) (kd := 0.00000001); [exact HT|apply Rabs_le; lra..|lra]. }
  set (eta := epeta p) in *. set (Om := eppi p) in *. clearbody eta Om. clear p E A E0.
  pose proof (rv_units T HT) as U. pose proof (uT_norm T HT) as UN. set (w := app (rot_x eps0) (vec_of (rv_sum T))) in *. set (u := uT T) in *. rewrite app_scale. fold w. clearbody w u.
  unfold ecliptic_precession. replace (- (Om + pA T)) with (- pA T + - Om) by ring. rewrite <- rot_z_add, <- app_vsub, norm_rot_z.
  rewrite !app_scale. replace (scale kappa u) with (scale (/ 17314463350) (scale KC u)) by (unfold KC, scale; cbn [vx vy vz]; apply mkvec_eq; field).
  rewrite sub_scale, norm_scale, (Rabs_pos_eq (/ 17314463350)) by lra.
  replace (scale KC u) with (app (rot_z (- Om)) (app (rot_z Om) (scale KC u))) by apply rot_z_inv. rewrite <- app_vsub, norm_rot_z.
  set (w' := app (rot_z Om) w). set (u' := app (rot_z Om) (scale KC u)).
  assert (N1 : norm (vsub w' u') <= 6227) by (unfold w', u'; rewrite <- app_vsub, norm_rot_z; exact U).
  assert (N2 : norm u' <= 1749702). { unfold u'. rewrite norm_rot_z, norm_scale. pose proof KC_range. rewrite Rabs_pos_eq by lra. pose proof (norm_pos0 u). nra. }
  clearbody w' u'. assert (N3 : norm w' <= 1755929).
  { replace w' with (vadd (vsub w' u') u'). { eapply Rle_trans; [apply norm_add|]. lra. } destruct w' as [w1 w2 w3]. unfold vsub, vadd, scale. cbn [vx vy vz]. apply mkvec_eq; ring. }
  assert (N4 : norm (vsub (app (rot_x eta) w') u') <= 6628).
  { eapply Rle_trans; [apply (norm_sub3 _ w')|]. pose proof (rot_x_close eta w'). pose proof (norm_pos0 w'). pose proof (Rabs_pos eta). nra. }
  unfold arcsec. pose proof PI_10. lra.
Qed.
