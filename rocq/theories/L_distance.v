(** Ellipsoid.Distance against the equator, the length of the meridian and the spherical distance. *)
From Coq Require Import ZArith Reals Bool Lra Psatz Ranalysis RiemannInt.
From Flocq Require Import Core.
From Verif Require Import GoFloat GoMath S_Sphere S_globe M_coord L_trig L_angle L_vec L_coord L_orbit L_globe.
Local Open Scope R_scope.

Lemma half_root h : 0 < h < PI / 2 -> sqrt (sin h * sin h / (cos h * cos h)) = tan h /\ sqrt (sin h * sin h * (cos h * cos h)) = sin h * cos h /\ atan (tan h) = h.
Proof.
  intros H. assert (S : 0 < sin h) by (apply sin_gt_0; lra). assert (C : 0 < cos h) by (apply cos_gt_0; lra). split; [|split].
  - replace (sin h * sin h / (cos h * cos h)) with (tan h * tan h) by (unfold tan; field; lra). apply sqrt_square. unfold tan. apply Rlt_le, Rdiv_lt_0_compat; assumption.
  - replace (sin h * sin h * (cos h * cos h)) with (sin h * cos h * (sin h * cos h)) by ring. apply sqrt_square. apply Rmult_le_pos; lra.
  - apply atan_tan. lra.
Qed.

(** ** Equator *)
Lemma equator e l1 l2 : l2 < l1 < l2 + PI -> Distance e (mkCoord 0 l1) (mkCoord 0 l2) = Fin (Er e * (l1 - l2)).
Proof.
  intros H. set (h := (l1 - l2) / 2). assert (Hh : 0 < h < PI / 2) by (subst h; lra).
  destruct (half_root h Hh) as (Q1 & _ & Q3). assert (S : 0 < sin h) by (apply sin_gt_0; lra). assert (C : 0 < cos h) by (apply cos_gt_0; lra).
  assert (E0 : (0 + 0) / 2 = 0) by field. assert (E1 : (0 - 0) / 2 = 0) by field.
  assert (ES : dist_s (mkCoord 0 l1) (mkCoord 0 l2) = sin h * sin h) by (unfold dist_s; cbn [Lat Lon]; rewrite E0, E1, sin_0, cos_0; fold h; ring).
  assert (EC : dist_c (mkCoord 0 l1) (mkCoord 0 l2) = cos h * cos h) by (unfold dist_c; cbn [Lat Lon]; rewrite E0, E1, sin_0, cos_0; fold h; ring).
  rewrite Distance_regular by (rewrite ?ES, ?EC; apply Rmult_lt_0_compat; lra). f_equal. unfold distance_R. cbv zeta. rewrite ES, EC, Q1, Q3. cbn [Lat Lon].
  rewrite E0, E1, sin_0, cos_0. replace (l1 - l2) with (2 * h) by (subst h; field). ring.
Qed.

(** ** Meridian *)
Definition first_order (e : Ellipsoid) (t : R) : R := Er e * ((1 - Fl e / 2) * t - 3 / 4 * Fl e * sin (2 * t)).

Lemma meridian_value e l p1 p2 : p1 < p2 < p1 + PI ->
  Distance e (mkCoord p1 l) (mkCoord p2 l) = Fin (first_order e p2 - first_order e p1).
Proof.
  intros H. set (h := (p2 - p1) / 2). assert (Hh : 0 < h < PI / 2) by (subst h; lra).
  destruct (half_root h Hh) as (Q1 & Q2 & Q3). assert (S : 0 < sin h) by (apply sin_gt_0; lra). assert (C : 0 < cos h) by (apply cos_gt_0; lra).
  assert (E0 : (l - l) / 2 = 0) by field. assert (E1 : (p1 - p2) / 2 = - h) by (subst h; field).
  assert (ES : dist_s (mkCoord p1 l) (mkCoord p2 l) = sin h * sin h) by (unfold dist_s; cbn [Lat Lon]; rewrite E0, E1, sin_0, cos_0, sin_neg; ring).
  assert (EC : dist_c (mkCoord p1 l) (mkCoord p2 l) = cos h * cos h) by (unfold dist_c; cbn [Lat Lon]; rewrite E0, E1, sin_0, cos_0, cos_neg; ring).
  rewrite Distance_regular by (rewrite ?ES, ?EC; apply Rmult_lt_0_compat; lra). f_equal. unfold distance_R. cbv zeta. rewrite ES, EC, Q1, Q2, Q3. cbn [Lat Lon].
  rewrite E1, sin_neg, cos_neg. set (m := (p1 + p2) / 2).
  assert (X : (3 * (sin h * cos h / h) - 1) / (2 * (cos h * cos h)) * (sin m * sin m) * (cos h * cos h) - (3 * (sin h * cos h / h) + 1) / (2 * (sin h * sin h)) * (cos m * cos m) * (- sin h * - sin h)
    = - (1 / 2) * (sin m * sin m + cos m * cos m) - 3 / 2 * (sin h * cos h / h) * (cos m * cos m - sin m * sin m)) by (field; lra).
  rewrite X. rewrite (sc1 m). unfold first_order.
  assert (D : sin (2 * p2) - sin (2 * p1) = 2 * (2 * sin h * cos h * (cos m * cos m - sin m * sin m))).
  { replace (2 * p2) with (2 * m + 2 * h) by (subst m h; field). replace (2 * p1) with (2 * m - 2 * h) by (subst m h; field).
    rewrite sin_plus, sin_minus, (sin_2a h), (cos_2a m). ring. }
  replace (sin (2 * p2)) with (sin (2 * p1) + 2 * (2 * sin h * cos h * (cos m * cos m - sin m * sin m))) by (rewrite <- D; ring).
  replace p2 with (p1 + 2 * h) at 1 by (subst h; field). field. lra.
Qed.

(** y = (1-x)^(-3/2) between two parabolas. *)
Lemma power_parabola x y : 0 <= x <= 1 / 50 -> 0 < y -> y * y * ((1 - x) * (1 - x) * (1 - x)) = 1 ->
  1 + 3 / 2 * x + 9 / 5 * (x * x) <= y <= 1 + 3 / 2 * x + 2 * (x * x).
Proof.
  intros Hx Hy E. set (w := (1 - x) * (1 - x) * (1 - x)) in *. assert (W : 0 < w) by (subst w; apply Rmult_lt_0_compat; [apply Rmult_lt_0_compat|]; lra).
  assert (X2 : 0 <= x * x) by (apply Rmult_le_pos; lra). assert (X3 : 0 <= x * x * x <= x * x / 50) by (split; [apply Rmult_le_pos; lra|nra]).
  assert (X4 : 0 <= x * x * x * x <= x * x / 2500) by (split; [apply Rmult_le_pos; lra|nra]). assert (X5 : 0 <= x * x * x * x * x <= x * x / 2500) by (split; [apply Rmult_le_pos; lra|nra]).
  assert (X6 : 0 <= x * x * x * x * x * x <= x * x / 2500) by (split; [apply Rmult_le_pos; lra|nra]). assert (X7 : 0 <= x * x * x * x * x * x * x <= x * x / 2500) by (split; [apply Rmult_le_pos; lra|nra]).
  split.
  - set (p := 1 + 3 / 2 * x + 9 / 5 * (x * x)). destruct (Rle_or_lt p y) as [G|G]; [exact G|exfalso].
    assert (P1 : p * p * w <= 1).
    { replace (p * p * w) with (1 + (- (3 / 20) * (x * x) - 83 / 20 * (x * x * x) + 159 / 100 * (x * x * x * x) + 63 / 100 * (x * x * x * x * x) + 108 / 25 * (x * x * x * x * x * x) - 81 / 25 * (x * x * x * x * x * x * x))) by (subst p w; field). lra. }
    assert (y * y < p * p) by (apply Rmult_le_0_lt_compat; lra). assert (y * y * w < p * p * w) by (apply Rmult_lt_compat_r; assumption). lra.
  - set (p := 1 + 3 / 2 * x + 2 * (x * x)). destruct (Rle_or_lt y p) as [G|G]; [exact G|exfalso].
    assert (P0 : 0 < p) by (subst p; lra).
    assert (P1 : 1 <= p * p * w).
    { replace (p * p * w) with (1 + (1 / 4 * (x * x) - 19 / 4 * (x * x * x) + 7 / 4 * (x * x * x * x) - 1 / 4 * (x * x * x * x * x) + 6 * (x * x * x * x * x * x) - 4 * (x * x * x * x * x * x * x))) by (subst p w; field). lra. }
    assert (p * p < y * y) by (apply Rmult_le_0_lt_compat; lra). assert (p * p * w < y * y * w) by (apply Rmult_lt_compat_r; assumption). lra.
Qed.

Lemma curvature_first_order e t : 0 < Er e -> 0 <= Fl e <= 1 / 100 -> 0 <= RadiusOfCurvature e t /\
  Rabs (Er e * (1 - Fl e / 2 - 3 / 2 * Fl e * cos (2 * t)) - RadiusOfCurvature e t) <= 2 * (Fl e * Fl e) * Er e.
Proof.
  intros HE HF. unfold RadiusOfCurvature, axisA. cbv zeta. set (f := Fl e) in *. set (a := Er e) in *. clearbody f a. rewrite cos_2a_sin.
  replace ((2 - f) * f * sin t * sin t) with ((2 - f) * f * (sin t * sin t)) by ring.
  replace (2 * sin t * sin t) with (2 * (sin t * sin t)) by ring.
  assert (HS : 0 <= sin t * sin t <= 1) by (split; [apply Rle_0_sqr|pose proof (sc1 t); pose proof (Rle_0_sqr (cos t)); unfold Rsqr in *; lra]).
  set (s := sin t * sin t) in *. clearbody s.
  set (x := (2 - f) * f * s). assert (Hx : 0 <= x <= 1 / 50).
  { assert (A : 0 <= (2 - f) * f <= 1 / 50) by (split; [apply Rmult_le_pos; lra|nra]). subst x. split; [apply Rmult_le_pos; lra|]. apply Rle_trans with ((2 - f) * f * 1); [apply Rmult_le_compat_l; lra|lra]. }
  set (P := Rpower (1 - x) (3 / 2)). assert (HP : 0 < P) by apply exp_pos.
  assert (P2 : P * P = (1 - x) * (1 - x) * (1 - x)).
  { unfold P. rewrite <- Rpower_plus. replace (3 / 2 + 3 / 2) with (INR 3) by (cbn; lra). rewrite Rpower_pow by lra. ring. }
  clearbody P. assert (HY : 0 < / P) by (apply Rinv_0_lt_compat; exact HP).
  assert (B := power_parabola x (/ P) Hx HY). rewrite <- P2 in B. specialize (B ltac:(field; lra)).
  assert (ED : forall z, z / P = z * / P) by reflexivity. rewrite !ED. clear ED. set (y := / P) in *. replace (1 - (2 - f) * f) with ((1 - f) * (1 - f)) by ring. clearbody y. clear HP P2 P.
  assert (K : 388 / 100 <= (2 - f) * (2 - f) * ((1 - f) * (1 - f)) <= 4).
  { assert (A1 : 197 / 100 <= (2 - f) * (1 - f) <= 2) by (split; nra). replace ((2 - f) * (2 - f) * ((1 - f) * (1 - f))) with ((2 - f) * (1 - f) * ((2 - f) * (1 - f))) by ring. set (z := (2 - f) * (1 - f)) in *. clearbody z. split; [|nra].
    apply Rle_trans with (197 / 100 * (197 / 100)); [lra|]. apply Rmult_le_compat; lra. }
  set (k := (2 - f) * (2 - f) * ((1 - f) * (1 - f))) in *.
  assert (N : 0 <= (1 - f) * (1 - f)) by apply Rle_0_sqr. assert (FF : 0 <= f * f) by apply Rle_0_sqr.
  assert (S2 : 0 <= s * s) by apply Rle_0_sqr. assert (FS : 0 <= f * s <= s / 100) by (split; [apply Rmult_le_pos; lra|nra]). assert (FFS : 0 <= f * f * s <= s / 100) by (split; [apply Rmult_le_pos; lra|nra]).
  split; [apply Rmult_le_pos; [apply Rmult_le_pos; lra|lra]|].
  assert (UP : (1 - f) * (1 - f) * y <= 1 - f / 2 - 3 / 2 * f * (1 - 2 * s) + 2 * (f * f)).
  { apply Rle_trans with ((1 - f) * (1 - f) * (1 + 3 / 2 * x + 2 * (x * x))); [apply Rmult_le_compat_l; lra|].
    replace ((1 - f) * (1 - f) * (1 + 3 / 2 * x + 2 * (x * x))) with (1 - f / 2 - 3 / 2 * f * (1 - 2 * s) + f * f * (1 - 15 / 2 * s + 6 * (f * s) - 3 / 2 * (f * f * s) + 2 * k * (s * s))) by (subst x k; field).
    apply Rplus_le_compat_l. rewrite (Rmult_comm 2 (f * f)). apply Rmult_le_compat_l; [exact FF|].
    assert (2 * k * (s * s) <= 8 * (s * s)) by (apply Rmult_le_compat_r; lra). assert (s * s <= s) by nra. lra. }
  assert (LO : 1 - f / 2 - 3 / 2 * f * (1 - 2 * s) - 2 * (f * f) <= (1 - f) * (1 - f) * y).
  { apply Rle_trans with ((1 - f) * (1 - f) * (1 + 3 / 2 * x + 9 / 5 * (x * x))); [|apply Rmult_le_compat_l; lra].
    replace ((1 - f) * (1 - f) * (1 + 3 / 2 * x + 9 / 5 * (x * x))) with (1 - f / 2 - 3 / 2 * f * (1 - 2 * s) + f * f * (1 - 15 / 2 * s + 6 * (f * s) - 3 / 2 * (f * f * s) + 9 / 5 * k * (s * s))) by (subst x k; field).
    unfold Rminus at 1. apply Rplus_le_compat_l. replace (- (2 * (f * f))) with (f * f * (-2)) by ring. apply Rmult_le_compat_l; [exact FF|].
    assert (9 / 5 * (388 / 100) * (s * s) <= 9 / 5 * k * (s * s)) by (apply Rmult_le_compat_r; lra). assert (0 <= (s - 54 / 100) * (s - 54 / 100)) by apply Rle_0_sqr. lra. }
  rewrite (Rmult_assoc a). rewrite <- Rmult_minus_distr_l. rewrite Rabs_mult, (Rabs_pos_eq a) by lra. rewrite (Rmult_comm _ a). apply Rmult_le_compat_l; [lra|]. apply Rabs_le. lra.
Qed.

Lemma first_order_deriv e t : derivable_pt_lim (first_order e) t (Er e * (1 - Fl e / 2 - 3 / 2 * Fl e * cos (2 * t))).
Proof.
  unfold first_order. replace (Er e * (1 - Fl e / 2 - 3 / 2 * Fl e * cos (2 * t))) with (Er e * ((1 - Fl e / 2) * 1 - 3 / 4 * Fl e * (cos (2 * t) * (2 * 1)))) by field.
  apply (derivable_pt_lim_scal (fun t => (1 - Fl e / 2) * t - 3 / 4 * Fl e * sin (2 * t)) (Er e)).
  apply (derivable_pt_lim_minus (fun t => (1 - Fl e / 2) * t) (fun t => 3 / 4 * Fl e * sin (2 * t))).
  - apply (derivable_pt_lim_scal id (1 - Fl e / 2)). apply derivable_pt_lim_id.
  - apply (derivable_pt_lim_scal (fun t => sin (2 * t)) (3 / 4 * Fl e)). apply (derivable_pt_lim_comp (fun t => 2 * t) sin); [apply (derivable_pt_lim_scal id 2), derivable_pt_lim_id|apply derivable_pt_lim_sin].
Qed.

Lemma arc_deriv e arc t : 0 < Er e -> 0 <= Fl e <= 1 / 100 -> meridian_length (Er e) (Fl e) arc -> - (PI / 2) <= t <= PI / 2 -> derivable_pt_lim arc t (RadiusOfCurvature e t).
Proof.
  intros HE HF HA Ht. destruct (HA t Ht) as (vx & vz & DX & DZ & DA). destruct (RadiusOfCurvature_ok e t ltac:(lra)) as [DX' DZ'].
  rewrite (uniqueness_limite _ _ _ _ DX DX') in DA. rewrite (uniqueness_limite _ _ _ _ DZ DZ') in DA. destruct (curvature_first_order e t HE HF) as [P _].
  set (r := RadiusOfCurvature e t) in *. replace (sqrt _) with r in DA; [exact DA|]. symmetry.
  replace (- r * sin t * (- r * sin t) + r * cos t * (r * cos t)) with (r * r * (sin t * sin t + cos t * cos t)) by ring. rewrite (sc1 t), Rmult_1_r. apply sqrt_square, P.
Qed.

Lemma meridian_error e arc l p1 p2 : 0 < Er e -> 0 <= Fl e <= 1 / 100 -> meridian_length (Er e) (Fl e) arc -> - (PI / 2) <= p1 < p2 -> p2 <= PI / 2 -> p2 - p1 < PI ->
  exists d, Distance e (mkCoord p1 l) (mkCoord p2 l) = Fin d /\
    Rabs (d - (arc p2 - arc p1)) <= 2 * (Fl e * Fl e) * (Er e * (p2 - p1)).
Proof.
  intros HE HF HA H1 H2 H3. exists (first_order e p2 - first_order e p1). split; [apply meridian_value; lra|].
  destruct (MVT_cor2 (fun t => first_order e t - arc t) (fun t => Er e * (1 - Fl e / 2 - 3 / 2 * Fl e * cos (2 * t)) - RadiusOfCurvature e t) p1 p2 ltac:(lra)) as (c & E & _).
  { intros t Ht. apply (derivable_pt_lim_minus (first_order e) arc); [apply first_order_deriv|apply arc_deriv; [assumption|assumption|assumption|lra]]. }
  replace (first_order e p2 - first_order e p1 - (arc p2 - arc p1)) with (first_order e p2 - arc p2 - (first_order e p1 - arc p1)) by ring. rewrite E.
  rewrite Rabs_mult, (Rabs_pos_eq (p2 - p1)) by lra. rewrite <- Rmult_assoc. apply Rmult_le_compat_r; [lra|]. apply (curvature_first_order e c HE HF).
Qed.

Lemma meridian_length_exists a f : 0 < a -> 0 <= f < 1 -> exists arc, meridian_length a f arc.
Proof.
  intros Ha Hf. assert (P : - (PI / 2) <= PI / 2) by (pose proof PI_RGT_0; lra).
  pose (v := fun t => a * ((1 - f) * (1 - f)) / (meridian_root f t * meridian_root f t * meridian_root f t)).
  assert (RP : forall t, 0 < meridian_root f t) by (intros t; apply sqrt_lt_R0, root_pos, Hf).
  assert (RC : forall t, continuity_pt (meridian_root f) t).
  { intros t. apply (continuity_pt_comp (fun t => cos t * cos t + (1 - f) * (1 - f) * (sin t * sin t)) sqrt); [apply derivable_continuous_pt; reg|]. apply continuity_pt_sqrt. pose proof (root_pos f t Hf). lra. }
  assert (C0 : forall t, - (PI / 2) <= t <= PI / 2 -> continuity_pt v t).
  { intros t _. apply (continuity_pt_div (fun _ => a * ((1 - f) * (1 - f))) (fun t => meridian_root f t * meridian_root f t * meridian_root f t)).
    - apply continuity_pt_const. intros x y. reflexivity.
    - apply (continuity_pt_mult (fun t => meridian_root f t * meridian_root f t) (meridian_root f)); [apply (continuity_pt_mult (meridian_root f) (meridian_root f))|]; apply RC.
    - pose proof (RP t). apply Rgt_not_eq. apply Rmult_lt_0_compat; [apply Rmult_lt_0_compat|]; assumption. }
  exists (primitive P (FTC_P1 P C0)). intros t Ht. destruct (meridian_deriv a f t Hf) as [DX DZ]. fold (v t) in DX, DZ. exists (- v t * sin t), (v t * cos t). split; [exact DX|]. split; [exact DZ|].
  replace (- v t * sin t * (- v t * sin t) + v t * cos t * (v t * cos t)) with (v t * v t * (sin t * sin t + cos t * cos t)) by ring. rewrite (sc1 t), Rmult_1_r, sqrt_square.
  - apply RiemannInt_P28. exact Ht.
  - unfold v. apply Rlt_le. pose proof (RP t). apply Rdiv_lt_0_compat; [apply Rmult_lt_0_compat; [lra|apply Rmult_lt_0_compat; lra]|apply Rmult_lt_0_compat; [apply Rmult_lt_0_compat|]; assumption].
Qed.

(** ** Any two places *)
Lemma sphere_error e c1 c2 : 0 < Er e -> 0 <= Fl e -> -1 < dot (place c1) (place c2) < 1 ->
  exists th d, separation (place c1) (place c2) th /\ Distance e c1 c2 = Fin d /\
    Er e * th * (1 - 5 / 2 * Fl e) <= d <= Er e * th * (1 + Fl e).
Proof.
  intros HE HF H. destruct (dist_sc c1 c2) as (S1 & D & _). assert (Hs : 0 < dist_s c1 c2) by lra. assert (Hc : 0 < dist_c c1 c2) by lra.
  exists (2 * atan (sqrt (dist_s c1 c2 / dist_c c1 c2))), (distance_R e c1 c2). split; [apply dist_sep; lra|]. split; [apply Distance_regular; lra|].
  unfold distance_R. cbv zeta.
  assert (A : sin ((Lat c1 + Lat c2) / 2) * sin ((Lat c1 + Lat c2) / 2) * (cos ((Lat c1 - Lat c2) / 2) * cos ((Lat c1 - Lat c2) / 2)) <= dist_c c1 c2 /\
              cos ((Lat c1 + Lat c2) / 2) * cos ((Lat c1 + Lat c2) / 2) * (sin ((Lat c1 - Lat c2) / 2) * sin ((Lat c1 - Lat c2) / 2)) <= dist_s c1 c2).
  { unfold dist_s, dist_c. pose proof (sc1 ((Lat c1 - Lat c2) / 2)) as G. pose proof (sc1 ((Lat c1 + Lat c2) / 2)) as F. pose proof (sc1 ((Lon c1 - Lon c2) / 2)) as L.
    pose proof (Rle_0_sqr (sin ((Lat c1 - Lat c2) / 2))). pose proof (Rle_0_sqr (cos ((Lat c1 - Lat c2) / 2))).
    pose proof (Rle_0_sqr (sin ((Lat c1 + Lat c2) / 2))). pose proof (Rle_0_sqr (cos ((Lat c1 + Lat c2) / 2))).
    pose proof (Rle_0_sqr (sin ((Lon c1 - Lon c2) / 2))). pose proof (Rle_0_sqr (cos ((Lon c1 - Lon c2) / 2))). unfold Rsqr in *.
    set (g1 := sin ((Lat c1 - Lat c2) / 2) * sin ((Lat c1 - Lat c2) / 2)) in *. set (g2 := cos ((Lat c1 - Lat c2) / 2) * cos ((Lat c1 - Lat c2) / 2)) in *.
    set (f1 := sin ((Lat c1 + Lat c2) / 2) * sin ((Lat c1 + Lat c2) / 2)) in *. set (f2 := cos ((Lat c1 + Lat c2) / 2) * cos ((Lat c1 + Lat c2) / 2)) in *.
    set (l1 := sin ((Lon c1 - Lon c2) / 2) * sin ((Lon c1 - Lon c2) / 2)) in *. set (l2 := cos ((Lon c1 - Lon c2) / 2) * cos ((Lon c1 - Lon c2) / 2)) in *.
    clearbody g1 g2 f1 f2 l1 l2. split.
    - assert (X : g2 * l2 + f1 * l1 - f1 * g2 = g2 * l2 * f2 + f1 * l1 * g1).
      { replace f2 with (1 - f1) by lra. replace g1 with (1 - g2) by lra. replace l2 with (1 - l1) by lra. ring. }
      assert (0 <= g2 * l2 * f2) by (apply Rmult_le_pos; [apply Rmult_le_pos|]; assumption). assert (0 <= f1 * l1 * g1) by (apply Rmult_le_pos; [apply Rmult_le_pos|]; assumption). lra.
    - assert (X : g1 * l2 + f2 * l1 - f2 * g1 = g1 * l2 * f1 + f2 * l1 * g2).
      { replace f1 with (1 - f2) by lra. replace g2 with (1 - g1) by lra. replace l2 with (1 - l1) by lra. ring. }
      assert (0 <= g1 * l2 * f1) by (apply Rmult_le_pos; [apply Rmult_le_pos|]; assumption). assert (0 <= f2 * l1 * g2) by (apply Rmult_le_pos; [apply Rmult_le_pos|]; assumption). lra. }
  destruct A as [A1 A2].
  assert (N1 : 0 <= sin ((Lat c1 + Lat c2) / 2) * sin ((Lat c1 + Lat c2) / 2) * (cos ((Lat c1 - Lat c2) / 2) * cos ((Lat c1 - Lat c2) / 2))) by (apply Rmult_le_pos; apply Rle_0_sqr).
  assert (N2 : 0 <= cos ((Lat c1 + Lat c2) / 2) * cos ((Lat c1 + Lat c2) / 2) * (sin ((Lat c1 - Lat c2) / 2) * sin ((Lat c1 - Lat c2) / 2))) by (apply Rmult_le_pos; apply Rle_0_sqr).
  set (s := dist_s c1 c2) in *. set (c := dist_c c1 c2) in *. set (q := sqrt (s / c)). assert (Q : 0 < q) by (apply sqrt_lt_R0, Rdiv_lt_0_compat; assumption).
  pose proof (atan_gt0 _ Q) as W. pose proof (atan_bound q) as WB. set (w := atan q) in *.
  assert (R : 0 <= sqrt (s * c) / w <= 1).
  { split; [apply Rmult_le_pos; [apply sqrt_pos|apply Rlt_le, Rinv_0_lt_compat, W]|].
    apply Rmult_le_reg_r with w; [exact W|]. replace (sqrt (s * c) / w * w) with (sqrt (s * c)) by (field; lra). rewrite Rmult_1_l.
    assert (CW : 0 < cos w) by (apply cos_gt_0; lra). assert (SW : 0 < sin w) by (apply sin_gt_0; lra).
    assert (T : tan w = q) by (unfold w; apply tan_atan). assert (SQ : sin w = q * cos w) by (rewrite <- T; unfold tan; field; lra).
    assert (Q2 : q * q = s / c) by (apply sqrt_sqrt, Rlt_le, Rdiv_lt_0_compat; lra).
    assert (C2 : cos w * cos w = c). { pose proof (sc1 w) as P. rewrite SQ in P. replace (q * cos w * (q * cos w) + cos w * cos w) with ((q * q + 1) * (cos w * cos w)) in P by ring. rewrite Q2 in P.
      apply Rmult_eq_reg_l with (s / c + 1); [rewrite P; transitivity (s + c); [lra|field; lra]|]. assert (0 < s / c) by (apply Rdiv_lt_0_compat; lra). lra. }
    replace (s * c) with (sin w * cos w * (sin w * cos w)).
    - rewrite sqrt_square by (apply Rmult_le_pos; lra). apply Rle_trans with (sin w * 1); [apply Rmult_le_compat_l; [lra|apply COS_bound]|]. rewrite Rmult_1_r. apply Rlt_le, sin_lt_x, W.
    - rewrite SQ. replace (q * cos w * cos w * (q * cos w * cos w)) with (q * q * ((cos w * cos w) * (cos w * cos w))) by ring. rewrite C2, Q2. field. lra. }
  set (r := sqrt (s * c) / w) in *. clearbody r.
  set (u := sin ((Lat c1 + Lat c2) / 2) * sin ((Lat c1 + Lat c2) / 2)) in *. set (u' := cos ((Lat c1 - Lat c2) / 2) * cos ((Lat c1 - Lat c2) / 2)) in *.
  set (v := cos ((Lat c1 + Lat c2) / 2) * cos ((Lat c1 + Lat c2) / 2)) in *. set (v' := sin ((Lat c1 - Lat c2) / 2) * sin ((Lat c1 - Lat c2) / 2)) in *.
  clearbody u u' v v' w. clearbody s c.
  assert (U : 0 <= u * u' / c <= 1).
  { split; [apply Rmult_le_pos; [exact N1|apply Rlt_le, Rinv_0_lt_compat, Hc]|]. apply Rmult_le_reg_r with c; [exact Hc|]. replace (u * u' / c * c) with (u * u') by (field; lra). lra. }
  assert (V : 0 <= v * v' / s <= 1).
  { split; [apply Rmult_le_pos; [exact N2|apply Rlt_le, Rinv_0_lt_compat, Hs]|]. apply Rmult_le_reg_r with s; [exact Hs|]. replace (v * v' / s * s) with (v * v') by (field; lra). lra. }
  replace ((3 * r - 1) / (2 * c) * u * u' - (3 * r + 1) / (2 * s) * v * v') with ((3 * r - 1) / 2 * (u * u' / c) - (3 * r + 1) / 2 * (v * v' / s)) by (field; lra).
  set (a := u * u' / c) in *. set (b := v * v' / s) in *. clearbody a b.
  assert (X : - (5 / 2) <= (3 * r - 1) / 2 * a - (3 * r + 1) / 2 * b <= 1).
  { assert (0 <= r * a <= r) by (split; [apply Rmult_le_pos; lra|nra]). assert (0 <= r * b <= r) by (split; [apply Rmult_le_pos; lra|nra]).
    assert (r * a <= a) by nra. assert (r * b <= b) by nra. lra. }
  set (X' := (3 * r - 1) / 2 * a - (3 * r + 1) / 2 * b) in *. clearbody X'.
  replace (2 * w * Er e) with (Er e * (2 * w)) by ring. assert (0 <= Er e * (2 * w)) by (apply Rmult_le_pos; lra).
  assert (- (5 / 2) * Fl e <= Fl e * X') by (rewrite (Rmult_comm (Fl e)); apply Rmult_le_compat_r; lra).
  assert (Fl e * X' <= Fl e * 1) by (apply Rmult_le_compat_l; lra). split; apply Rmult_le_compat_l; lra.
Qed.

Lemma earth_error c1 c2 : -1 < dot (place c1) (place c2) < 1 ->
  exists th d, (0 <= th <= PI /\ cos th = ApproxAngularDistance c1 c2) /\ Distance Earth76 c1 c2 = Fin d /\
    Rabs (d - ApproxLinearDistance th) <= 3 / 400 * ApproxLinearDistance th.
Proof.
  intros H. destruct (sphere_error Earth76 c1 c2) as (th & d & Sp & Ed & B); [unfold Earth76; cbn [Er]; lra|unfold Earth76; cbn [Fl]; lra|exact H|].
  exists th, d. split; [rewrite Approx_ok; exact Sp|]. split; [exact Ed|]. destruct Sp as [T _]. unfold ApproxLinearDistance. unfold Earth76 in B. cbn [Er Fl] in B. apply Rabs_le. lra.
Qed.
