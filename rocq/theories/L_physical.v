(** Lemmas for mars, jupiter and saturnring. *)
From Coq Require Import ZArith Reals Lra Lia List Psatz.
From Flocq Require Import Core.
From Verif Require Import GoFloat GoMath S_Sphere S_precess S_solar S_physical M_base M_coord M_precess M_vsop M_light M_solar M_physical
  L_trig L_angle L_vec L_coord L_precess L_elements L_solar L_refraction L_parallactic.
Import ListNotations.
Local Open Scope R_scope.

(** ** Directions *)
Lemma hypot_nz x y : x <> 0 \/ y <> 0 -> 0 < x * x + y * y.
Proof. intros [H|H]; nra. Qed.
Lemma norm_pos x y z : x <> 0 \/ y <> 0 -> 0 < norm (mkvec x y z).
Proof. intros H. unfold norm, dot. cbn [vx vy vz]. apply sqrt_lt_R0. pose proof (hypot_nz x y H). nra. Qed.
Lemma norm_mul v : norm v * norm v = dot v v.
Proof. unfold norm. apply sqrt_sqrt. unfold dot. nra. Qed.
Lemma dir_rect x y z : x <> 0 \/ y <> 0 -> - (PI / 2) < atan (z / hypot x y) < PI / 2 /\ dir (atan2 y x) (atan (z / hypot x y)) = unit_of (mkvec x y z).
Proof.
  intros H. pose proof (atan_bound (z / hypot x y)) as A. split; [lra|].
  pose proof (hypot_gt0 x y H) as P. pose proof (hypot_sqr x y) as Q. destruct (atan2_spec x y H) as [C S].
  pose proof (norm_pos x y z H) as N. pose proof (norm_mul (mkvec x y z)) as N2. set (n := norm (mkvec x y z)) in *. unfold dot in N2. cbn [vx vy vz] in N2.
  set (h := hypot x y) in *. set (b := atan (z / h)) in *.
  assert (Cb : 0 < cos b) by (apply cos_gt_0; lra).
  assert (T : sin b = z / h * cos b). { pose proof (atan_right_inv (z / h)) as T. fold b in T. rewrite <- T at 1. unfold tan. field. lra. }
  assert (K : cos b * n = h).
  { assert (E : cos b * n * (cos b * n) = h * h).
    { pose proof (sc1 b) as S1. rewrite T in S1. transitivity (cos b * cos b * (n * n)); [ring|]. rewrite N2. rewrite <- Q.
      assert (E2 : h * h * 1 = h * h * (z / h * cos b * (z / h * cos b) + cos b * cos b)) by (rewrite S1; reflexivity).
      transitivity (cos b * cos b * (h * h + z * z)); [rewrite Q; ring|]. rewrite <- (Rmult_1_r (h * h)) at 2. rewrite E2. field. lra. }
    assert (F : (cos b * n - h) * (cos b * n + h) = 0) by lra. apply Rmult_integral in F. assert (0 < cos b * n) by (apply Rmult_lt_0_compat; assumption). lra. }
  unfold unit_of, dir, scale. cbn [vx vy vz]. fold n. apply mkvec_eq.
  - rewrite <- C at 2. rewrite <- K. field. lra.
  - rewrite <- S at 2. rewrite <- K. field. lra.
  - rewrite T, <- K. field. split; lra.
Qed.
Lemma app_opposite m v : app m (opposite v) = opposite (app m v).
Proof. unfold app, opposite, scale, dot. cbn [vx vy vz]. apply mkvec_eq; ring. Qed.
Lemma app_scale m c v : app m (scale c v) = scale c (app m v).
Proof. unfold app, scale, dot. cbn [vx vy vz]. apply mkvec_eq; ring. Qed.
Lemma norm_rot_x t v : norm (app (rot_x t) v) = norm v.
Proof.
  unfold norm. f_equal. destruct v as [x y z]. unfold app, rot_x, dot. cbn [r1 r2 r3 vx vy vz]. pose proof (sc1 t) as A.
  transitivity (x * x + (y * y + z * z) * (sin t * sin t + cos t * cos t)); [ring | rewrite A; ring].
Qed.
Lemma unit_rot_x t v : app (rot_x t) (unit_of v) = unit_of (app (rot_x t) v).
Proof. unfold unit_of. rewrite app_scale, norm_rot_x. reflexivity. Qed.

(** ** The three formulas *)
Lemma decl_range d0 d a0 a : - (PI / 2) <= decl d0 d a0 a <= PI / 2. Proof. apply asin_bound. Qed.
Lemma dot_dir d0 d a0 a : dot (dir a0 d0) (dir a d) = sin d0 * sin d + cos d0 * cos d * cos (a0 - a).
Proof. vecs. rewrite cos_minus. ring. Qed.
Lemma dot_dir_le u b v c : -1 <= dot (dir u b) (dir v c) <= 1.
Proof.
  rewrite dot_dir. pose proof (COS_bound (u - v)) as K. pose proof (sc1 b) as B. pose proof (sc1 c) as C.
  assert ((cos b * cos c) * (cos b * cos c) <= (1 - sin b * sin c) * (1 - sin b * sin c) ).
  { pose proof (Rle_0_sqr (sin b - sin c)) as Q. unfold Rsqr in Q. replace (cos b * cos c * (cos b * cos c)) with ((cos b * cos b) * (cos c * cos c)) by ring.
    replace (cos b * cos b) with (1 - sin b * sin b) by lra. replace (cos c * cos c) with (1 - sin c * sin c) by lra. lra. }
  assert ((cos b * cos c) * (cos b * cos c) <= (1 + sin b * sin c) * (1 + sin b * sin c) ).
  { pose proof (Rle_0_sqr (sin b + sin c)) as Q. unfold Rsqr in Q. replace (cos b * cos c * (cos b * cos c)) with ((cos b * cos b) * (cos c * cos c)) by ring.
    replace (cos b * cos b) with (1 - sin b * sin b) by lra. replace (cos c * cos c) with (1 - sin c * sin c) by lra. lra. }
  assert (S1 : -1 <= sin b * sin c <= 1). { pose proof (SIN_bound b). pose proof (SIN_bound c). nra. }
  assert (A1 : Rabs (cos b * cos c) <= 1 - sin b * sin c). { apply Rsqr_incr_0_var; [|lra]. rewrite <- Rsqr_abs. exact H. }
  assert (A2 : Rabs (cos b * cos c) <= 1 + sin b * sin c). { apply Rsqr_incr_0_var; [|lra]. rewrite <- Rsqr_abs. exact H0. }
  apply Rabs_le_inv in A1. apply Rabs_le_inv in A2.
  assert (Rabs (cos b * cos c * cos (u - v)) <= Rabs (cos b * cos c) * 1). { rewrite Rabs_mult. apply Rmult_le_compat_l; [apply Rabs_pos | apply Rabs_le, K]. }
  assert (Rabs (cos b * cos c) <= 1 - sin b * sin c) by (apply Rabs_le; lra). assert (Rabs (cos b * cos c) <= 1 + sin b * sin c) by (apply Rabs_le; lra).
  assert (W1 : Rabs (cos b * cos c * cos (u - v)) <= 1 - sin b * sin c) by lra. assert (W2 : Rabs (cos b * cos c * cos (u - v)) <= 1 + sin b * sin c) by lra.
  apply Rabs_le_inv in W1. apply Rabs_le_inv in W2. lra.
Qed.
Lemma decl_sin d0 d a0 a : sin (decl d0 d a0 a) = dot (dir a0 d0) (opposite (dir a d)).
Proof.
  unfold decl. rewrite sin_asin.
  - unfold opposite, scale. vecs. rewrite cos_minus. ring.
  - pose proof (dot_dir_le a0 d0 a d) as B. rewrite dot_dir in B. lra.
Qed.
Lemma equator_frame_coords a0 d0 a d : equator_frame a0 d0 (opposite (dir a d)) =
  mkvec (cos d * sin (a0 - a)) (sin d0 * cos d * cos (a0 - a) - sin d * cos d0) (- sin d0 * sin d - cos d0 * cos d * cos (a0 - a)).
Proof.
  unfold equator_frame, plane_frame, opposite, scale, rot_z. vecs.
  rewrite (cos_plus a0), (sin_plus a0), cos_PI2, sin_PI2, (sin_minus (PI / 2)), (cos_minus (PI / 2)), cos_PI2, sin_PI2, sin_minus, cos_minus. apply mkvec_eq; ring.
Qed.
Lemma center d0 d a0 a : equator_frame a0 d0 (opposite (dir a d)) = dir (zeta d0 d a0 a) (decl d0 d a0 a).
Proof.
  rewrite equator_frame_coords. symmetry. unfold zeta, decl. apply dir_unit_vec.
  - pose proof (sc1 d0) as D0. pose proof (sc1 d) as D. pose proof (sc1 (a0 - a)) as A. set (x := a0 - a) in *.
    transitivity (cos d * cos d * (sin x * sin x) + (sin d0 * sin d0 + cos d0 * cos d0) * (cos d * cos d * (cos x * cos x)) + (sin d0 * sin d0 + cos d0 * cos d0) * (sin d * sin d)); [ring|].
    rewrite D0. transitivity (cos d * cos d * (sin x * sin x + cos x * cos x) + sin d * sin d); [ring|]. rewrite A. lra.
  - intros H. split; reflexivity.
Qed.
Lemma dir_turn l l' b : same_angle l l' -> dir l b = dir l' b.
Proof. intros (k & ->). unfold dir. rewrite cos_Z, sin_Z. reflexivity. Qed.
(** A meridian that passed the node at the angle A: the longitude w is measured against rotation. *)
Lemma center_meridian d0 d a0 a A : let w := Mod1 (A - zeta d0 d a0 a) in
  0 <= w < 2 * PI /\ equator_frame a0 d0 (opposite (dir a d)) = dir (A - w) (decl d0 d a0 a).
Proof.
  cbv zeta. split; [apply Mod1_bound|]. rewrite center. apply dir_turn. destruct (Mod1_same (A - zeta d0 d a0 a)) as (k & ->). exists k. ring.
Qed.
Lemma pangle_value d0 d a0 a : (dot (dir a0 d0) (dir a d)) ^ 2 <> 1 -> - PI < pangle d0 d a0 a <= PI /\ position_angle a d (dir a0 d0) (pangle d0 d a0 a).
Proof.
  intros H. split; [apply atan2_bound|]. set (y := cos d0 * sin (a0 - a)). set (x := sin d0 * cos d - cos d0 * sin d * cos (a0 - a)).
  assert (E : x * x + y * y = 1 - (dot (dir a0 d0) (dir a d)) ^ 2).
  { rewrite dot_dir. unfold x, y. pose proof (sc1 d0) as D0. pose proof (sc1 d) as D. pose proof (sc1 (a0 - a)) as A. set (q := a0 - a) in *.
    replace (cos d0 * sin q * (cos d0 * sin q)) with (cos d0 * cos d0 * (sin q * sin q)) by ring. replace (sin q * sin q) with (1 - cos q * cos q) by lra.
    transitivity ((sin d0 * sin d0) * (cos d * cos d) - 2 * sin d0 * cos d * cos d0 * sin d * cos q + cos d0 * cos d0 * (1 - (1 - sin d * sin d) * (cos q * cos q))); [ring|].
    replace (1 - sin d * sin d) with (cos d * cos d) by lra. replace (sin d0 * sin d0) with (1 - cos d0 * cos d0) by lra. replace (cos d * cos d) with (1 - sin d * sin d) at 1 by lra.
    replace (((sin d0 * sin d + cos d0 * cos d * cos q)) ^ 2) with ((sin d0 * sin d0) * (sin d * sin d) + 2 * sin d0 * sin d * cos d0 * cos d * cos q + cos d0 * cos d0 * (cos d * cos d) * (cos q * cos q)) by ring.
    replace (sin d0 * sin d0) with (1 - cos d0 * cos d0) by lra. ring. }
  assert (N : x <> 0 \/ y <> 0). { destruct (Req_dec x 0) as [X|X]; [|left; exact X]. right. intros Y. apply H. rewrite X, Y in E. lra. }
  destruct (atan2_spec x y N) as [C S]. exists (hypot x y). split; [apply hypot_gt0, N|]. change (pangle d0 d a0 a) with (atan2 y x). rewrite C, S. unfold x, y. vecs. rewrite sin_minus, cos_minus. split; ring.
Qed.
Lemma position_angle_turn l b p s t : same_angle s t -> position_angle l b p t -> position_angle l b p s.
Proof. intros (k & ->) (r & Hr & A & B). exists r. rewrite cos_Z, sin_Z. auto. Qed.
Lemma positive_pangle d0 d a0 a : (dot (dir a0 d0) (dir a d)) ^ 2 <> 1 ->
  0 <= positive_turn (pangle d0 d a0 a) < 2 * PI /\ position_angle a d (dir a0 d0) (positive_turn (pangle d0 d a0 a)).
Proof.
  intros H. destruct (pangle_value d0 d a0 a H) as [B A]. assert (HP := PI_RGT_0). unfold positive_turn. case Rlt_bool_spec; intros L.
  - split; [lra|]. apply (position_angle_turn a d _ _ (pangle d0 d a0 a)); [exists 1%Z; lra | exact A].
  - split; [lra | exact A].
Qed.
(** Position angles only depend on directions. *)
Lemma EclToEq_equatorial lon lat eps a d : - (PI / 2) < lat < PI / 2 -> EclToEq lon lat (sin eps) (cos eps) = (a, d) -> equatorial_of lon lat eps a d.
Proof. intros H E. pose proof (EclToEq_dir lon lat eps H) as D. rewrite E in D. exact D. Qed.

(** ** Motion of the Earth and nutation *)
Lemma aberrated_moved l0 lam be dpsi : - (PI / 2) < be < PI / 2 -> let '(l, b) := aberrated l0 lam be dpsi in moved_by lam be (l - dpsi - lam) (b - be) (earth_motion l0).
Proof.
  intros H. pose proof (cos_pos_lat be H) as C. unfold aberrated. apply velocity_across; unfold earth_motion, scale, degrees, deg; vecs; rewrite (cos_plus l0), (sin_plus l0), cos_PI2, sin_PI2, cos_0, sin_0; decimals.
  - rewrite cos_minus. field. lra.
  - rewrite sin_minus. field.
Qed.
Lemma jup_aberr_moved l0 eps a d : 0 < cos d -> cos eps <> 0 -> let '(da, dd) := jup_aberr l0 eps a d in moved_by a d da dd (app (rot_x (- eps)) (earth_motion l0)).
Proof.
  intros C E. unfold jup_aberr. apply velocity_across; unfold earth_motion, scale, degrees, deg; vecs; rewrite (cos_plus l0), (sin_plus l0), cos_PI2, sin_PI2, cos_0, sin_0, cos_neg, sin_neg; decimals.
  - field. lra.
  - field. exact E.
Qed.
Lemma jup_nut_velocity dpsi deps eps a d : 0 < cos d -> let '(da, dd) := jup_nut dpsi deps eps a d in
  velocity a d da dd = vadd (scale dpsi (cross (app (rot_x (- eps)) (mkvec 0 0 1)) (dir a d))) (scale deps (cross (mkvec 1 0 0) (dir a d))).
Proof.
  intros C. unfold jup_nut. apply velocity_of; unfold vadd, scale; vecs; rewrite ?cos_neg, ?sin_neg.
  - ring.
  - pose proof (sc1 a) as A. transitivity ((cos eps * cos d + sin eps * sin a * sin d) * dpsi - cos a * sin d * deps); [field; lra|].
    transitivity (dpsi * (cos eps * cos d * (sin a * sin a + cos a * cos a) + sin eps * sin a * sin d) - deps * (cos a * sin d)); [rewrite A; ring | ring].
  - pose proof (sc1 d) as D. 
    transitivity (dpsi * (sin eps * cos a * (sin d * sin d + cos d * cos d)) + deps * (sin a * (sin d * sin d + cos d * cos d))); [rewrite D; ring | ring].
Qed.

(** ** Geocentric positions *)
Lemma geocentric_value earth planet jde D0 : let g := geocentric earth planet jde D0 in
  gvec g = vsub (scale (gr g) (dir (gl g) (gb g))) (evec (earth_place earth jde)) /\ gD g = norm (gvec g) /\
  exists D1 l1 b1, PlanetPosition planet (jde - LightTime D1) = (l1, b1, gr g) /\ ToFK5 l1 b1 jde = (gl g, gb g) /\
    exists l2 b2 r2 l3 b3, PlanetPosition planet (jde - LightTime D0) = (l2, b2, r2) /\ ToFK5 l2 b2 jde = (l3, b3) /\
      D1 = norm (vsub (scale r2 (dir l3 b3)) (evec (earth_place earth jde))).
Proof.
  cbv zeta. unfold geocentric. destruct (earth_place earth jde) as [[l0 b0] R0]. unfold pass.
  destruct (PlanetPosition planet (jde - LightTime D0)) as [[l2 b2] r2] eqn:E2. destruct (ToFK5 l2 b2 jde) as [l3 b3] eqn:E3. cbn [gD].
  set (D1 := sqrt _). destruct (PlanetPosition planet (jde - LightTime D1)) as [[l1 b1] r1] eqn:E1. destruct (ToFK5 l1 b1 jde) as [l b] eqn:E. cbn [gl gb gr gx gy gz gD].
  unfold gvec. cbn [gx gy gz]. split; [|split].
  - unfold vsub, vadd, scale, dir, evec. cbn [vx vy vz]. apply mkvec_eq; ring.
  - unfold norm, dot. cbn [vx vy vz]. reflexivity.
  - exists D1, l1, b1. repeat split; try assumption. exists l2, b2, r2, l3, b3. repeat split; try assumption.
    unfold D1, norm, dot, vsub, vadd, scale, dir, evec. cbn [vx vy vz]. f_equal. ring.
Qed.
Lemma cauchy_dir l b v : dot (dir l b) v * dot (dir l b) v <= dot v v.
Proof.
  assert (N : dot (dir l b) (dir l b) = 1). { vecs. pose proof (sc1 l) as L. pose proof (sc1 b) as B. transitivity (cos b * cos b * (sin l * sin l + cos l * cos l) + sin b * sin b); [ring | rewrite L; lra]. }
  destruct (dir l b) as [a c d]. destruct v as [x y z]. unfold dot in *. cbn [vx vy vz] in *.
  assert (E : (a * a + c * c + d * d) * (x * x + y * y + z * z) - (a * x + c * y + d * z) * (a * x + c * y + d * z) = (a * y - c * x) * (a * y - c * x) + (c * z - d * y) * (c * z - d * y) + (a * z - d * x) * (a * z - d * x)) by ring.
  rewrite N in E. pose proof (Rle_0_sqr (a * y - c * x)). pose proof (Rle_0_sqr (c * z - d * y)). pose proof (Rle_0_sqr (a * z - d * x)). unfold Rsqr in *. lra.
Qed.
Lemma fraction_range earth planet jde D0 : let g := geocentric earth planet jde D0 in let '(l0, b0, R0) := earth_place earth jde in
  0 < gr g -> 0 < gD g -> 0 <= R0 -> 0 <= Fraction (gr g) (gD g) R0 <= 1 + R0 ^ 2 * sin b0 ^ 2 / (4 * gr g * gD g).
Proof.
  cbv zeta. destruct (geocentric_value earth planet jde D0) as (V & N & _). set (g := geocentric earth planet jde D0) in *. destruct (earth_place earth jde) as [[l0 b0] R0]. intros Hr HD HR.
  pose proof (norm_mul (gvec g)) as NN. rewrite <- N in NN. pose proof (cauchy_dir (gl g) (gb g) (gvec g)) as CA. rewrite <- NN in CA.
  set (r := gr g) in *. set (D := gD g) in *. set (c := dot (dir (gl g) (gb g)) (gvec g)) in *.
  assert (BC : - D <= c <= D). { apply Rabs_le_inv. apply Rsqr_incr_0_var; [|lra]. rewrite <- Rsqr_abs. exact CA. }
  assert (EE : R0 * R0 * (1 + sin b0 ^ 2) = r * r - 2 * r * c + D * D).
  { assert (EV : evec (l0, b0, R0) = vsub (scale r (dir (gl g) (gb g))) (gvec g)). { rewrite V. unfold evec, vsub, vadd, scale, dir. cbn [vx vy vz]. apply mkvec_eq; ring. }
    assert (DD : dot (evec (l0, b0, R0)) (evec (l0, b0, R0)) = R0 * R0 * (1 + sin b0 ^ 2)). { unfold evec, dot. cbn [vx vy vz]. pose proof (sc1 l0) as L. transitivity (R0 * R0 * (sin l0 * sin l0 + cos l0 * cos l0 + sin b0 ^ 2)); [ring | rewrite L; reflexivity]. }
    rewrite <- DD, EV. rewrite NN. unfold c.
    assert (U : dot (dir (gl g) (gb g)) (dir (gl g) (gb g)) = 1). { vecs. pose proof (sc1 (gl g)) as L. pose proof (sc1 (gb g)) as B. transitivity (cos (gb g) * cos (gb g) * (sin (gl g) * sin (gl g) + cos (gl g) * cos (gl g)) + sin (gb g) * sin (gb g)); [ring | rewrite L; lra]. }
    clear -U. destruct (dir (gl g) (gb g)) as [a b d]. destruct (gvec g) as [x y z]. unfold dot, vsub, vadd, scale in *. cbn [vx vy vz] in *.
    transitivity (r * r * (a * a + b * b + d * d) - 2 * r * (a * x + b * y + d * z) + (x * x + y * y + z * z)); [ring | rewrite U; ring]. }
  assert (P : 0 < 4 * r * D) by nra. assert (Q : 0 <= R0 * R0 * sin b0 ^ 2) by (pose proof (pow2_ge_0 (sin b0)); nra).
  assert (W1 : - (r * D) <= r * c <= r * D) by nra.
  unfold Fraction. cbv zeta. split.
  - apply Rmult_le_pos; [nra | left; apply Rinv_0_lt_compat, P].
  - apply (Rmult_le_reg_r (4 * r * D)); [exact P|]. replace (((r + D) * (r + D) - R0 * R0) / (4 * r * D) * (4 * r * D)) with ((r + D) * (r + D) - R0 * R0) by (field; lra).
    replace ((1 + R0 ^ 2 * sin b0 ^ 2 / (4 * r * D)) * (4 * r * D)) with (4 * r * D + R0 * R0 * sin b0 ^ 2) by (field; lra). lra.
Qed.

(** ** Mars *)
Lemma rot_eq eps x y z : app (rot_x (- eps)) (mkvec x y z) = mkvec x (y * cos eps - z * sin eps) (y * sin eps + z * cos eps).
Proof. vecs. rewrite cos_neg, sin_neg. apply mkvec_eq; ring. Qed.
Lemma rot_x_dot t u v : dot (app (rot_x t) u) (app (rot_x t) v) = dot u v.
Proof.
  destruct u as [x y z]. destruct v as [x' y' z']. unfold app, rot_x, dot. cbn [r1 r2 r3 vx vy vz]. pose proof (sc1 t) as A.
  transitivity (x * x' + (y * y' + z * z') * (sin t * sin t + cos t * cos t)); [ring | rewrite A; ring].
Qed.
Lemma decl_eq d0 d a0 a e0 e b0 b : dot (dir a0 d0) (dir a d) = dot (dir b0 e0) (dir b e) -> decl d0 d a0 a = decl e0 e b0 b.
Proof. intros H. rewrite !dot_dir in H. unfold decl. f_equal. lra. Qed.

Lemma mars_center jde earth mars : let g := geocentric earth mars jde (5 / 10) in let eps := MeanObliquity jde in let T := (jde - 2451545) / 36525 in
  let w := app (rot_x (- eps)) (gvec g) in let m := MarsPhysical jde earth mars in
  - (PI / 2) < mars_beta0 T < PI / 2 -> gx g <> 0 \/ gy g <> 0 -> vx w <> 0 \/ vy w <> 0 ->
  exists a0 d0, equatorial_of (mars_lambda0 T) (mars_beta0 T) eps a0 d0 /\ 0 <= mOmega m < 2 * PI /\ - (PI / 2) <= mDE m <= PI / 2 /\
    equator_frame a0 d0 (opposite (unit_of w)) = dir (mars_W (jde - LightTime (gD g)) - mOmega m) (mDE m).
Proof.
  cbv zeta. unfold MarsPhysical. cbv zeta. rewrite century. set (T := (jde - 2451545) / 36525).
  destruct (earth_place earth jde) as [[l0 b0] R0]. set (g := geocentric earth mars jde (5 / 10)). destruct (mars_sun T (gl g) (gb g) (gr g)) as [l' b'].
  set (eps := MeanObliquity jde). intros HB HN HW. pose proof (EclToEq_dir (mars_lambda0 T) (mars_beta0 T) eps HB) as EQ. destruct (EclToEq (mars_lambda0 T) (mars_beta0 T) (sin eps) (cos eps)) as [a0 d0].
  destruct (Nutation jde) as [dpsi deps]. destruct (aberrated _ _ _ _) as [lam2 be2]. destruct (EclToEq (mars_lambda0 T + dpsi) _ _ _) as [a0' d0']. destruct (EclToEq lam2 be2 _ _) as [a' d'].
  cbn [mOmega mDE]. exists a0, d0. split; [exact EQ|]. unfold gvec in *. rewrite rot_eq in HW. rewrite rot_eq. cbn [vx vy] in HW.
  destruct (dir_rect (gx g) (gy g) (gz g) HN) as [Bb Db]. set (lam := atan2 (gy g) (gx g)) in *. set (be := atan (gz g / hypot (gx g) (gy g))) in *.
  set (u := gy g * cos eps - gz g * sin eps) in *. set (v := gy g * sin eps + gz g * cos eps) in *.
  destruct (dir_rect (gx g) u v HW) as [Bd Dd]. set (a := atan2 u (gx g)) in *. set (d := atan (v / hypot (gx g) u)) in *.
  rewrite <- Dd. destruct (center_meridian d0 d a0 a (mars_W (jde - LightTime (gD g)))) as [A1 A2].
  split; [exact A1|]. split; [apply decl_range|]. rewrite A2. f_equal. apply decl_eq.
  destruct EQ as (_ & _ & EQ). rewrite EQ, Dd, Db. assert (RW : mkvec (gx g) u v = app (rot_x (- eps)) (mkvec (gx g) (gy g) (gz g))) by (rewrite rot_eq; reflexivity).
  rewrite RW, <- unit_rot_x. apply rot_x_dot.
Qed.
Lemma mars_sun_declination jde earth mars : let g := geocentric earth mars jde (5 / 10) in let T := (jde - 2451545) / 36525 in let '(l, b) := mars_sun T (gl g) (gb g) (gr g) in
  let m := MarsPhysical jde earth mars in - (PI / 2) <= mDS m <= PI / 2 /\ sin (mDS m) = dot (dir (mars_lambda0 T) (mars_beta0 T)) (opposite (dir l b)).
Proof.
  cbv zeta. unfold MarsPhysical. cbv zeta. rewrite century. set (T := (jde - 2451545) / 36525). destruct (earth_place earth jde) as [[l0 b0] R0]. set (g := geocentric earth mars jde (5 / 10)). destruct (mars_sun T (gl g) (gb g) (gr g)) as [l' b'].
  destruct (EclToEq (mars_lambda0 T) _ _ _) as [a0 d0]. destruct (Nutation jde) as [dpsi deps]. destruct (aberrated _ _ _ _) as [lam2 be2]. destruct (EclToEq (mars_lambda0 T + dpsi) _ _ _) as [a0' d0']. destruct (EclToEq lam2 be2 _ _) as [a' d'].
  cbn [mDS]. split; [apply decl_range | apply decl_sin].
Qed.
Lemma positive_turn_range y x : 0 <= positive_turn (atan2 y x) < 2 * PI.
Proof. pose proof (atan2_bound y x). assert (HP := PI_RGT_0). unfold positive_turn. case Rlt_bool_spec; intros L; lra. Qed.
Lemma mars_pole jde earth mars : let g := geocentric earth mars jde (5 / 10) in let T := (jde - 2451545) / 36525 in let '(l0, _, _) := earth_place earth jde in
  let '(dpsi, deps) := Nutation jde in let eps := MeanObliquity jde + deps in let m := MarsPhysical jde earth mars in
  - (PI / 2) < mars_beta0 T < PI / 2 -> gx g <> 0 \/ gy g <> 0 ->
  exists lam be dl db, dir lam be = unit_of (gvec g) /\ - (PI / 2) < be < PI / 2 /\ moved_by lam be dl db (earth_motion l0) /\ 0 <= mP m < 2 * PI /\
    (- (PI / 2) < be + db < PI / 2 -> (dot (dir (mars_lambda0 T + dpsi) (mars_beta0 T)) (dir (lam + dl + dpsi) (be + db))) ^ 2 <> 1 ->
     exists a0 d0 a d, equatorial_of (mars_lambda0 T + dpsi) (mars_beta0 T) eps a0 d0 /\ equatorial_of (lam + dl + dpsi) (be + db) eps a d /\ position_angle a d (dir a0 d0) (mP m)).
Proof.
  cbv zeta. unfold MarsPhysical. cbv zeta. rewrite century. set (T := (jde - 2451545) / 36525). destruct (earth_place earth jde) as [[l0 b0] R0]. set (g := geocentric earth mars jde (5 / 10)). destruct (mars_sun T (gl g) (gb g) (gr g)) as [l' b'].
  destruct (EclToEq (mars_lambda0 T) (mars_beta0 T) (sin (MeanObliquity jde)) (cos (MeanObliquity jde))) as [a0m d0m]. destruct (Nutation jde) as [dpsi deps]. set (eps := MeanObliquity jde + deps). intros HB HN.
  destruct (dir_rect (gx g) (gy g) (gz g) HN) as [Bb Db]. set (lam := atan2 (gy g) (gx g)) in *. set (be := atan (gz g / hypot (gx g) (gy g))) in *.
  pose proof (aberrated_moved l0 lam be dpsi Bb) as AB. destruct (aberrated l0 lam be dpsi) as [lam2 be2].
  pose proof (EclToEq_dir (mars_lambda0 T + dpsi) (mars_beta0 T) eps HB) as EQ0. destruct (EclToEq (mars_lambda0 T + dpsi) _ _ _) as [a0 d0].
  pose proof (EclToEq_dir lam2 be2 eps) as EQ. destruct (EclToEq lam2 be2 _ _) as [a d]. cbn [mP].
  exists lam, be, (lam2 - dpsi - lam), (be2 - be). split; [exact Db|]. split; [exact Bb|]. split; [exact AB|]. split; [apply positive_turn_range|].
  replace (lam + (lam2 - dpsi - lam) + dpsi) with lam2 by ring. replace (be + (be2 - be)) with be2 by ring. intros B2 ND. specialize (EQ B2).
  exists a0, d0, a, d. split; [exact EQ0|]. split; [exact EQ|]. apply positive_pangle. destruct EQ0 as (_ & _ & ->). destruct EQ as (_ & _ & ->). rewrite rot_x_dot. exact ND.
Qed.
Lemma sun_dir eps s : dir (atan2 (cos eps * sin s) (cos s)) (asin (sin eps * sin s)) = app (rot_x (- eps)) (dir s 0).
Proof.
  unfold dir at 2. rewrite cos_0, sin_0, rot_eq. rewrite (dir_unit_vec (cos s) (cos eps * sin s) (sin eps * sin s) (atan2 (cos eps * sin s) (cos s))).
  - apply mkvec_eq; ring.
  - pose proof (sc1 eps) as E. pose proof (sc1 s) as K. transitivity (cos s * cos s + sin s * sin s * (sin eps * sin eps + cos eps * cos eps)); [ring | rewrite E; lra].
  - intros _. split; reflexivity.
Qed.
Lemma mars_defect jde earth mars : let g := geocentric earth mars jde (5 / 10) in let '(l0, b0, R0) := earth_place earth jde in
  let '(dpsi, deps) := Nutation jde in let eps0 := MeanObliquity jde in let eps := eps0 + deps in let w := app (rot_x (- eps0)) (gvec g) in
  let sun := app (rot_x (- eps)) (dir (l0 + PI) 0) in let m := MarsPhysical jde earth mars in vx w <> 0 \/ vy w <> 0 ->
  0 < mQ m <= 2 * PI /\ exists a d, dir a d = unit_of w /\ - (PI / 2) < d < PI / 2 /\ ((dot sun (dir a d)) ^ 2 <> 1 -> position_angle a d (opposite sun) (mQ m)).
Proof.
  cbv zeta. unfold MarsPhysical. cbv zeta. rewrite century. set (T := (jde - 2451545) / 36525). destruct (earth_place earth jde) as [[l0 b0] R0]. set (g := geocentric earth mars jde (5 / 10)). destruct (mars_sun T (gl g) (gb g) (gr g)) as [l' b'].
  destruct (EclToEq (mars_lambda0 T) (mars_beta0 T) (sin (MeanObliquity jde)) (cos (MeanObliquity jde))) as [a0m d0m]. destruct (Nutation jde) as [dpsi deps]. set (eps := MeanObliquity jde + deps). set (eps0 := MeanObliquity jde).
  destruct (aberrated _ _ _ _) as [lam2 be2]. destruct (EclToEq (mars_lambda0 T + dpsi) _ _ _) as [a0' d0']. destruct (EclToEq lam2 be2 _ _) as [a' d'].
  cbn [mQ]. unfold gvec. rewrite rot_eq. cbn [vx vy]. intros HW.
  set (u := gy g * cos eps0 - gz g * sin eps0) in *. set (v := gy g * sin eps0 + gz g * cos eps0) in *.
  destruct (dir_rect (gx g) u v HW) as [Bd Dd]. set (a := atan2 u (gx g)) in *. set (d := atan (v / hypot (gx g) u)) in *.
  set (ds := asin (sin eps * sin (l0 + PI))). set (as_ := atan2 (cos eps * sin (l0 + PI)) (cos (l0 + PI))).
  change (atan2 (cos ds * sin (as_ - a)) (sin ds * cos d - cos ds * sin d * cos (as_ - a))) with (pangle ds d as_ a).
  split. { pose proof (atan2_bound (cos ds * sin (as_ - a)) (sin ds * cos d - cos ds * sin d * cos (as_ - a))) as B. fold (pangle ds d as_ a) in B. lra. }
  exists a, d. split; [exact Dd|]. split; [exact Bd|]. rewrite <- sun_dir. fold as_ ds. intros ND.
  destruct (pangle_value ds d as_ a ND) as (_ & r & Hr & N & E). exists r. split; [exact Hr|]. destruct (pi_shift (pangle ds d as_ a)) as [-> ->].
  clear - N E. destruct (dir as_ ds) as [p q t]. unfold opposite, scale, dot in *. cbn [vx vy vz] in *. split; lra.
Qed.
Lemma mars_diameter jde earth mars : let g := geocentric earth mars jde (5 / 10) in let '(l0, b0, R0) := earth_place earth jde in let m := MarsPhysical jde earth mars in
  md m = arcsec 9.36 / gD g /\ mq m = md m * (1 - mk m) /\
  (0 < gr g -> 0 < gD g -> 0 <= R0 -> 0 <= mk m <= 1 + R0 ^ 2 * sin b0 ^ 2 / (4 * gr g * gD g)).
Proof.
  cbv zeta. pose proof (fraction_range earth mars jde (5 / 10)) as F. cbv zeta in F. unfold MarsPhysical. cbv zeta. rewrite century. set (T := (jde - 2451545) / 36525). destruct (earth_place earth jde) as [[l0 b0] R0]. set (g := geocentric earth mars jde (5 / 10)) in *. destruct (mars_sun T (gl g) (gb g) (gr g)) as [l' b'].
  destruct (EclToEq (mars_lambda0 T) (mars_beta0 T) (sin (MeanObliquity jde)) (cos (MeanObliquity jde))) as [a0m d0m]. destruct (Nutation jde) as [dpsi deps].
  destruct (aberrated _ _ _ _) as [lam2 be2]. destruct (EclToEq (mars_lambda0 T + dpsi) _ _ _) as [a0' d0']. destruct (EclToEq lam2 be2 _ _) as [a' d'].
  cbn [md mq mk]. split; [|split; [reflexivity | exact F]]. rewrite AngleFromSec_arcsec. decimals. reflexivity.
Qed.
