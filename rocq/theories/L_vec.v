(** Direction of a vector. *)
From Coq Require Import ZArith Reals Lra Psatz.
From Verif Require Import GoMath S_Sphere L_trig L_angle.
Local Open Scope R_scope.

Lemma dir_polar x y z : let D := sqrt (x * x + y * y + z * z) in 0 < D ->
  forall a, (x <> 0 \/ y <> 0 -> sin a = sin (atan2 y x) /\ cos a = cos (atan2 y x)) ->
  - (PI / 2) <= asin (z / D) <= PI / 2 /\ scale D (dir a (asin (z / D))) = mkvec x y z.
Proof.
  intros D HD a Ha. split; [apply asin_bound|].
  assert (D2 : D * D = x * x + y * y + z * z). { apply sqrt_sqrt. pose proof (Rle_0_sqr x). pose proof (Rle_0_sqr y). pose proof (Rle_0_sqr z). unfold Rsqr in *. lra. }
  pose proof (Rle_0_sqr x) as Sx. pose proof (Rle_0_sqr y) as Sy. pose proof (Rle_0_sqr z) as Sz. unfold Rsqr in Sx, Sy, Sz.
  assert (Ez : D * (z / D) = z) by (field; lra).
  assert (Bz : -1 <= z / D <= 1).
  { assert (- D <= z <= D) by (split; nra). clear D2. clearbody D. set (q := z / D) in *. clearbody q. split; nra. }
  pose proof (hypot_pos x y) as Hp. pose proof (hypot_sqr x y) as Hs.
  assert (Ec : D * cos (asin (z / D)) = hypot x y).
  { pose proof (asin_bound (z / D)) as B. pose proof (cos_nonneg_lat _ B) as C.
    pose proof (sc1 (asin (z / D))) as S. rewrite sin_asin in S by exact Bz. set (c := cos (asin (z / D))) in *.
    assert (Q : D * c * (D * c) = hypot x y * hypot x y).
    { rewrite Hs. transitivity (D * D * (c * c)); [ring|]. replace (c * c) with (1 - z / D * (z / D)) by lra.
      transitivity (D * D - D * (z / D) * (D * (z / D))); [ring|]. rewrite Ez, D2. ring. }
    assert (0 <= D * c) by (apply Rmult_le_pos; lra). nra. }
  unfold scale, dir. cbn [vx vy vz]. rewrite sin_asin by exact Bz. rewrite Ez, <- !Rmult_assoc, Ec.
  destruct (Req_dec x 0) as [Ex|Ex]; [destruct (Req_dec y 0) as [Ey|Ey]|].
  - assert (hypot x y = 0). { unfold hypot. rewrite Ex, Ey. replace (0 * 0 + 0 * 0) with 0 by ring. apply sqrt_0. }
    rewrite H, !Rmult_0_l, Ex, Ey. reflexivity.
  - destruct (Ha (or_intror Ey)) as [S C]. destruct (atan2_spec x y (or_intror Ey)) as [A B]. rewrite S, C, A, B. reflexivity.
  - destruct (Ha (or_introl Ex)) as [S C]. destruct (atan2_spec x y (or_introl Ex)) as [A B]. rewrite S, C, A, B. reflexivity.
Qed.

Lemma dir_RA x y z : let D := sqrt (x * x + y * y + z * z) in 0 < D ->
  scale D (dir (RAFromRad (atan2 y x)) (asin (z / D))) = mkvec x y z.
Proof. intros D HD. apply (dir_polar x y z HD). intros _. rewrite cos_RAFromRad, sin_RAFromRad. tauto. Qed.

(** A unit vector given by components. *)
Lemma dir_unit_vec x y z a : x * x + y * y + z * z = 1 ->
  (x <> 0 \/ y <> 0 -> sin a = sin (atan2 y x) /\ cos a = cos (atan2 y x)) -> dir a (asin z) = mkvec x y z.
Proof.
  intros H Ha. assert (D : sqrt (x * x + y * y + z * z) = 1) by (rewrite H; apply sqrt_1).
  destruct (dir_polar x y z ltac:(rewrite D; lra) a Ha) as [_ E]. rewrite D in E.
  replace (z / 1) with z in E by field. rewrite <- E. unfold scale, dir. cbn [vx vy vz]. f_equal; ring.
Qed.

(** Coordinates are determined by the vector. *)
Lemma dir_inj l1 b1 l2 b2 : - (PI / 2) < b1 < PI / 2 -> - (PI / 2) <= b2 <= PI / 2 -> dir l1 b1 = dir l2 b2 ->
  b1 = b2 /\ sin l1 = sin l2 /\ cos l1 = cos l2.
Proof.
  intros H1 H2 E. unfold dir in E. injection E as Ex Ey Ez.
  assert (b1 = b2). { rewrite <- (asin_sin b1), <- (asin_sin b2) by lra. rewrite Ez. reflexivity. }
  subst b2. split; [reflexivity|]. pose proof (cos_gt_0 b1 ltac:(lra) ltac:(lra)) as C.
  split; apply Rmult_eq_reg_l with (cos b1); lra.
Qed.
