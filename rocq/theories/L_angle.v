(** Lemmas for packages angle, line and circle. *)
From Coq Require Import ZArith Reals Bool List Lra Lia Psatz.
From Flocq Require Import Core.
From Verif Require Import GoInt GoFloat GoMath M_interp S_Sphere L_trig M_angle.
Import ListNotations.
Local Open Scope R_scope.

Lemma dot_dir l1 b1 l2 b2 : dot (dir l1 b1) (dir l2 b2) = sin b1 * sin b2 + cos b1 * cos b2 * cos (l1 - l2).
Proof. unfold dot, dir. cbn [vx vy vz]. rewrite cos_minus. ring. Qed.
Lemma dot_sym u v : dot u v = dot v u. Proof. unfold dot. ring. Qed.
Lemma dir_unit l b : dot (dir l b) (dir l b) = 1.
Proof. rewrite dot_dir. replace (l - l) with 0 by ring. rewrite cos_0. pose proof (sc1 b). lra. Qed.
Lemma lagrange_id u v : dot (cross u v) (cross u v) = dot u u * dot v v - dot u v * dot u v.
Proof. unfold dot, cross. cbn [vx vy vz]. ring. Qed.
Lemma dot_nonneg u : 0 <= dot u u.
Proof. unfold dot. pose proof (Rle_0_sqr (vx u)). pose proof (Rle_0_sqr (vy u)). pose proof (Rle_0_sqr (vz u)). unfold Rsqr in *. lra. Qed.
Lemma cauchy u v : dot u v * dot u v <= dot u u * dot v v.
Proof. pose proof (dot_nonneg (cross u v)). rewrite lagrange_id in H. lra. Qed.
Lemma dot_bound l1 b1 l2 b2 : -1 <= dot (dir l1 b1) (dir l2 b2) <= 1.
Proof.
  pose proof (cauchy (dir l1 b1) (dir l2 b2)) as C. rewrite !dir_unit in C. split; nra.
Qed.

Lemma separation_unique u v a b : separation u v a -> separation u v b -> a = b.
Proof. intros [A1 A2] [B1 B2]. apply cos_inj; [exact A1|exact B1|lra]. Qed.
Lemma separation_sym u v a : separation u v a -> separation v u a.
Proof. unfold separation. rewrite (dot_sym u v). tauto. Qed.

(** ** Sep *)
Lemma hav_dot r1 d1 r2 d2 : Hav (d2 - d1) + cos d1 * cos d2 * Hav (r2 - r1) = (1 - dot (dir r1 d1) (dir r2 d2)) / 2.
Proof.
  rewrite dot_dir. unfold Hav. rewrite (cos_minus d2 d1). replace (r2 - r1) with (- (r1 - r2)) by ring. rewrite cos_neg. lra.
Qed.
Lemma SepHav_sep r1 d1 r2 d2 : separation (dir r1 d1) (dir r2 d2) (SepHav r1 d1 r2 d2).
Proof.
  unfold SepHav. rewrite hav_dot. pose proof (dot_bound r1 d1 r2 d2) as B.
  set (k := dot _ _) in *. set (x := sqrt ((1 - k) / 2)).
  assert (X : 0 <= x <= 1). { split; [apply sqrt_pos|]. rewrite <- sqrt_1. apply sqrt_le_1; lra. }
  assert (X2 : x * x = (1 - k) / 2). { apply sqrt_sqrt. lra. }
  pose proof (asin_bound x) as A. pose proof (sin_asin x ltac:(lra)) as S. pose proof PI_RGT_0 as HP.
  assert (A0 : 0 <= asin x).
  { destruct (Rle_dec 0 (asin x)); [assumption|]. exfalso. assert (sin (asin x) < 0); [|lra].
    apply sin_lt_0_var; lra. }
  split; [lra|]. rewrite cos_2a_sin, S. fold k. lra.
Qed.
Lemma SepPauwels_sep r1 d1 r2 d2 : separation (dir r1 d1) (dir r2 d2) (SepPauwels r1 d1 r2 d2).
Proof.
  unfold SepPauwels. rewrite <- (cos_neg (r2 - r1)). replace (- (r2 - r1)) with (r1 - r2) by ring.
  rewrite <- dot_dir. set (k := dot _ _).
  set (x := cos d1 * sin d2 - sin d1 * cos d2 * cos (r1 - r2)). set (y := cos d2 * sin (r2 - r1)).
  assert (E : x * x + y * y + k * k = 1).
  { unfold x, y, k. rewrite dot_dir. replace (r2 - r1) with (- (r1 - r2)) by ring. rewrite sin_neg.
    pose proof (sc1 d1) as S1. pose proof (sc1 d2) as S2. pose proof (sc1 (r1 - r2)) as S3.
    set (s := sin (r1 - r2)) in *. set (c := cos (r1 - r2)) in *. set (s1 := sin d1) in *. set (c1 := cos d1) in *.
    set (s2 := sin d2) in *. set (c2 := cos d2) in *.
    transitivity ((s1 * s1 + c1 * c1) * (s2 * s2 + c2 * c2 * (c * c)) + c2 * c2 * (s * s)); [ring|].
    rewrite S1. transitivity (s2 * s2 + c2 * c2 * (s * s + c * c)); [ring|]. rewrite S3. lra. }
  assert (U : k * k + hypot x y * hypot x y = 1) by (rewrite hypot_sqr; lra).
  destruct (atan2_unit k (hypot x y) U) as [C S]. split; [|exact C].
  pose proof (atan2_bound (hypot x y) k) as B. pose proof (hypot_pos x y) as P.
  split; [|lra]. destruct (Rle_dec 0 (atan2 (hypot x y) k)); [assumption|]. exfalso.
  assert (sin (atan2 (hypot x y) k) < 0); [|lra]. apply sin_lt_0_var; lra.
Qed.
Lemma Sep_cos r1 d1 r2 d2 : dot (dir r1 d1) (dir r2 d2) < CosSmallAngle ->
  separation (dir r1 d1) (dir r2 d2) (Sep r1 d1 r2 d2).
Proof.
  intros H. unfold Sep. rewrite <- dot_dir. destruct (Rlt_dec _ _); [|lra].
  pose proof (dot_bound r1 d1 r2 d2) as B. split; [apply acos_bound|apply cos_acos, B].
Qed.
Lemma Sep_wrap : Sep 0 0 (2 * PI) 0 = 2 * PI /\ separation (dir 0 0) (dir (2 * PI) 0) 0.
Proof.
  pose proof PI_RGT_0 as HP. split.
  - unfold Sep. replace (0 - 2 * PI) with (- (2 * PI)) by ring.
    rewrite cos_neg, cos_2PI, sin_0, cos_0. destruct (Rlt_dec _ _) as [L|L].
    + exfalso. pose proof (COS_bound SmallAngle). unfold CosSmallAngle in L. lra.
    + unfold hypot. replace ((2 * PI - 0) * 1 * ((2 * PI - 0) * 1) + (0 - 0) * (0 - 0)) with (2 * PI * (2 * PI)) by ring.
      apply sqrt_square. lra.
  - split; [lra|]. rewrite dot_dir, cos_0, sin_0. replace (0 - 2 * PI) with (- (2 * PI)) by ring. rewrite cos_neg, cos_2PI. lra.
Qed.
Lemma CosSmall_lt : CosSmallAngle < 1.
Proof.
  unfold CosSmallAngle, SmallAngle, AngleFromMin. pose proof PI_RGT_0. rewrite <- cos_0. apply cos_decreasing_1; lra.
Qed.
Lemma dir_period l b k : dir (l + IZR k * (2 * PI)) b = dir l b.
Proof. unfold dir. rewrite cos_Z, sin_Z. reflexivity. Qed.

(** The small-angle branch uses the cosine of the first declination only. *)
Lemma Sep_asym : exists r1 d1 r2 d2, - (PI / 2) <= d1 <= PI / 2 /\ - (PI / 2) <= d2 <= PI / 2 /\
  Sep r1 d1 r2 d2 <> Sep r2 d2 r1 d1.
Proof.
  pose proof PI_RGT_0 as HP.
  set (s := SmallAngle / 2). set (e := PI / 2).
  exists 0, e, s, (e - s).
  assert (Hs : 0 < s /\ s < PI / 2 /\ s < SmallAngle /\ SmallAngle <= PI) by (unfold s, SmallAngle, AngleFromMin; lra).
  split; [unfold e; lra|]. split; [unfold e; lra|].
  assert (G : forall r1 r2, Rabs (r1 - r2) = s -> CosSmallAngle <= sin e * sin (e - s) + cos e * cos (e - s) * cos (r1 - r2)).
  { intros r1 r2 _. unfold e. rewrite cos_PI2, sin_PI2. rewrite sin_minus, cos_PI2, sin_PI2. 
    replace (1 * (1 * cos s - 0 * sin s) + 0 * cos (PI / 2 - s) * cos (r1 - r2)) with (cos s) by ring.
    unfold CosSmallAngle. apply Rlt_le, cos_decreasing_1; lra. }
  unfold Sep.
  pose proof (G 0 s ltac:(replace (0 - s) with (- s) by ring; rewrite Rabs_Ropp, Rabs_pos_eq; lra)) as G1.
  pose proof (G s 0 ltac:(rewrite Rminus_0_r, Rabs_pos_eq; lra)) as G2.
  destruct (Rlt_dec _ _) as [L|L]; [lra|]. clear L. destruct (Rlt_dec _ _) as [L|L].
  { exfalso. rewrite (Rmult_comm (sin (e - s))), (Rmult_comm (cos (e - s))) in L. lra. }
  clear L G G1 G2. unfold hypot. intros E. apply sqrt_inj in E.
  2,3: apply Rplus_le_le_0_compat; apply Rle_0_sqr.
  assert (C0 : cos e = 0) by apply cos_PI2.
  assert (C1 : cos (e - s) = sin s). { unfold e. rewrite cos_minus, cos_PI2, sin_PI2. ring. }
  rewrite C0, C1 in E.
  assert (0 < sin s) by (apply sin_gt_0; lra).
  assert (0 < s * sin s) by (apply Rmult_lt_0_compat; lra).
  assert (0 < (s * sin s) * (s * sin s)) by (apply Rmult_lt_0_compat; lra).
  replace ((s - 0) * 0 * ((s - 0) * 0) + (e - s - e) * (e - s - e)) with (s * s) in E by ring.
  replace ((0 - s) * sin s * ((0 - s) * sin s) + (e - (e - s)) * (e - (e - s))) with ((s * sin s) * (s * sin s) + s * s) in E by ring.
  lra.
Qed.

(** ** Relative position *)
Lemma rel_components r1 d1 r2 d2 : cos d1 <> 0 ->
  dot (dir r1 d1) (north r2 d2) = cos d1 * (cos d2 * tan d1 - sin d2 * cos (r2 - r1)) /\
  dot (dir r1 d1) (east r2 d2) = cos d1 * - sin (r2 - r1).
Proof.
  intros H. unfold dot, dir, north, east. cbn [vx vy vz]. unfold tan. rewrite cos_minus, sin_minus. split; [field; exact H|ring].
Qed.
Lemma rel_pos r1 d1 r2 d2 : 0 < cos d1 ->
  (cos d2 * tan d1 - sin d2 * cos (r2 - r1) <> 0 \/ sin (r2 - r1) <> 0) ->
  position_angle r2 d2 (dir r1 d1) (- RelativePosition r1 d1 r2 d2).
Proof.
  intros H N. destruct (rel_components r1 d1 r2 d2) as [A B]; [lra|].
  destruct (atan2_spec _ _ N) as [C D]. unfold RelativePosition.
  exists (cos d1 * hypot (cos d2 * tan d1 - sin d2 * cos (r2 - r1)) (sin (r2 - r1))).
  split; [apply Rmult_lt_0_compat; [exact H|apply hypot_gt0, N]|].
  rewrite cos_neg, sin_neg, A, B. split.
  - rewrite <- C at 1. ring.
  - rewrite <- D at 1. ring.
Qed.
Lemma position_angle_unique l b p s t : position_angle l b p s -> position_angle l b p t -> cos s = cos t /\ sin s = sin t.
Proof.
  intros [r [Hr [A B]]] [q [Hq [C D]]].
  assert (E1 : r * cos s = q * cos t) by lra. assert (E2 : r * sin s = q * sin t) by lra.
  pose proof (sc1 s) as S1. pose proof (sc1 t) as S2.
  assert (Q : r * r = q * q).
  { transitivity (r * r * (sin s * sin s + cos s * cos s)); [rewrite S1; ring|].
    transitivity ((r * sin s) * (r * sin s) + (r * cos s) * (r * cos s)); [ring|].
    rewrite E1, E2. transitivity (q * q * (sin t * sin t + cos t * cos t)); [ring|rewrite S2; ring]. }
  assert (r = q). { assert ((r - q) * (r + q) = 0) by lra. apply Rmult_integral in H. lra. }
  subst q. split; apply Rmult_eq_reg_l with r; lra.
Qed.
Lemma rel_refuted : position_angle 0 0 (dir (PI / 4) 0) (PI / 2) /\ RelativePosition (PI / 4) 0 0 0 = - (PI / 2).
Proof.
  pose proof PI_RGT_0 as HP. split.
  - exists (sin (PI / 4)). split; [apply sin_gt_0; lra|].
    unfold dot, dir, north, east. cbn [vx vy vz]. rewrite cos_0, sin_0, cos_PI2, sin_PI2. lra.
  - unfold RelativePosition. rewrite tan_0, sin_0, cos_0.
    replace (1 * 0 - 0 * cos (0 - PI / 4)) with 0 by ring.
    replace (0 - PI / 4) with (- (PI / 4)) by ring. rewrite sin_neg.
    assert (0 < sin (PI / 4)) by (apply sin_gt_0; lra).
    unfold atan2. repeat (destruct (Rlt_dec _ _); try lra).
Qed.

(** ** line.Time *)
Lemma gc_det r1 d1 r2 d2 r3 d3 : cos d1 <> 0 -> cos d2 <> 0 -> cos d3 <> 0 ->
  dot (cross (dir r1 d1) (dir r2 d2)) (dir r3 d3) = - (cos d1 * cos d2 * cos d3) * Time_gc r1 d1 r2 d2 r3 d3.
Proof.
  intros. unfold Time_gc, dot, cross, dir, tan. cbn [vx vy vz]. rewrite !sin_minus. field. tauto.
Qed.

(** ** line.Angle *)
Lemma Angle_cos r1 d1 r2 d2 r3 d3 : 0 < cos d1 -> 0 < cos d3 ->
  let p1 := dir r1 d1 in let p2 := dir r2 d2 in let p3 := dir r3 d3 in
  cross p2 p1 <> vzero -> cross p2 p3 <> vzero ->
  cos (Angle r1 d1 r2 d2 r3 d3) * (norm (cross p2 p1) * norm (cross p2 p3)) = dot (cross p2 p1) (cross p2 p3) /\
  sin (Angle r1 d1 r2 d2 r3 d3) * (norm (cross p2 p1) * norm (cross p2 p3)) = dot p2 (cross p3 p1).
Proof.
  intros H1 H3 p1 p2 p3 N1 N3.
  set (x1 := cos d2 * tan d1 - sin d2 * cos (r2 - r1)). set (y1 := sin (r2 - r1)).
  set (x3 := cos d2 * tan d3 - sin d2 * cos (r3 - r2)). set (y3 := sin (r3 - r2)).
  assert (Q1 : dot (cross p2 p1) (cross p2 p1) = cos d1 * cos d1 * (x1 * x1 + y1 * y1)).
  { rewrite lagrange_id. unfold p1, p2. rewrite !dir_unit, dot_dir. unfold x1, y1, tan.
    pose proof (sc1 d1) as S1. pose proof (sc1 d2) as S2. pose proof (sc1 (r2 - r1)) as S3.
    set (s := sin (r2 - r1)) in *. set (c := cos (r2 - r1)) in *. set (s1 := sin d1) in *. set (c1 := cos d1) in *.
    set (s2 := sin d2) in *. set (c2 := cos d2) in *.
    transitivity ((c2 * s1 - s2 * c * c1) * (c2 * s1 - s2 * c * c1) + c1 * c1 * (s * s)); [|field; lra].
    transitivity ((s1 * s1 + c1 * c1) * (s2 * s2 + c2 * c2) - (s2 * s1 + c2 * c1 * c) * (s2 * s1 + c2 * c1 * c)); [rewrite S1, S2; ring|].
    transitivity (c2 * c2 * (s1 * s1) + s2 * s2 * (c1 * c1) + c2 * c2 * (c1 * c1) - 2 * (s2 * s1 * c2 * c1 * c) - c2 * c2 * (c1 * c1) * (c * c)); [ring|].
    transitivity (c2 * c2 * (s1 * s1) + s2 * s2 * (c1 * c1) * (s * s + c * c) + c2 * c2 * (c1 * c1) * (s * s + c * c) - 2 * (s2 * s1 * c2 * c1 * c) - c2 * c2 * (c1 * c1) * (c * c)); [rewrite S3; ring|].
    transitivity (c2 * c2 * (s1 * s1) + s2 * s2 * (c1 * c1) * (c * c) - 2 * (s2 * s1 * c2 * c1 * c) + c1 * c1 * (s * s) * (s2 * s2 + c2 * c2)); [ring|].
    rewrite S2. ring. }
  assert (Q3 : dot (cross p2 p3) (cross p2 p3) = cos d3 * cos d3 * (x3 * x3 + y3 * y3)).
  { rewrite lagrange_id. unfold p3, p2. rewrite !dir_unit, dot_dir. unfold x3, y3, tan.
    replace (r2 - r3) with (- (r3 - r2)) by ring. rewrite cos_neg.
    pose proof (sc1 d3) as S1. pose proof (sc1 d2) as S2. pose proof (sc1 (r3 - r2)) as S3.
    set (s := sin (r3 - r2)) in *. set (c := cos (r3 - r2)) in *. set (s1 := sin d3) in *. set (c1 := cos d3) in *.
    set (s2 := sin d2) in *. set (c2 := cos d2) in *.
    transitivity ((c2 * s1 - s2 * c * c1) * (c2 * s1 - s2 * c * c1) + c1 * c1 * (s * s)); [|field; lra].
    transitivity ((s1 * s1 + c1 * c1) * (s2 * s2 + c2 * c2) - (s2 * s1 + c2 * c1 * c) * (s2 * s1 + c2 * c1 * c)); [rewrite S1, S2; ring|].
    transitivity (c2 * c2 * (s1 * s1) + s2 * s2 * (c1 * c1) + c2 * c2 * (c1 * c1) - 2 * (s2 * s1 * c2 * c1 * c) - c2 * c2 * (c1 * c1) * (c * c)); [ring|].
    transitivity (c2 * c2 * (s1 * s1) + s2 * s2 * (c1 * c1) * (s * s + c * c) + c2 * c2 * (c1 * c1) * (s * s + c * c) - 2 * (s2 * s1 * c2 * c1 * c) - c2 * c2 * (c1 * c1) * (c * c)); [rewrite S3; ring|].
    transitivity (c2 * c2 * (s1 * s1) + s2 * s2 * (c1 * c1) * (c * c) - 2 * (s2 * s1 * c2 * c1 * c) + c1 * c1 * (s * s) * (s2 * s2 + c2 * c2)); [ring|].
    rewrite S2. ring. }
  assert (Z : forall u, u <> vzero -> 0 < dot u u).
  { intros [a b c] Hu. unfold dot. cbn [vx vy vz].
    pose proof (Rle_0_sqr a) as A. pose proof (Rle_0_sqr b) as B. pose proof (Rle_0_sqr c) as C. unfold Rsqr in *.
    destruct (Rtotal_order 0 (a * a + b * b + c * c)) as [L|[L|L]]; [exact L| |lra].
    exfalso. apply Hu. unfold vzero.
    assert (a = 0) by (apply Rsqr_0_uniq; unfold Rsqr; lra). assert (b = 0) by (apply Rsqr_0_uniq; unfold Rsqr; lra).
    assert (c = 0) by (apply Rsqr_0_uniq; unfold Rsqr; lra). subst. reflexivity. }
  pose proof (Z _ N1) as Z1. pose proof (Z _ N3) as Z3. rewrite Q1 in Z1. rewrite Q3 in Z3.
  assert (P1 : 0 < x1 * x1 + y1 * y1).
  { apply Rmult_lt_reg_l with (cos d1 * cos d1); [apply Rmult_lt_0_compat; lra|lra]. }
  assert (P3 : 0 < x3 * x3 + y3 * y3).
  { apply Rmult_lt_reg_l with (cos d3 * cos d3); [apply Rmult_lt_0_compat; lra|lra]. }
  assert (M1 : x1 <> 0 \/ y1 <> 0). { destruct (Req_dec x1 0) as [E|E]; [|left; exact E]. right. intros K. rewrite E, K in P1. lra. }
  assert (M3 : x3 <> 0 \/ y3 <> 0). { destruct (Req_dec x3 0) as [E|E]; [|left; exact E]. right. intros K. rewrite E, K in P3. lra. }
  destruct (atan2_spec x1 y1 M1) as [A1 B1]. destruct (atan2_spec x3 y3 M3) as [A3 B3].
  assert (E1 : norm (cross p2 p1) = cos d1 * hypot x1 y1).
  { unfold norm, hypot. rewrite Q1, sqrt_mult, sqrt_square; try lra. apply Rmult_le_pos; lra. }
  assert (E3 : norm (cross p2 p3) = cos d3 * hypot x3 y3).
  { unfold norm, hypot. rewrite Q3, sqrt_mult, sqrt_square; try lra. apply Rmult_le_pos; lra. }
  unfold Angle. fold x1 y1 x3 y3. rewrite E1, E3, cos_plus, sin_plus.
  set (h1 := hypot x1 y1) in *. set (h3 := hypot x3 y3) in *.
  set (c1 := cos (atan2 y1 x1)) in *. set (s1 := sin (atan2 y1 x1)) in *.
  set (c3 := cos (atan2 y3 x3)) in *. set (s3 := sin (atan2 y3 x3)) in *.
  split.
  - transitivity (cos d1 * cos d3 * ((h1 * c1) * (h3 * c3) - (h1 * s1) * (h3 * s3))); [ring|].
    rewrite A1, A3, B1, B3.
    assert (Ex : dot (cross p2 p1) (cross p2 p3) = dot p2 p2 * dot p1 p3 - dot p2 p3 * dot p1 p2).
    { unfold dot, cross. cbn [vx vy vz]. ring. }
    rewrite Ex. unfold p1, p2, p3. rewrite dir_unit, !dot_dir. unfold x1, x3, y1, y3, tan.
    replace (r1 - r3) with (- (r2 - r1) - (r3 - r2)) by ring. replace (r2 - r3) with (- (r3 - r2)) by ring.
    replace (r1 - r2) with (- (r2 - r1)) by ring. rewrite (cos_minus (- (r2 - r1)) (r3 - r2)), !cos_neg, sin_neg.
    pose proof (sc1 d2) as S2.
    set (sa := sin (r2 - r1)). set (ca := cos (r2 - r1)). set (sb := sin (r3 - r2)). set (cb := cos (r3 - r2)).
    set (u1 := sin d1) in *. set (v1 := cos d1) in *. set (u2 := sin d2) in *. set (v2 := cos d2) in *. set (u3 := sin d3) in *. set (v3 := cos d3) in *.
    transitivity ((v2 * u1 - u2 * ca * v1) * (v2 * u3 - u2 * cb * v3) - v1 * v3 * (sa * sb)); [field; lra|].
    transitivity ((u2 * u2 + v2 * v2) * (u1 * u3 + v1 * v3 * (ca * cb + - sa * sb)) - (u2 * u3 + v2 * v3 * cb) * (u1 * u2 + v1 * v2 * ca)); [|rewrite S2; ring].
    transitivity ((v2 * u1 - u2 * ca * v1) * (v2 * u3 - u2 * cb * v3) - (u2 * u2 + v2 * v2) * (v1 * v3 * (sa * sb))); [rewrite S2; ring|]. ring.
  - transitivity (cos d1 * cos d3 * ((h1 * s1) * (h3 * c3) + (h1 * c1) * (h3 * s3))); [ring|].
    rewrite A1, A3, B1, B3. unfold p1, p2, p3, x1, x3, y1, y3, tan, dot, cross, dir. cbn [vx vy vz].
    rewrite !sin_minus, !cos_minus. pose proof (sc1 r2) as S2.
    set (sa := sin r1). set (ca := cos r1). set (sb := sin r2) in *. set (cb := cos r2) in *. set (sg := sin r3). set (cg := cos r3).
    set (u1 := sin d1) in *. set (v1 := cos d1) in *. set (u2 := sin d2) in *. set (v2 := cos d2) in *. set (u3 := sin d3) in *. set (v3 := cos d3) in *.
    transitivity (v1 * (sb * ca - cb * sa) * (v2 * u3 - u2 * (cg * cb + sg * sb) * v3) + (v2 * u1 - u2 * (cb * ca + sb * sa) * v1) * v3 * (sg * cb - cg * sb)); [field; lra|].
    transitivity (v2 * (v1 * (sb * ca - cb * sa) * u3 + u1 * v3 * (sg * cb - cg * sb)) - u2 * v1 * v3 * (sg * ca - cg * sa) * (sb * sb + cb * cb)); [ring|].
    rewrite S2. ring.
Qed.

(** ** line.Error *)
Lemma norm_sqr u : norm u * norm u = dot u u. Proof. apply sqrt_sqrt, dot_nonneg. Qed.
Lemma norm_pos u : u <> vzero -> 0 < norm u.
Proof.
  intros H. pose proof (sqrt_pos (dot u u)) as P. fold (norm u) in P. destruct P as [P|P]; [exact P|].
  exfalso. apply H. pose proof (norm_sqr u) as Q. rewrite <- P in Q. destruct u as [a b c]. unfold dot in Q. cbn [vx vy vz] in Q.
  pose proof (Rle_0_sqr a) as A. pose proof (Rle_0_sqr b) as B. pose proof (Rle_0_sqr c) as C. unfold Rsqr in *.
  assert (a = 0) by (apply Rsqr_0_uniq; unfold Rsqr; lra). assert (b = 0) by (apply Rsqr_0_uniq; unfold Rsqr; lra).
  assert (c = 0) by (apply Rsqr_0_uniq; unfold Rsqr; lra). subst. reflexivity.
Qed.
Lemma abs_le_of_sqr x y : 0 <= y -> x * x <= y * y -> - y <= x <= y.
Proof. intros. split; nra. Qed.
Lemma ratio_bound u v : u <> vzero -> v <> vzero -> -1 <= dot u v / (norm u * norm v) <= 1.
Proof.
  intros Hu Hv. pose proof (norm_pos u Hu). pose proof (norm_pos v Hv). pose proof (cauchy u v) as C.
  rewrite <- !norm_sqr in C. assert (P : 0 < norm u * norm v) by (apply Rmult_lt_0_compat; lra).
  set (k := norm u * norm v) in *.
  assert (B : - k <= dot u v <= k). { apply abs_le_of_sqr; [lra|]. unfold k. lra. }
  split; apply Rmult_le_reg_r with k; try lra; unfold Rdiv; rewrite Rmult_assoc, Rinv_l; lra.
Qed.

Lemma Error_dist r1 d1 r2 d2 r0 d0 : cos r0 <> 0 -> 0 < cos d0 -> cross (dir r1 d1) (dir r2 d2) <> vzero ->
  distance_to_circle (dir r1 d1) (dir r2 d2) (dir r0 d0) (Rabs (Error r1 d1 r2 d2 r0 d0)) /\
  sin (Error r1 d1 r2 d2 r0 d0) * norm (cross (dir r1 d1) (dir r2 d2)) =
    (if Rlt_dec 0 (cos r0) then 1 else -1) * dot (cross (dir r1 d1) (dir r2 d2)) (dir r0 d0).
Proof.
  intros Hr Hd HN. set (N := cross (dir r1 d1) (dir r2 d2)) in *. set (p := dir r0 d0).
  pose proof (norm_pos N HN) as PN. pose proof PI_RGT_0 as HP.
  set (k := cos d0 * cos r0). set (sg := if Rlt_dec 0 (cos r0) then 1 else -1).
  assert (Hk : k <> 0) by (apply Rmult_integral_contrapositive; lra).
  assert (Sg : sg * sg = 1 /\ Rabs k = sg * k).
  { unfold sg, k. destruct (Rlt_dec 0 (cos r0)).
    - rewrite Rabs_pos_eq; [lra|]. apply Rmult_le_pos; lra.
    - rewrite Rabs_left; [lra|]. assert (0 < cos d0 * - cos r0) by (apply Rmult_lt_0_compat; lra). lra. }
  destruct Sg as [Sg1 Sg2].
  assert (Earg : Error r1 d1 r2 d2 r0 d0 = asin (sg * dot N p / norm N)).
  { unfold Error. f_equal. fold (dir r1 d1).
    assert (Q : sqrt (1 + tan r0 * tan r0 + tan d0 / cos r0 * (tan d0 / cos r0)) = / Rabs k).
    { apply sqrt_lem_1.
      - pose proof (Rle_0_sqr (tan r0)). pose proof (Rle_0_sqr (tan d0 / cos r0)). unfold Rsqr in *. lra.
      - apply Rlt_le, Rinv_0_lt_compat, Rabs_pos_lt, Hk.
      - rewrite <- Rinv_mult, <- Rabs_mult, Rabs_pos_eq by apply Rle_0_sqr. unfold k, tan.
        apply Rmult_eq_reg_l with (cos d0 * cos r0 * (cos d0 * cos r0)); [|apply Rmult_integral_contrapositive; split; exact Hk].
        rewrite Rinv_r by (apply Rmult_integral_contrapositive; split; exact Hk).
        pose proof (sc1 d0) as S1. pose proof (sc1 r0) as S2.
        transitivity (cos d0 * cos d0 * (sin r0 * sin r0 + cos r0 * cos r0) + sin d0 * sin d0); [rewrite S2; lra|]. field. lra. }
    rewrite Q. match goal with |- ?n / (?a * / _) = _ => change a with (norm N); set (num := n) end.
    assert (En : k * num = dot N p).
    { unfold num, k, N, dot, cross, p, dir, tan. cbn [vx vy vz]. field. lra. }
    rewrite <- En, Sg2. clearbody num. field. repeat split; try lra. intros E. rewrite E in Sg1. lra. }
  assert (Bp : -1 <= sg * dot N p / norm N <= 1).
  { pose proof (ratio_bound N p HN) as B. assert (Pn : norm p = 1) by (unfold norm, p; rewrite dir_unit; apply sqrt_1).
    rewrite Pn, Rmult_1_r in B. assert (p <> vzero).
    { intros E. pose proof (dir_unit r0 d0) as U. fold p in U. rewrite E in U. unfold dot, vzero in U. cbn [vx vy vz] in U. lra. }
    specialize (B H). unfold sg. destruct (Rlt_dec 0 (cos r0)); unfold Rdiv in *; lra. }
  pose proof (asin_bound (sg * dot N p / norm N)) as Bd. pose proof (sin_asin _ Bp) as Sn. rewrite <- Earg in Bd, Sn.
  assert (E2 : sin (Error r1 d1 r2 d2 r0 d0) * norm N = sg * dot N p) by (rewrite Sn; field; lra).
  split; [|exact E2]. split.
  - split; [apply Rabs_pos|apply Rabs_le; lra].
  - fold N p. set (E := Error r1 d1 r2 d2 r0 d0) in *.
    assert (Sa : sin (Rabs E) = Rabs (sin E)).
    { unfold Rabs at 1. destruct (Rcase_abs E) as [L|L].
      - rewrite sin_neg, Rabs_left; [reflexivity|]. apply sin_lt_0_var; lra.
      - rewrite Rabs_pos_eq; [reflexivity|]. apply sin_ge_0; lra. }
    rewrite Sa, <- (Rabs_pos_eq (norm N)) by lra. rewrite <- Rabs_mult, E2, Rabs_mult.
    replace (Rabs sg) with 1; [ring|]. unfold sg. destruct (Rlt_dec 0 (cos r0)); [rewrite Rabs_pos_eq; lra|rewrite Rabs_left; lra].
Qed.

Lemma AngleError_spec r1 d1 r2 d2 r3 d3 :
  let p1 := dir r1 d1 in let p2 := dir r2 d2 in let p3 := dir r3 d3 in
  cross p1 p2 <> vzero -> cross p2 p3 <> vzero -> cross p1 p3 <> vzero ->
  let '(psi, omega) := AngleError r1 d1 r2 d2 r3 d3 in
  0 <= psi <= PI /\ cos psi * (norm (cross p1 p2) * norm (cross p2 p3)) = dot (cross p1 p2) (cross p2 p3) /\
  distance_to_circle p1 p3 p2 (Rabs omega) /\ sin omega * norm (cross p1 p3) = dot (cross p1 p3) p2.
Proof.
  intros p1 p2 p3 H1 H2 H3. unfold AngleError.
  assert (C12 : cross p1 p2 = mkvec (cos d1 * sin r1 * sin d2 - cos d2 * sin r2 * sin d1)
     (sin d1 * (cos d2 * cos r2) - sin d2 * (cos d1 * cos r1)) (cos d1 * cos r1 * (cos d2 * sin r2) - cos d2 * cos r2 * (cos d1 * sin r1))).
  { unfold cross, p1, p2, dir. cbn [vx vy vz]. f_equal; ring. }
  assert (C23 : cross p2 p3 = mkvec (cos d2 * sin r2 * sin d3 - cos d3 * sin r3 * sin d2)
     (sin d2 * (cos d3 * cos r3) - sin d3 * (cos d2 * cos r2)) (cos d2 * cos r2 * (cos d3 * sin r3) - cos d3 * cos r3 * (cos d2 * sin r2))).
  { unfold cross, p3, p2, dir. cbn [vx vy vz]. f_equal; ring. }
  assert (C13 : cross p1 p3 = mkvec (cos d1 * sin r1 * sin d3 - cos d3 * sin r3 * sin d1)
     (sin d1 * (cos d3 * cos r3) - sin d3 * (cos d1 * cos r1)) (cos d1 * cos r1 * (cos d3 * sin r3) - cos d3 * cos r3 * (cos d1 * sin r1))).
  { unfold cross, p3, p1, dir. cbn [vx vy vz]. f_equal; ring. }
  pose proof (ratio_bound _ _ H1 H2) as B1. pose proof (norm_pos _ H1) as N1. pose proof (norm_pos _ H2) as N2. pose proof (norm_pos _ H3) as N3.
  assert (Up : norm p2 = 1) by (unfold norm, p2; rewrite dir_unit; apply sqrt_1).
  assert (Z2 : p2 <> vzero).
  { intros E. pose proof (dir_unit r2 d2) as U. fold p2 in U. rewrite E in U. unfold dot, vzero in U. cbn [vx vy vz] in U. lra. }
  pose proof (ratio_bound _ _ H3 Z2) as B2. rewrite Up, Rmult_1_r in B2.
  set (psi := acos _). set (om := asin _).
  assert (Epsi : psi = acos (dot (cross p1 p2) (cross p2 p3) / (norm (cross p1 p2) * norm (cross p2 p3)))).
  { rewrite C12, C23. reflexivity. }
  assert (Eom : om = asin (dot (cross p1 p3) p2 / norm (cross p1 p3))).
  { unfold om. f_equal. apply f_equal2.
    - rewrite C13. unfold dot, p2, dir. cbn [vx vy vz]. ring.
    - f_equal. transitivity (norm p2 * norm (cross p1 p3)); [rewrite C13; reflexivity|rewrite Up; ring]. }
  rewrite Epsi, Eom. clearbody psi om. clear Epsi Eom psi om C12 C23 C13.
  split; [apply acos_bound|]. split; [rewrite cos_acos by exact B1; field; lra|].
  set (x := dot (cross p1 p3) p2 / norm (cross p1 p3)) in *.
  pose proof (asin_bound x) as Bd. pose proof (sin_asin x B2) as Sx.
  assert (E2 : sin (asin x) * norm (cross p1 p3) = dot (cross p1 p3) p2) by (rewrite Sx; unfold x; field; lra).
  split; [|exact E2]. split; [split; [apply Rabs_pos|apply Rabs_le; lra]|].
  pose proof PI_RGT_0 as HP.
  assert (Sa : sin (Rabs (asin x)) = Rabs (sin (asin x))).
  { unfold Rabs at 1. destruct (Rcase_abs (asin x)) as [L|L].
    - rewrite sin_neg, Rabs_left; [reflexivity|]. apply sin_lt_0_var; lra.
    - rewrite Rabs_pos_eq; [reflexivity|]. apply sin_ge_0; lra. }
  rewrite Sa, <- (Rabs_pos_eq (norm (cross p1 p3))) by lra. rewrite <- Rabs_mult, E2. reflexivity.
Qed.

(** ** Corollaries for the property theorems *)
Lemma Sep_partial r1 d1 r2 d2 : dot (dir r1 d1) (dir r2 d2) < cos (10 * (PI / 180 / 60)) ->
  separation (dir r1 d1) (dir r2 d2) (Sep r1 d1 r2 d2).
Proof. intros H. apply Sep_cos. unfold CosSmallAngle, SmallAngle, AngleFromMin. replace (10 * (PI / 180) / 60) with (10 * (PI / 180 / 60)) by field. exact H. Qed.
Lemma seps_sym r1 d1 r2 d2 :
  SepHav r1 d1 r2 d2 = SepHav r2 d2 r1 d1 /\ SepPauwels r1 d1 r2 d2 = SepPauwels r2 d2 r1 d1.
Proof.
  split; eapply separation_unique; try apply SepHav_sep; try apply SepPauwels_sep; apply separation_sym; (apply SepHav_sep || apply SepPauwels_sep).
Qed.
Lemma seps_turns r1 d1 r2 d2 k1 k2 :
  SepHav (r1 + IZR k1 * (2 * PI)) d1 (r2 + IZR k2 * (2 * PI)) d2 = SepHav r1 d1 r2 d2 /\
  SepPauwels (r1 + IZR k1 * (2 * PI)) d1 (r2 + IZR k2 * (2 * PI)) d2 = SepPauwels r1 d1 r2 d2.
Proof.
  split; [pose proof (SepHav_sep (r1 + IZR k1 * (2 * PI)) d1 (r2 + IZR k2 * (2 * PI)) d2) as H|
          pose proof (SepPauwels_sep (r1 + IZR k1 * (2 * PI)) d1 (r2 + IZR k2 * (2 * PI)) d2) as H];
    rewrite !dir_period in H; eapply separation_unique; (exact H || apply SepHav_sep || apply SepPauwels_sep).
Qed.
Lemma seps_example : dot (dir 0 0) (dir (PI / 2) 0) < cos (10 * (PI / 180 / 60)) /\
  SepHav 0 0 (PI / 2) 0 = PI / 2 /\ SepPauwels 0 0 (PI / 2) 0 = PI / 2 /\ Sep 0 0 (PI / 2) 0 = PI / 2.
Proof.
  pose proof PI_RGT_0 as HP.
  assert (D : dot (dir 0 0) (dir (PI / 2) 0) = 0).
  { rewrite dot_dir, sin_0. replace (0 - PI / 2) with (- (PI / 2)) by ring. rewrite cos_neg, cos_PI2. ring. }
  assert (L : dot (dir 0 0) (dir (PI / 2) 0) < cos (10 * (PI / 180 / 60))) by (rewrite D; apply cos_gt_0; lra).
  assert (S : separation (dir 0 0) (dir (PI / 2) 0) (PI / 2)) by (split; [lra|rewrite D; apply cos_PI2]).
  split; [exact L|]. repeat split; eapply separation_unique; try exact S.
  - apply SepHav_sep.
  - apply SepPauwels_sep.
  - apply Sep_partial, L.
Qed.

Lemma vzero_dec u : vx u = 0 -> vy u = 0 -> vz u = 0 -> u = vzero.
Proof. destruct u; cbn. intros -> -> ->. reflexivity. Qed.

(** The components along north and east vanish together only for a (anti)parallel direction. *)
Lemma frame_parallel l b p : dot p (north l b) = 0 -> dot p (east l b) = 0 -> cross (dir l b) p = vzero.
Proof.
  destruct p as [x y z]. unfold dot, north, east, cross, dir. cbn [vx vy vz]. intros N E.
  pose proof (sc1 l) as L. pose proof (sc1 b) as B.
  set (sl := sin l) in *. set (cl := cos l) in *. set (sb := sin b) in *. set (cb := cos b) in *.
  (* x,y proportional to cl, sl *)
  set (k := x * cl + y * sl).
  assert (X : x = k * cl). { unfold k. transitivity (x * (sl * sl + cl * cl)); [rewrite L; ring|]. 
    transitivity ((x * cl + y * sl) * cl - sl * (x * - sl + y * cl + z * 0)); [ring|]. rewrite E. ring. }
  assert (Y : y = k * sl). { unfold k. transitivity (y * (sl * sl + cl * cl)); [rewrite L; ring|].
    transitivity ((x * cl + y * sl) * sl + cl * (x * - sl + y * cl + z * 0)); [ring|]. rewrite E. ring. }
  assert (Z : z * cb = k * sb). { unfold k. lra. }
  apply vzero_dec; cbn [vx vy vz].
  - rewrite Y. transitivity (sl * (z * cb - k * sb)); [ring|]. rewrite Z. ring.
  - rewrite X. transitivity (- cl * (z * cb - k * sb)); [ring|]. rewrite Z. ring.
  - rewrite X, Y. ring.
Qed.

Lemma rel_pos_sphere r1 d1 r2 d2 : - (PI / 2) < d1 < PI / 2 -> cross (dir r2 d2) (dir r1 d1) <> vzero ->
  position_angle r2 d2 (dir r1 d1) (- RelativePosition r1 d1 r2 d2).
Proof.
  intros H N. assert (C : 0 < cos d1) by (apply cos_gt_0; lra). apply rel_pos; [exact C|].
  destruct (Req_dec (cos d2 * tan d1 - sin d2 * cos (r2 - r1)) 0) as [E1|E1]; [|left; exact E1].
  destruct (Req_dec (sin (r2 - r1)) 0) as [E2|E2]; [|right; exact E2].
  exfalso. apply N. destruct (rel_components r1 d1 r2 d2) as [A B]; [lra|].
  apply frame_parallel; [rewrite A, E1|rewrite B, E2]; ring.
Qed.

Lemma Angle_sphere r1 d1 r2 d2 r3 d3 : - (PI / 2) < d1 < PI / 2 -> - (PI / 2) < d3 < PI / 2 ->
  let p1 := dir r1 d1 in let p2 := dir r2 d2 in let p3 := dir r3 d3 in
  cross p2 p1 <> vzero -> cross p2 p3 <> vzero ->
  cos (Angle r1 d1 r2 d2 r3 d3) * (norm (cross p2 p1) * norm (cross p2 p3)) = dot (cross p2 p1) (cross p2 p3) /\
  sin (Angle r1 d1 r2 d2 r3 d3) * (norm (cross p2 p1) * norm (cross p2 p3)) = dot p2 (cross p3 p1).
Proof. intros H1 H3. apply Angle_cos; apply cos_gt_0; lra. Qed.

Lemma Error_sphere r1 d1 r2 d2 r0 d0 : cos r0 <> 0 -> - (PI / 2) < d0 < PI / 2 ->
  cross (dir r1 d1) (dir r2 d2) <> vzero ->
  distance_to_circle (dir r1 d1) (dir r2 d2) (dir r0 d0) (Rabs (Error r1 d1 r2 d2 r0 d0)) /\
  (0 < cos r0 -> sin (Error r1 d1 r2 d2 r0 d0) * norm (cross (dir r1 d1) (dir r2 d2)) =
     dot (cross (dir r1 d1) (dir r2 d2)) (dir r0 d0)) /\
  (cos r0 < 0 -> sin (Error r1 d1 r2 d2 r0 d0) * norm (cross (dir r1 d1) (dir r2 d2)) =
     - dot (cross (dir r1 d1) (dir r2 d2)) (dir r0 d0)).
Proof.
  intros Hr Hd HN. destruct (Error_dist r1 d1 r2 d2 r0 d0 Hr ltac:(apply cos_gt_0; lra) HN) as [A B].
  split; [exact A|]. rewrite B. destruct (Rlt_dec 0 (cos r0)); split; intros; try lra.
Qed.

Lemma cross_example : cross (dir 0 0) (dir (PI / 2) 0) <> vzero /\ cross (dir (PI / 2) 0) (dir 0 (PI / 4)) <> vzero /\
  cross (dir 0 0) (dir 0 (PI / 4)) <> vzero.
Proof.
  pose proof PI_RGT_0 as HP. assert (S : 0 < sin (PI / 4)) by (apply sin_gt_0; lra).
  unfold cross, dir, vzero. cbn [vx vy vz]. rewrite sin_PI2, cos_PI2, sin_0, cos_0.
  repeat split; intros H; injection H; intros; lra.
Qed.
