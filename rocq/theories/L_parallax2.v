(** Lemmas for C55: the approximate topocentric corrections of Topocentric2. *)
From Coq Require Import ZArith Reals Lra Lia Psatz.
From Verif Require Import GoMath M_coord M_light M_parallax S_Sphere S_precess S_parallax L_trig L_kepler L_elements L_precess L_precess2 L_parallax L_apparent L_apparent2 L_apparent4 L_eqtime.
Local Open Scope R_scope.

(** The corrections are the displacement across the line of sight, to first order. *)
Lemma Topocentric2_velocity al de D rs rc L th0 : - (PI / 2) < de < PI / 2 ->
  let '(da, dd) := Topocentric2 al de D rs rc L th0 in
  velocity al de da dd = across (scale (- HorizontalParallax D) (observer rs rc (th0 - L))) (dir al de).
Proof.
  intros H. assert (C : 0 < cos de) by (apply cos_gt_0; lra). unfold Topocentric2. cbv zeta. rewrite Mod1_cos, Mod1_sin. set (th := th0 - L). set (p := HorizontalParallax D).
  apply velocity_across; unfold observer, scale, dot, east, north; cbn [vx vy vz].
  - rewrite sin_minus. field. lra.
  - rewrite cos_minus. ring.
Qed.
Lemma vec_ext u v : vx u = vx v -> vy u = vy v -> vz u = vz v -> u = v.
Proof. destruct u, v. cbn. intros -> -> ->. reflexivity. Qed.
(** The direction of n - s o against its linear part. *)
Lemma direction_linear n o s p r t : dot n n = 1 -> dot o o <= 1.02 -> 0 < s <= p -> p - s <= p * p * p / 6 -> p <= 0.02 -> 0 < r -> dot t t = 1 -> vsub n (scale s o) = scale r t ->
  norm (vsub t (vadd n (across (scale (- p) o) n))) <= 1.7 * (p * p).
Proof.
  intros N O Hs Hp P R0 T E. set (k := dot o n). set (q := across o n). set (x := 1 - s * k).
  assert (Q : dot q q = dot o o - k * k). { unfold q, across, k. clear - N. unfold dot, vsub, vadd, scale in *. destruct n as [a b c], o as [u v w]. cbn [vx vy vz] in *. set (j := u * a + v * b + w * c). apply (eq_trans (y := u * u + v * v + w * w - 2 * (j * j) + j * j * (a * a + b * b + c * c))); [unfold j; ring|]. rewrite N. ring. }
  assert (NQ : dot n q = 0). { unfold q, across, k. clear - N. unfold dot, vsub, vadd, scale in *. destruct n as [a b c], o as [u v w]. cbn [vx vy vz] in *. apply (eq_trans (y := (u * a + v * b + w * c) * (1 - (a * a + b * b + c * c)))); [ring|]. rewrite N. ring. }
  assert (W : vsub n (scale s o) = vsub (scale x n) (scale s q)). { unfold x, q, across, k. destruct n as [a b c], o as [u v w]. unfold vsub, vadd, scale, dot. cbn [vx vy vz]. apply vec_ext; cbn [vx vy vz]; ring. }
  assert (RR : r * r = x * x + s * s * dot q q).
  { assert (X : dot (scale r t) (scale r t) = r * r) by (unfold dot, scale in *; cbn [vx vy vz]; apply (eq_trans (y := r * r * (vx t * vx t + vy t * vy t + vz t * vz t))); [ring|rewrite T; ring]).
    rewrite <- E, W in X. rewrite <- X. apply (eq_trans (y := x * x * dot n n - 2 * x * s * dot n q + s * s * dot q q)); [|rewrite N, NQ; ring].
    unfold dot, vsub, vadd, scale. cbn [vx vy vz]. ring. }
  assert (Q0 : 0 <= dot q q) by apply dot_pos. assert (O0 : 0 <= dot o o) by apply dot_pos. assert (K : k * k <= 1.02) by (rewrite Q in Q0; lra). assert (KK : -1.01 <= k <= 1.01) by nra.
  assert (Q1 : dot q q <= 1.02) by (rewrite Q; nra). assert (X1 : 0.979 <= x <= 1.021) by (unfold x; nra).
  assert (SQ : 0 <= s * s * dot q q <= 1.02 * (s * s)) by (split; [apply Rmult_le_pos; nra|nra]).
  assert (R1 : x <= r) by nra. assert (R2 : r - x <= 0.53 * (s * s)). { assert ((r - x) * (r + x) <= 1.02 * (s * s)) by lra. nra. }
  assert (SS : s * s <= 0.0004) by nra.
  assert (R3 : Rabs (r - 1) <= 1.021 * s). { assert (A : Rabs (x - 1) <= 1.01 * s) by (unfold x; apply Rabs_le; nra). apply Rabs_le. unfold x in *. split; [nra|]. assert (0.53 * (s * s) <= 0.011 * s) by nra. assert (x - 1 <= 1.01 * s) by (unfold x; nra). unfold x in *. lra. }
  set (c1 := 1 - x / r). set (c2 := s / r - p).
  assert (V : vsub t (vadd n (across (scale (- p) o) n)) = vsub (scale (- c1) n) (scale c2 q)).
  { assert (T' : t = scale (/ r) (vsub (scale x n) (scale s q))). { rewrite <- W, E. destruct t as [a b c]. unfold scale. cbn [vx vy vz]. apply vec_ext; cbn [vx vy vz]; field; lra. }
    rewrite T'. unfold c1, c2. replace (across (scale (- p) o) n) with (scale (- p) q) by (unfold q, across, vsub, vadd, scale, dot; cbn [vx vy vz]; apply vec_ext; cbn [vx vy vz]; ring).
    clearbody q x. unfold vsub, vadd, scale. cbn [vx vy vz]. apply vec_ext; cbn [vx vy vz]; field; lra. }
  rewrite V. unfold vsub. eapply Rle_trans; [apply norm_add|]. rewrite norm_opp1, !norm_scale, Rabs_Ropp.
  assert (NN : norm n = 1) by (unfold norm; rewrite N; apply sqrt_1). assert (NQ2 : norm q <= 1.01) by (apply norm_le; lra).
  assert (C1 : Rabs c1 <= 0.55 * (s * s)).
  { unfold c1. apply Rabs_le. replace (1 - x / r) with ((r - x) / r) by (field; lra). assert (0 <= (r - x) / r <= (r - x) / 0.979). { unfold Rdiv. split; [apply Rmult_le_pos; [lra|left; apply Rinv_0_lt_compat; lra]|]. apply Rmult_le_compat_l; [lra|]. apply Rinv_le_contravar; lra. } lra. }
  assert (C2 : Rabs c2 <= 1.05 * (p * p)).
  { unfold c2. replace (s / r - p) with ((s - p) + s * (1 - r) / r) by (field; lra). eapply Rle_trans; [apply Rabs_triang|]. unfold Rdiv. rewrite !Rabs_mult, (Rabs_minus_sym 1 r), (Rabs_pos_eq s), (Rabs_pos_eq (/ r)) by (try (left; apply Rinv_0_lt_compat); lra).
    assert (I0 : 0 < / r <= / 0.979) by (split; [apply Rinv_0_lt_compat; lra|apply Rinv_le_contravar; lra]). rewrite (Rabs_left1 (s - p)) by lra. pose proof (Rabs_pos (r - 1)) as A0.
    assert (A1 : s * Rabs (r - 1) <= 1.021 * (p * p)) by nra. assert (A2 : s * Rabs (r - 1) * / r <= 1.021 * (p * p) * / 0.979). { apply Rmult_le_compat; [apply Rmult_le_pos; lra|lra|exact A1|lra]. }
    assert (p * p * p / 6 <= 0.004 * (p * p)) by nra. assert (0 <= p * p) by nra. lra. }
  rewrite NN. assert (Rabs c2 * norm q <= 1.05 * (p * p) * 1.01) by (apply Rmult_le_compat; [apply Rabs_pos|apply norm_pos0|exact C2|exact NQ2]). assert (s * s <= p * p) by nra. assert (0 <= p * p) by nra. lra.
Qed.
Lemma sin_two_thirds a h : Rabs h <= 1 -> Rabs (sin (a + h) - sin a - h * cos a) <= 2 / 3 * (h * h).
Proof.
  intros H. eapply Rle_trans; [apply sin_lin2, H|]. assert (E : h * h = Rabs h * Rabs h) by (rewrite <- Rabs_mult, Rabs_pos_eq; [reflexivity|apply Rle_0_sqr]). rewrite E. pose proof (Rabs_pos h). set (y := Rabs h) in *. clearbody y. cbn [pow]. assert (y * y * y <= y * y) by nra. nra.
Qed.
Lemma cos_two_thirds a h : Rabs h <= 1 -> Rabs (cos (a + h) - cos a + h * sin a) <= 2 / 3 * (h * h).
Proof.
  intros H. pose proof (sin_two_thirds (PI / 2 + a) h H) as S. replace (PI / 2 + a + h) with (PI / 2 + (a + h)) in S by ring. rewrite <- !cos_sin in S. replace (cos (PI / 2 + a)) with (- sin a) in S by (rewrite cos_plus, cos_PI2, sin_PI2; ring). replace (cos (a + h) - cos a + h * sin a) with (cos (a + h) - cos a - h * - sin a) by ring. exact S.
Qed.
(** Coordinates displaced by (a, d) against the displaced vector. *)
Lemma dir_second l b a d : Rabs (a + d) <= 1 -> Rabs (a - d) <= 1 -> Rabs d <= 1 ->
  norm (vsub (dir (l + a) (b + d)) (vadd (dir l b) (velocity l b a d))) <= 1.16 * (a * a + d * d).
Proof.
  intros H1 H2 H3. pose proof (cos_two_thirds (l + b) (a + d) H1) as A. pose proof (cos_two_thirds (l - b) (a - d) H2) as B. pose proof (sin_two_thirds (l + b) (a + d) H1) as C. pose proof (sin_two_thirds (l - b) (a - d) H2) as D. pose proof (sin_two_thirds b d H3) as E.
  replace (l + b + (a + d)) with ((l + a) + (b + d)) in A, C by ring. replace (l - b + (a - d)) with ((l + a) - (b + d)) in B, D by ring. rewrite (cos_plus (l + a) (b + d)), (cos_plus l b), (sin_plus l b) in A. rewrite (cos_minus (l + a) (b + d)), (cos_minus l b), (sin_minus l b) in B. rewrite (sin_plus (l + a) (b + d)), (sin_plus l b), (cos_plus l b) in C. rewrite (sin_minus (l + a) (b + d)), (sin_minus l b), (cos_minus l b) in D.
  set (X := cos (l + a)) in *. set (Y := sin (l + a)) in *. set (U := cos (b + d)) in *. set (V := sin (b + d)) in *. set (x := cos l) in *. set (y := sin l) in *. set (u := cos b) in *. set (v := sin b) in *.
  set (K := a * a + d * d). assert (K0 : 0 <= K) by (unfold K; nra).
  assert (GX : Rabs (vx (vsub (dir (l + a) (b + d)) (vadd (dir l b) (velocity l b a d)))) <= 2 / 3 * K).
  { unfold velocity, vsub, vadd, dir, scale, east, north. cbn [vx vy vz]. fold X Y U V x y u v. apply abs_le_inv in A, B. apply Rabs_le. unfold K. lra. }
  assert (GY : Rabs (vy (vsub (dir (l + a) (b + d)) (vadd (dir l b) (velocity l b a d)))) <= 2 / 3 * K).
  { unfold velocity, vsub, vadd, dir, scale, east, north. cbn [vx vy vz]. fold X Y U V x y u v. apply abs_le_inv in C, D. apply Rabs_le. unfold K. lra. }
  assert (GZ : Rabs (vz (vsub (dir (l + a) (b + d)) (vadd (dir l b) (velocity l b a d)))) <= 2 / 3 * K).
  { unfold velocity, vsub, vadd, dir, scale, east, north. cbn [vx vy vz]. fold X Y U V x y u v. apply abs_le_inv in E. apply Rabs_le. unfold K. assert (0 <= a * a) by nra. lra. }
  set (w := vsub _ _) in *. clearbody w. clear - GX GY GZ K0. apply norm_le; [lra|]. unfold dot. apply abs_le_inv in GX, GY, GZ. set (p := vx w) in *. set (q := vy w) in *. set (s := vz w) in *. clearbody p q s.
  assert (p * p <= 4 / 9 * (K * K)) by nra. assert (q * q <= 4 / 9 * (K * K)) by nra. assert (s * s <= 4 / 9 * (K * K)) by nra. assert (0 <= K * K) by nra. lra.
Qed.
Lemma Topocentric2_error al de D rs rc L th0 a' d' : let p := HorizontalParallax D in
  - (PI / 2) < de < PI / 2 -> 0 < p <= 0.02 -> rc * rc + rs * rs <= 1.02 -> seen_at (vsub (body p al de) (observer rs rc (th0 - L))) a' d' ->
  let '(da, dd) := Topocentric2 al de D rs rc L th0 in
  norm (vsub (dir a' d') (dir (al + da) (de + dd))) <= 3 * (p * p) / (cos de * cos de).
Proof.
  intros p H P O (r & R0 & E). assert (C : 0 < cos de) by (apply cos_gt_0; lra). pose proof (COS_bound de) as [_ C1]. pose proof (Topocentric2_velocity al de D rs rc L th0 H) as V. destruct (Topocentric2 al de D rs rc L th0) as [da dd] eqn:ET. fold p in V.
  set (o := observer rs rc (th0 - L)) in *. assert (OO : dot o o <= 1.02). { unfold o, observer, dot. cbn [vx vy vz]. pose proof (sin2_cos2 (th0 - L)) as SC. unfold Rsqr in SC. replace (rc * cos (th0 - L) * (rc * cos (th0 - L)) + rc * sin (th0 - L) * (rc * sin (th0 - L)) + rs * rs) with (rc * rc * (sin (th0 - L) * sin (th0 - L) + cos (th0 - L) * cos (th0 - L)) + rs * rs) by ring. rewrite SC. lra. }
  set (n := dir al de) in *. assert (NN : dot n n = 1) by apply dir_unit. assert (TT : dot (dir a' d') (dir a' d') = 1) by apply dir_unit.
  destruct (sin_cubic_pos p ltac:(lra)) as [S1 S2]. assert (S0 : 0 < sin p) by nra.
  assert (LIN : norm (vsub (dir a' d') (vadd n (across (scale (- p) o) n))) <= 1.7 * (p * p)).
  { apply (direction_linear n o (sin p) p (sin p * r)); try assumption; try lra; [nra|].
    apply (eq_trans (y := scale (sin p) (vsub (body p al de) o))); [|rewrite E, scale_scale; reflexivity].
    unfold body, n, vsub, vadd, scale. cbn [vx vy vz]. apply vec_ext; cbn [vx vy vz]; field; lra. }
  assert (SZ : (cos de * da) * (cos de * da) + dd * dd <= 1.02 * (p * p)).
  { assert (X : dot (velocity al de da dd) (velocity al de da dd) = (cos de * da) * (cos de * da) + dd * dd).
    { unfold velocity, dot, vadd, scale, east, north. cbn [vx vy vz]. pose proof (sin2_cos2 al) as SA. pose proof (sin2_cos2 de) as SD. unfold Rsqr in *.
      set (ca := cos al) in *. set (sa := sin al) in *. set (cd := cos de) in *. set (sd := sin de) in *. clearbody ca sa cd sd.
      apply (eq_trans (y := (cd * da) * (cd * da) * (sa * sa + ca * ca) + dd * dd * (sd * sd * (sa * sa + ca * ca) + cd * cd))); [ring|]. rewrite SA, Rmult_1_r, Rmult_1_r, SD. ring. }
    rewrite <- X, V, <- norm2. pose proof (across_norm (scale (- p) o) n NN) as A. rewrite norm_scale, Rabs_Ropp, Rabs_pos_eq in A by lra. pose proof (norm_pos0 (across (scale (- p) o) n)) as A0. set (y := norm (across (scale (- p) o) n)) in *.
    assert (y * y <= p * norm o * (p * norm o)) by (apply Rmult_le_compat; lra). replace (p * norm o * (p * norm o)) with (p * p * (norm o * norm o)) in H0 by ring. rewrite norm2 in H0. assert (0 <= p * p) by nra. nra. }
  assert (IC : 1 <= / (cos de * cos de)) by (rewrite <- Rinv_1; apply Rinv_le_contravar; nra). set (K := / (cos de * cos de)) in *. assert (KE : cos de * cos de * K = 1) by (unfold K; field; nra).
  change (3 * (p * p) / (cos de * cos de)) with (3 * (p * p) * K).
  destruct (Rle_dec (2 / 3) (p * p * K)) as [BIG|SMALL].
  - apply Rle_trans with 2; [|lra]. unfold vsub. eapply Rle_trans; [apply norm_add|]. rewrite norm_opp1, !norm_dir1. lra.
  - assert (P2 : 0 <= p * p) by nra. assert (PK : p * p <= p * p * K) by nra. assert (DA : da * da <= 1.02 * (p * p * K)).
    { replace (da * da) with (cos de * da * (cos de * da) * K) by (replace (cos de * da * (cos de * da) * K) with (da * da * (cos de * cos de * K)) by ring; rewrite KE; ring). assert (0 <= dd * dd) by nra. nra. }
    assert (SUM : da * da + dd * dd <= 1.02 * (p * p * K)).
    { replace (da * da) with (cos de * da * (cos de * da) * K) by (replace (cos de * da * (cos de * da) * K) with (da * da * (cos de * cos de * K)) by ring; rewrite KE; ring). assert (0 <= dd * dd) by nra. assert (0 <= cos de * da * (cos de * da)) by nra. nra. }
    assert (DD : dd * dd <= 0.000408) by nra. assert (D1 : -0.0203 <= dd <= 0.0203) by nra. assert (A1 : -0.83 <= da <= 0.83) by nra.
    eapply Rle_trans; [apply (norm_sub3 _ (vadd n (velocity al de da dd)))|]. rewrite V at 1. pose proof (dir_second al de da dd ltac:(apply Rabs_le; lra) ltac:(apply Rabs_le; lra) ltac:(apply Rabs_le; lra)) as S3. fold n in S3.
    assert (SY : norm (vsub (vadd n (velocity al de da dd)) (dir (al + da) (de + dd))) = norm (vsub (dir (al + da) (de + dd)) (vadd n (velocity al de da dd)))).
    { rewrite <- norm_opp1. f_equal. unfold vsub, vadd, scale. cbn [vx vy vz]. apply vec_ext; cbn [vx vy vz]; ring. }
    rewrite SY. lra.
Qed.
