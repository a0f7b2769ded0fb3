(** Trigonometry used by the coordinate and orbit packages. *)
From Coq Require Import ZArith Reals Lra Lia Bool.
From Flocq Require Import Core.
From Verif Require Import GoMath.
Local Open Scope R_scope.

Lemma PI_pos : 0 < PI. Proof. exact PI_RGT_0. Qed.
Lemma sc1 x : sin x * sin x + cos x * cos x = 1.
Proof. pose proof (sin2_cos2 x). unfold Rsqr in H. exact H. Qed.

Lemma cos_Z x k : cos (x + IZR k * (2 * PI)) = cos x.
Proof.
  destruct k as [|p|p].
  - f_equal. lra.
  - rewrite <- (cos_period x (Pos.to_nat p)). f_equal. rewrite INR_IZR_INZ, positive_nat_Z. ring.
  - rewrite <- (cos_period (x + IZR (Z.neg p) * (2 * PI)) (Pos.to_nat p)). f_equal.
    rewrite INR_IZR_INZ, positive_nat_Z. change (Z.neg p) with (- Z.pos p)%Z. rewrite opp_IZR. ring.
Qed.
Lemma sin_Z x k : sin (x + IZR k * (2 * PI)) = sin x.
Proof.
  destruct k as [|p|p].
  - f_equal. lra.
  - rewrite <- (sin_period x (Pos.to_nat p)). f_equal. rewrite INR_IZR_INZ, positive_nat_Z. ring.
  - rewrite <- (sin_period (x + IZR (Z.neg p) * (2 * PI)) (Pos.to_nat p)). f_equal.
    rewrite INR_IZR_INZ, positive_nat_Z. change (Z.neg p) with (- Z.pos p)%Z. rewrite opp_IZR. ring.
Qed.

(** ** PMod *)
Lemma PMod_floor x y : 0 < y -> PMod x y = x - y * IZR (Zfloor (x / y)).
Proof.
  intros Hy. unfold PMod. assert (Ex : x = y * (x / y)) by (field; lra).
  set (q := x / y) in *. clearbody q. subst x.
  destruct (Rle_dec 0 q) as [Hq|Hq].
  - rewrite Ztrunc_floor by exact Hq. pose proof (Zfloor_lb q).
    destruct (Rlt_dec _ 0) as [H0|H0]; [|reflexivity]. exfalso.
    assert (0 <= y * (q - IZR (Zfloor q))) by (apply Rmult_le_pos; lra). lra.
  - rewrite Ztrunc_ceil by lra.
    destruct (Req_dec (IZR (Zceil q)) q) as [E|E].
    + assert (F : Zfloor q = Zceil q). { rewrite <- E at 1. apply Zfloor_IZR. }
      rewrite F, E. destruct (Rlt_dec _ 0) as [H0|H0]; [lra|reflexivity].
    + assert (F : Zceil q = (Zfloor q + 1)%Z).
      { apply Zceil_floor_neq. intros K. apply E. rewrite <- K at 1. rewrite Zceil_IZR. exact K. }
      rewrite F, plus_IZR. pose proof (Zfloor_ub q). pose proof (Zceil_ub q).
      rewrite F, plus_IZR in H0. rewrite F, plus_IZR in E.
      assert (y * (q - (IZR (Zfloor q) + 1)) < 0).
      { apply Rlt_le_trans with (y * 0); [|lra]. apply Rmult_lt_compat_l; lra. }
      destruct (Rlt_dec _ 0) as [H2|H2]; [ring|]. exfalso. lra.
Qed.
Lemma PMod_bound x y : 0 < y -> 0 <= PMod x y < y.
Proof.
  intros Hy. rewrite PMod_floor by exact Hy. assert (Ex : x = y * (x / y)) by (field; lra).
  set (q := x / y) in *. clearbody q. subst x. pose proof (Zfloor_lb q). pose proof (Zfloor_ub q).
  assert (0 <= y * (q - IZR (Zfloor q))) by (apply Rmult_le_pos; lra).
  assert (y * (q - IZR (Zfloor q)) < y * 1) by (apply Rmult_lt_compat_l; lra). lra.
Qed.
Lemma PMod_eq x y : 0 < y -> exists k, PMod x y = x + IZR k * y.
Proof.
  intros Hy. rewrite PMod_floor by exact Hy. exists (- Zfloor (x / y))%Z. rewrite opp_IZR. ring.
Qed.
Lemma PMod_unique x y r k : 0 < y -> 0 <= r < y -> r = x + IZR k * y -> PMod x y = r.
Proof.
  intros Hy Hr E. rewrite PMod_floor by exact Hy.
  assert (F : Zfloor (x / y) = (- k)%Z).
  { apply Zfloor_imp. rewrite plus_IZR, opp_IZR. assert (Q : x / y = - IZR k + r / y) by (subst r; field; lra).
    rewrite Q. assert (0 <= r / y < 1).
    { split; [apply Rmult_le_pos; [lra|apply Rlt_le, Rinv_0_lt_compat; lra]|].
      apply Rmult_lt_reg_r with y; [lra|]. unfold Rdiv. rewrite Rmult_assoc, Rinv_l; lra. }
    lra. }
  rewrite F, opp_IZR, E. ring.
Qed.
Lemma PMod_small x y : 0 <= x < y -> PMod x y = x.
Proof. intros H. apply PMod_unique with 0%Z; [lra|exact H|lra]. Qed.
Lemma PMod_shift x y k : 0 < y -> PMod (x + IZR k * y) y = PMod x y.
Proof.
  intros Hy. destruct (PMod_eq x y Hy) as [j E]. apply PMod_unique with (j - k)%Z; [exact Hy|apply PMod_bound, Hy|].
  rewrite E, minus_IZR. ring.
Qed.

Lemma two_PI_pos : 0 < 2 * PI. Proof. pose proof PI_RGT_0. lra. Qed.
Lemma Mod1_bound x : 0 <= Mod1 x < 2 * PI. Proof. apply PMod_bound, two_PI_pos. Qed.
Lemma cos_Mod1 x : cos (Mod1 x) = cos x.
Proof. destruct (PMod_eq x _ two_PI_pos) as [k E]. unfold Mod1. rewrite E. apply cos_Z. Qed.
Lemma sin_Mod1 x : sin (Mod1 x) = sin x.
Proof. destruct (PMod_eq x _ two_PI_pos) as [k E]. unfold Mod1. rewrite E. apply sin_Z. Qed.
Lemma RAFromRad_bound x : 0 <= RAFromRad x < 2 * PI. Proof. apply PMod_bound, two_PI_pos. Qed.
Lemma cos_RAFromRad x : cos (RAFromRad x) = cos x. Proof. apply cos_Mod1. Qed.
Lemma sin_RAFromRad x : sin (RAFromRad x) = sin x. Proof. apply sin_Mod1. Qed.

(** ** Angles determined by sine and cosine *)
Lemma angle_zero x : cos x = 1 -> -PI <= x <= PI -> x = 0.
Proof.
  intros H B. pose proof PI_RGT_0.
  destruct (Rle_dec 0 x).
  - apply (cos_inj x 0); [lra|lra|]. rewrite cos_0. exact H.
  - assert (- x = 0); [|lra]. apply (cos_inj (- x) 0); [lra|lra|]. rewrite cos_0, cos_neg. exact H.
Qed.
Lemma angle_eq a b : sin a = sin b -> cos a = cos b -> exists k, a = b + IZR k * (2 * PI).
Proof.
  intros S C. pose proof PI_RGT_0 as HP.
  assert (D : cos (a - b) = 1). { rewrite cos_minus, S, C. pose proof (sc1 b). lra. }
  set (d := a - b) in *. set (r := PMod d (2 * PI)).
  pose proof (PMod_bound d (2 * PI) ltac:(lra)) as B. destruct (PMod_eq d (2 * PI) ltac:(lra)) as [k E]. fold r in B, E.
  assert (Cr : cos r = 1). { rewrite E, cos_Z. exact D. }
  assert (r = 0).
  { destruct (Rle_dec r PI); [apply angle_zero; [exact Cr|lra]|]. exfalso.
    assert (r - 2 * PI = 0); [|lra]. apply angle_zero; [|lra].
    replace (r - 2 * PI) with (r + IZR (-1) * (2 * PI)) by lra. rewrite cos_Z. exact Cr. }
  exists (- k)%Z. rewrite opp_IZR. assert (a = b + d) by (unfold d; ring). lra.
Qed.
Lemma angle_eq_range a b c : sin a = sin b -> cos a = cos b -> c <= a < c + 2 * PI -> c <= b < c + 2 * PI -> a = b.
Proof.
  intros S C Ha Hb. destruct (angle_eq a b S C) as [k E]. pose proof PI_RGT_0.
  assert (K : (k = 0)%Z).
  { assert (-1 < IZR k < 1). { split; apply Rmult_lt_reg_r with (2 * PI); lra. }
    destruct H0 as [H1 H2]. apply (lt_IZR (-1)) in H1. apply (lt_IZR _ 1) in H2. lia. }
  subst k. lra.
Qed.
Lemma angle_eq_range' a b c : sin a = sin b -> cos a = cos b -> c < a <= c + 2 * PI -> c < b <= c + 2 * PI -> a = b.
Proof.
  intros S C Ha Hb. assert (- a = - b); [|lra].
  apply (angle_eq_range _ _ (- c - 2 * PI)); [rewrite !sin_neg; lra|rewrite !cos_neg; lra|lra|lra].
Qed.
Lemma Mod1_sc a b : sin a = sin b -> cos a = cos b -> Mod1 a = Mod1 b.
Proof.
  intros S C. apply (angle_eq_range _ _ 0).
  - rewrite !sin_Mod1. exact S. - rewrite !cos_Mod1. exact C.
  - pose proof (Mod1_bound a). lra. - pose proof (Mod1_bound b). lra.
Qed.
Lemma Mod1_id a : 0 <= a < 2 * PI -> Mod1 a = a.
Proof. apply PMod_small. Qed.

(** ** atan2 *)
Lemma atan2_polar r t : 0 < r -> - PI < t <= PI -> atan2 (r * sin t) (r * cos t) = t.
Proof.
  intros Hr Ht. pose proof PI_RGT_0 as HP. unfold atan2.
  assert (Q : r * sin t / (r * cos t) = tan t).
  { unfold tan, Rdiv. destruct (Req_dec (cos t) 0) as [E|E].
    - rewrite E, Rmult_0_r, Rinv_0, !Rmult_0_r. reflexivity.
    - field. lra. }
  destruct (Rlt_dec 0 (r * cos t)) as [H1|H1].
  - assert (C : 0 < cos t). { apply Rmult_lt_reg_l with r; lra. }
    rewrite Q. apply atan_tan.
    destruct (Rle_dec t (- (PI / 2))) as [L|L].
    { exfalso. assert (cos t <= 0). { rewrite <- (cos_Z t 1). apply cos_le_0; lra. } lra. }
    destruct (Rle_dec (PI / 2) t) as [L'|L'].
    { exfalso. assert (cos t <= 0) by (apply cos_le_0; lra). lra. }
    lra.
  - destruct (Rlt_dec (r * cos t) 0) as [H2|H2].
    + assert (C : cos t < 0). { apply Rmult_lt_reg_l with r; lra. }
      destruct (Rle_dec 0 (r * sin t)) as [H3|H3].
      * assert (Sg : 0 <= sin t). { apply Rmult_le_reg_l with r; lra. }
        assert (B : PI / 2 < t).
        { destruct (Rlt_dec (PI / 2) t); [assumption|]. exfalso.
          destruct (Rle_dec (- (PI / 2)) t).
          - assert (0 <= cos t) by (apply cos_ge_0; lra). lra.
          - assert (sin t < 0) by (apply sin_lt_0_var; lra). lra. }
        rewrite Q. replace (tan t) with (tan (t - PI)).
        { rewrite atan_tan; lra. }
        unfold tan. rewrite sin_minus, cos_minus, cos_PI, sin_PI. field. lra.
      * assert (Sg : sin t < 0). { apply Rmult_lt_reg_l with r; lra. }
        assert (B : t < - (PI / 2)).
        { destruct (Rlt_dec t (- (PI / 2))); [assumption|]. exfalso.
          destruct (Rle_dec t (PI / 2)).
          - assert (0 <= cos t) by (apply cos_ge_0; lra). lra.
          - assert (0 <= sin t) by (apply sin_ge_0; lra). lra. }
        rewrite Q. replace (tan t) with (tan (t + PI)).
        { rewrite atan_tan; lra. }
        unfold tan. rewrite sin_plus, cos_plus, cos_PI, sin_PI. field. lra.
    + assert (C : cos t = 0). { apply Rmult_eq_reg_l with r; lra. }
      pose proof (sc1 t) as S1. rewrite C in S1.
      destruct (Rlt_dec 0 (r * sin t)) as [H3|H3].
      * assert (Sg : 0 < sin t). { apply Rmult_lt_reg_l with r; lra. }
        symmetry. apply (angle_eq_range' _ _ (- PI)); [|rewrite cos_PI2; exact C|lra|lra].
        rewrite sin_PI2. assert ((sin t - 1) * (sin t + 1) = 0) by lra. apply Rmult_integral in H. lra.
      * destruct (Rlt_dec (r * sin t) 0) as [H4|H4].
        -- assert (Sg : sin t < 0). { apply Rmult_lt_reg_l with r; lra. }
           symmetry. apply (angle_eq_range' _ _ (- PI)); [|rewrite cos_neg, cos_PI2; exact C|lra|lra].
           rewrite sin_neg, sin_PI2. assert ((sin t - 1) * (sin t + 1) = 0) by lra. apply Rmult_integral in H. lra.
        -- exfalso. assert (sin t = 0). { apply Rmult_eq_reg_l with r; lra. } rewrite H in S1. lra.
Qed.

Lemma atan2_bound y x : - PI < atan2 y x <= PI.
Proof.
  unfold atan2. pose proof PI_RGT_0. pose proof (atan_bound (y / x)) as B.
  destruct (Rlt_dec 0 x); [lra|]. destruct (Rlt_dec x 0) as [Hx|Hx].
  - assert (I : / x < 0) by (apply Rinv_lt_0_compat; exact Hx).
    destruct (Rle_dec 0 y) as [Hy|Hy].
    + assert (y / x <= 0). { unfold Rdiv. assert (0 <= y * - / x) by (apply Rmult_le_pos; lra). lra. }
      assert (atan (y / x) <= 0).
      { destruct H0 as [H0|H0]; [|rewrite H0, atan_0; lra]. apply Rlt_le. rewrite <- atan_0. apply atan_increasing. exact H0. }
      lra.
    + assert (0 < y / x). { unfold Rdiv. assert (0 < - y * - / x) by (apply Rmult_lt_0_compat; lra). lra. }
      assert (0 < atan (y / x)). { rewrite <- atan_0. apply atan_increasing. exact H0. }
      lra.
  - destruct (Rlt_dec 0 y); [lra|]. destruct (Rlt_dec y 0); lra.
Qed.

Lemma hypot_sqr x y : hypot x y * hypot x y = x * x + y * y.
Proof. unfold hypot. apply sqrt_sqrt. pose proof (Rle_0_sqr x). pose proof (Rle_0_sqr y). unfold Rsqr in *. lra. Qed.
Lemma hypot_pos x y : 0 <= hypot x y. Proof. apply sqrt_pos. Qed.
Lemma hypot_gt0 x y : x <> 0 \/ y <> 0 -> 0 < hypot x y.
Proof.
  intros H. unfold hypot. apply sqrt_lt_R0. pose proof (Rle_0_sqr x). pose proof (Rle_0_sqr y). unfold Rsqr in *.
  destruct H as [H|H]; [assert (0 < x * x)|assert (0 < y * y)]; try lra; apply Rsqr_pos_lt in H; exact H.
Qed.

(** Every point of the plane has polar coordinates. *)
Lemma polar x y : x <> 0 \/ y <> 0 -> exists t, - PI < t <= PI /\ x = hypot x y * cos t /\ y = hypot x y * sin t.
Proof.
  intros H. pose proof (hypot_gt0 x y H) as Hr. pose proof (hypot_sqr x y) as Sq. pose proof PI_RGT_0 as HP.
  set (r := hypot x y) in *. clearbody r. clear H.
  set (c := x / r). assert (Ex : x = r * c) by (unfold c; field; lra).
  set (s := y / r). assert (Ey : y = r * s) by (unfold s; field; lra).
  clearbody c s. subst x y.
  assert (E1 : c * c + s * s = 1). { apply Rmult_eq_reg_l with (r * r); [lra|]. assert (0 < r * r) by (apply Rmult_lt_0_compat; lra). lra. }
  assert (Bc : -1 <= c <= 1). { pose proof (Rle_0_sqr s). unfold Rsqr in *. split; nra. }
  pose proof (acos_bound c) as Ba. pose proof (cos_acos c Bc) as Ca. pose proof (sin_acos c Bc) as Sa.
  assert (Es : sqrt (1 - c²) = Rabs s). { rewrite <- sqrt_Rsqr_abs. f_equal. unfold Rsqr. lra. }
  rewrite Es in Sa.
  destruct (Rle_dec 0 s) as [Hs|Hs].
  - exists (acos c). rewrite Rabs_pos_eq in Sa by lra. rewrite Ca, Sa. repeat split; lra.
  - exists (- acos c). rewrite Rabs_left in Sa by lra. rewrite cos_neg, sin_neg, Ca, Sa.
    assert (acos c <> PI). { intros E. rewrite E, sin_PI in Sa. lra. }
    repeat split; lra.
Qed.

Lemma atan2_spec x y : x <> 0 \/ y <> 0 ->
  hypot x y * cos (atan2 y x) = x /\ hypot x y * sin (atan2 y x) = y.
Proof.
  intros H. destruct (polar x y H) as [t [Bt [Ex Ey]]].
  assert (E : atan2 y x = t).
  { pose proof (atan2_polar (hypot x y) t (hypot_gt0 x y H) Bt) as P. rewrite <- Ex, <- Ey in P. exact P. }
  rewrite E. split; symmetry; assumption.
Qed.

(** A direction computed with atan2 has the given sine and cosine, up to the common factor. *)
Lemma atan2_cs x y r t : 0 < r -> x = r * cos t -> y = r * sin t -> cos (atan2 y x) = cos t /\ sin (atan2 y x) = sin t.
Proof.
  intros Hr -> ->. assert (H : r * cos t <> 0 \/ r * sin t <> 0).
  { destruct (Req_dec (cos t) 0) as [E|E].
    - right. pose proof (sc1 t) as S. rewrite E in S. intros K. apply Rmult_integral in K. destruct K as [K|K]; [lra|]. rewrite K in S. lra.
    - left. intros K. apply Rmult_integral in K. lra. }
  destruct (atan2_spec _ _ H) as [A B].
  assert (Eh : hypot (r * cos t) (r * sin t) = r).
  { unfold hypot. replace (r * cos t * (r * cos t) + r * sin t * (r * sin t)) with (r * r * (sin t * sin t + cos t * cos t)) by ring.
    rewrite sc1, Rmult_1_r. apply sqrt_square. lra. }
  rewrite Eh in A, B. split; apply Rmult_eq_reg_l with r; lra.
Qed.

Lemma atan2_unit x y : x * x + y * y = 1 -> cos (atan2 y x) = x /\ sin (atan2 y x) = y.
Proof.
  intros H. assert (N : x <> 0 \/ y <> 0).
  { destruct (Req_dec x 0) as [E|E]; [|left; exact E]. right. intros K. subst. lra. }
  destruct (atan2_spec x y N) as [A B].
  assert (Eh : hypot x y = 1) by (unfold hypot; rewrite H; apply sqrt_1).
  rewrite Eh in A, B. lra.
Qed.

Lemma cos_pos_lat b : - (PI / 2) < b < PI / 2 -> 0 < cos b.
Proof. intros. apply cos_gt_0; lra. Qed.
Lemma cos_nonneg_lat b : - (PI / 2) <= b <= PI / 2 -> 0 <= cos b.
Proof. intros. apply cos_ge_0; lra. Qed.
Lemma cos_asin_pos x : -1 <= x <= 1 -> cos (asin x) = sqrt (1 - x * x).
Proof. intros H. rewrite cos_asin by exact H. reflexivity. Qed.
Lemma asin_unique x b : - (PI / 2) <= b <= PI / 2 -> sin b = x -> asin x = b.
Proof. intros B <-. apply asin_sin. exact B. Qed.

(** ** Decimal bounds of pi *)
Lemma fact_vals : INR (fact 0) = 1 /\ INR (fact 2) = 2 /\ INR (fact 4) = 24 /\ INR (fact 6) = 720 /\ INR (fact 8) = 40320 /\ INR (fact 10) = 3628800.
Proof.
  assert (St : forall n, INR (fact (S n)) = IZR (Z.of_nat (S n)) * INR (fact n)).
  { intros n. rewrite fact_simpl, mult_INR, (INR_IZR_INZ (S n)). reflexivity. }
  assert (Z0 : INR (fact 0) = 1) by reflexivity.
  repeat split; rewrite ?St, Z0; cbn [Z.of_nat Pos.of_succ_nat Pos.succ]; lra.
Qed.
Lemma PI_bounds : 314 / 100 < PI < 315 / 100.
Proof.
  pose proof PI_RGT_0 as HP. pose proof PI_4 as HP4. pose proof PI2_3_2 as HP3. destruct fact_vals as [F0 [F2 [F4 [F6 [F8 F10]]]]].
  split.
  - destruct (Rlt_dec (314 / 100) PI) as [L|L]; [exact L|]. exfalso.
    assert (C : cos (157 / 100) <= 0) by (apply cos_le_0; lra).
    pose proof (pre_cos_bound (157 / 100) 2 ltac:(lra) ltac:(lra)) as [P _].
    unfold cos_approx, cos_term in P. cbn [sum_f_R0 Nat.mul Nat.add] in P.
    rewrite F0, F2, F4, F6, F8, F10 in P. lra.
  - destruct (Rlt_dec PI (315 / 100)) as [L|L]; [exact L|]. exfalso.
    assert (C : 0 <= cos (1575 / 1000)) by (apply cos_ge_0; lra).
    pose proof (pre_cos_bound (1575 / 1000) 1 ltac:(lra) ltac:(lra)) as [_ P].
    unfold cos_approx, cos_term in P. cbn [sum_f_R0 Nat.mul Nat.add] in P.
    rewrite F0, F2, F4, F6, F8 in P. lra.
Qed.
