(** Lemmas for package saturnmoons: sizes of the orbits, projection, composition. *)
From Coq Require Import ZArith Reals List Lra Lia Psatz Nsatz.
From Flocq Require Import Core.
From Verif Require L_kepler.
From Verif Require Import GoFloat GoMath S_Sphere S_precess M_base M_coord M_precess M_vsop M_solar M_physical M_saturnmoons S_physical S_solar S_moon S_saturnmoons L_trig L_angle L_vec L_coord L_precess L_elements L_light L_solar L_refraction L_physical L_moon L_moon3 L_pluto L_saturnmoons.
Import ListNotations.
Local Open Scope R_scope.

(** ** Distances *)
Lemma circle_r a k t : 0 < a -> 0 <= k < 1 -> a / (1 + k) <= a / (1 + k * cos t) <= a / (1 - k).
Proof.
  intros Ha Hk. pose proof (COS_bound t) as B. assert (- k <= k * cos t <= k) by nra. unfold Rdiv. split; apply Rmult_le_compat_l; try lra; apply Rinv_le_contravar; lra.
Qed.
Lemma subr_r l p e a Om i : 0 < a -> 0 <= e < 1 -> a * (1 - e) <= r4_r (subr l p e a Om i) <= a * (1 + e).
Proof.
  intros Ha He. unfold subr. cbv zeta. cbn [r4_r]. set (t := l - p + sub_C (l - p) e). destruct (circle_r (a * (1 - e ^ 2)) e t) as (A & B); [apply Rmult_lt_0_compat; [lra|]; replace (1 - e ^ 2) with ((1 - e) * (1 + e)) by ring; apply Rmult_lt_0_compat; lra|lra|].
  replace (a * (1 - e ^ 2) / (1 + e)) with (a * (1 - e)) in A by (field; lra). replace (a * (1 - e ^ 2) / (1 - e)) with (a * (1 + e)) in B by (field; lra). lra.
Qed.
Lemma div_le a b c : 0 < b -> c * b <= a -> c <= a / b.
Proof. intros H K. apply (Rmult_le_reg_r b); [exact H|]. unfold Rdiv. rewrite Rmult_assoc, Rinv_l, Rmult_1_r by lra. exact K. Qed.
Lemma div_ge a b c : 0 < b -> a <= c * b -> a / b <= c.
Proof. intros H K. apply (Rmult_le_reg_r b); [exact H|]. unfold Rdiv. rewrite Rmult_assoc, Rinv_l, Rmult_1_r by lra. exact K. Qed.
Lemma inner_r J : 3.01 <= r4_r (mimas J) <= 3.13 /\ 3.92 <= r4_r (enceladus J) <= 3.97 /\ r4_r (tethys J) = 4.880998 /\ 6.23 <= r4_r (dione J) <= 6.27.
Proof.
  assert (G : forall a k t lo hi, 0 < a -> 0 <= k < 1 -> lo * (1 + k) <= a -> a <= hi * (1 - k) -> lo <= a / (1 + k * cos t) <= hi).
  { intros a k t lo hi Ha Hk H1 H2. destruct (circle_r a k t Ha Hk) as (A & B). split; [eapply Rle_trans; [|exact A]; apply div_le; lra|eapply Rle_trans; [exact B|]; apply div_ge; lra]. }
  unfold mimas, enceladus, tethys, dione. cbv zeta. cbn [r4_r]. split; [apply G; decimals; lra|]. split; [apply G; decimals; lra|]. split; [reflexivity|]. apply G; decimals; lra.
Qed.
Lemma hypot_le x y w : 0 <= w -> x * x + y * y <= w * w -> hypot x y <= w.
Proof. intros Hw H. unfold hypot. rewrite <- (sqrt_square w Hw). apply sqrt_le_1_alt. exact H. Qed.
(** Each of the outer moons moves on an ellipse with the bounds shown for its size, shape and plane. *)
Definition on_ellipse (m : r4) (alo ahi elo ehi ilo ihi olo ohi : R) : Prop :=
  exists l p e a Om i, m = subr l p e a Om i /\ alo <= a <= ahi /\ elo <= e <= ehi /\ ilo * d_ <= i <= ihi * d_ /\ olo * d_ <= Om <= ohi * d_.
Lemma d_pos : 0 < d_.
Proof. unfold d_. pose proof PI_RGT_0. lra. Qed.
Lemma d_sin t : - d_ <= d_ * sin t <= d_.
Proof. pose proof d_pos. pose proof (SIN_bound t). nra. Qed.
Lemma d_cos t : - d_ <= d_ * cos t <= d_.
Proof. pose proof d_pos. pose proof (COS_bound t). nra. Qed.
(** Bounds of linear combinations of sines and cosines, also with the factor d_. *)
Ltac box := pose proof d_pos;
  repeat match goal with
  | |- context [sin ?t] => pose proof (d_sin t); pose proof (SIN_bound t); let x := fresh "x" in set (x := sin t) in *; clearbody x
  | |- context [cos ?t] => pose proof (d_cos t); pose proof (COS_bound t); let x := fresh "x" in set (x := cos t) in *; clearbody x end;
  decimals; lra.
Lemma rhea_ellipse J : on_ellipse (rhea J) 8.725924 8.725924 0 0.00127 27.67 28.41 168.02 169.59.
Proof.
  unfold rhea. cbv zeta. do 6 eexists. split; [reflexivity|]. split; [decimals; lra|]. split; [|split].
  - split; [apply sqrt_pos|]. set (p' := 342.7 * d_ + 10.057 * d_ * q_t2 J). apply hypot_le; [decimals; lra|]. pose proof (sc1 p') as A. pose proof (sc1 (W4 J)) as B. set (x := sin p') in *. set (y := cos p') in *. set (u := sin (W4 J)) in *. set (v := cos (W4 J)) in *. clearbody x y u v. clear - A B.
    pose proof (pow2_ge_0 (x - u)) as Q1. pose proof (pow2_ge_0 (y - v)) as Q2. assert (Q : x * u + y * v <= 1) by lra. decimals.
    match goal with |- ?l <= _ => replace l with (265 * / 1000000 * (265 * / 1000000) * (x * x + y * y) + 1 * / 1000 * (1 * / 1000) * (u * u + v * v) + 2 * (265 * / 1000000) * (1 * / 1000) * (x * u + y * v)) by field end. rewrite A, B. lra.
  - box.
  - box.
Qed.
Lemma hyperion_ellipse J : on_ellipse (hyperion J) 24.41 24.6 0.07 0.1335 26.34 28.33 166.51 170.85.
Proof.
  unfold hyperion. cbv zeta. do 6 eexists. split; [reflexivity|]. split; [box|]. split; [box|]. split; box.
Qed.
Lemma d_val : 0.017453 <= d_ <= 0.017454.
Proof. unfold d_. pose proof PI_fine. decimals. lra. Qed.
Lemma sin_low x lo : 0 <= lo -> 0 <= x <= 1 -> lo <= x * (1 - x * x / 6) -> lo <= sin x.
Proof. intros H0 H K. destruct (small_trig x H) as ((A & _) & _). lra. Qed.
Lemma ratio_box k s c v : 0 < c -> c <= v -> -1 <= s <= 1 -> 0 <= k -> - (k * d_ / c) <= k * d_ * s / v <= k * d_ / c.
Proof.
  intros Hc Hv Hs Hk. pose proof d_pos as Hd. assert (0 <= k * d_) by nra. assert (- (k * d_) <= k * d_ * s <= k * d_) by nra. assert (I : 0 < / v <= / c) by (split; [apply Rinv_0_lt_compat; lra|apply Rinv_le_contravar; lra]).
  unfold Rdiv. set (w := k * d_) in *. set (z := w * s) in *. clearbody w z. assert (w * / v <= w * / c) by (apply Rmult_le_compat_l; lra). split.
  - assert (- (w * / v) <= z * / v) by nra. lra.
  - assert (z * / v <= w * / v) by (apply Rmult_le_compat_r; lra). lra.
Qed.
Lemma titan_ellipse J : on_ellipse (titan J) 20.216193 20.216193 0.0286 0.0296 27.12 27.79 167.96 169.38.
Proof.
  unfold titan. cbv zeta. set (i' := 27.45141 * d_ + 0.295999 * d_ * cos (W3 J)). set (Om' := 168.66925 * d_ + 0.628808 * d_ * sin (W3 J)).
  set (a1 := sin (W7 J) * sin (Om' - W8 J)). set (a2 := cos (W7 J) * sin i' - sin (W7 J) * cos i' * cos (Om' - W8 J)). set (s := hypot a1 a2).
  assert (Bs : 0 <= s <= 1).
  { split; [apply sqrt_pos|]. apply hypot_le; [lra|]. destruct (triangle_H (sin i') (cos i') (sin (Om' - W8 J)) (cos (Om' - W8 J)) (sin (W7 J)) (cos (W7 J)) (sc1 _) (sc1 _) (sc1 _)) as (A & B). unfold a1, a2.
    rewrite B. match type of A with _ + ?k * ?k = 1 => pose proof (Rle_0_sqr k) as Q; unfold Rsqr in Q end. lra. }
  assert (Bi : 27.155 * d_ <= i' <= 27.748 * d_) by (unfold i'; box). assert (BO : 168.04 * d_ <= Om' <= 169.2981 * d_) by (unfold Om'; box).
  assert (Si : 0.45 <= sin i'). { pose proof d_val as V. decimals_in V. decimals_in Bi. assert (47 / 100 <= i' <= 49 / 100) by lra. apply sin_low; decimals; try lra. nra. }
  repeat match goal with |- context [titan_w J ?g0 ?g1] => let w := fresh "w" in set (w := titan_w J g0 g1); clearbody w end.
  set (e' := 0.029092 + 0.00019048 * _). assert (Be : 0.02871 <= e' <= 0.02948) by (unfold e'; box). do 6 eexists. split; [reflexivity|]. split; [decimals; lra|].
  clearbody a1 a2 s e'. split; [|split].
  - match goal with |- context [cos ?t] => pose proof (COS_bound t) as C; set (x := cos t) in *; clearbody x end. decimals_in Be. decimals. assert (- e' <= e' * x <= e') by nra. lra.
  - match goal with |- context [cos ?t] => pose proof (COS_bound t) as C; set (x := cos t) in *; clearbody x end. pose proof d_pos as D0. assert (-1 <= s * x <= 1) by nra. assert (- d_ <= d_ * (s * x) <= d_) by nra. decimals_in Bi. decimals. lra.
  - match goal with |- context [sin (2 * W5 J - ?t + ?q)] => pose proof (SIN_bound (2 * W5 J - t + q)) as C; set (x := sin (2 * W5 J - t + q)) in *; clearbody x end. assert (Q : -1 <= s * x <= 1) by nra.
    pose proof (ratio_box 0.031843 (s * x) 0.45 (sin i') ltac:(decimals; lra) Si Q ltac:(decimals; lra)) as B. replace (0.031843 * d_ * (s * x) / sin i') with (0.031843 * d_ * s * x / sin i') in B by (unfold Rdiv; ring). pose proof d_pos. decimals_in BO. decimals_in B. decimals. lra.
Qed.
Lemma HornerR_4 x a b c d : HornerR x [a; b; c; d] = a + b * x + c * x ^ 2 + d * x ^ 3.
Proof. rewrite HornerR4. ring. Qed.
Lemma iapetus_ellipse J : Rabs (q_t11 J) <= 5 -> on_ellipse (iapetus J) 58.87 59 0.0194 0.0372 11.17 23.95 122.3 167.
Proof.
  intros HT. unfold iapetus. cbv zeta. apply Rabs_le_inv in HT. set (t := q_t11 J) in *. assert (T2 : 0 <= t * t <= 25) by nra. assert (T3 : -125 <= t * (t * t) <= 125) by nra. pose proof d_pos as D0.
  assert (DT : - (5 * d_) <= d_ * t <= 5 * d_) by nra. assert (D2 : 0 <= d_ * (t * t) <= 25 * d_) by nra. assert (D3 : - (125 * d_) <= d_ * (t * (t * t)) <= 125 * d_) by nra.
  assert (Bi : 11.22 * d_ <= iap_i J <= 23.9 * d_) by (unfold iap_i; fold t; rewrite HornerR_4; decimals; lra).
  assert (BO : 122.6 * d_ <= iap_O J <= 166.7 * d_) by (unfold iap_O; fold t; rewrite HornerR_4; decimals; lra).
  set (i' := iap_i J) in *. set (Om' := iap_O J) in *. clearbody i' Om'.
  assert (Si : 0.19 <= sin i'). { pose proof d_val as V. decimals_in V. decimals_in Bi. assert (195 / 1000 <= i' <= 42 / 100) by lra. apply sin_low; decimals; try lra. assert (i' * i' <= 42 / 100 * (42 / 100)) by nra. nra. }
  do 6 eexists. split; [reflexivity|]. split; [box|]. split; [clear Bi BO Si DT D2 D3; box|]. split; [decimals_in Bi; box|].
  match goal with |- context [Om' + ?n / sin i'] => set (w := n) end. assert (Bw : - (0.04797 * d_) <= w <= 0.04797 * d_) by (unfold w; clear; box). clearbody w.
  assert (Bq : - (0.2527 * d_) <= w / sin i' <= 0.2527 * d_). { assert (L : 0 < sin i') by (decimals_in Si; lra). decimals_in Si. decimals_in Bw. decimals. split; [apply div_le; [exact L|]|apply div_ge; [exact L|]]; nra. }
  decimals_in BO. decimals_in Bq. decimals. lra.
Qed.
(** Consequences: the distance, and the position in space. *)
Lemma ellipse_r m alo ahi elo ehi ilo ihi olo ohi : on_ellipse m alo ahi elo ehi ilo ihi olo ohi -> 0 < alo -> 0 <= elo -> ehi < 1 -> alo * (1 - ehi) <= r4_r m <= ahi * (1 + ehi).
Proof.
  intros (l & p & e & a & Om & i & -> & Ha & He & _) A0 E0 E1. destruct (subr_r l p e a Om i ltac:(lra) ltac:(lra)) as (A & B). split.
  - eapply Rle_trans; [|exact A]. apply Rmult_le_compat; lra.
  - eapply Rle_trans; [exact B|]. apply Rmult_le_compat; lra.
Qed.
Lemma poles_near i Om : 0 < i < PI / 2 - satJ -> 0 < sin i /\ 0 < dot (orbit_pole i Om) (orbit_pole satJ satN).
Proof.
  intros H. pose proof d_val as V. decimals_in V. assert (J0 : 0 < satJ) by (unfold satJ; decimals; lra). assert (S0 : 0 < sin i) by (apply sin_gt_0; pose proof PI_RGT_0; lra). split; [exact S0|].
  assert (E : dot (orbit_pole i Om) (orbit_pole satJ satN) = cos i * cos satJ + sin i * sin satJ * cos (Om - satN)) by (unfold orbit_pole, dot; cbn [vx vy vz]; rewrite cos_minus; ring). rewrite E.
  assert (C : 0 < cos (i + satJ)) by (apply cos_gt_0; lra). rewrite cos_plus in C. assert (S1 : 0 < sin satJ) by (apply sin_gt_0; pose proof PI_RGT_0; lra). pose proof (COS_bound (Om - satN)) as B. assert (0 < sin i * sin satJ) by (apply Rmult_lt_0_compat; assumption). nra.
Qed.
Lemma outer_place m alo ahi elo ehi ilo ihi olo ohi : on_ellipse m alo ahi elo ehi ilo ihi olo ohi -> 0 < ilo -> ihi <= 60 ->
  exists Om i th, ilo * d_ <= i <= ihi * d_ /\ olo * d_ <= Om <= ohi * d_ /\ from_plane satN satJ (vec_of (sat_xyz m)) = on_orbit Om i th (r4_r m).
Proof.
  intros (l & p & e & a & Om & i & -> & _ & _ & Hi & HO) I0 I1. pose proof d_pos as D0. pose proof d_val as V. pose proof PI_fine as P.
  destruct (poles_near i Om) as (S1 & S2). { split; [nra|]. unfold satJ. decimals_in V. decimals. nra. }
  exists Om, i, (l + sub_C (l - p) e - Om). split; [exact Hi|]. split; [exact HO|]. rewrite (subr_frame l p e a Om i S1 S2). apply from_of_plane.
Qed.
Lemma inner_place m : vec_of (sat_xyz m) = on_orbit (r4_O m - satN) (r4_g m) (r4_l m - r4_O m) (r4_r m).
Proof.
  unfold sat_xyz, on_orbit, vec_of, rot_x, rot_z, transpose, app, scale, dot. cbn [r1 r2 r3 vx vy vz]. cbv zeta. change (168.8112 * d_) with satN. f_equal; try ring.
Qed.
Lemma on_orbit_norm N J t r : 0 <= r -> norm (on_orbit N J t r) = r.
Proof.
  intros H. unfold norm, on_orbit, rot_x, rot_z, transpose, app, scale, dot. cbn [r1 r2 r3 vx vy vz]. rewrite <- (sqrt_square r H) at 7. f_equal. pose proof (sc1 N) as A. pose proof (sc1 J) as B. pose proof (sc1 t) as C.
  set (sn := sin N) in *. set (cn := cos N) in *. set (sj := sin J) in *. set (cj := cos J) in *. set (st := sin t) in *. set (ct := cos t) in *. clearbody sn cn sj cj st ct. clear H. nsatz.
Qed.
Lemma from_plane_norm N J v : norm (from_plane N J v) = norm v.
Proof.
  unfold norm, from_plane, rot_x, rot_z, transpose, app, dot. destruct v as [x y z]. cbn [r1 r2 r3 vx vy vz]. f_equal. pose proof (sc1 N) as A. pose proof (sc1 J) as B.
  set (sn := sin N) in *. set (cn := cos N) in *. set (sj := sin J) in *. set (cj := cos J) in *. clearbody sn cn sj cj. nsatz.
Qed.
Lemma sat_order J : Rabs (q_t11 J) <= 5 ->
  3.01 <= r4_r (mimas J) /\ r4_r (mimas J) <= 3.13 /\ 3.92 <= r4_r (enceladus J) /\ r4_r (enceladus J) <= 3.97 /\ r4_r (tethys J) = 4.880998 /\ 6.23 <= r4_r (dione J) /\ r4_r (dione J) <= 6.27 /\
  8.71 <= r4_r (rhea J) /\ r4_r (rhea J) <= 8.74 /\ 19.61 <= r4_r (titan J) /\ r4_r (titan J) <= 20.82 /\ 21.15 <= r4_r (hyperion J) /\ r4_r (hyperion J) <= 27.89 /\ 56.67 <= r4_r (iapetus J) /\ r4_r (iapetus J) <= 61.2.
Proof.
  intros H. destruct (inner_r J) as (A & B & C & D). pose proof (ellipse_r _ _ _ _ _ _ _ _ _ (rhea_ellipse J) ltac:(decimals; lra) ltac:(decimals; lra) ltac:(decimals; lra)) as E.
  pose proof (ellipse_r _ _ _ _ _ _ _ _ _ (titan_ellipse J) ltac:(decimals; lra) ltac:(decimals; lra) ltac:(decimals; lra)) as F. pose proof (ellipse_r _ _ _ _ _ _ _ _ _ (hyperion_ellipse J) ltac:(decimals; lra) ltac:(decimals; lra) ltac:(decimals; lra)) as G.
  pose proof (ellipse_r _ _ _ _ _ _ _ _ _ (iapetus_ellipse J H) ltac:(decimals; lra) ltac:(decimals; lra) ltac:(decimals; lra)) as I0.
  decimals_in A. decimals_in B. decimals_in D. decimals_in E. decimals_in F. decimals_in G. decimals_in I0. decimals. repeat split; try lra.
Qed.
(** ** Projection *)
Lemma sat_project_value Delta r k X Y Z : 0 < r -> norm (mkvec X Y Z) = r -> 0 < k -> Rabs Z < 2475 * Delta ->
  exists W X', sat_project Delta r k (X, Y, Z) = (X' * W, Y * W) /\ W * (Delta + Z / 2475) = Delta /\ 0 < W /\ (0 < Z -> W < 1) /\ (Z < 0 -> 1 < W) /\ X' = X + Rabs Z / k * sqrt (1 - X / r * (X / r)) /\ 0 <= 1 - X / r * (X / r) /\ X <= X' <= X + r / k.
Proof.
  intros Hr HN Hk HZ. unfold sat_project. cbv zeta. assert (N2 : X * X + Y * Y + Z * Z = r * r) by (rewrite <- HN; unfold norm; rewrite sqrt_sqrt; unfold dot; cbn [vx vy vz]; nra).
  assert (XR : 0 <= 1 - X / r * (X / r)). { replace (1 - X / r * (X / r)) with ((r * r - X * X) / (r * r)) by (field; lra). apply Rmult_le_pos; [nra|]. apply Rlt_le, Rinv_0_lt_compat. nra. }
  assert (SQ : 0 <= sqrt (1 - X / r * (X / r)) <= 1). { split; [apply sqrt_pos|]. rewrite <- sqrt_1 at 2. apply sqrt_le_1_alt. assert (0 <= X / r * (X / r)) by nra. lra. }
  assert (ZR : Rabs Z <= r). { rewrite <- (Rabs_pos_eq r) by lra. apply Rsqr_le_abs_0. unfold Rsqr. nra. }
  assert (DP : 0 < Delta + Z / 2475) by (apply Rabs_lt_inv in HZ; lra). pose proof (Rabs_pos Z) as AZ. assert (D0 : 0 < Delta) by lra.
  eexists; eexists. split; [reflexivity|]. split; [field; lra|]. split; [apply Rdiv_lt_0_compat; lra|]. split; [|split; [|split; [reflexivity|split; [exact XR|]]]].
  - intros Zp. apply (Rmult_lt_reg_r (Delta + Z / 2475)); [exact DP|]. unfold Rdiv at 1. rewrite Rmult_assoc, Rinv_l by lra. lra.
  - intros Zn. apply (Rmult_lt_reg_r (Delta + Z / 2475)); [exact DP|]. unfold Rdiv at 2. rewrite Rmult_assoc, Rinv_l by lra. lra.
  - set (q := sqrt _) in *. assert (K : 0 <= Rabs Z / k <= r / k) by (unfold Rdiv; pose proof (Rinv_0_lt_compat k Hk); split; [apply Rmult_le_pos; lra|apply Rmult_le_compat_r; lra]). split; nra.
Qed.
(** What Positions returns for each moon. *)
Definition seen (l0 b0 Delta : R) (mk : r4 * R) (xy : R * R) : Prop := let '(m, k) := mk in
  let place := from_plane satN satJ (vec_of (sat_xyz m)) in
  exists h X Y Z W X', 0 < h /\ sky_axes l0 b0 satPole place h X Y Z /\ xy = (X' * W, Y * W) /\ W * (Delta + Z / 2475) = Delta /\ 0 < W /\
    X' = X + Rabs Z / k * sqrt (1 - X / r4_r m * (X / r4_r m)) /\ 0 <= 1 - X / r4_r m * (X / r4_r m) /\ X <= X' <= X + r4_r m / k.
Lemma pole_visible l b : Rabs (sin b) < 0.5 -> dot satPole (east l b) <> 0 \/ dot satPole (north l b) <> 0.
Proof.
  intros H. destruct (Req_dec (dot satPole (east l b)) 0) as [E|]; [|left; assumption]. right. intros E'. destruct s1_bounds as (B1 & B2). decimals_in B1. decimals_in B2. decimals_in H.
  assert (D : dot satPole (dir l b) * dot satPole (dir l b) = 1).
  { assert (Q : dot satPole (east l b) * dot satPole (east l b) + dot satPole (north l b) * dot satPole (north l b) + dot satPole (dir l b) * dot satPole (dir l b) = 1).
    { unfold satPole, orbit_pole, dot, east, north, dir. cbn [vx vy vz]. pose proof (sc1 l) as Kl. pose proof (sc1 b) as Kb. pose proof (sc1 satJ) as Kj. pose proof (sc1 satN) as Kn. set (sl := sin l) in *. set (cl := cos l) in *. set (sb := sin b) in *. set (cb := cos b) in *. set (sj := sin satJ) in *. set (cj := cos satJ) in *. set (sn := sin satN) in *. set (cn := cos satN) in *.
      clearbody sl cl sb cb sj cj sn cn. clear - Kl Kb Kj Kn. nsatz. }
    rewrite E, E' in Q. lra. }
  assert (EV : dot satPole (dir l b) = s1 * (cos b * sin (satN - l)) + c1 * sin b). { unfold satPole, orbit_pole, dot, dir. cbn [vx vy vz]. rewrite sin_minus. change (sin satJ) with s1. change (cos satJ) with c1. ring. }
  pose proof (SIN_bound (satN - l)) as S0. pose proof (COS_bound b) as C0. apply Rabs_lt_inv in H. rewrite EV in D. set (x := cos b) in *. set (y := sin (satN - l)) in *. set (z := sin b) in *. clearbody x y z. assert (-1 <= x * y <= 1) by nra. set (w := x * y) in *. clearbody w.
  assert (- (4902 / 10000) <= s1 * w <= 4902 / 10000) by nra. assert (- (1 / 2) <= c1 * z <= 1 / 2) by nra. nra.
Qed.
Lemma SaturnPositions_seen jde earth saturn : let '(l0, b0, Delta, J) := sat_direction jde earth saturn in Rabs (q_t11 J) <= 5 -> Rabs (sin b0) < 0.5 -> 1 <= Delta ->
  Forall2 (seen l0 b0 Delta) (sat_moons J) (SaturnPositions jde earth saturn).
Proof.
  unfold SaturnPositions. destruct (sat_direction jde earth saturn) as [[[l0 b0] Delta] J]. intros HT Hb HD. pose proof (sat_order J HT) as HO.
  assert (G : forall m k, 0 < r4_r m <= 62 -> 0 < k -> seen l0 b0 Delta (m, k) (sat_project Delta (r4_r m) k (sat_sky (sat_D l0 b0) (sat_rot l0 b0 (sat_xyz m))))).
  { intros m k Hr Hk. pose proof (sat_sky_value l0 b0 (sat_xyz m)) as HS. cbv zeta in HS. destruct (sat_sky (sat_D l0 b0) (sat_rot l0 b0 (sat_xyz m))) as [[X Y] Z]. destruct HS as (HN & HA). destruct (HA (pole_visible l0 b0 Hb)) as (h & Hh & Ax).
    rewrite from_plane_norm, inner_place, on_orbit_norm in HN by lra. destruct (sat_project_value Delta (r4_r m) k X Y Z) as (W & X' & E1 & E2 & E3 & _ & _ & E4 & E5 & E6); try lra.
    { assert (Z * Z <= r4_r m * r4_r m). { rewrite <- HN. unfold norm. rewrite sqrt_sqrt; unfold dot; cbn [vx vy vz]; nra. } apply Rle_lt_trans with (r4_r m); [|lra]. rewrite <- (Rabs_pos_eq (r4_r m)) by lra. apply Rsqr_le_abs_0. exact H. }
    exists h, X, Y, Z, W, X'. repeat (split; [assumption|]). exact E6. }
  unfold sat_moons. cbn [map]. decimals_in HO. repeat (apply Forall2_cons; [apply G; lra|]). apply Forall2_nil.
Qed.
(** ** Direction and light time *)
Lemma sat_direction_value jde earth saturn : let '(s, b, R0) := TrueVSOP87 earth jde in let sun := mkvec (R0 * cos s) (R0 * sin s) (R0 * sin b) in
  let place D v := exists l b r l' b', PlanetPosition saturn (jde - LightTime D) = (l, b, r) /\ ToFK5 l b (jde - LightTime D) = (l', b') /\ v = vadd sun (scale r (dir l' b')) in
  let '(l0, b0, Delta, J) := sat_direction jde earth saturn in
  exists v1 v2 la be, place 9 v1 /\ place (norm v1) v2 /\ Delta = norm v2 /\ J = jde - LightTime (norm v1) /\ - (PI / 2) <= b0 <= PI / 2 /\
    (vx v2 <> 0 \/ vy v2 <> 0 -> dir la be = unit_of v2) /\
    let p := NewEclipticPrecessor (JDEToJulianYear (fl := RFlt) jde) (JDEToJulianYear (fl := RFlt) 2433282.4235) in dir l0 b0 = ecliptic_precession (epeta p) (eppi p) (epp p) (dir la be).
Proof.
  destruct (TrueVSOP87 earth jde) as [[s b] R0] eqn:E0. intros sun place. unfold sat_direction, sat_place. rewrite E0.
  destruct (PlanetPosition saturn (jde - LightTime 9)) as [[l1 b1] ra] eqn:E1. destruct (ToFK5 l1 b1 (jde - LightTime 9)) as [l1' b1'] eqn:F1. cbv zeta.
  set (v1 := vadd sun (scale ra (dir l1' b1'))). set (D1 := sqrt _). assert (ED : D1 = norm v1). { unfold D1, norm, v1, sun, dot, vadd, scale, dir. cbn [vx vy vz]. f_equal. ring. } rewrite ED. clearbody D1.
  destruct (PlanetPosition saturn (jde - LightTime (norm v1))) as [[l2 b2] rb] eqn:E2. destruct (ToFK5 l2 b2 (jde - LightTime (norm v1))) as [l2' b2'] eqn:F2.
  set (v2 := vadd sun (scale rb (dir l2' b2'))). set (x := rb * cos b2' * cos l2' + R0 * cos s). set (y := rb * cos b2' * sin l2' + R0 * sin s). set (z := rb * sin b2' + R0 * sin b).
  assert (EV : v2 = mkvec x y z) by (unfold v2, x, y, z, sun, vadd, scale, dir; cbn [vx vy vz]; f_equal; ring).
  unfold EclipticPosition. replace (negb (Req_bool 0 0) || negb (Req_bool 0 0))%bool with false by (rewrite Req_bool_true; reflexivity).
  set (p := NewEclipticPrecessor _ _). destruct (EclPrecess_dir p (mkEcl (atan2 y x) (atan (z / hypot x y)))) as (_ & HB & HD). cbn [eclLon eclLat] in HD. destruct (EclPrecess p _) as [l0 b0]. cbn [eclLon eclLat] in *.
  exists v1, v2, (atan2 y x), (atan (z / hypot x y)). split; [exists l1, b1, ra, l1', b1'; repeat split; assumption|]. split; [exists l2, b2, rb, l2', b2'; repeat split; assumption|].
  split; [rewrite EV; reflexivity|]. split; [reflexivity|]. split; [exact HB|]. split; [|exact HD].
  rewrite EV. cbn [vx vy]. intros N. exact (proj2 (dir_rect x y z N)).
Qed.
(** ** For the property theorems *)
Lemma sub_C_series M e : 0 <= e <= 0.2 -> Rabs (sub_C M e - centre_series M e) <= 0.000000001.
Proof.
  intros He. decimals_in He. set (k5 := e * e * e * e * e). set (k4 := e * e * e * e). set (k3 := e * e * e). set (k2 := e * e).
  assert (K2 : 0 <= k2 <= 1 / 25) by (unfold k2; nra). assert (K3 : 0 <= k3 <= 1 / 125) by (unfold k3; fold k2; nra). assert (K4 : 0 <= k4 <= 1 / 625) by (unfold k4; fold k3; nra). assert (K5 : 0 <= k5 <= 1 / 3125) by (unfold k5; fold k4; nra).
  assert (E : sub_C M e - centre_series M e = - (k5 * (1 / 30000000000) * sin M) + k4 * (1 / 3000000000) * sin (2 * M) + - (k3 * (1 / 3000000000)) * sin (3 * M) + k4 * (1 / 3000000) * sin (4 * M) + - (k5 * (1 / 3000000)) * sin (5 * M)).
  { unfold sub_C, centre_series, k3, k4, k5. decimals. field. }
  rewrite E. pose proof (SIN_bound M) as B1. pose proof (SIN_bound (2 * M)) as B2. pose proof (SIN_bound (3 * M)) as B3. pose proof (SIN_bound (4 * M)) as B4. pose proof (SIN_bound (5 * M)) as B5.
  set (x1 := sin M) in *. set (x2 := sin (2 * M)) in *. set (x3 := sin (3 * M)) in *. set (x4 := sin (4 * M)) in *. set (x5 := sin (5 * M)) in *. clearbody x1 x2 x3 x4 x5 k2 k3 k4 k5. clear E.
  assert (P : forall k q x, 0 <= k <= q -> -1 <= x <= 1 -> - q <= k * x <= q) by (intros; nra).
  pose proof (P k5 _ x1 K5 B1). pose proof (P k4 _ x2 K4 B2). pose proof (P k3 _ x3 K3 B3). pose proof (P k4 _ x4 K4 B4). pose proof (P k5 _ x5 K5 B5). decimals. apply Rabs_le. lra.
Qed.
Lemma outer_ellipse m alo ahi elo ehi ilo ihi olo ohi : on_ellipse m alo ahi elo ehi ilo ihi olo ohi -> 0 < ilo -> ihi <= 60 -> 0 <= elo -> ehi <= 0.2 ->
  exists a e p Om i M C, alo <= a <= ahi /\ elo <= e <= ehi /\ degrees ilo <= i <= degrees ihi /\ degrees olo <= Om <= degrees ohi /\ Rabs (C - centre_series M e) <= 0.000000001 /\
    from_plane satN satJ (vec_of (sat_xyz m)) = ellipse_place a e p Om i (M + C).
Proof.
  intros (l & p & e & a & Om & i & -> & Ha & He & Hi & HO) I0 I1 E0 E1. pose proof d_pos as D0. pose proof d_val as V. pose proof PI_fine as P.
  destruct (poles_near i Om) as (S1 & S2). { split; [nra|]. unfold satJ. decimals_in V. decimals. nra. }
  assert (DG : forall x, degrees x = x * d_) by (intros; unfold degrees, d_; field). 
  exists a, e, p, Om, i, (l - p), (sub_C (l - p) e). rewrite !DG. repeat (split; [assumption|]). split; [apply sub_C_series; lra|]. rewrite (subr_frame l p e a Om i S1 S2), from_of_plane. unfold ellipse_place, subr. cbv zeta. cbn [r4_r].
  f_equal; [ring|]. replace (e * e) with (e ^ 2) by ring. reflexivity.
Qed.
Lemma outer_moons J : Rabs (q_t11 J) <= 5 -> let place m a1 a2 e1 e2 i1 i2 o1 o2 := exists a e p Om i M C, a1 <= a <= a2 /\ e1 <= e <= e2 /\ degrees i1 <= i <= degrees i2 /\ degrees o1 <= Om <= degrees o2 /\
    Rabs (C - centre_series M e) <= 0.000000001 /\ from_plane satN satJ (vec_of (sat_xyz m)) = ellipse_place a e p Om i (M + C) in
  place (rhea J) 8.725924 8.725924 0 0.00127 27.67 28.41 168.02 169.59 /\ place (titan J) 20.216193 20.216193 0.0286 0.0296 27.12 27.79 167.96 169.38 /\
  place (hyperion J) 24.41 24.6 0.07 0.1335 26.34 28.33 166.51 170.85 /\ place (iapetus J) 58.87 59 0.0194 0.0372 11.17 23.95 122.3 167.
Proof.
  intros H place. unfold place. split; [|split; [|split]].
  - apply outer_ellipse; [apply rhea_ellipse| | | |]; decimals; lra.
  - apply outer_ellipse; [apply titan_ellipse| | | |]; decimals; lra.
  - apply outer_ellipse; [apply hyperion_ellipse| | | |]; decimals; lra.
  - apply outer_ellipse; [apply iapetus_ellipse; exact H| | | |]; decimals; lra.
Qed.
Lemma inner_moons J : let place m inc := exists th node, vec_of (sat_xyz m) = on_orbit node (degrees inc) th (r4_r m) in
  place (mimas J) 1.563 /\ place (enceladus J) 0.0262 /\ place (tethys J) 1.0976 /\ place (dione J) 0.0139.
Proof.
  assert (DG : forall x, degrees x = x * d_) by (intros; unfold degrees, d_; field). cbv zeta.
  split; [|split; [|split]]; eexists; eexists; rewrite inner_place, DG; f_equal.
Qed.
Lemma sat_frame : satN = degrees 168.8112 /\ satJ = degrees 28.0817 /\ forall v, plane_coords satN satJ (from_plane satN satJ v) = v.
Proof. split; [unfold satN, degrees, d_; field|]. split; [unfold satJ, degrees, d_; field|]. apply plane_from. Qed.
(** ** Resonances *)
Lemma deg_d x : degrees x = x * d_.
Proof. unfold degrees, d_; field. Qed.
Lemma mimas_tethys J : Rabs (q_t2 J) <= 1000 -> near_turns (4 * r4_l (tethys J) - 2 * r4_l (mimas J) - r4_O (mimas J) - r4_O (tethys J)) (degrees 117).
Proof.
  intros H. unfold tethys, mimas. cbv zeta. cbn [r4_l r4_O]. set (M := _ - (106.1 * d_ + 365.549 * d_ * q_t2 J)). assert (E1 : q_t1 J = 365.25 * q_t2 J) by (unfold q_t2; decimals; field). rewrite E1. clearbody M.
  pose proof (SIN_bound (W0 J)) as B1. pose proof (SIN_bound (3 * W0 J)) as B2. pose proof (SIN_bound (5 * W0 J)) as B3. pose proof (SIN_bound M) as B4. pose proof (SIN_bound (2 * M)) as B5. pose proof (SIN_bound (3 * M)) as B6.
  set (w1 := sin (W0 J)) in *. set (w3 := sin (3 * W0 J)) in *. set (w5 := sin (5 * W0 J)) in *. set (m1 := sin M) in *. set (m2 := sin (2 * M)) in *. set (m3 := sin (3 * M)) in *. set (t := q_t2 J) in *. clearbody w1 w3 w5 m1 m2 m3 t. clear E1.
  exists 2%Z. rewrite deg_d. pose proof d_pos as D0. replace (2 * PI) with (360 * d_) by (unfold d_; field). apply Rabs_le_inv in H.
  match goal with |- Rabs ?x <= _ => replace x with ((0.114 - 0.01414664 * t + (4 * 2.063 + 2 * 43.57) * w1 + (4 * 0.03409 + 2 * 0.72) * w3 + (4 * 0.001015 + 2 * 0.02144) * w5 - 2 * 2.18287 * m1 - 2 * 0.025988 * m2 - 2 * 0.00043 * m3) * d_) end.
  2:{ decimals. field. }
  rewrite Rabs_mult, (Rabs_pos_eq d_) by lra. apply Rmult_le_compat_r; [lra|]. apply Rabs_le. decimals. lra.
Qed.
Lemma enceladus_dione J : Rabs (q_t2 J) <= 1000 -> exists v p, r4_r (enceladus J) = 3.94118 / (1 + 0.00485 * cos v) /\ r4_l (enceladus J) = v + p /\ near_turns (2 * r4_l (dione J) - r4_l (enceladus J) - p) (degrees 1.7).
Proof.
  intros H. unfold enceladus, dione. cbv zeta. cbn [r4_l r4_r]. assert (E1 : q_t1 J = 365.25 * q_t2 J) by (unfold q_t2; decimals; field). rewrite E1.
  set (L := 200.317 * d_ + _ + _ + _). set (p := 309.107 * d_ + _). set (M := L - p). set (M' := _ - (174.8 * d_ + 30.82 * d_ * q_t2 J)). exists (M + (0.55577 * d_ * sin M + 0.00168 * d_ * sin (2 * M))), p. split; [reflexivity|]. split; [unfold M; ring|].
  clearbody M M'. pose proof (SIN_bound (W1 J)) as B1. pose proof (SIN_bound (W2 J)) as B2. pose proof (SIN_bound M) as B4. pose proof (SIN_bound (2 * M)) as B5. pose proof (SIN_bound M') as B6. pose proof (SIN_bound (2 * M')) as B7. unfold L, p.
  set (w1 := sin (W1 J)) in *. set (w2 := sin (W2 J)) in *. set (m1 := sin M) in *. set (m2 := sin (2 * M)) in *. set (m3 := sin M') in *. set (m4 := sin (2 * M')) in *. set (t := q_t2 J) in *. clear L p. clearbody w1 w2 m1 m2 m3 m4 t. clear E1.
  exists 0%Z. rewrite deg_d. pose proof d_pos as D0. apply Rabs_le_inv in H.
  match goal with |- Rabs ?x <= _ => replace x with ((0.000016815 * t - (0.25667 + 2 * 0.0215) * w1 - (0.20883 + 2 * 0.01733) * w2 - 0.55577 * m1 - 0.00168 * m2 + 2 * 0.24717 * m3 + 2 * 0.00033 * m4) * d_) end.
  2:{ decimals. field. }
  rewrite Rabs_mult, (Rabs_pos_eq d_) by lra. apply Rmult_le_compat_r; [lra|]. apply Rabs_le. decimals. lra.
Qed.
