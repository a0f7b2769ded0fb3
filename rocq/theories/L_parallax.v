(** Lemmas for diurnal parallax. *)
From Coq Require Import ZArith Reals Lra Bool Nsatz.
From Flocq Require Import Core.
From Verif Require Import GoMath M_coord M_light M_parallax S_Sphere S_parallax L_trig L_vec L_angle L_coord L_precess L_light.
Local Open Scope R_scope.

Lemma Mod1_cos x : cos (Mod1 x) = cos x. Proof. exact (cos_RAFromRad x). Qed.
Lemma Mod1_sin x : sin (Mod1 x) = sin x. Proof. exact (sin_RAFromRad x). Qed.

(** The topocentric vector divided by the geocentric distance, in the frame of the
    meridian of the body. *)
Lemma topo_vec p al de rs rc th : 0 < sin p ->
  vsub (body p al de) (observer rs rc th) =
  scale (1 / sin p) (mkvec (cos de * cos al - sin p * rc * cos th) (cos de * sin al - sin p * rc * sin th) (sin de - sin p * rs)).
Proof.
  intros HP. unfold vsub, body, observer, vadd, scale, dir. cbn [vx vy vz]. apply mkvec_eq; field; lra.
Qed.
Lemma scale_scale a b v : scale a (scale b v) = scale (a * b) v.
Proof. unfold scale. cbn. apply mkvec_eq; ring. Qed.
Lemma seen_scale k v a d : 0 < k -> (exists r, 0 < r /\ v = scale r (dir a d)) -> seen_at (scale k v) a d.
Proof. intros K [r [R E]]. exists (k * r). split; [nra|]. rewrite E. apply scale_scale. Qed.

Lemma polar_latitude h z : 0 <= h -> let q := sqrt (h * h + z * z) in 0 < q -> q * cos (asin (z / q)) = h /\ q * sin (asin (z / q)) = z.
Proof.
  intros H q Q. assert (QQ : q * q = h * h + z * z) by (apply sqrt_sqrt; nra).
  assert (Z : -1 <= z / q <= 1).
  { assert (z * z <= q * q) by nra. split; apply Rmult_le_reg_r with q; try exact Q; unfold Rdiv; rewrite Rmult_assoc, Rinv_l by lra; nra. }
  assert (S : q * sin (asin (z / q)) = z) by (rewrite sin_asin by exact Z; field; lra).
  split; [|exact S]. pose proof (asin_bound (z / q)) as B. assert (C : 0 <= cos (asin (z / q))) by (apply cos_ge_0; lra).
  apply Rsqr_inj; [nra|exact H|]. unfold Rsqr. pose proof (sc1 (asin (z / q))) as S1. set (s := sin _) in *. set (c := cos _) in *.
  transitivity (q * q * (s * s + c * c) - q * s * (q * s)); [ring|]. rewrite S1, S. lra.
Qed.
Lemma polar_longitude x y : let h := hypot x y in h * cos (atan2 y x) = x /\ h * sin (atan2 y x) = y.
Proof.
  cbv zeta. destruct (Req_dec x 0) as [X|X]; [destruct (Req_dec y 0) as [Y|Y]|].
  - subst. unfold hypot. replace (0 * 0 + 0 * 0) with 0 by ring. rewrite sqrt_0. split; ring.
  - apply atan2_spec. now right.
  - apply atan2_spec. now left.
Qed.

Section Topo.
Variables (al de D rs rc L th0 : R).
Let p := HorizontalParallax D.
Let th := th0 - L.
Let H := Mod1 (th0 - L - al).
Let T := vsub (body p al de) (observer rs rc th).
Hypothesis SP : 0 < sin p.
Hypothesis NZ : T <> vzero.

Let A := cos de * sin H.
Let B := cos de * cos H - rc * sin p.
Let C := sin de - rs * sin p.
Let q := sqrt (A * A + B * B + C * C).

Lemma H_cos : cos H = cos th * cos al + sin th * sin al.
Proof. unfold H. rewrite Mod1_cos. fold th. now rewrite cos_minus. Qed.
Lemma H_sin : sin H = sin th * cos al - cos th * sin al.
Proof. unfold H. rewrite Mod1_sin. fold th. now rewrite sin_minus. Qed.
(** In the rotated frame. *)
Lemma T_hour : T = scale (1 / sin p) (mkvec (B * cos th + A * sin th) (B * sin th - A * cos th) C).
Proof.
  unfold T. rewrite topo_vec by exact SP. f_equal. unfold A, B, C. rewrite H_cos, H_sin. pose proof (sc1 th) as S.
  apply mkvec_eq; [| |ring].
  - transitivity (cos de * cos al * (sin th * sin th + cos th * cos th) - sin p * rc * cos th); [rewrite S|]; ring.
  - transitivity (cos de * sin al * (sin th * sin th + cos th * cos th) - sin p * rc * sin th); [rewrite S|]; ring.
Qed.
Lemma q_pos : 0 < q.
Proof.
  apply sqrt_lt_R0. destruct (Req_dec A 0) as [EA|NA]; [destruct (Req_dec B 0) as [EB|NB]; [destruct (Req_dec C 0) as [EC|NC]|]|]; try nra.
  exfalso. apply NZ. rewrite T_hour, EA, EB, EC. unfold scale, vzero. cbn [vx vy vz]. apply mkvec_eq; ring.
Qed.
Lemma Topocentric3_geom : let '(H', de') := Topocentric3 al de D rs rc L th0 in
  seen_at T (th - H') de' /\ - PI < H' <= PI /\ - (PI / 2) <= de' <= PI / 2.
Proof.
  unfold Topocentric3. cbv beta iota zeta. fold p H. fold A. fold B. fold C. fold q.
  split; [|split; [apply atan2_bound|apply asin_bound]].
  rewrite T_hour. apply seen_scale; [apply Rdiv_lt_0_compat; lra|]. exists q. split; [exact q_pos|].
  destruct (polar_longitude B A) as [P1 P2]. set (h := hypot B A) in *. set (a := atan2 A B) in *.
  assert (Q : q = sqrt (h * h + C * C)) by (unfold q, h; f_equal; rewrite hypot_sqr; ring).
  destruct (polar_latitude h C (hypot_pos _ _)) as [P3 P4]; [rewrite <- Q; exact q_pos|]. rewrite <- Q in P3, P4.
  unfold scale, dir. cbn [vx vy vz]. rewrite cos_minus, sin_minus. set (d := asin (C / q)) in *. apply mkvec_eq; [| |now symmetry].
  - replace (q * (cos d * (cos th * cos a + sin th * sin a))) with (q * cos d * cos a * cos th + q * cos d * sin a * sin th) by ring.
    rewrite P3, P1, P2. ring.
  - replace (q * (cos d * (sin th * cos a - cos th * sin a))) with (q * cos d * cos a * sin th - q * cos d * sin a * cos th) by ring.
    rewrite P3, P1, P2. ring.
Qed.

Let E := cos de - rc * sin p * cos H.
Let X := - rc * sin p * sin H.
Lemma T_meridian : T = scale (1 / sin p) (mkvec (E * cos al - X * sin al) (E * sin al + X * cos al) C).
Proof.
  unfold T. rewrite topo_vec by exact SP. f_equal. unfold E, X, C. rewrite H_cos, H_sin. pose proof (sc1 al) as S.
  apply mkvec_eq; [| |ring].
  - transitivity (cos de * cos al - sin p * rc * cos th * (sin al * sin al + cos al * cos al)); [rewrite S|]; ring.
  - transitivity (cos de * sin al - sin p * rc * sin th * (sin al * sin al + cos al * cos al)); [rewrite S|]; ring.
Qed.
Lemma topo_direction sg : sg * sg = 1 -> 0 < sg * E ->
  let '(al', de') := Topocentric al de D rs rc L th0 in
  exists r, 0 < r /\ T = scale (sg * r) (dir al' de').
Proof.
  intros SG HE. unfold Topocentric. cbv beta iota zeta. fold p H. fold E. fold X. fold C.
  set (da := atan2 X E). destruct (polar_longitude E X) as [P1 P2]. fold da in P1, P2. set (h := hypot E X) in *.
  assert (NE : E <> 0) by nra. assert (Hh : 0 < h) by (apply hypot_gt0; now left).
  assert (Hc : 0 < sg * cos da) by nra.
  assert (AA : cos (atan2 (C * cos da) E) = sg * cos (atan2 C h) /\ sin (atan2 (C * cos da) E) = sg * sin (atan2 C h)).
  { assert (NH : h <> 0 \/ C <> 0) by (left; lra). destruct (atan2_spec h C NH) as [Q1 Q2]. set (g := hypot h C) in *. assert (G : 0 < g) by (apply hypot_gt0; exact NH).
    assert (SG1 : sg = 1 \/ sg = -1) by nra. destruct SG1 as [-> | ->].
    - destruct (atan2_cs E (C * cos da) (g * cos da) (atan2 C h)) as [U V]; [nra|rewrite <- P1; rewrite <- Q1 at 1; ring|rewrite <- Q2 at 1; ring|]. split; lra.
    - destruct (atan2_cs E (C * cos da) (g * - cos da) (atan2 C h + PI)) as [U V]; [nra| | |].
      + rewrite <- P1. rewrite <- Q1 at 1. rewrite neg_cos. ring.
      + rewrite <- Q2 at 1. rewrite neg_sin. ring.
      + rewrite neg_cos in U. rewrite neg_sin in V. split; lra. }
  destruct AA as [U V]. destruct (polar_longitude h C) as [Q1 Q2]. set (g := hypot h C) in *. assert (G : 0 < g) by (apply hypot_gt0; left; lra).
  exists (1 / sin p * g). split; [apply Rmult_lt_0_compat; [apply Rdiv_lt_0_compat; lra|exact G]|].
  rewrite T_meridian. unfold RAAdd. unfold scale, dir. cbn [vx vy vz]. rewrite U, V, cos_RAFromRad, sin_RAFromRad, cos_plus, sin_plus.
  set (d := atan2 C h) in *. apply mkvec_eq.
  - transitivity (1 / sin p * ((g * cos d) * cos da * cos al - (g * cos d) * sin da * sin al) * (sg * sg)); [rewrite SG, Q1, P1, P2|]; ring.
  - transitivity (1 / sin p * ((g * cos d) * cos da * sin al + (g * cos d) * sin da * cos al) * (sg * sg)); [rewrite SG, Q1, P1, P2|]; ring.
  - transitivity (1 / sin p * (g * sin d) * (sg * sg)); [rewrite SG, Q2|]; ring.
Qed.
Lemma Topocentric_geom : 0 < E -> let '(al', de') := Topocentric al de D rs rc L th0 in
  seen_at T al' de' /\ 0 <= al' < 2 * PI /\ - (PI / 2) <= de' <= PI / 2.
Proof.
  intros HE. pose proof (topo_direction 1 ltac:(ring) ltac:(lra)) as K. revert K. unfold Topocentric. cbv beta iota zeta. fold p H. fold E. fold X. fold C.
  intros (r & R & K). split; [exists r; split; [exact R|]; rewrite K; f_equal; ring|]. split; [apply PMod_bound, two_PI_pos|].
  set (x := C * cos (atan2 X E)). destruct (atan2_spec E x ltac:(left; lra)) as [U _]. pose proof (hypot_gt0 E x ltac:(left; lra)) as G. pose proof (atan2_bound x E) as AB.
  set (d := atan2 x E) in *. assert (CP : 0 < cos d) by nra.
  pose proof PI_RGT_0 as PP. split; apply Rnot_lt_le; intros W.
  - assert (cos d <= 0); [|lra]. rewrite <- cos_neg. apply cos_le_0; lra.
  - assert (cos d <= 0); [|lra]. apply cos_le_0; lra.
Qed.
(** Beyond the pole the result is the opposite direction. *)
Lemma Topocentric_opposite : E < 0 -> let '(al', de') := Topocentric al de D rs rc L th0 in
  seen_at (scale (-1) T) al' de'.
Proof.
  intros HE. pose proof (topo_direction (-1) ltac:(ring) ltac:(lra)) as K. destruct (Topocentric al de D rs rc L th0) as [al' de'].
  destruct K as (r & R & K). exists r. split; [exact R|]. rewrite K, scale_scale. f_equal. ring.
Qed.
End Topo.

(** Two descriptions of one direction. *)
Lemma seen_dir v a d a' d' : seen_at v a d -> seen_at v a' d' -> dir a d = dir a' d'.
Proof.
  intros (r & R & E) (r' & R' & E').
  assert (N : norm v = r) by (rewrite E; apply norm_scale_dir; lra). assert (N' : norm v = r') by (rewrite E'; apply norm_scale_dir; lra).
  assert (RR : r' = r) by lra. clear N N'. rewrite RR, E in E'. clear E RR R'. destruct (dir a d) as [x y z]. destruct (dir a' d') as [x' y' z']. unfold scale in E'. cbn in E'.
  injection E' as E1 E2 E3. apply mkvec_eq; apply Rmult_eq_reg_l with r; (assumption || (apply Rgt_not_eq; exact R)).
Qed.

(** ** Ecliptical coordinates *)
Section Ecl.
Variables (lam be s phi h eps theta p : R).
Let rs := fst (ParallaxConstants Earth76 phi h).
Let rc := snd (ParallaxConstants Earth76 phi h).
Let T := vsub (body p lam be) (app (rot_x eps) (observer rs rc (TimeRad theta))).
Hypothesis SP : 0 < sin p.
Let N := cos lam * cos be - rc * sin p * cos (TimeRad theta).
Let Y := sin lam * cos be - sin p * (rs * sin eps + rc * cos eps * sin (TimeRad theta)).
Let Z := sin be - sin p * (rs * cos eps - rc * sin eps * sin (TimeRad theta)).
Lemma T_ecl : T = scale (1 / sin p) (mkvec N Y Z).
Proof.
  unfold T, N, Y, Z. unfold vsub, body, observer, vadd, scale, dir, app, rot_x, dot. cbn [vx vy vz r1 r2 r3]. apply mkvec_eq; field; lra.
Qed.
Hypothesis NN : N <> 0.
Lemma TopocentricEcliptical_geom :
  let '(lam', be', s') := TopocentricEcliptical lam be s phi h eps theta p in
  seen_at T lam' be' /\ 0 <= lam' < 2 * PI /\ - (PI / 2) < be' < PI / 2 /\
  (Rabs (sin s) * norm (body p lam be) <= norm T -> - (PI / 2) <= s' <= PI / 2 /\ sin s' * norm T = sin s * norm (body p lam be)).
Proof.
  unfold TopocentricEcliptical. rewrite (surjective_pairing (ParallaxConstants Earth76 phi h)). fold rs rc. cbv beta iota zeta. fold N. fold Y. fold Z.
  set (l := if Rlt_bool (atan2 Y N) 0 then _ else _).
  assert (LR : 0 <= l < 2 * PI).
  { unfold l. pose proof (atan2_bound Y N). pose proof PI_RGT_0. case Rlt_bool_spec; intros; lra. }
  assert (LC : cos l = cos (atan2 Y N) /\ sin l = sin (atan2 Y N)).
  { unfold l. case Rlt_bool_spec; intros; [rewrite cos_2PI_add, sin_2PI_add|]; split; reflexivity. }
  destruct (polar_longitude N Y) as [P1 P2]. destruct LC as [<- <-] in P1, P2. assert (Hh : 0 < hypot N Y) by (apply hypot_gt0; now left). set (g := hypot N Y) in *.
  clearbody l. assert (CL : cos l <> 0) by nra.
  replace (cos l * Z / N) with (Z / g) by (rewrite <- P1; field; split; lra).
  set (b := atan (Z / g)). pose proof (atan_bound (Z / g)) as AB. fold b in AB. assert (CB : 0 < cos b) by (apply cos_gt_0; lra).
  assert (TB : sin b / cos b = Z / g) by (change (tan b = Z / g); apply tan_atan).
  assert (ZB : Z = g / cos b * sin b) by (transitivity (Z / g * g); [field; lra|rewrite <- TB; field; lra]).
  assert (TE : T = scale (1 / sin p * (g / cos b)) (dir l b)).
  { rewrite T_ecl. unfold scale, dir. cbn [vx vy vz]. apply mkvec_eq.
    - rewrite <- P1. field. lra.
    - rewrite <- P2. field. lra.
    - rewrite ZB at 1. ring. }
  assert (QP : 0 < g / cos b) by (apply Rdiv_lt_0_compat; lra). assert (IP : 0 < 1 / sin p) by (apply Rdiv_lt_0_compat; lra).
  split; [exists (1 / sin p * (g / cos b)); split; [nra|exact TE]|]. split; [exact LR|]. split; [lra|].
  rewrite TE. rewrite norm_scale_dir by nra. unfold body. rewrite norm_scale_dir by lra. intros K.
  split; [apply asin_bound|].
  replace (cos l * cos b * sin s / N) with (sin s / (g / cos b)) by (rewrite <- P1; field; repeat split; lra).
  set (qq := g / cos b) in *. assert (K2 : Rabs (sin s) <= qq) by nra. apply Rabs_le_inv in K2.
  rewrite sin_asin; [field; lra|]. split; apply Rmult_le_reg_r with qq; try exact QP; unfold Rdiv; rewrite Rmult_assoc, Rinv_l by lra; lra.
Qed.
End Ecl.

(** ** Semidiameter of the Moon *)
Lemma MoonTopocentric_geom D de H rs rc : let p := HorizontalParallax D in 0 < sin p ->
  forall al th, th - al = H -> let T := vsub (body p al de) (observer rs rc th) in T <> vzero ->
  MoonTopocentric D de H rs rc = 0.272481 / norm T.
Proof.
  intros p SP al th HH T NZ. 
  assert (EQ : norm T = 1 / sin p * sqrt (cos de * sin H * (cos de * sin H) + (cos de * cos H - rc * sin p) * (cos de * cos H - rc * sin p) + (sin de - rs * sin p) * (sin de - rs * sin p))).
  { unfold T. rewrite topo_vec by exact SP. set (q2 := cos de * sin H * (cos de * sin H) + _ + _). 
    unfold norm. replace (dot _ _) with (1 / sin p * (1 / sin p) * q2).
    - assert (0 < 1 / sin p) by (apply Rdiv_lt_0_compat; lra). rewrite sqrt_mult_alt by nra. rewrite sqrt_square by lra. reflexivity.
    - unfold q2, dot, scale. cbn [vx vy vz]. rewrite <- HH, cos_minus, sin_minus. pose proof (sc1 th) as S1. pose proof (sc1 al) as S2.
      set (i := 1 / sin p). set (k := sin p). clearbody i k. set (ct := cos th) in *. set (st := sin th) in *. set (ca := cos al) in *. set (sa := sin al) in *. clearbody ct st ca sa.
      nsatz. }
  assert (NP : 0 < norm T) by (apply norm_pos; exact NZ).
  unfold MoonTopocentric. cbv zeta. fold p. rewrite EQ. rewrite EQ in NP. set (q := sqrt _) in *. clearbody q.
  assert (q <> 0). { intros ->. rewrite Rmult_0_r in NP. lra. }
  decimals. field. split; lra.
Qed.
(** The value of Moon is 2 arc seconds. *)
Lemma Moon_value : Moon = AngleFromSec 2. Proof. unfold Moon, intConst. reflexivity. Qed.
Lemma MoonTopocentric2_error D : 0 < D ->
  MoonTopocentric2 D 0 < 84 / 100 * (0.272481 * HorizontalParallax D).
Proof.
  intros HD. unfold MoonTopocentric2. rewrite Moon_value, sin_0, Rmult_0_l, Rplus_0_r. unfold HorizontalParallax, hp, AngleFromSec, Rdiv.
  pose proof (Rinv_0_lt_compat _ HD) as I. pose proof PI_RGT_0 as PP. set (i := / D) in *. clearbody i. decimals.
  assert (0 < PI * i) by nra. lra.
Qed.

(** The two rigorous functions agree. *)
Lemma Topocentric_agree al de D rs rc L th0 :
  let p := HorizontalParallax D in let H := th0 - L - al in 0 < sin p ->
  0 < cos de - rc * sin p * cos H ->
  let '(al', de') := Topocentric al de D rs rc L th0 in
  let '(H', de3) := Topocentric3 al de D rs rc L th0 in
  dir al' de' = dir (th0 - L - H') de3.
Proof.
  intros p H SP HE. 
  assert (NZ : vsub (body p al de) (observer rs rc (th0 - L)) <> vzero).
  { intros K. unfold p in K. rewrite (T_meridian al de D rs rc L th0 SP) in K. unfold scale, vzero in K. cbn [vx vy vz] in K. injection K as K1 K2 _.
    rewrite Mod1_cos, Mod1_sin in K1, K2. fold H in K1, K2. fold p in K1, K2. set (e := cos de - rc * sin p * cos H) in *. set (x := - rc * sin p * sin H) in *.
    assert (IP : 0 < 1 / sin p) by (apply Rdiv_lt_0_compat; lra). assert (K3 : e * cos al - x * sin al = 0) by nra. assert (K4 : e * sin al + x * cos al = 0) by nra.
    pose proof (sc1 al) as S. assert (e = 0); [|lra]. transitivity (cos al * (e * cos al - x * sin al) + sin al * (e * sin al + x * cos al)); [|rewrite K3, K4; ring].
    transitivity (e * (sin al * sin al + cos al * cos al)); [rewrite S|]; ring. }
  pose proof (Topocentric_geom al de D rs rc L th0 SP) as G1. pose proof (Topocentric3_geom al de D rs rc L th0 SP NZ) as G3.
  rewrite Mod1_cos in G1. specialize (G1 HE). destruct (Topocentric al de D rs rc L th0) as [al' de']. destruct (Topocentric3 al de D rs rc L th0) as [H' de3].
  destruct G1 as (G1 & _). destruct G3 as (G3 & _). apply (seen_dir _ _ _ _ _ G1 G3).
Qed.
Lemma Topocentric_nonzero al de D rs rc L th0 : let p := HorizontalParallax D in 0 < sin p ->
  rc * rc + rs * rs < 1 / (sin p * sin p) -> vsub (body p al de) (observer rs rc (th0 - L)) <> vzero.
Proof.
  intros p SP HR K. assert (E : body p al de = observer rs rc (th0 - L)).
  { revert K. unfold vsub, vadd, vzero. destruct (body p al de) as [x y z]. destruct (observer rs rc (th0 - L)) as [x' y' z']. unfold scale. cbn [vx vy vz]. intros K. injection K as K1 K2 K3. apply mkvec_eq; lra. }
  assert (N : dot (body p al de) (body p al de) = 1 / (sin p * sin p)).
  { unfold body. transitivity (1 / sin p * (1 / sin p) * dot (dir al de) (dir al de)); [unfold dot, scale; cbn [vx vy vz]; ring|]. rewrite dir_unit. field. lra. }
  rewrite E in N. revert N. unfold observer, dot. cbn [vx vy vz]. pose proof (sc1 (th0 - L)) as S. intros N.
  assert (rc * rc * (sin (th0 - L) * sin (th0 - L) + cos (th0 - L) * cos (th0 - L)) + rs * rs = 1 / (sin p * sin p)) by (rewrite <- N; ring). rewrite S in H. lra.
Qed.
Lemma HorizontalParallax_sin D : 0.0001 <= D -> 0 < sin (HorizontalParallax D).
Proof.
  intros H. assert (HD : 0 < D) by (revert H; decimals; lra). unfold HorizontalParallax, hp, AngleFromSec. pose proof PI_RGT_0 as PP.
  apply sin_gt_0; [apply Rdiv_lt_0_compat; [decimals; lra|exact HD]|].
  apply Rmult_lt_reg_r with D; [exact HD|]. unfold Rdiv at 1. rewrite Rmult_assoc, Rinv_l by lra. revert H. decimals. intros H. nra.
Qed.
