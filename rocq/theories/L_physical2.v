(** Lemmas for jupiter and saturnring. *)
From Coq Require Import ZArith Reals Lra Lia List Psatz.
From Flocq Require Import Core.
From Verif Require Import GoFloat GoMath S_Sphere S_precess S_solar S_physical M_base M_coord M_precess M_vsop M_light M_solar M_physical
  L_trig L_angle L_vec L_coord L_precess L_elements L_solar L_refraction L_parallactic L_physical.
Import ListNotations.
Local Open Scope R_scope.

(** ** Jupiter *)
Lemma jup_C_value l0 R0 g : gr g <> 0 -> gD g <> 0 ->
  jup_C l0 R0 g = (if Rlt_dec (sin (gl g - l0)) 0 then -1 else 1) * (1 - Fraction (gr g) (gD g) R0).
Proof.
  intros A B. unfold jup_C, Fraction. cbv zeta. case Rlt_bool_spec; intros H; destruct (Rlt_dec (sin (gl g - l0)) 0); try lra; field; split; assumption.
Qed.
Lemma jup_light D jde : 0 <= D -> Rabs (jup_W1 jde - degrees 5.07033 * D - jup_W1 (jde - LightTime D)) <= degrees 0.00001 * D /\
  Rabs (jup_W2 jde - degrees 5.02626 * D - jup_W2 (jde - LightTime D)) <= degrees 0.00001 * D.
Proof.
  intros H. unfold jup_W1, jup_W2, LightTime, degrees, deg. decimals. assert (HP := PI_fine).
  set (q := PI / 180 * D). assert (0 <= q) by (unfold q; apply Rmult_le_pos; lra).
  split; apply Rabs_le.
  - replace (17.71 * 0) with 0 by ring.
    match goal with |- _ <= ?e <= _ => replace e with ((87790003539 / 100000000 * (57755183 / 10000000000) - 507033 / 100000) * q) by (unfold q; field) end.
    replace (1 * / 100000 * (PI / 180) * D) with (1 / 100000 * q) by (unfold q; field). lra.
  - match goal with |- _ <= ?e <= _ => replace e with ((87027003539 / 100000000 * (57755183 / 10000000000) - 502626 / 100000) * q) by (unfold q; field) end.
    replace (1 * / 100000 * (PI / 180) * D) with (1 / 100000 * q) by (unfold q; field). lra.
Qed.
Lemma jup_center jde earth jupiter : let g := geocentric earth jupiter jde 4 in let eps := MeanObliquity jde in let '(a0, d0) := jup_pole jde in let '(l0, b0, R0) := earth_place earth jde in
  let w := app (rot_x (- eps)) (gvec g) in let C := jup_C l0 R0 g in let j := JupiterPhysical jde earth jupiter in vx w <> 0 \/ vy w <> 0 ->
  0 <= jW1 j < 2 * PI /\ 0 <= jW2 j < 2 * PI /\ - (PI / 2) <= jDE j <= PI / 2 /\
  equator_frame a0 d0 (opposite (unit_of w)) = dir (jup_W1 jde - degrees 5.07033 * gD g + C - jW1 j) (jDE j) /\
  equator_frame a0 d0 (opposite (unit_of w)) = dir (jup_W2 jde - degrees 5.02626 * gD g + C - jW2 j) (jDE j).
Proof.
  cbv zeta. unfold JupiterPhysical. cbv zeta. destruct (jup_pole jde) as [a0 d0]. destruct (earth_place earth jde) as [[l0 b0] R0]. set (g := geocentric earth jupiter jde 4). set (eps0 := MeanObliquity jde).
  destruct (Nutation jde) as [dpsi deps]. destruct (jup_aberr _ _ _ _) as [xa xd]. destruct (jup_nut dpsi deps _ _ d0) as [na0 nd0]. destruct (jup_nut dpsi deps _ _ _) as [na nd].
  cbn [jW1 jW2 jDE]. unfold gvec. rewrite rot_eq. cbn [vx vy]. intros HW.
  set (u := gy g * cos eps0 - gz g * sin eps0) in *. set (v := gy g * sin eps0 + gz g * cos eps0) in *.
  destruct (dir_rect (gx g) u v HW) as [Bd Dd]. set (a := atan2 u (gx g)) in *. set (d := atan (v / hypot (gx g) u)) in *. rewrite <- Dd.
  set (C := jup_C l0 R0 g). destruct (center_meridian d0 d a0 a (jup_W1 jde - degrees 5.07033 * gD g + C)) as [A1 A2]. destruct (center_meridian d0 d a0 a (jup_W2 jde - degrees 5.02626 * gD g + C)) as [A3 A4].
  assert (E1 : jup_W1 jde - zeta d0 d a0 a - 507033 / 100000 * deg * gD g + C = jup_W1 jde - degrees 5.07033 * gD g + C - zeta d0 d a0 a) by (unfold degrees, deg; decimals; field).
  assert (E2 : jup_W2 jde - zeta d0 d a0 a - 502626 / 100000 * deg * gD g + C = jup_W2 jde - degrees 5.02626 * gD g + C - zeta d0 d a0 a) by (unfold degrees, deg; decimals; field).
  rewrite E1, E2. repeat split; try apply A1; try apply A3; try apply decl_range; [exact A2 | exact A4].
Qed.
Lemma jup_sun jde earth jupiter : let g := geocentric earth jupiter jde 4 in let '(a0, d0) := jup_pole jde in let j := JupiterPhysical jde earth jupiter in 0 < cos (gb g) ->
  - (PI / 2) <= jDS j <= PI / 2 /\ sin (jDS j) = dot (dir a0 d0) (opposite (app (rot_x (- MeanObliquity jde)) (dir (gl g) (gb g)))).
Proof.
  cbv zeta. unfold JupiterPhysical. cbv zeta. destruct (jup_pole jde) as [a0 d0]. destruct (earth_place earth jde) as [[l0 b0] R0]. set (g := geocentric earth jupiter jde 4). set (eps0 := MeanObliquity jde).
  destruct (Nutation jde) as [dpsi deps]. destruct (jup_aberr _ _ _ _) as [xa xd]. destruct (jup_nut dpsi deps _ _ d0) as [na0 nd0]. destruct (jup_nut dpsi deps _ _ _) as [na nd].
  cbn [jDS]. intros Cb. split; [apply decl_range|]. rewrite decl_sin. f_equal. f_equal.
  pose proof (sc1 (gl g)) as L1. pose proof (sc1 (gb g)) as B1. pose proof (sc1 eps0) as E1. unfold dir at 2. rewrite rot_eq.
  set (cb := cos (gb g)) in *. set (sb := sin (gb g)) in *. set (sl := sin (gl g)) in *. set (cl := cos (gl g)) in *. set (se := sin eps0) in *. set (ce := cos eps0) in *.
  assert (Ey : cb * (ce * sl - se * sb / cb) = cb * sl * ce - sb * se) by (field; lra).
  rewrite (dir_frame cb cl (ce * sl - se * sb / cb) (ce * sb + se * cb * sl)); [|exact Cb| |reflexivity|reflexivity].
  - rewrite Ey. apply mkvec_eq; ring.
  - rewrite Ey. transitivity (cb * cb * (cl * cl) + (cb * sl) * (cb * sl) * (se * se + ce * ce) + sb * sb * (se * se + ce * ce)); [ring|].
    rewrite E1. transitivity (cb * cb * (sl * sl + cl * cl) + sb * sb); [ring|]. rewrite L1. lra.
Qed.
Lemma jup_pole_angle jde earth jupiter : let g := geocentric earth jupiter jde 4 in let '(a0, d0) := jup_pole jde in let '(l0, b0, R0) := earth_place earth jde in
  let '(dpsi, deps) := Nutation jde in let eps0 := MeanObliquity jde in let eps := eps0 + deps in let w := app (rot_x (- eps0)) (gvec g) in let j := JupiterPhysical jde earth jupiter in
  vx w <> 0 \/ vy w <> 0 -> cos eps <> 0 -> 0 < cos d0 ->
  0 <= jP j < 2 * PI /\ exists a d xa xd na nd na0 nd0, dir a d = unit_of w /\ - (PI / 2) < d < PI / 2 /\
    moved_by a d xa xd (app (rot_x (- eps)) (earth_motion l0)) /\
    velocity a d na nd = nutation_motion dpsi deps eps (dir a d) /\ velocity a0 d0 na0 nd0 = nutation_motion dpsi deps eps (dir a0 d0) /\
    ((dot (dir (a0 + na0) (d0 + nd0)) (dir (a + xa + na) (d + xd + nd))) ^ 2 <> 1 -> position_angle (a + xa + na) (d + xd + nd) (dir (a0 + na0) (d0 + nd0)) (jP j)).
Proof.
  cbv zeta. unfold JupiterPhysical. cbv zeta. destruct (jup_pole jde) as [a0 d0]. destruct (earth_place earth jde) as [[l0 b0] R0]. set (g := geocentric earth jupiter jde 4). set (eps0 := MeanObliquity jde).
  destruct (Nutation jde) as [dpsi deps]. unfold gvec. rewrite rot_eq. cbn [vx vy]. intros HW Ce Cd0.
  set (u := gy g * cos eps0 - gz g * sin eps0) in *. set (v := gy g * sin eps0 + gz g * cos eps0) in *.
  destruct (dir_rect (gx g) u v HW) as [Bd Dd]. set (a := atan2 u (gx g)) in *. set (d := atan (v / hypot (gx g) u)) in *.
  assert (Cd : 0 < cos d) by (apply cos_gt_0; lra).
  pose proof (jup_aberr_moved l0 (eps0 + deps) a d Cd Ce) as AB. destruct (jup_aberr l0 (eps0 + deps) a d) as [xa xd].
  pose proof (jup_nut_velocity dpsi deps (eps0 + deps) a d Cd) as N1. destruct (jup_nut dpsi deps (eps0 + deps) a d) as [na nd].
  pose proof (jup_nut_velocity dpsi deps (eps0 + deps) a0 d0 Cd0) as N2. destruct (jup_nut dpsi deps (eps0 + deps) a0 d0) as [na0 nd0].
  cbn [jP]. split; [apply positive_turn_range|]. exists a, d, xa, xd, na, nd, na0, nd0. repeat (split; [assumption|]). intros ND. apply positive_pangle, ND.
Qed.

Lemma jup2_ranges jde : let j := jup2_args jde in 0.98 <= j_R j <= 1.018 /\ 4.95 <= j_r j <= 5.468 /\ 3.9 <= j_D j <= 6.5 /\
  j_D j ^ 2 = j_r j ^ 2 + j_R j ^ 2 - 2 * j_r j * j_R j * cos (j_K j) /\ - (PI / 2) <= j_psi j <= PI / 2 /\ j_D j * sin (j_psi j) = j_R j * sin (j_K j) /\ Rabs (sin (j_psi j)) * j_r j <= j_R j.
Proof.
  cbv zeta. unfold jup2_args. cbv zeta. cbn [j_R j_r j_D j_K j_psi].
  set (M := 357529 / 1000 * deg + _). set (V := 17274 / 100 * deg + _). set (N := 2002 / 100 * deg + _ + _).
  set (K := _ - (5555 / 1000 * deg * sin N + _)).
  set (R0 := 100014 / 100000 - 1671 / 100000 * cos M - 14 / 100000 * cos (2 * M)). set (r := 520872 / 100000 - 25208 / 100000 * cos N - 611 / 100000 * cos (2 * N)).
  assert (HR : 98 / 100 <= R0 <= 1018 / 1000) by (unfold R0; pose proof (COS_bound M); pose proof (COS_bound (2 * M)); lra).
  assert (Hr : 495 / 100 <= r <= 5468 / 1000). { unfold r. pose proof (COS_bound N). rewrite cos_2a_cos. nra. }
  clearbody R0 r K. clear M V N. set (D2 := r * r + R0 * R0 - 2 * r * R0 * cos K).
  pose proof (COS_bound K) as CK. assert (RR : 0 < r * R0) by nra.
  assert (B1 : (r - R0) * (r - R0) <= D2 <= (r + R0) * (r + R0)) by (unfold D2; nra).
  assert (P2 : 0 <= D2) by (assert (0 <= (r - R0) * (r - R0)) by nra; lra).
  pose proof (sqrt_sqrt D2 P2) as SS. pose proof (sqrt_pos D2) as SP. set (D := sqrt D2) in *.
  assert (DL : r - R0 <= D) by (apply Rsqr_incr_0_var; [unfold Rsqr; lra | lra]). assert (DU : D <= r + R0) by (apply Rsqr_incr_0_var; [unfold Rsqr; lra | lra]).
  assert (Dp : 0 < D) by lra.
  assert (LS : (R0 * sin K) * (R0 * sin K) <= D * D). { rewrite SS. unfold D2. pose proof (sc1 K) as S1. pose proof (Rle_0_sqr (r - R0 * cos K)) as Q. unfold Rsqr in Q. replace (R0 * sin K * (R0 * sin K)) with (R0 * R0 * (sin K * sin K)) by ring. replace (sin K * sin K) with (1 - cos K * cos K) by lra. lra. }
  assert (LR : r * r * (R0 * sin K * (R0 * sin K)) <= R0 * R0 * (D * D)).
  { rewrite SS. unfold D2. pose proof (sc1 K) as S1. pose proof (Rle_0_sqr (R0 - r * cos K)) as Q. unfold Rsqr in Q. replace (r * r * (R0 * sin K * (R0 * sin K))) with (R0 * R0 * (r * r * (sin K * sin K))) by ring. replace (sin K * sin K) with (1 - cos K * cos K) by lra.
    apply Rmult_le_compat_l; [nra|]. lra. }
  assert (AB : Rabs (R0 * sin K) <= D). { apply Rsqr_incr_0_var; [|lra]. rewrite <- Rsqr_abs. exact LS. }
  apply Rabs_le_inv in AB.
  assert (SA : sin (asin (R0 / D * sin K)) = R0 / D * sin K).
  { apply sin_asin. replace (R0 / D * sin K) with ((R0 * sin K) / D) by (field; lra). split; apply (Rmult_le_reg_r D); try exact Dp; unfold Rdiv; rewrite Rmult_assoc, Rinv_l by lra; lra. }
  decimals. split; [lra|]. split; [lra|]. split; [lra|]. split; [rewrite <- Rsqr_pow2; unfold Rsqr; rewrite SS; unfold D2; ring|].
  split; [apply asin_bound|]. rewrite SA. split; [field; lra|].
  replace (Rabs (R0 / D * sin K) * r) with (Rabs (R0 / D * sin K * r)) by (rewrite (Rabs_mult _ r), (Rabs_pos_eq r) by lra; reflexivity).
  apply Rsqr_incr_0_var; [|lra]. rewrite <- Rsqr_abs. unfold Rsqr. apply (Rmult_le_reg_r (D * D)); [nra|].
  replace (R0 / D * sin K * r * (R0 / D * sin K * r) * (D * D)) with (r * r * (R0 * sin K * (R0 * sin K))) by (field; lra). exact LR.
Qed.
Lemma jup2_value jde : let j := jup2_args jde in let '(DS, DE, w1, w2) := JupiterPhysical2 jde in
  Rabs DS <= degrees 3.12 /\ Rabs (DE - DS) <= degrees 0.8 /\ 0 <= w1 < 2 * PI /\ 0 <= w2 < 2 * PI /\ Rabs (jup2_C j) = sin (j_psi j / 2) ^ 2 /\ jup2_C j * sin (j_K j) <= 0.
Proof.
  cbv zeta. destruct (jup2_ranges jde) as (HR & Hr & HD & LC & HP & LS & LR). unfold JupiterPhysical2. cbv zeta. set (j := jup2_args jde) in *. clearbody j.
  decimals_in HR. decimals_in Hr. decimals_in HD. assert (PP := PI_fine).
  split; [|split; [|split; [apply Mod1_bound | split; [apply Mod1_bound | split]]]].
  - pose proof (SIN_bound (j_lam j + 428 / 10 * deg)) as B. unfold degrees, deg in *. decimals. apply Rabs_le. assert (0 < PI / 180) by lra. nra.
  - set (s1 := sin (j_lam j + 428 / 10 * deg)). set (c1 := cos (j_lam j + 22 * deg)). set (s2 := sin (j_lam j - 1005 / 10 * deg)).
    assert (B1 : -1 <= c1 <= 1) by apply COS_bound. assert (B2 : -1 <= s2 <= 1) by apply SIN_bound.
    set (sp := sin (j_psi j)) in *. assert (BP : Rabs sp <= 2057 / 10000). { apply (Rmult_le_reg_r (j_r j)); [lra|]. lra. }
    set (r := j_r j) in *. set (D := j_D j) in *. set (R0 := j_R j) in *.
    assert (TR : (r - D) * (r - D) <= R0 * R0).
    { assert (E : D * D = r * r + R0 * R0 - 2 * r * R0 * cos (j_K j)) by (rewrite <- !Rsqr_pow2 in LC; exact LC). pose proof (COS_bound (j_K j)) as CK. set (c := cos (j_K j)) in *.
      assert (RR : 0 <= r * R0) by (apply Rmult_le_pos; lra). assert (RC : - (r * R0) <= r * R0 * c <= r * R0) by (split; nra).
      assert (DL : D * D <= (r + R0) * (r + R0)) by lra.
      assert (DG : (r - R0) * (r - R0) <= D * D) by lra.
      assert (D <= r + R0) by (apply Rsqr_incr_0_var; [exact DL | lra]). assert (r - R0 <= D) by (apply Rsqr_incr_0_var; [exact DG | lra]). assert (0 <= (R0 - (r - D)) * (R0 + (r - D))) by (apply Rmult_le_pos; lra). lra. }
    assert (TA : Rabs (r - D) <= R0). { apply Rsqr_incr_0_var; [|lra]. rewrite <- Rsqr_abs. exact TR. }
    assert (Q : Rabs ((r - D) / D) <= 2611 / 10000). { unfold Rdiv. rewrite Rabs_mult, (Rabs_pos_eq (/ D)) by (left; apply Rinv_0_lt_compat; lra). apply (Rmult_le_reg_r D); [lra|]. rewrite Rmult_assoc, Rinv_l by lra. lra. }
    replace (312 / 100 * deg * s1 - 222 / 100 * deg * sp * c1 - 13 / 10 * deg * (r - D) / D * s2 - 312 / 100 * deg * s1) with (- deg * (222 / 100 * (sp * c1) + 13 / 10 * ((r - D) / D * s2))) by (field; lra).
    assert (K1 : Rabs (sp * c1) <= 2057 / 10000) by (rewrite Rabs_mult; assert (Rabs c1 <= 1) by (apply Rabs_le, B1); pose proof (Rabs_pos sp); pose proof (Rabs_pos c1); nra).
    assert (K2 : Rabs ((r - D) / D * s2) <= 2611 / 10000) by (rewrite Rabs_mult; assert (Rabs s2 <= 1) by (apply Rabs_le, B2); pose proof (Rabs_pos ((r - D) / D)); pose proof (Rabs_pos s2); nra).
    apply Rabs_le_inv in K1. apply Rabs_le_inv in K2. rewrite Rabs_mult, Rabs_Ropp, (Rabs_pos_eq deg) by (unfold deg; lra). unfold degrees. decimals. fold deg. rewrite (Rmult_comm _ deg). apply Rmult_le_compat_l; [unfold deg; lra|]. apply Rabs_le. lra.
  - unfold jup2_C. cbv zeta. set (x := sin (j_psi j / 2)). assert (0 <= x * x) by nra. case Rlt_bool_spec; intros H1; rewrite ?Rabs_Ropp, Rabs_pos_eq by lra; ring.
  - unfold jup2_C. cbv zeta. set (x := sin (j_psi j / 2)). assert (0 <= x * x) by nra. case Rlt_bool_spec; intros H1; nra.
Qed.

(** ** Saturn's ring *)
Lemma plane_frame_coords i W l b : plane_frame i W (dir l b) =
  mkvec (cos b * cos (l - W)) (sin i * sin b + cos i * cos b * sin (l - W)) (- (sin i * cos b * sin (l - W) - cos i * sin b)).
Proof. unfold plane_frame, rot_z. vecs. rewrite sin_minus, cos_minus. apply mkvec_eq; ring. Qed.
Lemma ring_dir i W l b : plane_frame i W (dir l b) = dir (ring_U i b (l - W)) (- asin (sin i * cos b * sin (l - W) - cos i * sin b)).
Proof.
  rewrite plane_frame_coords, <- asin_opp. symmetry. apply dir_unit_vec; [|intros; split; reflexivity].
  pose proof (sc1 i) as D0. pose proof (sc1 b) as D. pose proof (sc1 (l - W)) as A. set (x := l - W) in *.
  transitivity (cos b * cos b * (cos x * cos x) + (sin i * sin i + cos i * cos i) * (cos b * cos b * (sin x * sin x)) + (sin i * sin i + cos i * cos i) * (sin b * sin b)); [ring|].
  rewrite D0. transitivity (cos b * cos b * (sin x * sin x + cos x * cos x) + sin b * sin b); [ring|]. rewrite A. lra.
Qed.
Lemma ring_geometry jde earth saturn : let T := (jde - 2451545) / 36525 in let i := ring_i T in let W := ring_node T in let g := geocentric earth saturn jde 9 in
  let '(l', b') := ring_sun T (gl g) (gb g) (gr g) in let o := Ring jde earth saturn in gx g <> 0 \/ gy g <> 0 ->
  - (PI / 2) <= oB o <= PI / 2 /\ - (PI / 2) <= oB' o <= PI / 2 /\ exists U1 U2, - PI < U1 <= PI /\ - PI < U2 <= PI /\ oU o = Rabs (U1 - U2) /\
  plane_frame i W (dir l' b') = dir U1 (- oB' o) /\ plane_frame i W (unit_of (gvec g)) = dir U2 (- oB o).
Proof.
  cbv zeta. unfold Ring, ring_f2, ring_f1. cbv zeta. rewrite century. set (T := (jde - 2451545) / 36525). set (i := ring_i T). set (W := ring_node T). set (g := geocentric earth saturn jde 9).
  destruct (ring_sun T (gl g) (gb g) (gr g)) as [l' b']. cbn [r_g r_sB r_b' r_l' r_lam r_be rB rU].
  destruct (earth_place earth jde) as [[l0 b0] R0]. destruct (Nutation jde) as [dpsi deps]. destruct (aberrated _ _ _ _) as [lam2 be2]. destruct (EclToEq (W - PI / 2 + dpsi) _ _ _) as [a0 d0]. destruct (EclToEq lam2 be2 _ _) as [a d].
  cbn [oB oB' oU]. intros HN. split; [apply asin_bound|]. split; [apply asin_bound|].
  destruct (dir_rect (gx g) (gy g) (gz g) HN) as [Bb Db]. set (lam := atan2 (gy g) (gx g)) in *. set (be := atan (gz g / hypot (gx g) (gy g))) in *.
  exists (ring_U i b' (l' - W)), (ring_U i be (lam - W)). split; [apply atan2_bound|]. split; [apply atan2_bound|]. split; [reflexivity|]. unfold gvec. rewrite <- Db, !ring_dir. split; reflexivity.
Qed.
Lemma ring_edges jde earth saturn : let g := geocentric earth saturn jde 9 in let o := Ring jde earth saturn in gx g <> 0 \/ gy g <> 0 ->
  oA o = arcsec 375.35 / gD g /\ ob o = oA o * Rabs (sin (oB o)) /\ 0 <= ob o <= oA o.
Proof.
  cbv zeta. unfold Ring, ring_f2, ring_f1. cbv zeta. rewrite century. set (T := (jde - 2451545) / 36525). set (i := ring_i T). set (W := ring_node T).
  destruct (geocentric_value earth saturn jde 9) as (_ & ND & _). set (g := geocentric earth saturn jde 9) in *.
  destruct (ring_sun T (gl g) (gb g) (gr g)) as [l' b']. cbn [r_g r_sB r_b' r_l' r_lam r_be rB rU].
  destruct (earth_place earth jde) as [[l0 b0] R0]. destruct (Nutation jde) as [dpsi deps]. destruct (aberrated _ _ _ _) as [lam2 be2]. destruct (EclToEq (W - PI / 2 + dpsi) _ _ _) as [a0 d0]. destruct (EclToEq lam2 be2 _ _) as [a d].
  cbn [oA ob oB]. intros HN. pose proof (norm_pos (gx g) (gy g) (gz g) HN) as NP. change (mkvec (gx g) (gy g) (gz g)) with (gvec g) in NP. rewrite <- ND in NP.
  set (lam := atan2 (gy g) (gx g)) in *. set (be := atan (gz g / hypot (gx g) (gy g))) in *. set (sB := sin i * cos be * sin (lam - W) - cos i * sin be).
  assert (BS : -1 <= sB <= 1).
  { pose proof (ring_dir i W lam be) as RD. rewrite plane_frame_coords in RD. fold sB in RD. unfold dir in RD. injection RD as _ _ RZ. pose proof (SIN_bound (- asin sB)). lra. }
  split; [rewrite AngleFromSec_arcsec; decimals; reflexivity|]. split; [rewrite sin_asin by exact BS; reflexivity|].
  assert (PA : 0 < AngleFromSec (37535 / 100) / gD g). { apply Rdiv_lt_0_compat; [|exact NP]. unfold AngleFromSec. assert (HP := PI_RGT_0). lra. }
  pose proof (Rabs_pos sB). assert (Rabs sB <= 1) by (apply Rabs_le, BS). split; [apply Rmult_le_pos; lra|]. rewrite <- (Rmult_1_r (_ / gD g)) at 2. apply Rmult_le_compat_l; lra.
Qed.
Lemma ring_pole jde earth saturn : let T := (jde - 2451545) / 36525 in let i := ring_i T in let W := ring_node T in let g := geocentric earth saturn jde 9 in
  let '(l0, _, _) := earth_place earth jde in let '(dpsi, deps) := Nutation jde in let eps := MeanObliquity jde + deps in let o := Ring jde earth saturn in
  0 < i < PI -> gx g <> 0 \/ gy g <> 0 ->
  plane_frame i W (dir (W - PI / 2) (PI / 2 - i)) = mkvec 0 0 1 /\
  exists lam be dl db, dir lam be = unit_of (gvec g) /\ - (PI / 2) < be < PI / 2 /\ moved_by lam be dl db (earth_motion l0) /\ - PI < oP o <= PI /\
    (- (PI / 2) < be + db < PI / 2 -> (dot (dir (W - PI / 2 + dpsi) (PI / 2 - i)) (dir (lam + dl + dpsi) (be + db))) ^ 2 <> 1 ->
     exists a0 d0 a d, equatorial_of (W - PI / 2 + dpsi) (PI / 2 - i) eps a0 d0 /\ equatorial_of (lam + dl + dpsi) (be + db) eps a d /\ position_angle a d (dir a0 d0) (oP o)).
Proof.
  cbv zeta. unfold Ring, ring_f2, ring_f1. cbv zeta. rewrite century. set (T := (jde - 2451545) / 36525). set (i := ring_i T). set (W := ring_node T). set (g := geocentric earth saturn jde 9).
  destruct (ring_sun T (gl g) (gb g) (gr g)) as [l' b']. cbn [r_g r_sB r_b' r_l' r_lam r_be rB rU].
  destruct (earth_place earth jde) as [[l0 b0] R0]. destruct (Nutation jde) as [dpsi deps]. set (eps := MeanObliquity jde + deps). intros HI HN. assert (HP := PI_RGT_0). split.
  { rewrite plane_frame_coords. replace (W - PI / 2 - W) with (- (PI / 2)) by ring. rewrite cos_neg, sin_neg, cos_PI2, sin_PI2, <- cos_shift, cos_shift, sin_shift.
    pose proof (sc1 i). apply mkvec_eq; lra. }
  destruct (dir_rect (gx g) (gy g) (gz g) HN) as [Bb Db]. set (lam := atan2 (gy g) (gx g)) in *. set (be := atan (gz g / hypot (gx g) (gy g))) in *.
  pose proof (aberrated_moved l0 lam be dpsi Bb) as AB. destruct (aberrated l0 lam be dpsi) as [lam2 be2].
  assert (HB : - (PI / 2) < PI / 2 - i < PI / 2) by lra.
  pose proof (EclToEq_dir (W - PI / 2 + dpsi) (PI / 2 - i) eps HB) as EQ0. destruct (EclToEq (W - PI / 2 + dpsi) _ _ _) as [a0 d0].
  pose proof (EclToEq_dir lam2 be2 eps) as EQ. destruct (EclToEq lam2 be2 _ _) as [a d]. cbn [oP].
  exists lam, be, (lam2 - dpsi - lam), (be2 - be). split; [exact Db|]. split; [exact Bb|]. split; [exact AB|]. split; [apply atan2_bound|].
  replace (lam + (lam2 - dpsi - lam) + dpsi) with lam2 by ring. replace (be + (be2 - be)) with be2 by ring. intros B2 ND. specialize (EQ B2).
  exists a0, d0, a, d. split; [exact EQ0|]. split; [exact EQ|]. apply pangle_value. destruct EQ0 as (_ & _ & ->). destruct EQ as (_ & _ & ->). rewrite rot_x_dot. exact ND.
Qed.
Lemma UB_Ring jde earth saturn : UB jde earth saturn = (oU (Ring jde earth saturn), oB (Ring jde earth saturn)).
Proof. unfold UB, Ring. cbv zeta. destruct (ring_f2 jde earth (ring_f1 jde earth saturn)) as [[[B' P] a] b]. reflexivity. Qed.
