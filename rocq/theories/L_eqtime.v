(** Lemmas for P_eqtime: the equation of time against sidereal time, Smart's formula against the place of the Sun. *)
From Coq Require Import ZArith Reals List Lra Lia Psatz.
From Flocq Require Import Core.
From Verif Require Import GoFloat GoMath M_base M_coord M_precess M_solar M_rise S_Sphere S_rise S_solar S_eqtime L_base L_trig L_kepler L_precess L_rise L_solar L_event L_apparent2 L_taylor.
Import ListNotations.
Local Open Scope R_scope.

(** ** Smart's formula *)
Lemma Rabs3 x : Rabs x ^ 3 = Rabs (x ^ 3). Proof. apply RPow_abs. Qed.
Lemma sin_cub h : Rabs h <= 1 -> Rabs (sin h - h) <= Rabs h ^ 3 / 6.
Proof.
  intros H. destruct (Rle_dec 0 h) as [P|P].
  - rewrite (Rabs_pos_eq h) in * by lra. pose proof (sin_cubic_pos h ltac:(lra)) as Q. apply Rabs_le. cbn [pow]. lra.
  - rewrite (Rabs_left h) in * by lra. pose proof (sin_cubic_pos (- h) ltac:(lra)) as Q. rewrite sin_neg in Q. apply Rabs_le. cbn [pow]. lra.
Qed.
Lemma cos_quad h : Rabs (cos h - 1) <= h * h / 2.
Proof. pose proof (cos_lower h). pose proof (COS_bound h). apply Rabs_le. lra. Qed.
Lemma sin_lin2 a h : Rabs h <= 1 -> Rabs (sin (a + h) - sin a - h * cos a) <= h * h / 2 + Rabs h ^ 3 / 6.
Proof.
  intros H. rewrite sin_plus. replace (sin a * cos h + cos a * sin h - sin a - h * cos a) with (sin a * (cos h - 1) + cos a * (sin h - h)) by ring.
  eapply Rle_trans; [apply Rabs_triang|]. rewrite !Rabs_mult.
  assert (A : Rabs (sin a) <= 1) by (apply Rabs_le, SIN_bound). assert (B : Rabs (cos a) <= 1) by (apply Rabs_le, COS_bound).
  pose proof (cos_quad h) as C. pose proof (sin_cub h H) as D. pose proof (Rabs_pos (sin a)). pose proof (Rabs_pos (cos a)). pose proof (Rabs_pos (cos h - 1)). pose proof (Rabs_pos (sin h - h)).
  apply Rplus_le_compat; nra.
Qed.
(** A small sine of an angle with positive cosine. *)
Lemma small_angle x q : 0 < cos x -> Rabs (sin x) <= q -> q <= 0.001 -> exists u, same_angle x u /\ Rabs u <= 1.001 * q.
Proof.
  intros C S Q. destruct (Mod1_same (x + PI)) as (k & E). pose proof (Mod1_bound (x + PI)) as B. set (u := Mod1 (x + PI) - PI).
  assert (X : x = u + IZR (- k) * (2 * PI)). { unfold u. rewrite E, opp_IZR. ring. }
  exists u. split; [exists (- k)%Z; exact X|]. assert (U : - PI <= u < PI) by (unfold u; lra). rewrite X, cos_Z in C. rewrite X, sin_Z in S. clearbody u. clear - C S Q U.
  pose proof PI_10 as P.
  assert (W : forall a, 0 <= a <= PI -> 0 < cos a -> sin a <= q -> a <= 1.001 * q).
  { clear - P Q. intros a A C S. destruct (Rle_dec (PI / 2) a) as [L|L]. { pose proof (cos_le_0 a L ltac:(lra)). lra. }
    pose proof (sin_cubic_pos a ltac:(lra)) as [G _]. assert (A2 : a <= 2 * q). { assert (a * a <= 2.5) by nra. assert (a * a * a <= 2.5 * a) by nra. lra. }
    assert (a * a <= 0.000004) by nra. assert (a * a * a <= 0.000004 * a) by nra. lra. }
  apply abs_le_inv in S. apply Rabs_le. destruct (Rle_dec 0 u) as [L|L].
  - pose proof (W u ltac:(lra) C ltac:(lra)). lra.
  - rewrite <- cos_neg in C. assert (S' : sin (- u) <= q) by (rewrite sin_neg; lra). pose proof (W (- u) ltac:(lra) C S'). lra.
Qed.
(** Expansion of the reduction to the equator. *)
Lemma reduction_poly y s c : 0 <= y <= 0.0442 -> s * s + c * c = 1 -> let B := y * s * (1 - y * c) in
  Rabs B <= 0.0462 /\ Rabs (y * s * cos B - (1 + y * c) * sin B) <= 0.0000347.
Proof.
  intros Y E B. assert (Hs : -1 <= s <= 1) by (split; nra). assert (Hc : -1 <= c <= 1) by (split; nra).
  assert (Hw : -0.0442 <= y * c <= 0.0442) by (split; nra). assert (Hv : -0.0442 <= y * s <= 0.0442) by (split; nra).
  assert (HB : Rabs B <= 0.0462). { unfold B. apply Rabs_le. split; nra. }
  split; [exact HB|].
  assert (C4 : Rabs (cos B - (1 - B * B / 2)) <= 0.0000003).
  { pose proof (cos10 B ltac:(lra)) as Q. apply abs_le_inv in Q. assert (B2 : 0 <= B ^ 2 <= 0.00214). { rewrite <- Rsqr_pow2, Rsqr_abs, Rsqr_pow2. pose proof (Rabs_pos B). cbn [pow]. split; nra. }
    assert (B4 : 0 <= B ^ 4 <= 0.0000046) by (replace (B ^ 4) with (B ^ 2 * B ^ 2) by ring; split; nra).
    assert (B6 : 0 <= B ^ 6 <= 0.0000046) by (replace (B ^ 6) with (B ^ 2 * B ^ 4) by ring; split; nra).
    assert (B8 : 0 <= B ^ 8 <= 0.0000046) by (replace (B ^ 8) with (B ^ 2 * B ^ 6) by ring; split; nra).
    assert (B10 : 0 <= Rabs B ^ 10 <= 0.0000046). { rewrite RPow_abs. rewrite Rabs_pos_eq by (replace (B ^ 10) with ((B ^ 5) ^ 2) by ring; apply pow2_ge_0). replace (B ^ 10) with (B ^ 2 * B ^ 8) by ring. split; nra. }
    apply Rabs_le. replace (B * B) with (B ^ 2) by ring. lra. }
  assert (S5 : Rabs (sin B - (B - B * B * B / 6)) <= 0.00000001).
  { pose proof (sin9 B ltac:(lra)) as Q. apply abs_le_inv in Q. apply abs_le_inv in HB.
    assert (B2 : 0 <= B ^ 2 <= 0.00214) by (cbn [pow]; split; nra).
    assert (B4 : 0 <= B ^ 4 <= 0.0000046) by (replace (B ^ 4) with (B ^ 2 * B ^ 2) by ring; split; nra).
    assert (B5 : -0.00000022 <= B ^ 5 <= 0.00000022) by (replace (B ^ 5) with (B * B ^ 4) by ring; split; nra).
    assert (B7 : -0.00000022 <= B ^ 7 <= 0.00000022) by (replace (B ^ 7) with (B ^ 2 * B ^ 5) by ring; split; nra).
    assert (B9 : 0 <= Rabs B ^ 9 <= 0.00000022). { rewrite RPow_abs. split; [apply Rabs_pos|]. apply Rabs_le. replace (B ^ 9) with (B ^ 2 * B ^ 7) by ring. split; nra. }
    apply Rabs_le. replace (B * B * B) with (B ^ 3) by ring. lra. }
  set (w := y * c) in *. set (k := (1 - w) * (1 - w) / 2 - (1 + w) * (1 - w) * (1 - w) * (1 - w) / 6).
  assert (Hk : 0.29 <= k <= 0.38). { unfold k. clearbody w. clear - Hw. assert (0 <= w * w <= 0.002) by (split; nra). assert (-0.0001 <= w * w * w <= 0.0001) by (split; nra). assert (0 <= w * w * w * w <= 0.0001) by (split; nra). split; lra. }
  assert (P : y * s * (1 - B * B / 2) - (1 + w) * (B - B * B * B / 6) = y * y * y * (s * (1 - s * s) - s * s * s * k)).
  { unfold k, B. replace (1 - s * s) with (c * c) by lra. unfold w. field. }
  assert (Q : -0.4 <= s * (1 - s * s) - s * s * s * k <= 0.4).
  { clear - Hs Hk. clearbody k. assert (A : forall a, 0 <= a <= 1 -> -0.4 <= a * (1 - a * a) - a * a * a * k <= 0.4).
    { clear s Hs. intros a A. assert (0 <= a * a * a) by (apply Rmult_le_pos; nra). split; [nra|].
      assert (1.29 * (a * a * a) - a + 0.4 >= 0); [|nra]. pose proof (Rmult_le_pos (a + 1) ((a - 0.5) * (a - 0.5)) ltac:(lra) (Rle_0_sqr (a - 0.5))). nra. }
    destruct (Rle_dec 0 s); [apply A; lra|]. specialize (A (- s) ltac:(lra)). lra. }
  assert (Y3 : 0 <= y * y * y <= 0.0000864). { assert (0 <= y * y <= 0.00195364) by (split; nra). split; nra. }
  replace (y * s * cos B - (1 + w) * sin B) with (y * y * y * (s * (1 - s * s) - s * s * s * k) + (y * s * (cos B - (1 - B * B / 2)) - (1 + w) * (sin B - (B - B * B * B / 6)))) by (rewrite <- P; ring).
  set (Z := s * (1 - s * s) - s * s * s * k) in *. set (u := cos B - (1 - B * B / 2)) in *. set (v := sin B - (B - B * B * B / 6)) in *. clearbody Z u v w. apply abs_le_inv in C4, S5. set (y3 := y * y * y) in *. set (ys := y * s) in *. clearbody y3 ys.
  clear - Q Y3 C4 S5 Hw Hv. apply Rabs_le. assert (-0.00003456 <= y3 * Z <= 0.00003456) by (split; nra). assert (-0.00000003 <= ys * u <= 0.00000003) by (split; nra). assert (-0.00000002 <= (1 + w) * v <= 0.00000002) by (split; nra). lra.
Qed.
(** Right ascension of a point of the ecliptic. *)
Lemma reduction lam eps a d : equatorial_of lam 0 eps a d -> 0 < cos eps -> let y := (tan (eps / 2)) ^ 2 in y <= 0.0442 ->
  exists u, same_angle (lam - a) (y * sin (2 * lam) - / 2 * y ^ 2 * sin (4 * lam) + u) /\ Rabs u <= 0.0000364.
Proof.
  intros (_ & D & E) Ce y Hy.
  assert (E1 : cos d * cos a = cos lam). { apply (f_equal vx) in E. unfold dir, app, rot_x, dot in E. cbn [vx vy vz r1 r2 r3] in E. rewrite E, cos_0, sin_0. ring. }
  assert (E2 : cos d * sin a = cos eps * sin lam). { apply (f_equal vy) in E. unfold dir, app, rot_x, dot in E. cbn [vx vy vz r1 r2 r3] in E. rewrite E, cos_0, sin_0, cos_neg. ring. } clear E.
  assert (Y0 : 0 <= y) by apply pow2_ge_0.
  assert (Ey : cos eps * (1 + y) = 1 - y).
  { unfold y, tan. assert (H : cos eps = cos (eps / 2) * cos (eps / 2) - sin (eps / 2) * sin (eps / 2)) by (rewrite <- cos_2a; f_equal; field). pose proof (sin2_cos2 (eps / 2)) as T. unfold Rsqr in T.
    assert (N : cos (eps / 2) <> 0) by (intros Z; rewrite Z in H; nra). rewrite H. set (s := sin (eps / 2)) in *. set (c := cos (eps / 2)) in *. cbn [pow].
    replace ((c * c - s * s) * (1 + s / c * (s / c * 1))) with ((c * c - s * s) * (s * s + c * c) / (c * c)) by (field; exact N). rewrite T. field_simplify; [|exact N|exact N]. reflexivity. }
  set (s := sin (2 * lam)). set (c := cos (2 * lam)).
  assert (SC1 : s * s + c * c = 1) by (pose proof (sin2_cos2 (2 * lam)) as T; unfold Rsqr in T; exact T).
  assert (F1 : cos d * (1 + y) * sin (lam - a) = y * s).
  { rewrite sin_minus. replace (cos d * (1 + y) * (sin lam * cos a - cos lam * sin a)) with ((1 + y) * (sin lam * (cos d * cos a) - cos lam * (cos d * sin a))) by ring. rewrite E1, E2. unfold s. rewrite sin_2a. replace ((1 + y) * (sin lam * cos lam - cos lam * (cos eps * sin lam))) with (sin lam * cos lam * (1 + y - cos eps * (1 + y))) by ring. rewrite Ey. ring. }
  assert (F2 : cos d * (1 + y) * cos (lam - a) = 1 + y * c).
  { rewrite cos_minus. replace (cos d * (1 + y) * (cos lam * cos a + sin lam * sin a)) with ((1 + y) * (cos lam * (cos d * cos a) + sin lam * (cos d * sin a))) by ring. rewrite E1, E2. unfold c. rewrite cos_2a. pose proof (sin2_cos2 lam) as T. unfold Rsqr in T. replace ((1 + y) * (cos lam * cos lam + sin lam * (cos eps * sin lam))) with (cos lam * cos lam * (1 + y) + sin lam * sin lam * (cos eps * (1 + y))) by ring. rewrite Ey. transitivity ((sin lam * sin lam + cos lam * cos lam) + y * (cos lam * cos lam - sin lam * sin lam)); [ring|rewrite T; ring]. }
  destruct (reduction_poly y s c ltac:(lra) SC1) as [HB N]. set (B := y * s * (1 - y * c)) in *. assert (Hc : -1 <= c <= 1) by apply COS_bound. assert (Hs : -1 <= s <= 1) by apply SIN_bound.
  assert (R1 : 0.9558 <= 1 + y * c) by nra. set (r := cos d * (1 + y)) in *. assert (Rp : 0 <= r). { unfold r. apply Rmult_le_pos; [|lra]. apply cos_ge_0; lra. }
  assert (Rl : 0.9558 <= r). { pose proof (COS_bound (lam - a)). nra. }
  assert (CB : 0.9 <= cos B <= 1). { pose proof (cos_lower B). pose proof (COS_bound B). apply abs_le_inv in HB. nra. }
  assert (SB : Rabs (sin B) <= 0.0462). { eapply Rle_trans; [apply sin_abs_le|exact HB]. }
  destruct (small_angle (lam - a - B) 0.00003631) as (u & U & Hu).
  - apply Rmult_lt_reg_l with r; [lra|]. rewrite Rmult_0_r, cos_minus. replace (r * (cos (lam - a) * cos B + sin (lam - a) * sin B)) with ((r * cos (lam - a)) * cos B + (r * sin (lam - a)) * sin B) by ring. rewrite F1, F2. apply abs_le_inv in SB. assert (-0.0442 <= y * s <= 0.0442) by (split; nra). nra.
  - apply Rmult_le_reg_l with r; [lra|]. rewrite <- (Rabs_pos_eq r) at 1 by lra. rewrite <- Rabs_mult, sin_minus. replace (r * (sin (lam - a) * cos B - cos (lam - a) * sin B)) with ((r * sin (lam - a)) * cos B - (r * cos (lam - a)) * sin B) by ring. rewrite F1, F2. eapply Rle_trans; [exact N|]. lra.
  - lra.
  - exists u. split; [|lra]. destruct U as [k K]. exists k. replace (lam - a) with (lam - a - B + B) by ring. rewrite K. unfold B, c, s. replace (4 * lam) with (2 * (2 * lam)) by ring. rewrite (sin_2a (2 * lam)). field.
Qed.
Lemma conv x : Rabs x <= 10 -> Rabs (degrees x - x * 0.0174532925) <= 0.000000001.
Proof.
  intros H. replace (degrees x - x * 0.0174532925) with (x * (PI / 180 - 0.0174532925)) by (unfold degrees; field). rewrite Rabs_mult. pose proof PI_10 as P.
  assert (Rabs (PI / 180 - 0.0174532925) <= 0.0000000001) by (apply Rabs_le; lra). pose proof (Rabs_pos x). pose proof (Rabs_pos (PI / 180 - 0.0174532925)). nra.
Qed.
Lemma degrees_add a b : degrees (a + b) = degrees a + degrees b. Proof. unfold degrees. field. Qed.
Lemma degrees_scal a b : degrees (a * b) = degrees a * b. Proof. unfold degrees. field. Qed.
(** The equation of the centre against the first terms of its series. *)
Lemma centre_terms T M z : Rabs T <= 10 -> let e := solarEccentricity T in
  let C := degrees ((1.914602 - 0.004817 * T - 0.000014 * T ^ 2) * sin M + (0.019993 - 0.000101 * T) * sin (2 * M) + 0.000289 * sin (3 * M)) in Rabs z <= 0.0000021 ->
  Rabs (C + z - 2 * e * sin M - 5 / 4 * e ^ 2 * sin (2 * M)) <= 0.000012 /\ Rabs (C + z) <= 0.0347 /\ 0 <= e <= 0.0172.
Proof.
  intros H e C Hz. apply abs_le_inv in H.
  assert (Ee : e = 0.016708634 - 0.000042037 * T - 0.0000001267 * T ^ 2). { unfold e, solarEccentricity. rewrite HornerR3. decimals. field. }
  assert (T2 : 0 <= T ^ 2 <= 100) by (cbn [pow]; split; nra).
  assert (He : 0.0162 <= e <= 0.0172) by (rewrite Ee; lra).
  set (A1 := 1.914602 - 0.004817 * T - 0.000014 * T ^ 2) in C. set (A2 := 0.019993 - 0.000101 * T) in C.
  pose proof (SIN_bound M) as S1. pose proof (SIN_bound (2 * M)) as S2. pose proof (SIN_bound (3 * M)) as S3.
  set (s1 := sin M) in *. set (s2 := sin (2 * M)) in *. set (s3 := sin (3 * M)) in *. clearbody s1 s2 s3.
  assert (Q1 : Rabs (degrees A1 - A1 * 0.0174532925) <= 0.000000001) by (apply conv, Rabs_le; unfold A1; lra).
  assert (Q2 : Rabs (degrees A2 - A2 * 0.0174532925) <= 0.000000001) by (apply conv, Rabs_le; unfold A2; lra).
  assert (Q3 : Rabs (degrees 0.000289 - 0.000289 * 0.0174532925) <= 0.000000001) by (apply conv, Rabs_le; lra).
  assert (EC : C = degrees A1 * s1 + degrees A2 * s2 + degrees 0.000289 * s3). { unfold C. rewrite !degrees_add, !degrees_scal. reflexivity. }
  clearbody C. apply abs_le_inv in Q1, Q2, Q3, Hz. set (d1 := degrees A1) in *. set (d2 := degrees A2) in *. set (d3 := degrees 0.000289) in *. clearbody d1 d2 d3.
  assert (D1 : -0.0000023 <= d1 - 2 * e <= 0.0000023) by (rewrite Ee; unfold A1 in Q1; lra).
  assert (E2 : e ^ 2 = 0.016708634 * 0.016708634 - 2 * 0.016708634 * 0.000042037 * T + (0.000042037 * 0.000042037 - 2 * 0.016708634 * 0.0000001267) * T ^ 2 + 0.0000001267 * T ^ 2 * (2 * 0.000042037 * T + 0.0000001267 * T ^ 2)) by (rewrite Ee; ring).
  assert (T3 : -1000 <= T ^ 2 * T <= 1000) by (split; nra). assert (T4 : 0 <= T ^ 2 * T ^ 2 <= 10000) by (split; nra).
  assert (D2 : -0.0000009 <= d2 - 5 / 4 * e ^ 2 <= 0.0000009). { rewrite E2. unfold A2 in Q2. clear - Q2 T3 T4 T2 H. split; lra. }
  assert (D3 : 0 <= d3 <= 0.0000051) by lra. assert (E2b : 0 <= e ^ 2 <= 0.00029584) by (cbn [pow]; split; nra).
  split; [|split; [|lra]].
  - rewrite EC. apply Rabs_le. replace (d1 * s1 + d2 * s2 + d3 * s3 + z - 2 * e * s1 - 5 / 4 * e ^ 2 * s2) with ((d1 - 2 * e) * s1 + (d2 - 5 / 4 * e ^ 2) * s2 + d3 * s3 + z) by ring.
    set (p := d1 - 2 * e) in *. set (q := d2 - 5 / 4 * e ^ 2) in *. clearbody p q. clear - D1 D2 D3 S1 S2 S3 Hz.
    assert (-0.0000023 <= p * s1 <= 0.0000023) by (split; nra). assert (-0.0000009 <= q * s2 <= 0.0000009) by (split; nra). assert (-0.0000051 <= d3 * s3 <= 0.0000051) by (split; nra). lra.
  - rewrite EC. apply Rabs_le. assert (0 <= d1 <= 0.0343) by (unfold A1 in Q1; lra). assert (0 <= d2 <= 0.00038) by lra.
    assert (-0.0343 <= d1 * s1 <= 0.0343) by (clear - H0 S1; split; nra). assert (-0.00038 <= d2 * s2 <= 0.00038) by (clear - H1 S2; split; nra). assert (-0.0000051 <= d3 * s3 <= 0.0000051) by (clear - D3 S3; split; nra). lra.
Qed.
Lemma y_bound jde : Rabs ((jde - 2451545) / 36525) <= 10 -> 0 < cos (MeanObliquity jde) /\ (tan (MeanObliquity jde / 2)) ^ 2 <= 0.0442.
Proof.
  intros H. destruct (obliquities jde) as (E & _). apply abs_le_inv in H. set (T := (jde - 2451545) / 36525) in *. set (eps := MeanObliquity jde) in *. pose proof PI_10 as P.
  assert (B : 0 <= eps <= 0.4114).
  { rewrite E. unfold arcsec. assert (0 <= T ^ 2 <= 100) by (cbn [pow]; split; nra). assert (-1000 <= T ^ 3 <= 1000) by (cbn [pow] in *; split; nra).
    set (w := _ - _ - _ + _). assert (83000 <= w <= 84852) by (unfold w; lra). split; nra. }
  pose proof (cos_lower eps) as C. assert (Cb : 0.9153 <= cos eps) by nra. split; [lra|].
  unfold tan. assert (H2 : cos eps = cos (eps / 2) * cos (eps / 2) - sin (eps / 2) * sin (eps / 2)) by (rewrite <- cos_2a; f_equal; field). pose proof (sin2_cos2 (eps / 2)) as T2. unfold Rsqr in T2.
  set (s := sin (eps / 2)) in *. set (c := cos (eps / 2)) in *. assert (N : 0 < c * c) by nra. cbn [pow]. replace (s / c * (s / c * 1)) with (s * s / (c * c)) by (field; intros Z; rewrite Z in N; lra).
  apply Rmult_le_reg_r with (c * c); [exact N|]. unfold Rdiv. rewrite Rmult_assoc, Rinv_l by lra. nra.
Qed.
Lemma same_angle_sym a b : same_angle a b -> same_angle b a.
Proof. intros [k ->]. exists (- k)%Z. rewrite opp_IZR. ring. Qed.
Lemma equatorial_turn l l' b eps a d : same_angle l l' -> equatorial_of l b eps a d -> equatorial_of l' b eps a d.
Proof. intros [k ->] (A & B & C). split; [exact A|]. split; [exact B|]. rewrite C. f_equal. unfold dir. rewrite sin_Z, cos_Z. reflexivity. Qed.
Lemma smart_place jde : let T := (jde - 2451545) / 36525 in Rabs T <= 10 ->
  let L0 := degrees (280.4664567 + 360007.6982779 * (T / 10) + 0.03032028 * (T / 10) ^ 2 + (T / 10) ^ 3 / 49931 - (T / 10) ^ 4 / 15300 - (T / 10) ^ 5 / 2000000) in
  exists d, same_angle (L0 - fst (TrueEquatorial jde)) d /\ Rabs (ESmart jde - d) <= seconds 5.
Proof.
  intros T HT L0. pose proof (ESmart_value jde) as ES. cbv zeta in ES. fold T in ES. fold L0 in ES. pose proof (TrueEquatorial_value jde) as TE. fold T in TE.
  pose proof (solarTrue_value T) as ST. destruct (solarTrue T) as [s nu]. cbn [fst] in TE. cbv zeta in ST. destruct ST as (_ & _ & SA & _).
  set (M := degrees (357.52911 + 35999.05029 * T - 0.0001537 * T ^ 2)) in *. set (e := solarEccentricity T) in *. destruct (y_bound jde HT) as [Ce Hy]. set (y := tan (MeanObliquity jde / 2) ^ 2) in *.
  set (L1 := degrees (280.46646 + 36000.76983 * T + 0.0003032 * T ^ 2)) in *. set (C := degrees (_ + _ + _)) in SA. set (z := L1 - L0).
  assert (Hz : Rabs z <= 0.0000021).
  { assert (Ez : z = degrees (0.0000033 + 0.00000221 * T - 0.0000000028 * T ^ 2 - T ^ 3 / 49931000 + T ^ 4 / 153000000 + T ^ 5 / 200000000000)). { unfold z, L1, L0, degrees. decimals. field. }
    rewrite Ez. set (w := 0.0000033 + _ - _ - _ + _ + _). apply abs_le_inv in HT. assert (T2 : 0 <= T ^ 2 <= 100) by (cbn [pow]; split; nra). assert (T3 : -1000 <= T ^ 3 <= 1000) by (replace (T ^ 3) with (T * T ^ 2) by ring; split; nra). assert (T4 : 0 <= T ^ 4 <= 10000) by (replace (T ^ 4) with (T ^ 2 * T ^ 2) by ring; split; nra). assert (T5 : -100000 <= T ^ 5 <= 100000) by (replace (T ^ 5) with (T * T ^ 4) by ring; split; nra).
    assert (W : Rabs w <= 0.000113) by (apply Rabs_le; unfold w; lra). pose proof (conv w ltac:(lra)) as Q. apply abs_le_inv in Q, W. apply Rabs_le. lra. }
  destruct (centre_terms T M z HT Hz) as (K1 & K2 & K3). fold C in K1, K2. fold e in K1, K3. set (C' := C + z) in *.
  assert (EL : same_angle s (L0 + C')). { destruct SA as [k ->]. exists k. unfold C', z. ring. }
  destruct (reduction (L0 + C') _ _ _ (equatorial_turn _ _ _ _ _ _ EL TE) Ce Hy) as (u & [k U] & Hu). fold y in U.
  set (lam := L0 + C') in *. exists (- C' + (y * sin (2 * lam) - / 2 * y ^ 2 * sin (4 * lam) + u)). split.
  - exists k. replace (L0 - fst (TrueEquatorial jde)) with (lam - fst (TrueEquatorial jde) - C') by (unfold lam; ring). rewrite U. ring.
  - rewrite ES. assert (Y0 : 0 <= y) by apply pow2_ge_0.
    pose proof (sin_lin2 (2 * L0) (2 * C')) as G. assert (HC2 : Rabs (2 * C') <= 0.0694) by (rewrite Rabs_mult, (Rabs_pos_eq 2) by lra; lra). specialize (G ltac:(lra)). replace (2 * L0 + 2 * C') with (2 * lam) in G by (unfold lam; ring).
    assert (G' : Rabs (sin (2 * lam) - sin (2 * L0) - 2 * C' * cos (2 * L0)) <= 0.00247). { eapply Rle_trans; [exact G|]. pose proof (Rabs_pos (2 * C')). assert (2 * C' * (2 * C') <= 0.0694 * 0.0694). { rewrite <- (Rabs_pos_eq (2 * C' * (2 * C'))) by apply Rle_0_sqr. rewrite Rabs_mult. apply Rmult_le_compat; lra. }
      assert (Rabs (2 * C') ^ 3 <= 0.0694 ^ 3) by (apply pow_incr; lra). cbn [pow] in *. lra. }
    pose proof (sin_lip (4 * lam) (4 * L0)) as F. replace (4 * lam - 4 * L0) with (2 * (2 * C')) in F by (unfold lam; ring). rewrite (Rabs_mult 2 (2 * C')), (Rabs_pos_eq 2) in F by lra.
    set (s2 := sin (2 * lam)) in *. set (s4 := sin (4 * lam)) in *. set (t2 := sin (2 * L0)) in *. set (t4 := sin (4 * L0)) in *. assert (Hc : -1 <= cos (2 * L0) <= 1) by apply COS_bound. set (c2 := cos (2 * L0)) in *.
    pose proof (SIN_bound (2 * M)) as Hm2. set (m2 := sin (2 * M)) in *. set (m1 := sin M) in *. 
    set (K := C' - 2 * e * m1 - 5 / 4 * e ^ 2 * m2) in *. set (G0 := s2 - t2 - 2 * C' * c2) in *. set (F0 := s4 - t4) in *.
    match goal with |- Rabs ?x <= _ => replace x with (- y * G0 - 2 * y * (K + 5 / 4 * e ^ 2 * m2) * c2 + / 2 * y ^ 2 * F0 + K - u) by (unfold G0, F0, K; field) end.
    assert (F' : Rabs F0 <= 0.1388) by lra. apply abs_le_inv in K1, G', F', Hu. clear - K1 G' F' Hu Hm2 Hc Y0 Hy K3. clearbody K G0 F0 m2 c2 y e.
    assert (E2 : 0 <= e ^ 2 <= 0.00029584) by (cbn [pow]; split; nra). assert (P1 : -0.0003698 <= 5 / 4 * e ^ 2 * m2 <= 0.0003698) by (split; nra). set (p := 5 / 4 * e ^ 2 * m2) in *. clearbody p.
    assert (P2 : -0.0003818 <= (K + p) * c2 <= 0.0003818) by (split; nra). assert (P3 : -0.00003376 <= 2 * y * (K + p) * c2 <= 0.00003376) by (replace (2 * y * (K + p) * c2) with (2 * (y * ((K + p) * c2))) by ring; split; nra).
    assert (P4 : -0.0001092 <= - y * G0 <= 0.0001092) by (split; nra). assert (Y2 : 0 <= y ^ 2 <= 0.00195364) by (cbn [pow]; split; nra). assert (P5 : -0.0001356 <= / 2 * y ^ 2 * F0 <= 0.0001356) by (split; nra).
    assert (Q : 0.00036 <= seconds 5) by (unfold seconds; pose proof PI_10; lra). apply Rabs_le. lra.
Qed.

(** ** Sidereal time *)
Lemma midnight_exists jd : exists jd0, midnight jd0 jd.
Proof.
  exists (IZR (Zfloor (jd + 1 / 2)) - 1 / 2). split; [eexists; reflexivity|]. pose proof (Zfloor_lb (jd + 1 / 2)). pose proof (Zfloor_ub (jd + 1 / 2)). lra.
Qed.
Lemma EqTime_ra jde v : exists k : Z, EqTime jde v = l0 ((jde - 2451545) / 36525 * (1 / 10)) - AngleFromDeg (57183 / 10000000) - fst (fst (ApparentEquatorialVSOP87 v jde)) + NutationInRA jde + IZR k * (2 * PI).
Proof.
  unfold EqTime, ApparentEquatorialVSOP87, NutationInRA. rewrite century. destruct (TrueVSOP87 v jde) as [[s b] r]. destruct (Nutation jde) as [dp de]. cbv zeta. fold (aberration r).
  destruct (EclToEq _ _ _ _) as [ra dec]. cbn [fst]. match goal with |- context [Mod1 (?x + PI)] => destruct (Mod1_same (x + PI)) as (k & E) end. exists k. rewrite E. ring.
Qed.
Lemma solar_time v jd B : 0 <= jd + 1 / 2 -> let T := (jd - 2451545) / 36525 in (Rabs T <= 1 /\ B = 0.07 \/ Rabs T <= 10 /\ B = 2.7) ->
  exists d, same_angle (TimeRad (Apparent NutationInRA jd) - fst (fst (ApparentEquatorialVSOP87 v jd))) (2 * PI * (jd + 1 / 2) - PI + EqTime jd v + seconds d) /\ Rabs d <= B.
Proof.
  intros P T HT. destruct (midnight_exists jd) as [jd0 M]. destruct (Mean_day _ _ M P) as [_ [k1 K1]]. destruct (Apparent_mean NutationInRA jd) as [_ [k2 K2]]. destruct (EqTime_ra jd v) as [k3 K3]. fold T in K3.
  destruct M as [[n N] [M1 M2]]. set (T0 := (jd0 - 2451545) / 36525) in *. set (f := jd - jd0) in *. set (n' := NutationInRA jd) in *. set (ra := fst (fst (ApparentEquatorialVSOP87 v jd))) in *.
  set (d := sidereal0 T0 + 1.00273790935 * (86400 * f) - 86400 * f + 43200 - 240 * (280.4664567 + 36000.76982779 * T + 0.0003032028 * T ^ 2 + T ^ 3 / 49931000 - T ^ 4 / 153000000 - T ^ 5 / 200000000000) + 240 * 0.0057183).
  exists d. split.
  - exists (k1 + k2 - k3 - n)%Z. rewrite K2, K1, K3, !minus_IZR, plus_IZR. unfold TimeRad, TimeFromRad, seconds, l0, AngleFromDeg. rewrite HornerR_poly by discriminate. rewrite !poly_cons, poly_nil.
    replace jd with (IZR n - 1 / 2 + f) by (unfold f; rewrite N; ring). unfold d. decimals. field. apply PI_neq0.
  - assert (ET : T0 = T - f / 36525) by (unfold T0, T, f; field). assert (Hf : 0 <= f < 1) by (unfold f; lra).
    assert (Ed : d = -0.028806 + 0.0541964 * T + (0.093104 - 0.072768672) * T ^ 2 + (0.0000062 - 240 / 49931000) * T ^ 3 + 240 * T ^ 4 / 153000000 + 240 * T ^ 5 / 200000000000
      + f * (0.00273790935 * 86400 - 8640184.812866 / 36525 - 2 * 0.093104 * T / 36525 - 3 * 0.0000062 * T ^ 2 / 36525) + f ^ 2 * (0.093104 / 36525 ^ 2 + 3 * 0.0000062 * T / 36525 ^ 2) - f ^ 3 * (0.0000062 / 36525 ^ 3)).
    { unfold d, sidereal0. rewrite ET. decimals. field. }
    clearbody d. clear - Ed HT Hf. assert (Hf2 : 0 <= f ^ 2 <= 1) by (cbn [pow]; split; nra). assert (Hf3 : 0 <= f ^ 3 <= 1) by (cbn [pow] in *; split; nra).
    assert (HT' : -10 <= T <= 10) by (destruct HT as [[H _]|[H _]]; apply abs_le_inv in H; lra). assert (T2 : 0 <= T ^ 2 <= 100) by (cbn [pow]; split; nra).
    assert (W1 : Rabs (f * (0.00273790935 * 86400 - 8640184.812866 / 36525 - 2 * 0.093104 * T / 36525 - 3 * 0.0000062 * T ^ 2 / 36525)) <= 0.0001).
    { set (q := 0.00273790935 * 86400 - _ - _ - _). assert (-0.0001 <= q <= 0.0001) by (unfold q; lra). apply Rabs_le. clearbody q. clear - Hf H. split; nra. }
    assert (W2 : Rabs (f ^ 2 * (0.093104 / 36525 ^ 2 + 3 * 0.0000062 * T / 36525 ^ 2)) <= 0.0001).
    { set (q := 0.093104 / 36525 ^ 2 + _). assert (-0.0001 <= q <= 0.0001) by (unfold q; lra). apply Rabs_le. clearbody q. clear - Hf2 H. set (g := f ^ 2) in *. clearbody g. split; nra. }
    apply abs_le_inv in W1, W2. set (w1 := f * _) in *. set (w2 := f ^ 2 * _) in *. clearbody w1 w2. rewrite Ed. clear Ed. apply Rabs_le.
    destruct HT as [[H ->]|[H ->]]; apply abs_le_inv in H.
    + assert (0 <= T ^ 2 <= 1) by (cbn [pow]; split; nra). assert (-1 <= T ^ 3 <= 1) by (replace (T ^ 3) with (T * T ^ 2) by ring; split; nra). assert (0 <= T ^ 4 <= 1) by (replace (T ^ 4) with (T ^ 2 * T ^ 2) by ring; split; nra). assert (-1 <= T ^ 5 <= 1) by (replace (T ^ 5) with (T * T ^ 4) by ring; split; nra).
      assert (-0.0542 + 0.0203 * T ^ 2 <= 0.0541964 * T + (0.093104 - 0.072768672) * T ^ 2 + 0.0001 <= 0.0747) by lra. split; [|lra]. assert (0.0541964 * T + (0.093104 - 0.072768672) * T ^ 2 >= -0.0369) by (cbn [pow] in *; nra). lra.
    + assert (-1000 <= T ^ 3 <= 1000) by (replace (T ^ 3) with (T * T ^ 2) by ring; split; nra). assert (0 <= T ^ 4 <= 10000) by (replace (T ^ 4) with (T ^ 2 * T ^ 2) by ring; split; nra). assert (-100000 <= T ^ 5 <= 100000) by (replace (T ^ 5) with (T * T ^ 4) by ring; split; nra). split; lra.
Qed.
