(** Lemmas for package jupitermoons: comparison of the two methods, view from the Earth. *)
From Coq Require Import ZArith Reals List Lra Lia Psatz Nsatz.
From Flocq Require Import Core.
From Verif Require Import GoFloat GoMath S_Sphere S_precess S_physical S_solar S_moon S_saturnmoons S_jupitermoons M_base M_coord M_precess M_vsop M_solar M_physical M_planetelements M_jupitermoons
  L_trig L_angle L_vec L_coord L_precess L_elements L_light L_solar L_refraction L_physical L_physical2 L_physical3 L_moon L_moon3 L_planetelements L_pluto L_saturnmoons L_jupitermoons L_jupitermoons2.
From Verif Require Import S_moon S_solar.
Import ListNotations.
Local Open Scope R_scope.

(** ** The two methods *)
Lemma jm_agree jde : Rabs (jde - 2451545) <= 109575 -> let g := jm_geometry jde in let q := e5_args (jde - 2443000.5 - g_D g / 173) in let P0 := degrees 0.698 in
  let '(u1, u2, u3, u4) := jm_u jde in let lon u := u + PI + g_lam g - g_psi g in
  near_turns (lon u1 - (e_l1 q + P0)) (degrees 0.36) /\ near_turns (lon u2 - (e_l2 q + P0)) (degrees 0.36) /\ near_turns (lon u3 - (e_l3 q + P0)) (degrees 0.36) /\ near_turns (lon u4 - (e_l4 q + P0)) (degrees 0.36).
Proof.
  intros H. cbv zeta. unfold jm_u. cbv zeta. destruct (jm_triangle jde) as (_ & _ & HD & _). decimals_in HD. apply Rabs_le_inv in H. set (g := jm_geometry jde) in *.
  assert (EL : exists sV, -1 <= sV <= 1 /\ g_lam g = 34.35 * (PI / 180) + 0.083091 * (PI / 180) * (jde - 2451545) + 0.329 * (PI / 180) * sV + g_B g).
  { unfold g, jm_geometry. cbv zeta. cbn [g_lam g_B]. eexists. split; [|reflexivity]. apply SIN_bound. }
  destruct EL as (sV & HV & EL). rewrite EL. clear EL. replace (jde - 2443000.5) with (jde - 2451545 + 8544.5) by (decimals; field). set (d := jde - 2451545) in *. clearbody d g. unfold e5_args. cbv zeta. cbn [e_l1 e_l2 e_l3 e_l4]. pose proof PI_fine as HP. set (D := g_D g / 173) in *. assert (HDD : 0 <= D <= 4 / 100) by (unfold D; lra).
  clearbody D. clear HD. unfold degrees.
  split; [exists (-4829)%Z|split; [exists (-2405)%Z|split; [exists (-1194)%Z|exists (-511)%Z]]].
  - match goal with |- Rabs ?x <= _ => replace x with ((163.8069 + 34.35 + 180 - 106.07719 - 0.698 - 203.48895579 * 8544.5 + 4829 * 360 + (203.4058646 + 0.083091 - 203.48895579) * d + (203.48895579 - 203.4058646) * D + 0.329 * sV) * (PI / 180)) by (decimals; field) end. decimals. rewrite Rabs_mult, (Rabs_pos_eq (PI / 180)) by lra. apply Rle_trans with (36 / 100 * (PI / 180)); [apply Rmult_le_compat_r; [lra|]; apply Rabs_le; lra|right; field].
  - match goal with |- Rabs ?x <= _ => replace x with ((358.414 + 34.35 + 180 - 175.73161 - 0.698 - 101.374724735 * 8544.5 + 2405 * 360 + (101.2916335 + 0.083091 - 101.374724735) * d + (101.374724735 - 101.2916335) * D + 0.329 * sV) * (PI / 180)) by (decimals; field) end. decimals. rewrite Rabs_mult, (Rabs_pos_eq (PI / 180)) by lra. apply Rle_trans with (36 / 100 * (PI / 180)); [apply Rmult_le_compat_r; [lra|]; apply Rabs_le; lra|right; field].
  - match goal with |- Rabs ?x <= _ => replace x with ((5.7176 + 34.35 + 180 - 120.55883 - 0.698 - 50.317609207 * 8544.5 + 1194 * 360 + (50.234518 + 0.083091 - 50.317609207) * d + (50.317609207 - 50.234518) * D + 0.329 * sV) * (PI / 180)) by (decimals; field) end. decimals. rewrite Rabs_mult, (Rabs_pos_eq (PI / 180)) by lra. apply Rle_trans with (36 / 100 * (PI / 180)); [apply Rmult_le_compat_r; [lra|]; apply Rabs_le; lra|right; field].
  - match goal with |- Rabs ?x <= _ => replace x with ((224.8092 + 34.35 + 180 - 84.44459 - 0.698 - 21.571071177 * 8544.5 + 511 * 360 + (21.48798 + 0.083091 - 21.571071177) * d + (21.571071177 - 21.48798) * D + 0.329 * sV) * (PI / 180)) by (decimals; field) end. decimals. rewrite Rabs_mult, (Rabs_pos_eq (PI / 180)) by lra. apply Rle_trans with (36 / 100 * (PI / 180)); [apply Rmult_le_compat_r; [lra|]; apply Rabs_le; lra|right; field].
Qed.
(** ** View *)
Lemma sky_value l b pole w : let A0 := - dot pole (east l b) in let C0 := dot pole (north l b) in let A := - dot w (east l b) in let B := dot w (dir l b) in let C := dot w (north l b) in
  let D := atan2 A0 C0 in let X := A * cos D - C * sin D in let Y := A * sin D + C * cos D in
  norm (mkvec X Y B) = norm w /\ (A0 <> 0 \/ C0 <> 0 -> exists h, 0 < h /\ sky_axes l b pole w h X Y B).
Proof.
  cbv zeta. remember (- dot pole (east l b)) as A0 eqn:EA0. remember (dot pole (north l b)) as C0 eqn:EC0. remember (- dot w (east l b)) as A eqn:EA. remember (dot w (dir l b)) as B eqn:EB. remember (dot w (north l b)) as C eqn:EC.
  set (D := atan2 A0 C0). split.
  - unfold norm. f_equal. unfold dot. cbn [vx vy vz]. transitivity ((A * A + C * C) * (sin D * sin D + cos D * cos D) + B * B); [ring|]. rewrite sc1, EA, EB, EC. unfold dot, east, north, dir. cbn [vx vy vz]. destruct w as [x y z]. cbn [vx vy vz].
    pose proof (sc1 l) as Kl. pose proof (sc1 b) as Kb. set (sl := sin l) in *. set (cl := cos l) in *. set (sb := sin b) in *. set (cb := cos b) in *. clearbody sl cl sb cb. clear - Kl Kb. nsatz.
  - intros N. assert (N' : C0 <> 0 \/ A0 <> 0) by tauto. destruct (atan2_spec C0 A0 N') as (HC & HS). fold D in HC, HS. set (h := hypot C0 A0) in *. assert (h0 : 0 <= h) by apply sqrt_pos. pose proof (hypot_sq C0 A0) as Hh. fold h in Hh.
    assert (hN : 0 < h) by (destruct h0 as [|E]; [assumption|]; exfalso; rewrite <- E in HC, HS; destruct N'; lra).
    exists h. split; [exact hN|]. unfold sky_axes. rewrite <- EA0, <- EC0, <- EA, <- EC, <- EB. split; [lra|]. split; [lra|]. split; [|split; [|reflexivity]].
    + transitivity (A * (h * cos D) - C * (h * sin D)); [ring|]. rewrite HC, HS. ring.
    + transitivity (A * (h * sin D) + C * (h * cos D)); [ring|]. rewrite HC, HS. ring.
Qed.
Lemma rxT t x y z : app (transpose (rot_x t)) (mkvec x y z) = mkvec x (y * cos t - z * sin t) (y * sin t + z * cos t).
Proof. unfold rot_x, transpose, app, dot. cbn [r1 r2 r3 vx vy vz]. f_equal; ring. Qed.
Lemma rzT t x y z : app (transpose (rot_z t)) (mkvec x y z) = mkvec (x * cos t - y * sin t) (x * sin t + y * cos t) z.
Proof. unfold rot_z, transpose, app, dot. cbn [r1 r2 r3 vx vy vz]. f_equal; ring. Qed.
Lemma e5_rot_value I0 Phi i Om l b v : let '(A, B, C) := e5_rot I0 Phi i Om l b v in let w := equator_to_ecliptic I0 Phi i Om (vec_of v) in A = - dot w (east l b) /\ B = dot w (dir l b) /\ C = dot w (north l b).
Proof.
  destruct v as [[x y] z]. unfold equator_to_ecliptic, vec_of. rewrite rxT, rzT, rxT, rzT. unfold e5_rot.
  set (b1 := y * cos I0 - z * sin I0). set (c1 := y * sin I0 + z * cos I0). set (a2 := x * cos Phi - b1 * sin Phi). set (b2 := x * sin Phi + b1 * cos Phi). set (b3 := b2 * cos i - c1 * sin i). set (c3 := b2 * sin i + c1 * cos i).
  clearbody a2 b3 c3. unfold dot, east, north, dir. cbn [vx vy vz]. repeat split; ring.
Qed.
Lemma eq_ecl_norm I0 Phi i Om v : norm (equator_to_ecliptic I0 Phi i Om v) = norm v.
Proof.
  assert (X : forall t w, norm (app (transpose (rot_x t)) w) = norm w). { intros t [x y z]. unfold norm, rot_x, transpose, app, dot. cbn [r1 r2 r3 vx vy vz]. f_equal. pose proof (sc1 t). set (s := sin t) in *. set (c := cos t) in *. clearbody s c. nsatz. }
  assert (Z : forall t w, norm (app (transpose (rot_z t)) w) = norm w). { intros t [x y z]. unfold norm, rot_z, transpose, app, dot. cbn [r1 r2 r3 vx vy vz]. f_equal. pose proof (sc1 t). set (s := sin t) in *. set (c := cos t) in *. clearbody s c. nsatz. }
  unfold equator_to_ecliptic. rewrite Z, X, Z, X. reflexivity.
Qed.
Lemma e5_xyz_dir P psi L B r : vec_of (e5_xyz P psi (L, B, r)) = scale r (dir (L + P - psi) B).
Proof. unfold e5_xyz, vec_of, scale, dir. cbn [vx vy vz]. f_equal; ring. Qed.
(** The pole of the equator is seen away from the centre of the disk. *)
Lemma jm_pole_visible I0 Phi i Om l b : 0 <= sin I0 <= 0.06 -> 0 <= cos I0 -> 0 <= sin i <= 0.13 -> 0 <= cos i -> Rabs (sin b) < 0.5 -> let pole := equator_to_ecliptic I0 Phi i Om (mkvec 0 0 1) in - dot pole (east l b) <> 0 \/ dot pole (north l b) <> 0.
Proof.
  intros SI CI Si Ci H pole. decimals_in SI. decimals_in Si. decimals_in H. destruct (Req_dec (- dot pole (east l b)) 0) as [E|]; [|left; assumption]. right. intros E'.
  assert (HN : dot pole pole = 1). { pose proof (eq_ecl_norm I0 Phi i Om (mkvec 0 0 1)) as K. fold pole in K. unfold norm in K. assert (D1 : dot (mkvec 0 0 1) (mkvec 0 0 1) = 1) by (unfold dot; cbn [vx vy vz]; ring). rewrite D1, sqrt_1 in K. rewrite <- (sqrt_sqrt (dot pole pole)), K; [ring|]. unfold dot. nra. }
  assert (Q : dot pole (east l b) * dot pole (east l b) + dot pole (north l b) * dot pole (north l b) + dot pole (dir l b) * dot pole (dir l b) = dot pole pole).
  { clear. unfold dot, east, north, dir. destruct pole as [x y z]. cbn [vx vy vz]. pose proof (sc1 l) as Kl. pose proof (sc1 b) as Kb. set (sl := sin l) in *. set (cl := cos l) in *. set (sb := sin b) in *. set (cb := cos b) in *. clearbody sl cl sb cb. nsatz. }
  rewrite HN, E' in Q. assert (E0 : dot pole (east l b) = 0) by lra. rewrite E0 in Q. assert (D : dot pole (dir l b) * dot pole (dir l b) = 1) by lra.
  assert (EZ : vz pole = cos i * cos I0 - sin i * (cos Phi * sin I0)). { unfold pole, equator_to_ecliptic, rot_x, rot_z, transpose, app, dot. cbn [r1 r2 r3 vx vy vz]. ring. }
  pose proof (sc1 i) as K1. pose proof (sc1 I0) as K2. pose proof (COS_bound Phi) as CP. assert (Z1 : 97 / 100 <= vz pole <= 1).
  { split; [|unfold dot in HN; nra]. rewrite EZ. set (ci := cos i) in *. set (si := sin i) in *. set (cI := cos I0) in *. set (sI := sin I0) in *. set (cp := cos Phi) in *. clearbody ci si cI sI cp. assert (99 / 100 <= ci) by nra. assert (99 / 100 <= cI) by nra. assert (cp * sI <= 6 / 100) by nra. assert (si * (cp * sI) <= 8 / 1000) by nra. nra. }
  unfold dot in HN. unfold dot, dir in D. cbn [vx vy vz] in D. destruct pole as [x y z]. cbn [vx vy vz] in *. pose proof (sc1 l) as Kl. pose proof (sc1 b) as Kb. apply Rabs_lt_inv in H. set (sl := sin l) in *. set (cl := cos l) in *. set (sb := sin b) in *. set (cb := cos b) in *. clearbody sl cl sb cb. clear - HN D Z1 Kl Kb H.
  set (t := x * cl + y * sl). assert (T2 : t * t <= x * x + y * y). { unfold t. assert (0 <= (x * sl - y * cl) * (x * sl - y * cl)) by apply Rle_0_sqr. assert (H1 : (x * cl + y * sl) * (x * cl + y * sl) + (x * sl - y * cl) * (x * sl - y * cl) = (x * x + y * y) * (sl * sl + cl * cl)) by ring. rewrite Kl in H1. lra. }
  replace (x * (cb * cl) + y * (cb * sl) + z * sb) with (cb * t + z * sb) in D by (unfold t; ring). clearbody t. assert (TT : t * t <= 6 / 100) by nra. assert (TB : - (1 / 4) <= t <= 1 / 4) by nra. assert (CB : -1 <= cb <= 1) by nra. assert (- (1 / 4) <= cb * t <= 1 / 4) by nra. assert (- (1 / 2) <= z * sb <= 1 / 2) by nra. nra.
Qed.
Lemma e5_project_value D Delta r k A B C : 0 < r -> 0 < k -> Rabs B < 2095 * Delta -> let X := A * cos D - C * sin D in let Y := A * sin D + C * cos D in norm (mkvec X Y B) = r ->
  exists W X', e5_project D Delta r k (A, B, C) = (X' * W, Y * W) /\ W * (Delta + B / 2095) = Delta /\ 0 < W /\ X' = X + Rabs B / k * sqrt (1 - X / r * (X / r)) /\ 0 <= 1 - X / r * (X / r) /\ X <= X' <= X + r / k.
Proof.
  intros Hr Hk HZ X Y HN. unfold e5_project. cbv zeta. fold X Y. clearbody X Y. rename B into Z. assert (N2 : X * X + Y * Y + Z * Z = r * r) by (rewrite <- HN; unfold norm; rewrite sqrt_sqrt; unfold dot; cbn [vx vy vz]; nra).
  assert (XR : 0 <= 1 - X / r * (X / r)). { replace (1 - X / r * (X / r)) with ((r * r - X * X) / (r * r)) by (field; lra). apply Rmult_le_pos; [nra|]. apply Rlt_le, Rinv_0_lt_compat. nra. }
  assert (SQ : 0 <= sqrt (1 - X / r * (X / r)) <= 1). { split; [apply sqrt_pos|]. rewrite <- sqrt_1 at 2. apply sqrt_le_1_alt. assert (0 <= X / r * (X / r)) by nra. lra. }
  assert (ZR : Rabs Z <= r). { rewrite <- (Rabs_pos_eq r) by lra. apply Rsqr_le_abs_0. unfold Rsqr. nra. }
  assert (DP : 0 < Delta + Z / 2095) by (apply Rabs_lt_inv in HZ; lra). pose proof (Rabs_pos Z) as AZ. assert (D0 : 0 < Delta) by lra.
  eexists; eexists. split; [reflexivity|]. split; [field; lra|]. split; [apply Rdiv_lt_0_compat; lra|]. split; [reflexivity|]. split; [exact XR|].
  set (q := sqrt _) in *. assert (K : 0 <= Rabs Z / k <= r / k) by (unfold Rdiv; pose proof (Rinv_0_lt_compat k Hk); split; [apply Rmult_le_pos; lra|apply Rmult_le_compat_r; lra]). split; nra.
Qed.
Lemma norm_dir r a b : 0 <= r -> norm (scale r (dir a b)) = r.
Proof. intros H. unfold norm. transitivity (sqrt (r * r)); [|exact (sqrt_square r H)]. f_equal. unfold scale, dir, dot. cbn [vx vy vz]. pose proof (sc1 a) as Ka. pose proof (sc1 b) as Kb. set (sl := sin a) in *. set (cl := cos a) in *. set (sb := sin b) in *. set (cb := cos b) in *. clearbody sl cl sb cb. clear - Ka Kb. nsatz. Qed.
Definition e5_seen (l0 b0 Delta psi : R) (frame : vec -> vec) (mk : R * R * R * R) (xy : R * R) : Prop :=
  let '(L, B, r, k) := mk in let place := frame (scale r (dir (L - psi) B)) in
  exists h X Y Z W X', 0 < h /\ sky_axes l0 b0 (frame (mkvec 0 0 1)) place h X Y Z /\ xy = (X' * W, Y * W) /\ W * (Delta + Z / 2095) = Delta /\ 0 < W /\
    X' = X + Rabs Z / k * sqrt (1 - X / r * (X / r)) /\ 0 <= 1 - X / r * (X / r) /\ X <= X' <= X + r / k.
Lemma E5_view jde earth jupiter : let '(l0, b0, Delta, t) := e5_direction jde earth jupiter in Rabs (T_of jde) <= 20 -> Rabs (sin b0) < 0.5 -> 1 <= Delta ->
  exists e pos, Mean Jupiter jde = Some e /\ E5 jde earth jupiter = Some pos /\ let q := e5_args t in
    Forall2 (e5_seen l0 b0 Delta (e_psi q) (equator_to_ecliptic (e5_I jde) (e_psi q + e5_P jde - eNode e) (eInc e) (eNode e))) (combine (e5_moons q) [17295; 21819; 27558; 36548]) pos.
Proof.
  unfold E5. destruct (e5_direction jde earth jupiter) as [[[l0 b0] Delta] t]. intros HT Hb HD. cbv zeta. destruct (elements_range Jupiter jde ltac:(unfold planet, Jupiter; lia) ltac:(discriminate) HT) as (e & EM & EI & EN & _ & _ & _ & RI & _). rewrite EI, EN. unfold bind.
  set (q := e5_args t). set (P := e5_P jde). set (psi := e_psi q). set (I0 := e5_I jde). set (i := eInc e) in *. set (Om := eNode e) in *. pose proof PI_fine as HP.
  assert (HI : 0 < I0 < 6 / 100). { unfold I0, e5_I. unfold T_of in HT. apply Rabs_le_inv in HT. set (T := (jde - 2415020) / 36525). assert (-20 <= T <= 22) by (unfold T; lra). clearbody T. clear - HP H. decimals. nra. }
  assert (Hi : 0 < i < 13 / 100) by (unfold degrees in RI; decimals_in RI; lra).
  assert (VS : - dot (equator_to_ecliptic I0 (psi + P - Om) i Om (mkvec 0 0 1)) (east l0 b0) <> 0 \/ dot (equator_to_ecliptic I0 (psi + P - Om) i Om (mkvec 0 0 1)) (north l0 b0) <> 0).
  { apply jm_pole_visible; try exact Hb; decimals; try (apply cos_ge_0; lra); (split; [apply sin_ge_0; lra|]); [pose proof (sin_lt_x I0)|pose proof (sin_lt_x i)]; lra. }
  pose proof (e5_rot_value I0 (psi + P - Om) i Om l0 b0 (0, 0, 1)) as HR0. destruct (e5_rot I0 (psi + P - Om) i Om l0 b0 (0, 0, 1)) as [[A0 B0] C0]. cbv zeta in HR0. unfold vec_of at 1 2 3 in HR0. destruct HR0 as (EA0 & EB0 & EC0).
  exists e. eexists. split; [exact EM|]. split; [reflexivity|].
  assert (G : forall L B r k, 0 < r <= 30 -> 0 < k -> e5_seen l0 b0 Delta psi (equator_to_ecliptic I0 (psi + P - Om) i Om) (L, B, r, k) (e5_project (atan2 A0 C0) Delta r k (e5_rot I0 (psi + P - Om) i Om l0 b0 (e5_xyz P (psi + P) (L, B, r))))).
  { intros L B r k Hr Hk. pose proof (e5_rot_value I0 (psi + P - Om) i Om l0 b0 (e5_xyz P (psi + P) (L, B, r))) as HR. destruct (e5_rot I0 (psi + P - Om) i Om l0 b0 (e5_xyz P (psi + P) (L, B, r))) as [[A B'] C]. cbv zeta in HR. rewrite e5_xyz_dir in HR. replace (L + P - (psi + P)) with (L - psi) in HR by ring. destruct HR as (EA & EB & EC).
    pose proof (sky_value l0 b0 (equator_to_ecliptic I0 (psi + P - Om) i Om (mkvec 0 0 1)) (equator_to_ecliptic I0 (psi + P - Om) i Om (scale r (dir (L - psi) B)))) as HS. cbv zeta in HS. rewrite <- EA0, <- EC0, <- EA, <- EB, <- EC, eq_ecl_norm, norm_dir in HS by lra. destruct HS as (HN & HA). rewrite <- EA0, <- EC0 in VS. destruct (HA VS) as (h & Hh & Ax).
    destruct (e5_project_value (atan2 A0 C0) Delta r k A B' C) as (W & X' & E1 & E2 & E3 & E4 & E5' & E6); try lra.
    { assert (B' * B' <= r * r). { rewrite <- HN. unfold norm. rewrite sqrt_sqrt; unfold dot; cbn [vx vy vz]; nra. } apply Rle_lt_trans with r; [|lra]. rewrite <- (Rabs_pos_eq r) by lra. apply Rsqr_le_abs_0. exact H. }
    unfold e5_seen. exists h. do 2 eexists. exists B', W, X'. split; [exact Hh|]. split; [exact Ax|]. repeat (split; [assumption|]). exact E6. }
  destruct (e5_ranges q) as (L1 & B1 & r1 & L2 & B2 & r2 & L3 & B3 & r3 & L4 & B4 & r4 & E & _ & _ & _ & HRR). rewrite E. cbn [combine map]. decimals_in HRR. repeat (apply Forall2_cons; [apply G; lra|]). apply Forall2_nil.
Qed.
Lemma e5_direction_value jde earth jupiter : let '(s, b, R0) := TrueVSOP87 earth jde in let sun := mkvec (R0 * cos s) (R0 * sin s) (R0 * sin b) in
  let place D v := exists l b r, PlanetPosition jupiter (jde - LightTime D) = (l, b, r) /\ v = vadd sun (scale r (dir l b)) in
  let '(l0, b0, Delta, t) := e5_direction jde earth jupiter in
  exists v1 v2, place 5 v1 /\ place (norm v1) v2 /\ Delta = norm v2 /\ t = jde - 2443000.5 - LightTime Delta /\ - (PI / 2) < b0 < PI / 2 /\ (vx v2 <> 0 \/ vy v2 <> 0 -> dir l0 b0 = unit_of v2).
Proof.
  destruct (TrueVSOP87 earth jde) as [[s b] R0] eqn:E0. intros sun place. unfold e5_direction, e5_place. rewrite E0.
  destruct (PlanetPosition jupiter (jde - LightTime 5)) as [[l1 b1] ra] eqn:E1. cbv zeta.
  set (v1 := vadd sun (scale ra (dir l1 b1))). set (D1 := sqrt _). assert (ED : D1 = norm v1). { unfold D1, norm, v1, sun, dot, vadd, scale, dir. cbn [vx vy vz]. f_equal. ring. } rewrite ED. clearbody D1.
  destruct (PlanetPosition jupiter (jde - LightTime (norm v1))) as [[l2 b2] rb] eqn:E2.
  set (v2 := vadd sun (scale rb (dir l2 b2))). set (x := rb * cos b2 * cos l2 + R0 * cos s). set (y := rb * cos b2 * sin l2 + R0 * sin s). set (z := rb * sin b2 + R0 * sin b).
  assert (EV : v2 = mkvec x y z) by (unfold v2, x, y, z, sun, vadd, scale, dir; cbn [vx vy vz]; f_equal; ring).
  exists v1, v2. split; [exists l1, b1, ra; split; [assumption|reflexivity]|]. split; [exists l2, b2, rb; split; [assumption|reflexivity]|].
  split; [rewrite EV; reflexivity|]. split; [reflexivity|]. split; [pose proof (atan_bound (z / hypot x y)); lra|].
  rewrite EV. cbn [vx vy]. intros N. exact (proj2 (dir_rect x y z N)).
Qed.
Lemma fixed_jupiter L : let '(l0, b0, Delta, t) := e5_direction 2451545 (fixed L 1) (fixed 0 5) in Rabs (T_of 2451545) <= 20 /\ Rabs (sin b0) < 0.5 /\ 1 <= Delta.
Proof.
  pose proof (e5_direction_value 2451545 (fixed L 1) (fixed 0 5)) as H.
  assert (HS : let '(s, b, R0) := TrueVSOP87 (fixed L 1) 2451545 in R0 = 1 /\ Rabs (sin b) <= 1 / 100000).
  { unfold TrueVSOP87. pose proof (fixed_near L 1 2451545) as N. rewrite Rminus_eq_0, Rabs_R0 in N. specialize (N ltac:(lra)). destruct (PlanetPosition (fixed L 1) 2451545) as [[l b] R0]. cbv zeta. destruct N as (-> & B & _ & _ & N3). split; [reflexivity|].
    set (lp := HornerR _ _). unfold dir in N3. cbn [vz] in N3. rewrite sin_0, Rminus_0_r in N3. set (db := AngleFromSec (3916 / 100000) * (cos lp - sin lp)).
    assert (Hd : Rabs db <= 1 / 1000000). { unfold db, AngleFromSec. pose proof PI_fine. pose proof (COS_bound lp). pose proof (SIN_bound lp). set (c := cos lp - sin lp). assert (-2 <= c <= 2) by (unfold c; lra). clearbody c. apply Rabs_le. nra. }
    pose proof (sin_lip (db - b) (- b)) as Q. replace (db - b - - b) with db in Q by ring. rewrite sin_neg in Q. apply Rabs_le_inv in N3. pose proof (Rle_trans _ _ _ Q Hd) as Q'. apply Rabs_le_inv in Q'. apply Rabs_le. lra. }
  destruct (TrueVSOP87 (fixed L 1) 2451545) as [[s b] R0]. destruct HS as (-> & Sb). destruct (e5_direction 2451545 (fixed L 1) (fixed 0 5)) as [[[l0 b0] Delta] t].
  destruct H as (v1 & v2 & P1 & P2 & ED & _ & _ & HU). apply Rabs_le_inv in Sb.
  assert (G : forall D v, 0 <= D <= 50 -> (exists l b1 r, PlanetPosition (fixed 0 5) (2451545 - LightTime D) = (l, b1, r) /\ v = vadd (mkvec (1 * cos s) (1 * sin s) (1 * sin b)) (scale r (dir l b1))) ->
    3.9 <= vx v <= 6.1 /\ -1.1 <= vy v <= 1.1 /\ -0.001 <= vz v <= 0.001).
  { intros D v HDD (l & b1 & r & E1 & ->). assert (T : Rabs (2451545 - LightTime D - 2451545) <= 1) by (unfold LightTime; apply Rabs_le; lra). pose proof (fixed_near 0 5 _ T) as N. rewrite E1 in N. destruct N as (-> & B & K1 & K2 & K3).
    unfold dir in K1, K2, K3. cbn [vx vy vz] in K1, K2, K3. rewrite sin_0, cos_0 in *. apply Rabs_le_inv in K1, K2, K3. unfold vadd, scale, dir. cbn [vx vy vz]. pose proof (COS_bound s). pose proof (SIN_bound s). decimals. lra. }
  assert (GN : forall v, 3.9 <= vx v <= 6.1 -> -1.1 <= vy v <= 1.1 -> -0.001 <= vz v <= 0.001 -> 3.9 <= norm v <= 7).
  { intros v A B C. decimals_in A. decimals_in B. decimals_in C. decimals. unfold norm, dot. split.
    - apply Rle_trans with (sqrt (39 / 10 * (39 / 10))); [rewrite sqrt_square; lra|]. apply sqrt_le_1_alt. nra.
    - rewrite <- (sqrt_square 7) by lra. apply sqrt_le_1_alt. nra. }
  destruct (G 5 v1 ltac:(lra) P1) as (X1 & Y1 & Z1). pose proof (GN v1 X1 Y1 Z1) as N1. decimals_in N1. destruct (G (norm v1) v2 ltac:(lra) P2) as (X2 & Y2 & Z2). pose proof (GN v2 X2 Y2 Z2) as N2. decimals_in X2. decimals_in Z2. decimals_in N2.
  split; [unfold T_of; apply Rabs_le; lra|]. split; [|rewrite ED; lra].
  assert (NX : vx v2 <> 0) by (apply Rgt_not_eq; lra). specialize (HU (or_introl NX)).
  assert (E : sin b0 = / norm v2 * vz v2) by (apply (f_equal vz) in HU; exact HU). rewrite E, Rabs_mult. assert (0 < / norm v2 <= 1) by (split; [apply Rinv_0_lt_compat; lra|]; rewrite <- Rinv_1; apply Rinv_le_contravar; lra). rewrite (Rabs_pos_eq (/ _)) by lra. assert (Rabs (vz v2) <= 1 / 1000) by (apply Rabs_le; lra). pose proof (Rabs_pos (vz v2)). decimals. nra.
Qed.
