(** Lemmas for package saturnmoons. *)
From Coq Require Import ZArith Reals List Lra Lia Psatz Nsatz.
From Flocq Require Import Core.
From Verif Require L_kepler.
From Verif Require Import GoFloat GoMath S_Sphere S_precess M_base M_coord M_precess M_vsop M_solar M_physical M_saturnmoons S_saturnmoons L_trig L_angle L_vec L_coord L_precess L_elements L_light L_solar L_refraction L_physical L_moon3 L_pluto.
Import ListNotations.
Local Open Scope R_scope.

Lemma triangle_H si ci sg cg a b : si * si + ci * ci = 1 -> sg * sg + cg * cg = 1 -> a * a + b * b = 1 ->
  (si * sg) * (si * sg) + (b * si * cg - a * ci) * (b * si * cg - a * ci) + (ci * b + si * a * cg) * (ci * b + si * a * cg) = 1 /\
  (a * sg) * (a * sg) + (b * si - a * ci * cg) * (b * si - a * ci * cg) = (si * sg) * (si * sg) + (b * si * cg - a * ci) * (b * si * cg - a * ci).
Proof. intros H1 H2 H3. split; nsatz. Qed.
Lemma triangle_X si ci sg cg a b : si * si + ci * ci = 1 -> sg * sg + cg * cg = 1 -> a * a + b * b = 1 ->
  let a1 := si * sg in let a2 := b * si * cg - a * ci in let h := b * si - a * ci * cg in let K := ci * b + si * a * cg in let q := a1 * a1 + a2 * a2 in
  h * a2 + a * sg * K * a1 = q * cg /\ a * sg * a2 - h * K * a1 = - (q * (ci * sg)) /\
  h * a1 - a * sg * K * a2 = q * (b * sg) /\ a * sg * a1 + h * K * a2 = q * (b * ci * cg + a * si) /\
  h * q = q * (b * si - a * ci * cg) /\ - (a * sg) * q = - (q * (a * sg)).
Proof. intros H1 H2 H3. cbv zeta. repeat split; nsatz. Qed.
Lemma s1c1 : s1 * s1 + c1 * c1 = 1.
Proof. unfold s1, c1. apply sc1. Qed.
Definition satN : R := 168.8112 * d_.
Definition satJ : R := 28.0817 * d_.
Lemma s1_bounds : 0.47 <= s1 <= 0.4902 /\ 0.8798 <= c1 <= 1.
Proof.
  pose proof PI_fine as HP. assert (Hd : 0.4901 <= satJ <= 0.4902) by (unfold satJ, d_; decimals; lra). unfold s1, c1. fold satJ. set (x := satJ) in *. clearbody x. decimals_in Hd. destruct (small_trig x ltac:(lra)) as ((A & B) & C). pose proof (COS_bound x). decimals.
  assert (x * x <= 4902 / 10000 * (4902 / 10000)) by nra. assert (x * x * x <= 4902 / 10000 * (4902 / 10000) * x) by nra. repeat split; lra.
Qed.
Lemma hypot_sq x y : hypot x y * hypot x y = x * x + y * y.
Proof. unfold hypot. apply sqrt_sqrt. nra. Qed.
(** The orbit referred to Saturn's equator is the orbit referred to the ecliptic, as long as the two poles
    are less than a right angle apart. *)
Lemma subr_frame l p e a Om i : 0 < sin i -> 0 < dot (orbit_pole i Om) (orbit_pole satJ satN) -> let m := subr l p e a Om i in
  vec_of (sat_xyz m) = plane_coords satN satJ (on_orbit Om i (l + sub_C (l - p) e - Om) (r4_r m)).
Proof.
  intros Si HK m. set (g := Om - satN). set (si := sin i) in *. set (ci := cos i). set (sg := sin g). set (cg := cos g). set (phi := l + sub_C (l - p) e - Om). set (r := r4_r m).
  set (a1 := si * sg). set (a2 := c1 * si * cg - s1 * ci). set (h := c1 * si - s1 * ci * cg). set (K := ci * c1 + si * s1 * cg).
  set (w := atan2 a1 a2). set (psi := atan2 (s1 * sg) h). set (H := hypot a1 a2).
  pose proof s1c1 as P1. assert (Pi : si * si + ci * ci = 1) by apply sc1. assert (Pg : sg * sg + cg * cg = 1) by apply sc1.
  assert (KE : dot (orbit_pole i Om) (orbit_pole satJ satN) = K). { unfold K, cg, g, orbit_pole, dot. cbn [vx vy vz]. rewrite cos_minus. fold si ci. change (sin satJ) with s1. change (cos satJ) with c1. ring. } rewrite KE in HK.
  destruct (triangle_H si ci sg cg s1 c1 Pi Pg P1) as (T1 & T2). fold a1 a2 h K in T1, T2. pose proof (hypot_sq a1 a2) as HH. fold H in HH. assert (H0 : 0 <= H) by apply sqrt_pos.
  assert (G1 : sin (asin H) = H) by (apply sin_asin; nra). assert (G2 : cos (asin H) = K). { rewrite cos_asin by nra. unfold Rsqr. replace (1 - H * H) with (K * K) by lra. rewrite sqrt_square; lra. }
  assert (EU : r4_l m - r4_O m = phi - psi). { unfold m, subr. cbv zeta. cbn [r4_l r4_O]. unfold phi, psi, h, sg, cg, si, ci, g, satN. ring. }
  assert (EW : r4_O m - 168.8112 * d_ = w). { unfold m, subr. cbv zeta. cbn [r4_O]. unfold w, a1, a2, si, ci, sg, cg, g, satN. ring. }
  assert (EG : r4_g m = asin H) by reflexivity.
  (* the target *)
  assert (TG : plane_coords satN satJ (on_orbit Om i phi r) = scale r (mkvec (cos phi * cg - sin phi * (ci * sg)) (cos phi * (c1 * sg) + sin phi * (c1 * ci * cg + s1 * si)) (sin phi * (c1 * si - s1 * ci * cg) - cos phi * (s1 * sg)))).
  { unfold plane_coords, on_orbit, rot_x, rot_z, transpose, app, scale, dot. cbn [r1 r2 r3 vx vy vz]. fold si ci. change (sin satJ) with s1. change (cos satJ) with c1. unfold sg, cg, g. rewrite sin_minus, cos_minus. set (so := sin Om). set (co := cos Om). set (sn := sin satN). set (cn := cos satN). f_equal; ring. }
  rewrite TG. unfold sat_xyz. cbv zeta. rewrite EU, EW, EG, G1, G2. fold r. unfold vec_of, scale. cbn [vx vy vz].
  destruct (Req_dec H 0) as [Z|NZ].
  - assert (Q : a1 * a1 + a2 * a2 = 0) by (rewrite <- HH, Z; ring). assert (A1 : a1 = 0) by nra. assert (A2 : a2 = 0) by nra. assert (K1 : K = 1) by nra.
    assert (SG : sg = 0) by (unfold a1 in A1; apply Rmult_integral in A1; destruct A1; lra). assert (CG : cg = 1).
    { destruct s1_bounds as (B1 & B2). decimals_in B1. decimals_in B2. assert (cg = 1 \/ cg = -1) as [?|E] by (assert ((cg - 1) * (cg + 1) = 0) by nra; apply Rmult_integral in H1; destruct H1; [left|right]; lra); [assumption|].
      exfalso. unfold a2 in A2. unfold K in K1. rewrite E in A2, K1. assert (ci < 0) by nra. nra. }
    assert (SI : si = s1). { unfold a2 in A2. unfold K in K1. rewrite CG in A2, K1. clear - A2 K1 P1. nsatz. } assert (CI : ci = c1). { unfold a2 in A2. unfold K in K1. rewrite CG in A2, K1. clear - A2 K1 P1. nsatz. }
    assert (W0 : w = 0) by (unfold w; rewrite A1, A2; apply atan2_00). assert (P0 : psi = 0). { unfold psi. replace (s1 * sg) with 0 by (rewrite SG; ring). replace h with 0 by (unfold h; rewrite CG, SI, CI; ring). apply atan2_00. }
    rewrite W0, P0, Rminus_0_r, Z, K1, SG, CG, SI, CI, sin_0, cos_0. clear - P1. f_equal; [ring| |]; [|ring]. transitivity (r * sin phi * (s1 * s1 + c1 * c1)); [rewrite P1; ring|ring].
  - assert (N12 : a2 <> 0 \/ a1 <> 0). { destruct (Req_dec a2 0) as [E|]; [|left; assumption]. right. intros E'. apply NZ. unfold H. rewrite E, E'. unfold hypot. replace (0 * 0 + 0 * 0) with 0 by ring. apply sqrt_0. }
    destruct (atan2_spec a2 a1 N12) as (C1 & S1). fold w in C1, S1. replace (hypot a2 a1) with H in C1, S1 by (unfold H, hypot; f_equal; ring).
    assert (HE : hypot h (s1 * sg) = H). { unfold H, hypot. f_equal. rewrite <- T2. ring. }
    assert (N34 : h <> 0 \/ s1 * sg <> 0). { destruct (Req_dec h 0) as [E|]; [|left; assumption]. right. intros E'. apply NZ. rewrite <- HE, E, E'. unfold hypot. replace (0 * 0 + 0 * 0) with 0 by ring. apply sqrt_0. }
    destruct (atan2_spec h (s1 * sg) N34) as (C2 & S2). fold psi in C2, S2. rewrite HE in C2, S2.
    destruct (triangle_X si ci sg cg s1 c1 Pi Pg P1) as (X1 & X2 & X3 & X4 & X5 & X6). fold a1 a2 h K in X1, X2, X3, X4, X5, X6. rewrite <- HH in X1, X2, X3, X4, X5, X6.
    rewrite cos_minus, sin_minus. set (cp := cos psi) in *. set (sp := sin psi) in *. set (cw := cos w) in *. set (sw := sin w) in *. set (cf := cos phi). set (sf := sin phi). assert (Eh : h = c1 * si - s1 * ci * cg) by reflexivity. clearbody cp sp cw sw cf sf K h H. clear - C1 S1 C2 S2 X1 X2 X3 X4 NZ Eh.
    assert (H2 : H * H <> 0) by (intros E; apply Rmult_integral in E; destruct E; lra). f_equal.
    + f_equal. apply (Rmult_eq_reg_l (H * H)); [|exact H2]. transitivity (cf * ((H * cp) * (H * cw) + (H * sp) * K * (H * sw)) + sf * ((H * sp) * (H * cw) - (H * cp) * K * (H * sw))); [ring|]. rewrite C1, S1, C2, S2, X1, X2. ring.
    + f_equal. apply (Rmult_eq_reg_l (H * H)); [|exact H2]. transitivity (cf * ((H * cp) * (H * sw) - (H * sp) * K * (H * cw)) + sf * ((H * sp) * (H * sw) + (H * cp) * K * (H * cw))); [ring|]. rewrite C1, S1, C2, S2, X3, X4. ring.
    + transitivity (r * (sf * (H * cp) - cf * (H * sp))); [ring|]. rewrite C2, S2, Eh. ring.
Qed.

(** ** The sky *)
Definition satPole : vec := orbit_pole satJ satN.
Definition from_plane (N J : R) (v : vec) : vec := app (transpose (rot_z N)) (app (transpose (rot_x J)) v).
Lemma plane_from N J v : plane_coords N J (from_plane N J v) = v.
Proof.
  unfold plane_coords, from_plane, rot_x, rot_z, transpose, app, dot. destruct v as [x y z]. cbn [r1 r2 r3 vx vy vz]. pose proof (sc1 N) as A. pose proof (sc1 J) as B. set (sn := sin N) in *. set (cn := cos N) in *. set (sj := sin J) in *. set (cj := cos J) in *. clearbody sn cn sj cj. f_equal; nsatz.
Qed.
Lemma from_of_plane N J v : from_plane N J (plane_coords N J v) = v.
Proof.
  unfold plane_coords, from_plane, rot_x, rot_z, transpose, app, dot. destruct v as [x y z]. cbn [r1 r2 r3 vx vy vz]. pose proof (sc1 N) as A. pose proof (sc1 J) as B. set (sn := sin N) in *. set (cn := cos N) in *. set (sj := sin J) in *. set (cj := cos J) in *. clearbody sn cn sj cj. f_equal; nsatz.
Qed.
Lemma sat_rot_value l b v : let '(A, B, C) := sat_rot l b v in let w := from_plane satN satJ (vec_of v) in A = - dot w (east l b) /\ B = dot w (dir l b) /\ C = dot w (north l b).
Proof.
  destruct v as [[x y] z]. unfold sat_rot, vec_of, from_plane, rot_x, rot_z, transpose, app, dot, east, north, dir. cbn [r1 r2 r3 vx vy vz]. change (sin satJ) with s1. change (cos satJ) with c1. change (sin satN) with s2. change (cos satN) with c2. repeat split; ring.
Qed.
Lemma sat_pole_vec : from_plane satN satJ (vec_of (0, 0, 1)) = satPole.
Proof. unfold from_plane, satPole, orbit_pole, vec_of, rot_x, rot_z, transpose, app, dot. cbn [r1 r2 r3 vx vy vz]. f_equal; ring. Qed.
Lemma sat_sky_value l b v : let w := from_plane satN satJ (vec_of v) in let '(X, Y, Z) := sat_sky (sat_D l b) (sat_rot l b v) in
  norm (mkvec X Y Z) = norm w /\ (dot satPole (east l b) <> 0 \/ dot satPole (north l b) <> 0 -> exists h, 0 < h /\ sky_axes l b satPole w h X Y Z).
Proof.
  intros w. pose proof (sat_rot_value l b v) as HV. pose proof (sat_rot_value l b (0, 0, 1)) as HP. unfold sat_D. destruct (sat_rot l b v) as [[A B] C]. destruct (sat_rot l b (0, 0, 1)) as [[A0 B0] C0]. cbv zeta in HV, HP. rewrite sat_pole_vec in HP. fold w in HV. destruct HV as (EA & EB & EC). destruct HP as (EA0 & _ & EC0).
  unfold sat_sky. set (D := atan2 A0 C0). split.
  - unfold norm. f_equal. unfold dot. cbn [vx vy vz]. transitivity ((A * A + C * C) * (sin D * sin D + cos D * cos D) + B * B); [ring|]. rewrite sc1, EA, EB, EC. unfold dot, east, north, dir. cbn [vx vy vz]. destruct w as [x y z]. cbn [vx vy vz].
    pose proof (sc1 l) as Kl. pose proof (sc1 b) as Kb. set (sl := sin l) in *. set (cl := cos l) in *. set (sb := sin b) in *. set (cb := cos b) in *. clearbody sl cl sb cb. clear - Kl Kb. nsatz.
  - intros N. assert (N' : C0 <> 0 \/ A0 <> 0) by (destruct N; [right; rewrite EA0; lra|left; rewrite EC0; assumption]). destruct (atan2_spec C0 A0 N') as (HC & HS). fold D in HC, HS. set (h := hypot C0 A0) in *. assert (h0 : 0 <= h) by apply sqrt_pos. pose proof (hypot_sq C0 A0) as Hh. fold h in Hh.
    assert (hN : 0 < h) by (destruct h0 as [|E]; [assumption|]; exfalso; rewrite <- E in HC, HS; destruct N'; lra).
    exists h. split; [exact hN|]. unfold sky_axes. rewrite <- EA0, <- EC0, <- EA, <- EC, <- EB. split; [lra|]. split; [lra|]. split; [|split; [|reflexivity]].
    + transitivity (A * (h * cos D) - C * (h * sin D)); [ring|]. rewrite HC, HS. ring.
    + transitivity (A * (h * sin D) + C * (h * cos D)); [ring|]. rewrite HC, HS. ring.
Qed.
