(** Lemmas for package globe. *)
From Coq Require Import ZArith Reals Bool Lra Psatz.
From Flocq Require Import Core.
From Verif Require Import GoFloat GoMath S_Sphere S_globe M_coord L_trig L_angle L_vec L_coord L_orbit.
Local Open Scope R_scope.

Lemma root_pos f phi : 0 <= f < 1 -> 0 < cos phi * cos phi + (1 - f) * (1 - f) * (sin phi * sin phi).
Proof.
  intros Hf. pose proof (sc1 phi) as S. pose proof (Rle_0_sqr (sin phi)) as A. pose proof (Rle_0_sqr (cos phi)) as B. unfold Rsqr in *.
  assert (P : 0 < (1 - f) * (1 - f)) by (apply Rmult_lt_0_compat; lra).
  destruct (Req_dec (sin phi * sin phi) 0) as [E|E]; [rewrite E; lra|]. assert (0 < sin phi * sin phi) by lra.
  assert (0 < (1 - f) * (1 - f) * (sin phi * sin phi)) by (apply Rmult_lt_0_compat; lra). lra.
Qed.
Lemma root_e2 f phi : 1 - (2 - f) * f * sin phi * sin phi = cos phi * cos phi + (1 - f) * (1 - f) * (sin phi * sin phi).
Proof. pose proof (sc1 phi). nra. Qed.

(** The specification's point is on the ellipse and has the right normal. *)
Lemma meridian_ok a f phi : 0 < a -> 0 <= f < 1 ->
  on_meridian a f (meridian_x a f phi) (meridian_z a f phi) /\ normal_latitude a f (meridian_x a f phi) (meridian_z a f phi) phi.
Proof.
  intros Ha Hf. pose proof (root_pos f phi Hf) as P. unfold on_meridian, normal_latitude, meridian_x, meridian_z.
  set (W := meridian_root f phi). assert (PW : 0 < W) by (apply sqrt_lt_R0, P).
  assert (W2 : W * W = cos phi * cos phi + (1 - f) * (1 - f) * (sin phi * sin phi)) by (apply sqrt_sqrt; lra).
  split.
  - transitivity ((cos phi * cos phi + (1 - f) * (1 - f) * (sin phi * sin phi)) / (W * W)); [field; lra|]. rewrite <- W2. field. lra.
  - exists (/ (a * W)). split; [apply Rinv_0_lt_compat, Rmult_lt_0_compat; lra|]. split; field; lra.
Qed.

Lemma Parallax_ok e phi h : 0 < Er e -> 0 <= Fl e < 1 -> - (PI / 2) < phi < PI / 2 ->
  ParallaxConstants e phi h =
  ((meridian_z (Er e) (Fl e) phi + h / 1000 * sin phi) / Er e, (meridian_x (Er e) (Fl e) phi + h / 1000 * cos phi) / Er e).
Proof.
  intros Ha Hf Hp. pose proof (cos_pos_lat phi Hp) as C. unfold ParallaxConstants, meridian_x, meridian_z, meridian_root. cbv zeta.
  set (b := 1 - Fl e). set (t := b * tan phi). set (c := cos phi) in *. set (s := sin phi).
  assert (Hb : 0 < b <= 1) by (unfold b; lra).
  set (W := sqrt (c * c + b * b * (s * s))).
  pose proof (root_pos (Fl e) phi Hf) as P. fold b c s in P. assert (PW : 0 < W) by (apply sqrt_lt_R0, P).
  assert (W2 : W * W = c * c + b * b * (s * s)) by (apply sqrt_sqrt; lra).
  assert (Cu : cos (atan t) = c / W).
  { pose proof (cos_atan_sq t) as Q. pose proof (atan_bound t) as B. pose proof (cos_gt_0 (atan t) ltac:(lra) ltac:(lra)) as G.
    set (u := cos (atan t)) in *. assert (Et : t * c = b * s) by (unfold t, tan; fold s c; field; lra).
    assert (X : u * W * (u * W) = c * c).
    { transitivity (u * u * (W * W)); [ring|]. rewrite W2. replace (b * b * (s * s)) with (t * c * (t * c)) by (rewrite Et; ring).
      transitivity (u * u * (1 + t * t) * (c * c)); [ring|]. rewrite Q. ring. }
    assert (0 < u * W) by (apply Rmult_lt_0_compat; lra). assert (u * W = c) by nra. rewrite <- H0. field. lra. }
  rewrite sin_atan_y, Cu. f_equal.
  - unfold t, tan. fold s c. field. lra.
  - field. lra.
Qed.

Lemma RadiusAtLatitude_ok e phi : RadiusAtLatitude e phi = meridian_x (Er e) (Fl e) phi.
Proof. unfold RadiusAtLatitude, meridian_x, meridian_root, axisA. rewrite root_e2. reflexivity. Qed.

Lemma meridian_deriv a f phi : 0 <= f < 1 ->
  let Rm := a * ((1 - f) * (1 - f)) / (meridian_root f phi * meridian_root f phi * meridian_root f phi) in
  derivable_pt_lim (meridian_x a f) phi (- Rm * sin phi) /\ derivable_pt_lim (meridian_z a f) phi (Rm * cos phi).
Proof.
  intros Hf Rm. pose proof (root_pos f phi Hf) as P. set (b := 1 - f) in *.
  set (W := fun p => cos p * cos p + b * b * (sin p * sin p)).
  assert (DW : derivable_pt_lim W phi (- 2 * (1 - b * b) * (sin phi * cos phi))).
  { assert (D := derivable_pt_lim_plus _ _ phi _ _ (derivable_pt_lim_mult cos cos phi _ _ (derivable_pt_lim_cos phi) (derivable_pt_lim_cos phi))
      (derivable_pt_lim_scal _ (b * b) phi _ (derivable_pt_lim_mult sin sin phi _ _ (derivable_pt_lim_sin phi) (derivable_pt_lim_sin phi)))).
    match type of D with derivable_pt_lim ?F _ ?l => replace (- 2 * (1 - b * b) * (sin phi * cos phi)) with l by ring end. exact D. }
  assert (DS : derivable_pt_lim (fun p => sqrt (W p)) phi (/ (2 * sqrt (W phi)) * (- 2 * (1 - b * b) * (sin phi * cos phi)))).
  { apply (derivable_pt_lim_comp W sqrt); [exact DW|]. apply derivable_pt_lim_sqrt. exact P. }
  assert (Ws : 0 < sqrt (W phi)) by (apply sqrt_lt_R0, P). assert (W2 : sqrt (W phi) * sqrt (W phi) = W phi) by (apply sqrt_sqrt; unfold W; lra).
  pose proof (sc1 phi) as S. unfold Rm. change (meridian_root f phi) with (sqrt (W phi)).
  split.
  - assert (D := derivable_pt_lim_div _ _ phi _ _ (derivable_pt_lim_scal cos a phi _ (derivable_pt_lim_cos phi)) DS ltac:(cbv beta; lra)).
    match type of D with derivable_pt_lim ?F _ ?l => replace (- (a * (b * b) / (sqrt (W phi) * sqrt (W phi) * sqrt (W phi))) * sin phi) with l; [exact D|] end.
    cbv beta. unfold mult_real_fct, Rsqr. set (g := sqrt (W phi)) in *.
    assert (E : b * b = g * g - (1 - b * b) * (cos phi * cos phi)). { rewrite W2. unfold W. nra. }
    transitivity (- (a * (g * g - (1 - b * b) * (cos phi * cos phi)) / (g * g * g)) * sin phi); [field; lra|rewrite <- E; reflexivity].
  - assert (D := derivable_pt_lim_div _ _ phi _ _ (derivable_pt_lim_scal sin (a * (b * b)) phi _ (derivable_pt_lim_sin phi)) DS ltac:(cbv beta; lra)).
    match type of D with derivable_pt_lim ?F _ ?l => replace (a * (b * b) / (sqrt (W phi) * sqrt (W phi) * sqrt (W phi)) * cos phi) with l; [exact D|] end.
    cbv beta. unfold mult_real_fct, Rsqr. set (g := sqrt (W phi)) in *.
    assert (E : 1 = g * g + (1 - b * b) * (sin phi * sin phi)). { rewrite W2. unfold W. nra. }
    transitivity (a * (b * b) * (g * g + (1 - b * b) * (sin phi * sin phi)) / (g * g * g) * cos phi); [field; lra|rewrite <- E; field; lra].
Qed.
Lemma Rpower_15 x : 0 < x -> Rpower x (3 / 2) = sqrt x * sqrt x * sqrt x.
Proof.
  intros H. replace (3 / 2) with (1 + / 2) by field. rewrite Rpower_plus, Rpower_1, Rpower_sqrt by exact H. rewrite sqrt_sqrt by lra. reflexivity.
Qed.
Lemma RadiusOfCurvature_ok e phi : 0 <= Fl e < 1 ->
  derivable_pt_lim (meridian_x (Er e) (Fl e)) phi (- RadiusOfCurvature e phi * sin phi) /\
  derivable_pt_lim (meridian_z (Er e) (Fl e)) phi (RadiusOfCurvature e phi * cos phi).
Proof.
  intros Hf. assert (E : RadiusOfCurvature e phi = Er e * ((1 - Fl e) * (1 - Fl e)) / (meridian_root (Fl e) phi * meridian_root (Fl e) phi * meridian_root (Fl e) phi)).
  { unfold RadiusOfCurvature, axisA. cbv zeta. rewrite root_e2. rewrite Rpower_15 by (apply root_pos, Hf). unfold meridian_root. f_equal. ring. }
  rewrite E. apply meridian_deriv, Hf.
Qed.
Lemma OneDegree_ok r : 360 * OneDegreeOfLongitude r = 2 * PI * r /\ 360 * OneDegreeOfLatitude r = 2 * PI * r.
Proof. unfold OneDegreeOfLongitude, OneDegreeOfLatitude. split; field. Qed.
Lemma axes_ok e : 0 <= Fl e < 1 -> axisB e * axisB e = axisA e * axisA e * (1 - Eccentricity e * Eccentricity e).
Proof. intros H. unfold axisA, axisB, Eccentricity. rewrite sqrt_sqrt by nra. ring. Qed.

(** ** Distance *)
Definition dist_s (c1 c2 : Coord) : R :=
  sin ((Lat c1 - Lat c2) / 2) * sin ((Lat c1 - Lat c2) / 2) * (cos ((Lon c1 - Lon c2) / 2) * cos ((Lon c1 - Lon c2) / 2)) +
  cos ((Lat c1 + Lat c2) / 2) * cos ((Lat c1 + Lat c2) / 2) * (sin ((Lon c1 - Lon c2) / 2) * sin ((Lon c1 - Lon c2) / 2)).
Definition dist_c (c1 c2 : Coord) : R :=
  cos ((Lat c1 - Lat c2) / 2) * cos ((Lat c1 - Lat c2) / 2) * (cos ((Lon c1 - Lon c2) / 2) * cos ((Lon c1 - Lon c2) / 2)) +
  sin ((Lat c1 + Lat c2) / 2) * sin ((Lat c1 + Lat c2) / 2) * (sin ((Lon c1 - Lon c2) / 2) * sin ((Lon c1 - Lon c2) / 2)).

Lemma cos_half x : cos x = cos (x / 2) * cos (x / 2) - sin (x / 2) * sin (x / 2).
Proof. rewrite <- cos_2a. f_equal. field. Qed.
Definition place (c : Coord) : vec := dir (Lon c) (Lat c).
Lemma dist_sc c1 c2 : dist_s c1 c2 + dist_c c1 c2 = 1 /\ dist_c c1 c2 - dist_s c1 c2 = dot (place c1) (place c2) /\ 0 <= dist_s c1 c2 /\ 0 <= dist_c c1 c2.
Proof.
  unfold place. rewrite dot_dir. unfold dist_s, dist_c.
  pose proof (sc1 ((Lat c1 - Lat c2) / 2)) as G. pose proof (sc1 ((Lat c1 + Lat c2) / 2)) as F. pose proof (sc1 ((Lon c1 - Lon c2) / 2)) as L.
  pose proof (cos_half (Lat c1 - Lat c2)) as HG. pose proof (cos_half (Lat c1 + Lat c2)) as HF. pose proof (cos_half (Lon c1 - Lon c2)) as HL.
  rewrite cos_minus in HG. rewrite cos_plus in HF.
  pose proof (Rle_0_sqr (sin ((Lat c1 - Lat c2) / 2))). pose proof (Rle_0_sqr (cos ((Lat c1 - Lat c2) / 2))).
  pose proof (Rle_0_sqr (sin ((Lat c1 + Lat c2) / 2))). pose proof (Rle_0_sqr (cos ((Lat c1 + Lat c2) / 2))).
  pose proof (Rle_0_sqr (sin ((Lon c1 - Lon c2) / 2))). pose proof (Rle_0_sqr (cos ((Lon c1 - Lon c2) / 2))). unfold Rsqr in *.
  rewrite HL.
  set (g1 := sin ((Lat c1 - Lat c2) / 2) * sin ((Lat c1 - Lat c2) / 2)) in *. set (g2 := cos ((Lat c1 - Lat c2) / 2) * cos ((Lat c1 - Lat c2) / 2)) in *.
  set (f1 := sin ((Lat c1 + Lat c2) / 2) * sin ((Lat c1 + Lat c2) / 2)) in *. set (f2 := cos ((Lat c1 + Lat c2) / 2) * cos ((Lat c1 + Lat c2) / 2)) in *.
  set (l1 := sin ((Lon c1 - Lon c2) / 2) * sin ((Lon c1 - Lon c2) / 2)) in *. set (l2 := cos ((Lon c1 - Lon c2) / 2) * cos ((Lon c1 - Lon c2) / 2)) in *.
  set (S1 := sin (Lat c1)) in *. set (S2 := sin (Lat c2)) in *. set (C1 := cos (Lat c1)) in *. set (C2 := cos (Lat c2)) in *.
  clearbody g1 g2 f1 f2 l1 l2 S1 S2 C1 C2.
  split; [|split].
  - transitivity ((g1 + g2) * l2 + (f1 + f2) * l1); [ring|]. rewrite G, F. lra.
  - transitivity ((g2 - g1) * l2 - (f2 - f1) * l1); [ring|]. rewrite <- HG, <- HF.
    transitivity (S1 * S2 * (l1 + l2) + C1 * C2 * (l2 - l1)); [ring|]. rewrite L. ring.
  - split; apply Rplus_le_le_0_compat; apply Rmult_le_pos; assumption.
Qed.

Lemma Distance_sym e c1 c2 : Distance e c1 c2 = Distance e c2 c1.
Proof.
  unfold Distance. cbv zeta.
  replace ((Lat c2 + Lat c1) / 2) with ((Lat c1 + Lat c2) / 2) by field.
  replace ((Lat c2 - Lat c1) / 2) with (- ((Lat c1 - Lat c2) / 2)) by field.
  replace ((Lon c2 - Lon c1) / 2) with (- ((Lon c1 - Lon c2) / 2)) by field.
  rewrite !cos_neg, !sin_neg. rewrite !Rmult_opp_opp. reflexivity.
Qed.

Definition distance_R (e : Ellipsoid) (c1 c2 : Coord) : R :=
  let s := dist_s c1 c2 in let c := dist_c c1 c2 in
  let w := atan (sqrt (s / c)) in let r := sqrt (s * c) / w in
  let sf := sin ((Lat c1 + Lat c2) / 2) * sin ((Lat c1 + Lat c2) / 2) in let cf := cos ((Lat c1 + Lat c2) / 2) * cos ((Lat c1 + Lat c2) / 2) in
  let sg := sin ((Lat c1 - Lat c2) / 2) * sin ((Lat c1 - Lat c2) / 2) in let cg := cos ((Lat c1 - Lat c2) / 2) * cos ((Lat c1 - Lat c2) / 2) in
  2 * w * Er e * (1 + Fl e * ((3 * r - 1) / (2 * c) * sf * cg - (3 * r + 1) / (2 * s) * cf * sg)).

Lemma Req_bool_F x y : x <> y -> Req_bool x y = false.
Proof. intros H. case Req_bool_spec; [tauto|reflexivity]. Qed.
Lemma Req_bool_T x y : x = y -> Req_bool x y = true.
Proof. intros H. case Req_bool_spec; [reflexivity|tauto]. Qed.
Lemma Rlt_bool_F x y : y <= x -> Rlt_bool x y = false.
Proof. intros H. case Rlt_bool_spec; [lra|reflexivity]. Qed.

Lemma atan_gt0 x : 0 < x -> 0 < atan x.
Proof. intros H. rewrite <- atan_0. apply atan_increasing, H. Qed.

Lemma Distance_regular e c1 c2 : 0 < dist_s c1 c2 -> 0 < dist_c c1 c2 -> Distance e c1 c2 = Fin (distance_R e c1 c2).
Proof.
  intros Hs Hc. unfold Distance. cbv zeta. fold (dist_s c1 c2). fold (dist_c c1 c2). unfold distance_R. cbv zeta.
  set (s := dist_s c1 c2) in *. set (c := dist_c c1 c2) in *.
  assert (Q : 0 < sqrt (s / c)) by (apply sqrt_lt_R0, Rdiv_lt_0_compat; assumption). pose proof (atan_gt0 _ Q) as W.
  assert (SC : 0 <= s * c) by (apply Rmult_le_pos; lra).
  cbn [xdiv]. rewrite (Req_bool_F c 0) by lra. cbn [xsqrt]. rewrite (Rlt_bool_F (s / c) 0) by (apply Rlt_le, Rdiv_lt_0_compat; lra).
  rewrite (Rlt_bool_F (s * c) 0) by lra. cbn [xatan]. set (w := atan (sqrt (s / c))) in *.
  cbn [xdiv]. rewrite (Req_bool_F w 0) by lra. cbn [xmul xadd xneg xdiv]. rewrite (Req_bool_F (2 * c) 0), (Req_bool_F (2 * s) 0) by lra.
  cbn [xmul xadd xneg xdiv]. reflexivity.
Qed.
Lemma Distance_same e c1 c2 : dist_s c1 c2 = 0 -> Distance e c1 c2 = XNaN.
Proof.
  intros Hs. destruct (dist_sc c1 c2) as [S1 _]. assert (Hc : dist_c c1 c2 = 1) by lra. unfold Distance. cbv zeta. fold (dist_s c1 c2). fold (dist_c c1 c2).
  rewrite Hs, Hc. cbn [xdiv]. rewrite (Req_bool_F 1 0) by lra. replace (0 / 1) with 0 by field. replace (0 * 1) with 0 by ring.
  cbn [xsqrt]. rewrite (Rlt_bool_F 0 0) by lra. rewrite sqrt_0. cbn [xatan]. rewrite atan_0. cbn [xdiv]. rewrite (Req_bool_T 0 0) by reflexivity.
  cbn [xmul xadd xneg xdiv]. reflexivity.
Qed.
Lemma Distance_antipode e c1 c2 : dist_c c1 c2 = 0 -> Distance e c1 c2 = XNaN.
Proof.
  intros Hc. destruct (dist_sc c1 c2) as [S1 _]. assert (Hs : dist_s c1 c2 = 1) by lra. unfold Distance. cbv zeta. fold (dist_s c1 c2). fold (dist_c c1 c2).
  set (sf := sin ((Lat c1 + Lat c2) / 2) * sin ((Lat c1 + Lat c2) / 2)). set (cg := cos ((Lat c1 - Lat c2) / 2) * cos ((Lat c1 - Lat c2) / 2)).
  assert (Z : sf * cg = 0).
  { pose proof (sc1 ((Lon c1 - Lon c2) / 2)) as L. unfold dist_c in Hc. fold sf cg in Hc.
    pose proof (Rle_0_sqr (sin ((Lon c1 - Lon c2) / 2))) as N1. pose proof (Rle_0_sqr (cos ((Lon c1 - Lon c2) / 2))) as N2. unfold Rsqr in *.
    assert (0 <= sf) by apply Rle_0_sqr. assert (0 <= cg) by apply Rle_0_sqr.
    set (a := sin ((Lon c1 - Lon c2) / 2) * sin ((Lon c1 - Lon c2) / 2)) in *. set (b := cos ((Lon c1 - Lon c2) / 2) * cos ((Lon c1 - Lon c2) / 2)) in *.
    assert (A : cg * b = 0) by (assert (0 <= cg * b) by (apply Rmult_le_pos; lra); assert (0 <= sf * a) by (apply Rmult_le_pos; lra); lra).
    assert (B : sf * a = 0) by lra. transitivity (sf * cg * (a + b)); [rewrite L; ring|]. transitivity (cg * (sf * a) + sf * (cg * b)); [ring|]. rewrite A, B. ring. }
  rewrite Hs, Hc. cbn [xdiv]. rewrite (Req_bool_T 0 0), (Req_bool_F 1 0) by lra. rewrite (Rlt_bool_F 1 0) by lra. cbn [xsqrt xatan]. replace (1 * 0) with 0 by ring.
  rewrite (Rlt_bool_F 0 0) by lra. rewrite sqrt_0. pose proof PI_RGT_0. cbn [xdiv]. rewrite (Req_bool_F (PI / 2) 0) by lra. replace (0 / (PI / 2)) with 0 by (field; lra).
  cbn [xmul xadd xneg xdiv]. rewrite (Req_bool_T (2 * 0) 0) by ring. rewrite (Req_bool_F (3 * 0 + - (1)) 0) by lra.
  cbn [xmul]. destruct (Req_dec sf 0) as [E|E].
  - rewrite (Req_bool_T sf 0) by exact E. cbn [xmul xadd]. reflexivity.
  - assert (cg = 0) by (apply Rmult_integral in Z; tauto). rewrite (Req_bool_F sf 0) by exact E. cbn [xmul]. rewrite (Req_bool_T cg 0) by assumption. cbn [xadd xmul]. reflexivity.
Qed.
Lemma dist_sep c1 c2 : 0 < dist_s c1 c2 -> 0 < dist_c c1 c2 -> separation (place c1) (place c2) (2 * atan (sqrt (dist_s c1 c2 / dist_c c1 c2))).
Proof.
  intros Hs Hc. destruct (dist_sc c1 c2) as (S1 & D & _). set (s := dist_s c1 c2) in *. set (c := dist_c c1 c2) in *.
  set (q := sqrt (s / c)). assert (Q : 0 < q) by (apply sqrt_lt_R0, Rdiv_lt_0_compat; assumption).
  pose proof (atan_gt0 _ Q). pose proof (atan_bound q). split; [lra|].
  destruct (double_atan q) as [C _]. assert (Q2 : q * q = s / c) by (apply sqrt_sqrt, Rlt_le, Rdiv_lt_0_compat; lra).
  rewrite Q2 in C. rewrite <- D. apply Rmult_eq_reg_r with (1 + s / c).
  - rewrite C. transitivity ((c - s) / c); [field; lra|]. transitivity ((c - s) * (s + c) / c); [rewrite S1; field; lra|field; lra].
  - assert (0 < s / c) by (apply Rdiv_lt_0_compat; lra). lra.
Qed.

(** Distance is a number exactly when the places are neither equal nor opposite. *)
Lemma dist_cases c1 c2 : -1 <= dot (place c1) (place c2) <= 1.
Proof. apply dot_bound. Qed.
Lemma Distance_defined e c1 c2 : -1 < dot (place c1) (place c2) < 1 -> exists d, Distance e c1 c2 = Fin d.
Proof.
  intros H. destruct (dist_sc c1 c2) as (S1 & D & _). exists (distance_R e c1 c2). apply Distance_regular; lra.
Qed.
Lemma Distance_undefined e c1 c2 : dot (place c1) (place c2) = 1 \/ dot (place c1) (place c2) = -1 -> Distance e c1 c2 = XNaN.
Proof.
  destruct (dist_sc c1 c2) as (S1 & D & _). intros [H|H]; [apply Distance_same|apply Distance_antipode]; lra.
Qed.
Lemma Distance_equal e c : Distance e c c = XNaN.
Proof. apply Distance_undefined. left. unfold place. apply dir_unit. Qed.
Lemma Distance_sphere r c1 c2 : -1 < dot (place c1) (place c2) < 1 ->
  exists th, separation (place c1) (place c2) th /\ Distance (mkEllipsoid r 0) c1 c2 = Fin (r * th).
Proof.
  intros H. destruct (dist_sc c1 c2) as (S1 & D & _). exists (2 * atan (sqrt (dist_s c1 c2 / dist_c c1 c2))).
  split; [apply dist_sep; lra|]. rewrite Distance_regular by lra. f_equal. unfold distance_R. cbv zeta. cbn [Er Fl]. ring.
Qed.
(** For a flattened ellipsoid: proportional to the equatorial radius and affine in the flattening. *)
Lemma Approx_ok p1 p2 : ApproxAngularDistance p1 p2 = dot (place p1) (place p2).
Proof. unfold place. rewrite dot_dir. reflexivity. Qed.
Lemma globe_example : 0 < Er Earth76 /\ 0 <= Fl Earth76 < 1 /\ -1 < dot (dir 0 0) (dir (PI / 2) 0) < 1.
Proof.
  unfold Earth76. cbn [Er Fl]. split; [lra|]. split; [lra|]. rewrite dot_dir, sin_0, cos_0. replace (0 - PI / 2) with (- (PI / 2)) by ring.
  rewrite cos_neg, cos_PI2. lra.
Qed.
