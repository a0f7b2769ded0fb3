(** Lemmas for illumination, phase angles, magnitudes. *)
From Coq Require Import ZArith Reals List Lra Lia Bool Permutation Nsatz.
From Flocq Require Import Core.
From Verif Require Import GoFloat GoMath M_base M_precess M_light S_Sphere S_light L_trig L_vec L_angle L_coord L_orbit L_precess L_event.
Import ListNotations.
Local Open Scope R_scope.

(** ** Logarithms *)
Lemma ln10_pos : 0 < ln 10. Proof. rewrite <- ln_1. apply ln_increasing; lra. Qed.
Lemma log10_pow x : log10 (pow10 x) = x.
Proof. unfold log10, pow10, Rpower. rewrite ln_exp. field. pose proof ln10_pos. lra. Qed.
Lemma pow10_log x : 0 < x -> pow10 (log10 x) = x.
Proof. intros H. unfold log10, pow10, Rpower. replace (ln x / ln 10 * ln 10) with (ln x) by (field; pose proof ln10_pos; lra). now apply exp_ln. Qed.
Lemma pow10_pos x : 0 < pow10 x. Proof. apply exp_pos. Qed.
Lemma log10_mult x y : 0 < x -> 0 < y -> log10 (x * y) = log10 x + log10 y.
Proof. intros. unfold log10. rewrite ln_mult by assumption. field. pose proof ln10_pos. lra. Qed.
Lemma log10_inv x : 0 < x -> log10 (/ x) = - log10 x.
Proof. intros. unfold log10. rewrite ln_Rinv by assumption. field. pose proof ln10_pos. lra. Qed.
Lemma log10_lt x y : 0 < x -> x < y -> log10 x < log10 y.
Proof. intros. unfold log10. apply Rmult_lt_compat_r; [apply Rinv_0_lt_compat, ln10_pos|]. now apply ln_increasing. Qed.
Lemma pow10_add x y : pow10 (x + y) = pow10 x * pow10 y. Proof. apply Rpower_plus. Qed.
Lemma pow10_0 : pow10 0 = 1. Proof. apply Rpower_O. lra. Qed.

(** ** stellar *)
Lemma Difference_Ratio m1 m2 : Difference (Ratio m1 m2) = m2 - m1.
Proof. unfold Difference, Ratio. rewrite log10_pow. decimals. field. Qed.
Lemma Ratio_Difference m1 m2 q : 0 < q -> m2 - m1 = Difference q -> Ratio m1 m2 = q.
Proof. intros Q E. unfold Ratio. rewrite E. unfold Difference. replace (0.4 * (2.5 * log10 q)) with (log10 q) by (decimals; field). now apply pow10_log. Qed.
Lemma Ratio_brightness m1 m2 : Ratio m1 m2 * brightness m2 = brightness m1.
Proof. unfold Ratio, brightness. cbv zeta. fold (pow10 (- (2 / 5) * m2)) (pow10 (- (2 / 5) * m1)). rewrite <- pow10_add. f_equal. decimals. field. Qed.
Lemma fold_total l : forall s, fold_left (fun s mi => s + pow10 (-0.4 * mi)) l s = s + total_brightness l.
Proof.
  induction l as [|m l IH]; intros s; cbn [fold_left total_brightness fold_right]; [ring|]. rewrite IH. unfold total_brightness.
  replace (pow10 (-0.4 * m)) with (brightness m); [ring|]. unfold brightness, pow10. f_equal. decimals. field.
Qed.
Lemma brightness_pos m : 0 < brightness m. Proof. apply exp_pos. Qed.
Lemma total_nonneg l : 0 <= total_brightness l.
Proof. induction l as [|m l IH]; cbn; [lra|]. pose proof (brightness_pos m). unfold total_brightness in IH. lra. Qed.
Lemma total_pos l : l <> [] -> 0 < total_brightness l.
Proof. destruct l as [|m l]; [contradiction|]. intros _. cbn. pose proof (brightness_pos m). pose proof (total_nonneg l). unfold total_brightness in *. lra. Qed.
Lemma SumN_brightness l : l <> [] -> brightness (SumN l) = total_brightness l.
Proof.
  intros H. unfold SumN. rewrite fold_total, Rplus_0_l. unfold brightness. fold (pow10 (- (2 / 5) * (-2.5 * log10 (total_brightness l)))).
  replace (- (2 / 5) * (-2.5 * log10 (total_brightness l))) with (log10 (total_brightness l)) by (decimals; field). apply pow10_log. now apply total_pos.
Qed.
Lemma brightness_inj a b : brightness a = brightness b -> a = b.
Proof. intros H. assert (E : log10 (brightness a) = log10 (brightness b)) by now rewrite H. unfold brightness in E. fold (pow10 (- (2 / 5) * a)) (pow10 (- (2 / 5) * b)) in E. rewrite !log10_pow in E. lra. Qed.
Lemma brightness_lt a b : brightness a < brightness b <-> b < a.
Proof.
  unfold brightness. split; intros H.
  - destruct (Rlt_le_dec b a) as [L|L]; [exact L|]. exfalso. destruct L as [L|L].
    + assert (Rpower 10 (- (2 / 5) * b) < Rpower 10 (- (2 / 5) * a)) by (apply Rpower_lt; lra). lra.
    + subst. lra.
  - apply Rpower_lt; lra.
Qed.
Lemma total_perm l l' : Permutation l l' -> total_brightness l = total_brightness l'.
Proof. induction 1; cbn; unfold total_brightness in *; lra. Qed.
Lemma SumN_perm l l' : Permutation l l' -> SumN l = SumN l'.
Proof. intros H. unfold SumN. rewrite !fold_total. now rewrite (total_perm l l' H). Qed.
Lemma SumN_brighter l m : In m l -> (2 <= length l)%nat -> SumN l < m.
Proof.
  intros H L. apply brightness_lt. rewrite SumN_brightness by (destruct l; [cbn in L; lia|discriminate]).
  destruct (in_split m l H) as [a [b ->]]. rewrite (total_perm _ (m :: a ++ b)) by (symmetry; apply Permutation_middle).
  cbn [total_brightness fold_right]. assert (a ++ b <> []). { intros E. rewrite app_length in L. cbn in L. assert (length (a ++ b) = 0%nat) by now rewrite E. rewrite app_length in H0. lia. }
  pose proof (total_pos _ H0). unfold total_brightness in *. lra.
Qed.
Lemma SumN_one m : SumN [m] = m.
Proof. apply brightness_inj. rewrite SumN_brightness by discriminate. cbn. ring. Qed.
Lemma Sum_SumN m1 m2 : Sum m1 m2 = SumN [m1; m2].
Proof.
  apply brightness_inj. rewrite SumN_brightness by discriminate. cbn [total_brightness fold_right]. rewrite Rplus_0_r. unfold Sum. cbv zeta.
  unfold brightness. fold (pow10 (- (2 / 5) * m1)) (pow10 (- (2 / 5) * m2)). 
  match goal with |- Rpower 10 ?e = _ => change (pow10 e = pow10 (- (2 / 5) * m1) + pow10 (- (2 / 5) * m2)); 
    replace e with (- (2 / 5) * m2 + log10 (pow10 (0.4 * (m2 - m1)) + 1)) by (decimals; field) end.
  rewrite pow10_add, pow10_log by (pose proof (pow10_pos (0.4 * (m2 - m1))); lra).
  rewrite Rmult_plus_distr_l, <- pow10_add. rewrite Rmult_1_r. f_equal. f_equal. decimals. field.
Qed.
Lemma SumN_app a b : a <> [] -> b <> [] -> SumN (a ++ b) = Sum (SumN a) (SumN b).
Proof.
  intros A B. rewrite Sum_SumN. apply brightness_inj. rewrite !SumN_brightness; [|discriminate|destruct a; [contradiction|discriminate]].
  cbn [total_brightness fold_right]. fold (total_brightness a). rewrite (SumN_brightness a A), (SumN_brightness b B).
  clear. unfold total_brightness. induction a as [|x a IH]; cbn; [ring|]. rewrite IH. ring.
Qed.
Lemma Absolute_agree m d : 0 < d -> AbsoluteByParallax m (AngleFromSec (1 / d)) = AbsoluteByDistance m d.
Proof.
  intros D. unfold AbsoluteByParallax, AbsoluteByDistance. replace (AngleSec (AngleFromSec (1 / d))) with (/ d).
  - rewrite log10_inv by exact D. ring.
  - unfold AngleSec, AngleFromSec. pose proof PI_RGT_0. field. split; lra.
Qed.
(** The absolute magnitude is the magnitude at 10 parsecs, brightness being inverse to
    the square of the distance. *)
Lemma Absolute_10pc m d : 0 < d -> brightness (AbsoluteByDistance m d) * (10 * 10) = brightness m * (d * d).
Proof.
  intros D. unfold brightness, AbsoluteByDistance. fold (pow10 (- (2 / 5) * m)).
  match goal with |- Rpower 10 ?e * _ = _ => change (pow10 e * (10 * 10) = pow10 (- (2 / 5) * m) * (d * d)); 
    replace e with (- (2 / 5) * m + (log10 d + log10 d + (-2))) by (decimals; field) end.
  rewrite !pow10_add, pow10_log by exact D. replace (pow10 (-2)) with (/ (10 * 10)); [field|].
  unfold pow10. replace (-2) with (- (1 + 1)) by ring. rewrite Rpower_Ropp, Rpower_plus, Rpower_1 by lra. reflexivity.
Qed.

(** ** Illuminated fraction *)
Lemma Illuminated_range i : 0 <= Illuminated i <= 1.
Proof. unfold Illuminated. pose proof (COS_bound i). decimals. lra. Qed.
Lemma tri_cos r D R0 : triangle r D R0 -> -1 <= (r * r + D * D - R0 * R0) / (2 * r * D) <= 1.
Proof.
  intros (Hr & HD & H1 & H2). assert (P : 0 < 2 * r * D) by nra. assert (R0p : 0 <= R0) by (pose proof (Rabs_pos (r - D)); lra).
  assert (Q : (r - D) * (r - D) <= R0 * R0).
  { rewrite <- (Rabs_right ((r - D) * (r - D))), Rabs_mult by (apply Rle_ge, Rle_0_sqr). apply Rmult_le_compat; try apply Rabs_pos; lra. }
  assert (Q2 : R0 * R0 <= (r + D) * (r + D)) by (apply Rmult_le_compat; lra).
  split; apply Rmult_le_reg_r with (2 * r * D); try exact P;
    replace ((r * r + D * D - R0 * R0) / (2 * r * D) * (2 * r * D)) with (r * r + D * D - R0 * R0) by (field; lra); lra.
Qed.
Lemma PhaseAngle_law r D R0 : triangle r D R0 ->
  0 <= PhaseAngle r D R0 <= PI /\ R0 * R0 = r * r + D * D - 2 * r * D * cos (PhaseAngle r D R0).
Proof.
  intros T. split; [apply acos_bound|]. unfold PhaseAngle. rewrite cos_acos by (apply tri_cos; exact T). destruct T as (Hr & HD & _). field. lra.
Qed.
Lemma Fraction_Illuminated r D R0 : triangle r D R0 -> Fraction r D R0 = Illuminated (PhaseAngle r D R0).
Proof.
  intros T. unfold Illuminated, PhaseAngle. rewrite cos_acos by (apply tri_cos; exact T). unfold Fraction. cbv zeta.
  destruct T as (Hr & HD & _). decimals. field. lra.
Qed.
Lemma Fraction_range r D R0 : triangle r D R0 -> 0 <= Fraction r D R0 <= 1.
Proof. intros T. rewrite Fraction_Illuminated by exact T. apply Illuminated_range. Qed.

(** ** Phase angles of planets *)
Lemma norm_dot u : norm u * norm u = dot u u.
Proof. unfold norm. apply sqrt_sqrt. unfold dot. nra. Qed.
Lemma norm_ge0 u : 0 <= norm u. Proof. apply sqrt_pos. Qed.
Lemma norm_opp u : norm (vsub vzero u) = norm u.
Proof. unfold norm. f_equal. unfold dot, vsub, vzero, vadd, scale. cbn. ring. Qed.
Lemma norm_sym u v : norm (vsub u v) = norm (vsub v u).
Proof. unfold norm. f_equal. unfold dot, vsub, vadd, scale. cbn. ring. Qed.
Lemma norm_nz u : 0 < norm u -> u <> vzero.
Proof. intros H ->. unfold norm, dot, vzero in H. cbn in H. replace (0 * 0 + 0 * 0 + 0 * 0) with 0 in H by ring. rewrite sqrt_0 in H. lra. Qed.
Lemma norm_scale_dir r l b : 0 <= r -> norm (scale r (dir l b)) = r.
Proof.
  intros H. unfold norm. replace (dot _ _) with (r * r * dot (dir l b) (dir l b)); [|unfold dot, scale; cbn [vx vy vz]; ring].
  rewrite dir_unit, Rmult_1_r. now apply sqrt_square.
Qed.
Lemma angle_acos p a b c : 0 < norm (vsub a p) -> 0 < norm (vsub b p) ->
  c = dot (vsub a p) (vsub b p) / (norm (vsub a p) * norm (vsub b p)) -> angle_at p a b (acos c).
Proof.
  intros A B ->. split; [apply acos_bound|]. rewrite cos_acos by (apply ratio_bound; apply norm_nz; assumption). field. lra.
Qed.
Lemma angle_at_unique p a b s t : 0 < norm (vsub a p) -> 0 < norm (vsub b p) -> angle_at p a b s -> angle_at p a b t -> s = t.
Proof.
  intros A B [S1 S2] [T1 T2]. apply cos_inj; try lra. apply Rmult_eq_reg_l with (norm (vsub a p) * norm (vsub b p)); [lra|]. apply Rgt_not_eq, Rmult_lt_0_compat; assumption.
Qed.
Section Planet.
Variables (L B Rp : R) (E : vec).
Hypothesis HR : 0 < Rp.
Let P := scale Rp (dir L B).
Hypothesis HD : 0 < norm (vsub P E).
Lemma PP : norm (vsub vzero P) = Rp. Proof. rewrite norm_opp. apply norm_scale_dir. lra. Qed.
Lemma PhaseAngle3_geom : angle_at P vzero E (PhaseAngle3 L B (vx P - vx E) (vy P - vy E) (vz P - vz E) (norm (vsub P E))).
Proof.
  unfold PhaseAngle3. apply angle_acos; rewrite ?PP; [exact HR|rewrite norm_sym; exact HD|]. rewrite (norm_sym E P).
  set (N := norm (vsub P E)) in *. clearbody N. unfold P, dot, vsub, vadd, vzero, scale, dir. cbn [vx vy vz]. field. lra.
Qed.
Lemma PhaseAngle_geom : angle_at P vzero E (PhaseAngle (norm P) (norm (vsub P E)) (norm E)).
Proof.
  unfold PhaseAngle. assert (NP : norm P = Rp) by (apply norm_scale_dir; lra).
  apply angle_acos; rewrite ?PP; [exact HR|rewrite norm_sym; exact HD|]. rewrite (norm_sym E P), !norm_dot, NP.
  set (N := norm (vsub P E)) in *. 
  assert (EQ : dot P P + dot (vsub P E) (vsub P E) - dot E E = 2 * dot (vsub vzero P) (vsub E P)).
  { unfold dot, vsub, vadd, vzero, scale. cbn [vx vy vz]. ring. }
  rewrite EQ. field. lra.
Qed.
Lemma PhaseAngle2_geom L0 R0 : E = scale R0 (dir L0 0) -> angle_at P vzero E (PhaseAngle2 L B Rp L0 R0 (norm (vsub P E))).
Proof.
  intros HE. unfold PhaseAngle2. apply angle_acos; rewrite ?PP; [exact HR|rewrite norm_sym; exact HD|]. rewrite (norm_sym E P).
  set (N := norm (vsub P E)) in *. clearbody N.
  replace (dot (vsub vzero P) (vsub E P)) with (Rp * (Rp - R0 * cos B * cos (L - L0))).
  - field. lra.
  - rewrite HE. unfold P, dot, vsub, vadd, vzero, scale, dir. cbn [vx vy vz]. rewrite cos_0, sin_0, cos_minus.
    pose proof (sc1 L) as A1. pose proof (sc1 B) as A2.
    transitivity (Rp * Rp * (cos B * cos B * (sin L * sin L + cos L * cos L) + sin B * sin B) - Rp * R0 * cos B * (cos L * cos L0 + sin L * sin L0)); [|ring].
    rewrite A1, Rmult_1_r, (Rplus_comm (cos B * cos B)), A2. ring.
Qed.
End Planet.

(** ** Phase angle of the Moon *)
Lemma cpsi_dot al al0 de de0 : cpsiEq al al0 de de0 = dot (dir al de) (dir al0 de0).
Proof. unfold cpsiEq, dot, dir. cbn [vx vy vz]. rewrite cos_minus. ring. Qed.
Lemma sin_acos_ge0 c : 0 <= sin (acos c). Proof. pose proof (acos_bound c). apply sin_ge_0; lra. Qed.
Lemma pa_polar D R_ c : -1 <= c <= 1 -> let N := sqrt (D * D + R_ * R_ - 2 * D * R_ * c) in 0 < N -> 0 < R_ ->
  N * cos (pa D R_ c) = D - R_ * c /\ N * sin (pa D R_ c) = R_ * sin (acos c) /\ 0 <= pa D R_ c <= PI.
Proof.
  intros C N HN HR. unfold pa. cbv zeta. set (s := sin (acos c)). assert (S0 : 0 <= s) by apply sin_acos_ge0.
  assert (S2 : s * s + c * c = 1). { unfold s. rewrite <- (cos_acos c C) at 3 4. apply sc1. }
  assert (HY : hypot (D - R_ * c) (R_ * s) = N).
  { unfold hypot, N. f_equal. transitivity (D * D - 2 * D * R_ * c + R_ * R_ * (s * s + c * c)); [ring|rewrite S2; ring]. }
  assert (NZ : D - R_ * c <> 0 \/ R_ * s <> 0).
  { destruct (Req_dec (D - R_ * c) 0) as [E1|E1]; [right|now left]. intros E2. unfold hypot in HY. rewrite E1, E2 in HY.
    replace (0 * 0 + 0 * 0) with 0 in HY by ring. rewrite sqrt_0 in HY. lra. }
  destruct (atan2_spec _ _ NZ) as [A B]. rewrite HY in A, B. split; [exact A|]. split; [exact B|].
  pose proof (atan2_bound (R_ * s) (D - R_ * c)) as AB. split; [|lra].
  destruct (Rle_dec 0 (atan2 (R_ * s) (D - R_ * c))) as [K|K]; [exact K|]. exfalso.
  assert (sin (atan2 (R_ * s) (D - R_ * c)) < 0) by (apply sin_lt_0_var; lra). nra.
Qed.
Lemma dist_moon D R_ al de al0 de0 :
  norm (vsub (scale R_ (dir al0 de0)) (scale D (dir al de))) = sqrt (D * D + R_ * R_ - 2 * D * R_ * cpsiEq al al0 de de0).
Proof.
  unfold norm. f_equal. rewrite cpsi_dot.
  assert (U : forall l b, dot (dir l b) (dir l b) = 1).
  { intros l b. unfold dot, dir. cbn [vx vy vz]. pose proof (sc1 l) as A1. pose proof (sc1 b) as A2.
    transitivity (cos b * cos b * (sin l * sin l + cos l * cos l) + sin b * sin b); [ring|rewrite A1; lra]. }
  transitivity (D * D * dot (dir al de) (dir al de) + R_ * R_ * dot (dir al0 de0) (dir al0 de0) - 2 * D * R_ * dot (dir al de) (dir al0 de0)).
  - unfold dot, vsub, vadd, scale. cbn [vx vy vz]. ring.
  - rewrite !U. ring.
Qed.
Lemma PhaseAngleEq_geom al de D al0 de0 R_ : 0 < D -> 0 < R_ ->
  let M := scale D (dir al de) in let S := scale R_ (dir al0 de0) in
  0 < norm (vsub S M) -> angle_at M vzero S (PhaseAngleEq al de D al0 de0 R_).
Proof.
  intros HD HR M S HN. unfold PhaseAngleEq. pose proof (dot_bound al de al0 de0) as C. rewrite <- cpsi_dot in C.
  unfold M, S in HN |- *. rewrite dist_moon in HN. destruct (pa_polar D R_ _ C HN HR) as (A & B & K).
  split; [exact K|]. rewrite dist_moon, norm_opp, norm_scale_dir by lra. rewrite Rmult_assoc, A. rewrite cpsi_dot.
  unfold dot, vsub, vadd, vzero, scale, dir. cbn [vx vy vz]. pose proof (sc1 al) as A1. pose proof (sc1 de) as A2.
  transitivity (D * D * (cos de * cos de * (sin al * sin al + cos al * cos al) + sin de * sin de) - D * R_ * (cos de * cos al * (cos de0 * cos al0) + cos de * sin al * (cos de0 * sin al0) + sin de * sin de0)); [|ring].
  rewrite A1, Rmult_1_r, (Rplus_comm (cos de * cos de)), A2. ring.
Qed.
Lemma Ecl_Eq lam be D lam0 R_ : PhaseAngleEcl lam be D lam0 R_ = PhaseAngleEq lam be D lam0 0 R_.
Proof.
  unfold PhaseAngleEcl, PhaseAngleEq. f_equal. unfold cpsiEcl, cpsiEq. rewrite sin_0, cos_0. replace (lam0 - lam) with (- (lam - lam0)) by ring. rewrite cos_neg. ring.
Qed.
Lemma Ecl2_Eq2 lam be lam0 : PhaseAngleEcl2 lam be lam0 = PhaseAngleEq2 lam be lam0 0.
Proof.
  unfold PhaseAngleEcl2, PhaseAngleEq2. f_equal. f_equal. unfold cpsiEcl, cpsiEq. rewrite sin_0, cos_0. replace (lam0 - lam) with (- (lam - lam0)) by ring. rewrite cos_neg. ring.
Qed.
Lemma acos_neg c : -1 <= c <= 1 -> acos (- c) = PI - acos c.
Proof.
  intros H. pose proof (acos_bound c) as B. apply cos_inj; [apply acos_bound|lra|].
  rewrite cos_acos by lra. rewrite cos_minus, cos_PI, sin_PI, cos_acos by lra. ring.
Qed.
(** The less accurate phase angle exceeds the accurate one by the angle at the Sun. *)
Lemma PhaseAngleEq2_error al de D al0 de0 R_ : 0 < D < R_ ->
  0 <= PhaseAngleEq2 al de al0 de0 - PhaseAngleEq al de D al0 de0 R_ <= asin (D / R_).
Proof.
  intros HD. unfold PhaseAngleEq2, PhaseAngleEq. pose proof (dot_bound al de al0 de0) as C. rewrite <- cpsi_dot in C. set (c := cpsiEq al al0 de de0) in *. clearbody c.
  rewrite acos_neg by exact C. set (N := sqrt (D * D + R_ * R_ - 2 * D * R_ * c)).
  assert (N2 : 0 < D * D + R_ * R_ - 2 * D * R_ * c).
  { assert (0 < (R_ - D) * (R_ - D)) by nra. assert (0 <= 2 * D * R_ * (1 - c)) by (apply Rmult_le_pos; nra). lra. }
  assert (HN : 0 < N) by (apply sqrt_lt_R0; exact N2).
  assert (NN : N * N = D * D + R_ * R_ - 2 * D * R_ * c) by (apply sqrt_sqrt; lra).
  destruct (pa_polar D R_ c C HN ltac:(lra)) as (A & B & K). fold N in A, B.
  pose proof (acos_bound c) as PB. pose proof (cos_acos c C) as CP. pose proof (sin_acos_ge0 c) as SP. set (psi := acos c) in *. set (i := pa D R_ c) in *.
  assert (SS : N * sin (PI - psi - i) = D * sin psi).
  { replace (PI - psi - i) with (PI - (psi + i)) by ring. rewrite sin_PI_x, sin_plus.
    transitivity (sin psi * (N * cos i) + cos psi * (N * sin i)); [ring|]. rewrite A, B, CP. ring. }
  assert (SC : N * cos (PI - psi - i) = R_ - D * c).
  { replace (PI - psi - i) with (PI - (psi + i)) by ring. rewrite cos_minus, cos_PI, sin_PI, cos_plus.
    transitivity (- (cos psi * (N * cos i) - sin psi * (N * sin i))); [ring|]. rewrite A, B, CP. pose proof (sc1 psi) as S1. rewrite CP in S1.
    transitivity (R_ * (sin psi * sin psi + c * c) - D * c); [ring|rewrite S1; ring]. }
  set (s := PI - psi - i) in *. assert (SB : - PI <= s <= PI) by (unfold s; lra).
  assert (CPOS : 0 < cos s). { assert (0 < R_ - D * c) by nra. assert (0 < N * cos s) by lra. nra. }
  assert (SNN : 0 <= sin s). { assert (0 <= N * sin s) by (rewrite SS; apply Rmult_le_pos; lra). nra. }
  assert (S0 : 0 <= s).
  { destruct (Rle_dec 0 s) as [|NS]; [assumption|]. exfalso. destruct (Req_dec s (- PI)) as [E|E].
    - rewrite E, cos_neg, cos_PI in CPOS. lra.
    - assert (sin s < 0) by (apply sin_lt_0_var; lra). lra. }
  assert (S1 : s < PI / 2). { destruct (Rlt_le_dec s (PI / 2)) as [|G]; [assumption|]. exfalso. assert (cos s <= 0) by (apply cos_le_0; lra). lra. }
  split; [exact S0|].
  assert (LE : sin s <= D / R_).
  { apply Rmult_le_reg_l with (N * R_); [nra|]. replace (N * R_ * sin s) with (R_ * (N * sin s)) by ring. rewrite SS. replace (N * R_ * (D / R_)) with (D * N) by (field; lra).
    replace (R_ * (D * sin psi)) with (D * (R_ * sin psi)) by ring. apply Rmult_le_compat_l; [lra|].
    rewrite <- B. pose proof (SIN_bound i). nra. }
  assert (Q1 : 0 <= D / R_ <= 1).
  { split; [apply Rlt_le, Rdiv_lt_0_compat; lra|]. apply Rmult_le_reg_r with R_; [lra|]. unfold Rdiv. rewrite Rmult_assoc, Rinv_l; lra. }
  pose proof (asin_bound (D / R_)) as AB. apply sin_incr_0; try lra. rewrite sin_asin; lra.
Qed.

Lemma cos_2PI_add x : cos (x + 2 * PI) = cos x. Proof. rewrite cos_plus, cos_2PI, sin_2PI. ring. Qed.
Lemma sin_2PI_add x : sin (x + 2 * PI) = sin x. Proof. rewrite sin_plus, cos_2PI, sin_2PI. ring. Qed.
(** ** Position angle of the bright limb *)
Lemma limb_components al de al0 de0 :
  dot (dir al0 de0) (north al de) = sin de0 * cos de - cos de0 * sin de * cos (al0 - al) /\
  dot (dir al0 de0) (east al de) = cos de0 * sin (al0 - al).
Proof. unfold dot, dir, north, east. cbn [vx vy vz]. rewrite cos_minus, sin_minus. split; ring. Qed.
Lemma limb_square al de al0 de0 :
  let d := dot (dir al de) (dir al0 de0) in let n := dot (dir al0 de0) (north al de) in let e := dot (dir al0 de0) (east al de) in
  n * n + e * e = 1 - d * d.
Proof.
  cbv zeta. destruct (limb_components al de al0 de0) as [-> ->]. rewrite <- cpsi_dot. unfold cpsiEq.
  pose proof (sc1 de) as A. pose proof (sc1 de0) as B. pose proof (sc1 (al0 - al)) as C. set (u := al0 - al) in *. clearbody u.
  nsatz.
Qed.
Lemma Limb_geom al de al0 de0 : dot (dir al de) (dir al0 de0) * dot (dir al de) (dir al0 de0) <> 1 ->
  position_angle al de (dir al0 de0) (Limb al de al0 de0).
Proof.
  intros H. pose proof (limb_square al de al0 de0) as Q. cbv zeta in Q. destruct (limb_components al de al0 de0) as [E1 E2].
  rewrite E1, E2 in Q. unfold Limb. cbv zeta. set (y := cos de0 * sin (al0 - al)) in *. set (x := sin de0 * cos de - cos de0 * sin de * cos (al0 - al)) in *.
  assert (NZ : x <> 0 \/ y <> 0). { destruct (Req_dec x 0) as [Z|Z]; [right|now left]. intros Z2. rewrite Z, Z2 in Q. lra. }
  destruct (atan2_spec _ _ NZ) as [A B]. pose proof (hypot_gt0 _ _ NZ) as HP.
  exists (hypot x y). split; [exact HP|]. rewrite E1, E2. fold x y.
  case Rlt_bool_spec; intros _; [|split; now symmetry]. rewrite cos_2PI_add, sin_2PI_add. split; now symmetry.
Qed.
Lemma Limb_range al de al0 de0 : 0 <= Limb al de al0 de0 < 2 * PI.
Proof.
  unfold Limb. cbv zeta. match goal with |- context [atan2 ?a ?b] => pose proof (atan2_bound a b) as AB end.
  pose proof PI_RGT_0. case Rlt_bool_spec; intros; lra.
Qed.

(** ** Venus *)
Lemma Venus_core c : -1 <= c <= 1 -> let D := sqrt (1.52321 + 1.44666 * c) in
  0.27667 < D /\ D < 1.7233311 /\ D * D = 1.52321 + 1.44666 * c.
Proof.
  intros C D. assert (P : 0 <= 1.52321 + 1.44666 * c) by (revert C; decimals; lra).
  assert (DD : D * D = 1.52321 + 1.44666 * c) by (apply sqrt_sqrt; exact P).
  assert (D0 : 0 <= D) by apply sqrt_pos. repeat split; [| |exact DD]; revert DD; decimals; intros DD.
  - apply Rnot_le_lt. intros K. assert (D * D <= 27667 / 100000 * (27667 / 100000)) by (apply Rmult_le_compat; lra). lra.
  - apply Rnot_le_lt. intros K. assert (17233311 / 10000000 * (17233311 / 10000000) <= D * D) by (apply Rmult_le_compat; lra). lra.
Qed.
Lemma Venus_range jde : 0 < FractionVenus jde < 1.0000005.
Proof.
  unfold FractionVenus. cbv zeta. destruct (Venus_core (cos (venusW ((jde - 2451545) / 36525))) (COS_bound _)) as (A & B & _).
  set (D := sqrt _) in *. clearbody D. revert A B. decimals. intros A B.
  match goal with |- 0 < ?e < _ => replace e with (((72333 / 100000 + D) * (72333 / 100000 + D) - 1) / (289332 / 100000 * D)) by (field; lra) end.
  split.
  - apply Rdiv_lt_0_compat; nra.
  - apply Rmult_lt_reg_r with (289332 / 100000 * D); [lra|].
    match goal with |- ?a / ?b * ?b < _ => replace (a / b * b) with a by (field; lra) end. nra.
Qed.
Lemma venusW_cont : continuity venusW.
Proof. unfold venusW. cbv zeta. reg. Qed.
Lemma Venus_exceeds : exists jde, 1 < FractionVenus jde.
Proof.
  assert (Z : exists T, venusW T = 4 * PI).
  { destruct (IVT_cor (fun T => venusW T - 4 * PI) 0 1) as [z [B Z]].
    - apply continuity_minus; [apply venusW_cont|apply continuity_const; now intros ? ?].
    - lra.
    - assert (W0 : venusW 0 - 4 * PI <= 0).
      { unfold venusW. cbv zeta. pose proof (SIN_bound (177.53 * (PI / 180) + 35999.05 * (PI / 180) * 0)) as S1. pose proof (SIN_bound (50.42 * (PI / 180) + 58517.811 * (PI / 180) * 0)) as S2.
        set (s1 := sin _) in *. set (s2 := sin (50.42 * _ + _)) in *. clearbody s1 s2. revert S1 S2. decimals. intros. pose proof PI_RGT_0. nra. }
      assert (W1 : 0 <= venusW 1 - 4 * PI).
      { unfold venusW. cbv zeta. pose proof (SIN_bound (177.53 * (PI / 180) + 35999.05 * (PI / 180) * 1)) as S1. pose proof (SIN_bound (50.42 * (PI / 180) + 58517.811 * (PI / 180) * 1)) as S2.
        set (s1 := sin _) in *. set (s2 := sin (50.42 * _ + _)) in *. clearbody s1 s2. revert S1 S2. decimals. intros. pose proof PI_RGT_0. nra. }
      nra.
    - exists z. lra. }
  destruct Z as [T HT]. exists (2451545 + 36525 * T). unfold FractionVenus. cbv zeta.
  replace ((2451545 + 36525 * T - 2451545) / 36525) with T by field. rewrite HT.
  replace (cos (4 * PI)) with 1. 2:{ replace (4 * PI) with (0 + 2 * PI + 2 * PI) by ring. now rewrite !cos_2PI_add, cos_0. }
  destruct (Venus_core 1 ltac:(lra)) as (A & B & C). set (D := sqrt _) in *. clearbody D. revert A B C. decimals. intros A B C.
  assert (K : 172333 / 100000 < D).
  { apply Rnot_le_lt. intros K. assert (D * D <= 172333 / 100000 * (172333 / 100000)) by (apply Rmult_le_compat; lra). lra. }
  match goal with |- 1 < ?e => replace e with (((72333 / 100000 + D) * (72333 / 100000 + D) - 1) / (289332 / 100000 * D)) by (field; lra) end.
  apply Rmult_lt_reg_r with (289332 / 100000 * D); [lra|].
  match goal with |- _ < ?a / ?b * ?b => replace (a / b * b) with a by (field; lra) end. nra.
Qed.

(** ** Magnitudes of planets *)
Definition inverse_square (f : R -> R -> R) : Prop :=
  forall r D k, 0 < r -> 0 < D -> 0 < k -> f (k * r) D = f r D + 5 * log10 k /\ f r (k * D) = f r D + 5 * log10 k.
Lemma inv_sq f a : (forall r D, f r D = a + 5 * log10 (r * D)) -> inverse_square f.
Proof.
  intros H r D k Hr HD Hk. rewrite !H. replace (k * r * D) with (k * (r * D)) by ring. replace (r * (k * D)) with (k * (r * D)) by ring.
  assert (0 < r * D) by nra. rewrite log10_mult by assumption. split; ring.
Qed.
Lemma mag_inverse_square i B dU :
  Forall inverse_square
    [fun r D => magMercury r D i; fun r D => magVenus r D i; fun r D => magMars r D i; magJupiter; fun r D => magSaturn r D B dU; magUranus; magNeptune;
     fun r D => magMercury84 r D i; fun r D => magVenus84 r D i; fun r D => magMars84 r D i; fun r D => magJupiter84 r D i;
     fun r D => magSaturn84 r D B dU; magUranus84; magNeptune84; magPluto84].
Proof.
  repeat (apply Forall_cons || apply Forall_nil);
    match goal with |- inverse_square ?f => apply (inv_sq f (f 1 1)); intros r D; cbv beta end;
    unfold magMercury, magVenus, magMars, magJupiter, magSaturn, magUranus, magNeptune, magMercury84, magVenus84, magMars84, magJupiter84,
      magSaturn84, magUranus84, magNeptune84, magPluto84; cbv zeta; replace (1 * 1) with 1 by ring;
    assert (L1 : log10 1 = 0) by (unfold log10; rewrite ln_1; unfold Rdiv; ring);
    unfold HornerR; unfold Horner; cbn [rev List.app horner_loop]; cbn [fadd fmul RFlt]; rewrite L1; try ring.
Qed.

Lemma Saturn84_documented_diff r D B dU : 
  magSaturn84 r D B dU - (-8.88 + 5 * log10 (r * D) + 0.044 * Rabs (AngleDeg dU) - 2.6 * Rabs (sin B) + 1.25 * Rabs (sin B) * Rabs (sin B)) =
  0.044 * (1 / Rabs (AngleDeg dU) - Rabs (AngleDeg dU)).
Proof. unfold magSaturn84. cbv zeta. unfold Rdiv. ring. Qed.
Lemma AngleDeg_FromDeg d : AngleDeg (AngleFromDeg d) = d.
Proof. unfold AngleDeg, AngleFromDeg. pose proof PI_RGT_0. field. lra. Qed.
(** Saturn gets fainter without bound as the phase goes to zero. *)
Lemma Saturn84_unbounded r D B K : exists dU, 0 < dU <= AngleFromDeg 1 /\ K < magSaturn84 r D B dU.
Proof.
  set (c := -8.88 + 5 * log10 (r * D) - 2.6 * Rabs (sin B) + 1.25 * Rabs (sin B) * Rabs (sin B)).
  set (x := 0.044 / (1 + Rabs (K - c))). assert (X : 0 < x <= 1).
  { unfold x. pose proof (Rabs_pos (K - c)). decimals. split; [apply Rdiv_lt_0_compat; lra|]. apply Rmult_le_reg_r with (1 + Rabs (K - c)); [lra|].
    unfold Rdiv at 1. rewrite Rmult_assoc, Rinv_l; lra. }
  exists (AngleFromDeg x). split.
  - unfold AngleFromDeg. pose proof PI_RGT_0. split; [apply Rmult_lt_0_compat; lra|apply Rmult_le_compat_r; lra].
  - unfold magSaturn84. cbv zeta. rewrite AngleDeg_FromDeg, (Rabs_right x) by lra. replace (0.044 / x) with (1 + Rabs (K - c)).
    + unfold c. pose proof (Rle_abs (K - c)). unfold c in H. lra.
    + unfold x. pose proof (Rabs_pos (K - c)). decimals. field. lra.
Qed.
(** ** Semidiameters *)
Lemma Saturn_values : 0 < SaturnPolar < SaturnEquatorial.
Proof. unfold SaturnPolar, SaturnEquatorial, AngleFromSec. pose proof PI_RGT_0. decimals. lra. Qed.
Lemma SaturnApparentPolar_sq D B : 0 < D ->
  0 < SaturnApparentPolar D B /\
  D * SaturnApparentPolar D B * (D * SaturnApparentPolar D B) =
  SaturnEquatorial * SaturnEquatorial * (sin B * sin B) + SaturnPolar * SaturnPolar * (cos B * cos B).
Proof.
  intros HD. pose proof Saturn_values as [S1 S2]. unfold SaturnApparentPolar. cbv zeta. set (a := SaturnEquatorial) in *. set (b := SaturnPolar) in *. clearbody a b.
  assert (EQ : a * a * (1 - (1 - b / a * (b / a)) * cos B * cos B) = a * a * (sin B * sin B) + b * b * (cos B * cos B)).
  { pose proof (sc1 B) as Q. transitivity (a * a * (sin B * sin B + cos B * cos B) - (a * a - b * b) * (cos B * cos B)); [rewrite Q; field; lra|ring]. }
  assert (PZ : 0 < a * a * (sin B * sin B) + b * b * (cos B * cos B)).
  { pose proof (sc1 B) as Q. assert (b * b < a * a) by nra. assert (0 <= sin B * sin B) by apply Rle_0_sqr. assert (0 <= cos B * cos B) by apply Rle_0_sqr. nra. }
  assert (PZ2 : 0 < 1 - (1 - b / a * (b / a)) * cos B * cos B).
  { assert (0 < a * a) by nra. rewrite <- EQ in PZ. nra. }
  split.
  - apply Rmult_lt_0_compat; [lra|]. apply Rdiv_lt_0_compat; [now apply sqrt_lt_R0|exact HD].
  - pose proof (sqrt_sqrt _ (Rlt_le _ _ PZ2)) as SQ. set (w := sqrt _) in *. replace (D * (a * (w / D)) * (D * (a * (w / D)))) with (a * a * (w * w)) by (field; lra). rewrite SQ. exact EQ.
Qed.
Lemma SaturnApparentPolar_between D B : 0 < D ->
  Semidiameter SaturnPolar D <= SaturnApparentPolar D B <= Semidiameter SaturnEquatorial D.
Proof.
  intros HD. destruct (SaturnApparentPolar_sq D B HD) as [P Q]. pose proof Saturn_values as [S1 S2]. pose proof (sc1 B) as SC.
  set (x := SaturnApparentPolar D B) in *. clearbody x. set (a := SaturnEquatorial) in *. set (b := SaturnPolar) in *. clearbody a b.
  assert (0 <= sin B * sin B) by apply Rle_0_sqr. assert (0 <= cos B * cos B) by apply Rle_0_sqr. assert (b * b < a * a) by nra.
  unfold Semidiameter. assert (XP : 0 < D * x) by nra.
  assert (b <= D * x). { apply Rnot_lt_le. intros K. assert (D * x * (D * x) < b * b) by nra. nra. }
  assert (D * x <= a). { apply Rnot_lt_le. intros K. assert (a * a < D * x * (D * x)) by nra. nra. }
  split; apply Rmult_le_reg_l with D; try exact HD; unfold Rdiv; [replace (D * (b * / D)) with b by (field; lra)|replace (D * (a * / D)) with a by (field; lra)]; assumption.
Qed.
Lemma SaturnApparentPolar_ends D : 0 < D ->
  SaturnApparentPolar D 0 = Semidiameter SaturnPolar D /\ SaturnApparentPolar D (PI / 2) = Semidiameter SaturnEquatorial D.
Proof.
  intros HD. pose proof Saturn_values as [S1 S2].
  split; [pose proof (SaturnApparentPolar_sq D 0 HD) as [P Q]|pose proof (SaturnApparentPolar_sq D (PI / 2) HD) as [P Q]];
    rewrite ?sin_0, ?cos_0, ?cos_PI2, ?sin_PI2 in Q; unfold Semidiameter; set (x := SaturnApparentPolar D _) in *; clearbody x.
  - assert (E : D * x = SaturnPolar) by (apply Rsqr_inj; [nra|lra|unfold Rsqr; lra]). rewrite <- E. field. lra.
  - assert (E : D * x = SaturnEquatorial) by (apply Rsqr_inj; [nra|lra|unfold Rsqr; lra]). rewrite <- E. field. lra.
Qed.

Lemma HornerR4 x a b c d : HornerR x [a; b; c; d] = a + x * (b + x * (c + x * d)).
Proof. unfold HornerR. unfold Horner. cbn [rev List.app horner_loop]. cbn [fadd fmul RFlt]. ring. Qed.
Lemma HornerR5 x a b c d e : HornerR x [a; b; c; d; e] = a + x * (b + x * (c + x * (d + x * e))).
Proof. unfold HornerR. unfold Horner. cbn [rev List.app horner_loop]. cbn [fadd fmul RFlt]. ring. Qed.
Lemma PhaseAngleEcl_geom lam be D lam0 R_ : 0 < D -> 0 < R_ ->
  let M := scale D (dir lam be) in let S := scale R_ (dir lam0 0) in
  0 < norm (vsub S M) -> angle_at M vzero S (PhaseAngleEcl lam be D lam0 R_).
Proof. intros. rewrite Ecl_Eq. now apply PhaseAngleEq_geom. Qed.
Lemma PhaseAngleEcl2_error lam be D lam0 R_ : 0 < D < R_ ->
  0 <= PhaseAngleEcl2 lam be lam0 - PhaseAngleEcl lam be D lam0 R_ <= asin (D / R_).
Proof. intros. rewrite Ecl_Eq, Ecl2_Eq2. now apply PhaseAngleEq2_error. Qed.
Lemma Sum_sym m1 m2 : Sum m1 m2 = Sum m2 m1.
Proof. rewrite !Sum_SumN. apply SumN_perm. apply perm_swap. Qed.

Lemma AngleDeg_le a b : a <= b -> AngleDeg a <= AngleDeg b.
Proof. intros H. unfold AngleDeg. pose proof PI_RGT_0. apply Rmult_le_compat_r; [|exact H]. apply Rlt_le, Rdiv_lt_0_compat; lra. Qed.
Lemma AngleDeg_ge0 a : 0 <= a -> 0 <= AngleDeg a.
Proof. intros H. unfold AngleDeg. pose proof PI_RGT_0. apply Rmult_le_pos; [exact H|]. apply Rlt_le, Rdiv_lt_0_compat; lra. Qed.
Lemma mag_monotone r D i i' : i <= i' ->
  magMars r D i <= magMars r D i' /\ magMars84 r D i <= magMars84 r D i' /\ magJupiter84 r D i <= magJupiter84 r D i' /\
  (0 <= i -> magMercury r D i <= magMercury r D i' /\ magVenus r D i <= magVenus r D i' /\
             magMercury84 r D i <= magMercury84 r D i').
Proof.
  intros H. pose proof (AngleDeg_le _ _ H) as A. pose proof (AngleDeg_ge0 i) as A0.
  unfold magMars, magMars84, magJupiter84, magMercury, magVenus, magMercury84. cbv zeta. rewrite !HornerR4.
  set (L := log10 (r * D)). clearbody L. set (x := AngleDeg i) in *. set (y := AngleDeg i') in *. clearbody x y. decimals.
  split; [lra|]. split; [lra|]. split; [lra|]. intros Hi. specialize (A0 Hi). split; [|split].
  { assert (0 <= (y - x) * (x + y)) by (apply Rmult_le_pos; lra). lra. }
  { assert (0 <= (y - x) * (x * x + x * y + y * y)) by (apply Rmult_le_pos; nra). lra. }
  assert (K : 0 <= (y - x) * (38 / 1000 - 273 / 1000000 * (x + y) + 2 / 1000000 * (x * x + x * y + y * y))).
  { apply Rmult_le_pos; [lra|]. pose proof (Rle_0_sqr (x + y - 91)) as S1. pose proof (Rle_0_sqr (x - y)) as S2. unfold Rsqr in *. lra. }
  lra.
Qed.
Lemma Saturn_monotone r D B dU dU' : Rabs dU <= Rabs dU' -> magSaturn r D B dU <= magSaturn r D B dU'.
Proof.
  intros H. unfold magSaturn. cbv zeta. assert (A : Rabs (AngleDeg dU) <= Rabs (AngleDeg dU')).
  { unfold AngleDeg. rewrite !Rabs_mult. apply Rmult_le_compat_r; [apply Rabs_pos|exact H]. }
  revert A. decimals. lra.
Qed.
Lemma Venus84_decreasing : exists i i', 0 <= i < i' /\ forall r D, magVenus84 r D i' < magVenus84 r D i.
Proof.
  exists 0, (AngleFromDeg 100). split; [unfold AngleFromDeg; pose proof PI_RGT_0; lra|]. intros r D. unfold magVenus84. rewrite !HornerR4, AngleDeg_FromDeg.
  replace (AngleDeg 0) with 0 by (unfold AngleDeg; ring). set (L := log10 (r * D)). clearbody L. decimals. lra.
Qed.
(** ** Moon's phase angle for a date *)
Lemma intConst_0 a b : (Z.quot a b = 0)%Z -> intConst a b = 0. Proof. unfold intConst. now intros ->. Qed.
Lemma PhaseAngleDate_negative : exists jde, PhaseAngleDate jde < -1.
Proof.
  assert (Z : exists T, HornerR T [297.8501921; 445267.1114034; -0.0018819; intConst 1 545868; intConst (-1) 113065000] = 270).
  { destruct (IVT_cor (fun T => 297.8501921 + T * (445267.1114034 + T * -0.0018819) - 270) (-1) 0) as [z [B Z]].
    - reg.
    - lra.
    - decimals. nra.
    - exists z. rewrite HornerR5, !intConst_0 by reflexivity. lra. }
  destruct Z as [T HT]. exists (2451545 + 36525 * T). unfold PhaseAngleDate. cbv zeta.
  replace ((2451545 + 36525 * T - 2451545) / 36525) with T by field. unfold illumD. rewrite HT.
  pose proof PI_RGT_0 as PP. rewrite Mod1_id by (unfold AngleFromDeg; lra). set (D := AngleFromDeg 270). set (M := illumM T). set (M' := illumM' T). clearbody M M'.
  pose proof (SIN_bound M) as S1. pose proof (SIN_bound M') as S2. pose proof (SIN_bound (2 * D - M')) as S3. pose proof (SIN_bound (2 * D)) as S4. pose proof (SIN_bound (2 * M')) as S5. pose proof (SIN_bound D) as S6.
  assert (ED : D = 3 / 2 * PI) by (unfold D, AngleFromDeg; lra).
  set (s1 := sin M) in *. set (s2 := sin M') in *. set (s3 := sin (2 * D - M')) in *. set (s4 := sin (2 * D)) in *. set (s5 := sin (2 * M')) in *. set (s6 := sin D) in *. clearbody s1 s2 s3 s4 s5 s6.
  rewrite ED. pose proof PI_bounds as PB. unfold AngleFromDeg. revert S1 S2 S3 S4 S5 S6. decimals. intros S1 S2 S3 S4 S5 S6.
  match goal with |- _ + ?e0 * _ < _ => set (e := e0) end.
  assert (e <= 11) by (unfold e; lra). assert (e * (PI / 180) <= 11 * (PI / 180)) by (apply Rmult_le_compat_r; lra). lra.
Qed.
Lemma AsteroidDiameter_light H H' A A' : 0 < A -> 0 < A' ->
  (A * (AsteroidDiameter H A * AsteroidDiameter H A)) * brightness H' =
  (A' * (AsteroidDiameter H' A' * AsteroidDiameter H' A')) * brightness H.
Proof.
  intros HA HA'. unfold AsteroidDiameter, brightness. fold (pow10 (- (2 / 5) * H)) (pow10 (- (2 / 5) * H')).
  rewrite <- (pow10_log A HA) at 1. rewrite <- (pow10_log A' HA') at 1. rewrite <- !pow10_add. f_equal. decimals. field.
Qed.
