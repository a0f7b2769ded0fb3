(** Lemmas for refraction. *)
From Coq Require Import Reals Lra Machin.
From Flocq Require Import Core.
From Verif Require Import GoMath S_solar M_refraction L_trig L_kepler L_precess L_solar L_season.
Local Open Scope R_scope.

Definition cot (x : R) : R := cos x / sin x.
Lemma inv_tan c x : sin x <> 0 -> c / tan x = c * cot x.
Proof.
  intros H. unfold tan, cot. destruct (Req_dec (cos x) 0) as [E|E].
  - rewrite E. unfold Rdiv. rewrite Rinv_0, Rmult_0_r, Rinv_0. ring.
  - field. split; assumption.
Qed.
Lemma cot_diff x y : sin x <> 0 -> sin y <> 0 -> cot x - cot y = sin (y - x) / (sin x * sin y).
Proof. intros A B. unfold cot. rewrite sin_minus. field. split; assumption. Qed.
Lemma cot_decreasing x y : 0 < x -> x < y -> y < PI -> cot y < cot x.
Proof.
  intros A B C. assert (0 < sin x) by (apply sin_gt_0; lra). assert (0 < sin y) by (apply sin_gt_0; lra). assert (0 < sin (y - x)) by (apply sin_gt_0; lra).
  pose proof (cot_diff x y ltac:(lra) ltac:(lra)) as E. assert (0 < sin (y - x) / (sin x * sin y)) by (apply Rdiv_lt_0_compat; [assumption|nra]). lra.
Qed.
Lemma cot_rate x y s : 0 < s -> x <= y -> s <= sin x -> s <= sin y -> y - x <= PI -> cot x - cot y <= (y - x) / (s * s).
Proof.
  intros S A B C D. rewrite cot_diff by lra.
  assert (N : sin (y - x) <= y - x) by (apply sin_le_x; lra). assert (N0 : 0 <= sin (y - x)) by (apply sin_ge_0; lra).
  unfold Rdiv. apply Rle_trans with (sin (y - x) * / (s * s)).
  - apply Rmult_le_compat_l; [exact N0|]. apply Rinv_le_contravar; nra.
  - apply Rmult_le_compat_r; [|exact N]. left. apply Rinv_0_lt_compat. nra.
Qed.

(** The common form of Bennett and Saemundsson; altitudes in degrees. *)
Definition arg (k m hd : R) : R := hd + k / (hd + m).
Definition refr (c k m hd : R) : R := AngleFromMin (c * cot (arg k m hd * PI / 180)).
Lemma arg_diff k m u v : 1 < m -> 0 < k < (m - 1) * (m - 1) -> -1 <= u -> u < v -> 0 < arg k m v - arg k m u < v - u.
Proof.
  intros Hm Hk Hu Hv. unfold arg.
  replace (v + k / (v + m) - (u + k / (u + m))) with ((v - u) * (1 - k / ((u + m) * (v + m)))) by (field; lra).
  assert (P : 0 < k / ((u + m) * (v + m)) < 1).
  { split; [apply Rdiv_lt_0_compat; nra|]. apply (Rmult_lt_reg_r ((u + m) * (v + m))); [nra|]. unfold Rdiv. rewrite Rmult_assoc, Rinv_l by nra. nra. }
  split; nra.
Qed.
Lemma arg_range k m u : 1 < m -> m - 1 < k < (m - 1) * (m - 1) -> k < 80 -> -1 <= u <= 90 -> 0 < arg k m u < 180.
Proof.
  intros Hm Hk K Hu.
  assert (A : arg k m (-1) = -1 + k / (m - 1)) by (unfold arg; f_equal; f_equal; ring).
  assert (B : 1 < k / (m - 1)) by (apply (Rmult_lt_reg_r (m - 1)); [lra|]; unfold Rdiv; rewrite Rmult_assoc, Rinv_l by lra; lra).
  assert (C : k / (90 + m) < 1) by (apply (Rmult_lt_reg_r (90 + m)); [lra|]; unfold Rdiv; rewrite Rmult_assoc, Rinv_l by lra; lra).
  assert (D : arg k m 90 = 90 + k / (90 + m)) by reflexivity.
  split.
  - destruct (Req_dec u (-1)) as [->|N]; [lra|]. destruct (arg_diff k m (-1) u); lra.
  - destruct (Req_dec u 90) as [->|N]; [lra|]. destruct (arg_diff k m u 90); lra.
Qed.
Lemma refr_decreasing c k m u v : 0 < c -> 1 < m -> m - 1 < k < (m - 1) * (m - 1) -> k < 80 -> -1 <= u -> u < v -> v <= 90 -> refr c k m v < refr c k m u.
Proof.
  intros Hc Hm Hk K Hu Huv Hv. assert (HP := PI_RGT_0).
  destruct (arg_range k m u) as [A1 A2]; try lra. destruct (arg_range k m v) as [B1 B2]; try lra. destruct (arg_diff k m u v) as [D _]; try lra.
  unfold refr, AngleFromMin. apply Rmult_lt_compat_r; [apply Rdiv_lt_0_compat; lra|]. apply Rmult_lt_compat_l; [exact Hc|].
  apply cot_decreasing; nra.
Qed.
Lemma refr_sign c k m u : 0 < c -> 1 < m -> m - 1 < k < (m - 1) * (m - 1) -> k < 80 -> -1 <= u <= 90 ->
  (arg k m u < 90 -> 0 < refr c k m u) /\ (90 < arg k m u -> refr c k m u < 0).
Proof.
  intros Hc Hm Hk K Hu. assert (HP := PI_RGT_0). destruct (arg_range k m u) as [A1 A2]; try lra.
  set (x := arg k m u * PI / 180). assert (X : 0 < x < PI) by (unfold x; split; nra).
  assert (S : 0 < sin x) by (apply sin_gt_0; lra). unfold refr, AngleFromMin, cot. fold x.
  assert (Q : 0 < PI / 180 / 60) by lra.
  split; intros H.
  - assert (x < PI / 2) by (unfold x; nra). assert (0 < cos x) by (apply cos_gt_0; lra). apply Rmult_lt_0_compat; [|exact Q]. apply Rmult_lt_0_compat; [exact Hc|]. apply Rdiv_lt_0_compat; assumption.
  - assert (PI / 2 < x) by (unfold x; nra). assert (cos x < 0) by (apply cos_lt_0; lra). assert (0 < / sin x) by (apply Rinv_0_lt_compat; exact S).
    assert (N : cos x / sin x < 0) by (unfold Rdiv; nra). set (w := cos x / sin x) in *. assert (c * w < 0) by nra. set (z := PI / 180 / 60) in *. nra.
Qed.
Lemma sin_low x y : 0 <= x <= PI / 2 -> x <= y -> y <= PI - x -> sin x <= sin y.
Proof.
  intros A B C. destruct (Rle_dec y (PI / 2)).
  - apply sin_incr_1; lra.
  - rewrite <- (sin_PI_x y). apply sin_incr_1; lra.
Qed.
Lemma refr_rate c k m u v s : 0 < c -> 1 < m -> m - 1 < k < (m - 1) * (m - 1) -> k < 80 -> -1 <= u -> u < v -> v <= 90 -> 0 < s -> c * (PI / 180 / 60) < s * s -> 
  s <= sin (arg k m (-1) * PI / 180) -> arg k m (-1) <= 90 -> arg k m 90 <= 180 - arg k m (-1) -> refr c k m u - refr c k m v < (v - u) * (PI / 180).
Proof.
  intros Hc Hm Hk K Hu Huv Hv Hs Hcs S0 S1 S2. assert (HP := PI_RGT_0).
  destruct (arg_range k m u) as [A1 A2]; try lra. destruct (arg_range k m v) as [B1 B2]; try lra. destruct (arg_diff k m u v) as [D1 D2]; try lra.
  destruct (arg_range k m (-1)) as [C1 C2]; try lra.
  assert (M : forall w, -1 <= w <= 90 -> s <= sin (arg k m w * PI / 180)).
  { intros w W. apply Rle_trans with (1 := S0). assert (arg k m (-1) <= arg k m w <= arg k m 90).
    { split; [destruct (Req_dec w (-1)) as [->|]; [lra|destruct (arg_diff k m (-1) w); lra] | destruct (Req_dec w 90) as [->|]; [lra|destruct (arg_diff k m w 90); lra]]. }
    apply sin_low; nra. }
  unfold refr, AngleFromMin.
  assert (R0 : cot (arg k m u * PI / 180) - cot (arg k m v * PI / 180) <= (arg k m v * PI / 180 - arg k m u * PI / 180) / (s * s)).
  { apply cot_rate; [exact Hs | nra | apply M; lra | apply M; lra | nra]. }
  set (p := cot (arg k m u * PI / 180)) in *. set (q := cot (arg k m v * PI / 180)) in *.
  assert (R1 : c * (PI / 180 / 60) * (p - q) <= c * (PI / 180 / 60) * ((arg k m v - arg k m u) * (PI / 180) / (s * s))).
  { apply Rmult_le_compat_l; [apply Rmult_le_pos; lra|]. replace ((arg k m v - arg k m u) * (PI / 180) / (s * s)) with ((arg k m v * PI / 180 - arg k m u * PI / 180) / (s * s)) by (field; lra). exact R0. }
  assert (R2 : c * (PI / 180 / 60) * ((arg k m v - arg k m u) * (PI / 180) / (s * s)) < (v - u) * (PI / 180)).
  { set (e := c * (PI / 180 / 60)) in *. replace (e * ((arg k m v - arg k m u) * (PI / 180) / (s * s))) with ((arg k m v - arg k m u) * (PI / 180) * (e / (s * s))) by (field; lra).
    assert (0 < e) by (unfold e; apply Rmult_lt_0_compat; lra).
    assert (0 < e / (s * s) < 1). { split; [apply Rdiv_lt_0_compat; nra|]. apply (Rmult_lt_reg_r (s * s)); [nra|]. unfold Rdiv. rewrite Rmult_assoc, Rinv_l by nra. lra. }
    set (w := e / (s * s)) in *. set (g := arg k m v - arg k m u) in *. assert (0 < g * (PI / 180)) by nra. assert (g * (PI / 180) < (v - u) * (PI / 180)) by (apply Rmult_lt_compat_r; lra). nra. }
  lra.
Qed.

Lemma deg_back h d : h = degrees d -> h * 180 / PI = d.
Proof. intros ->. unfold degrees. field. pose proof PI_RGT_0. lra. Qed.
Definition inD (h : R) : Prop := -1 <= h * 180 / PI <= 90.
Lemma to_deg a b h : degrees a <= h <= degrees b -> a <= h * 180 / PI <= b.
Proof.
  unfold degrees. intros H. assert (HP := PI_RGT_0). assert (E : h = h * 180 / PI * (PI / 180)) by (field; lra).
  set (d := h * 180 / PI) in *. rewrite E in H. split; nra.
Qed.
Lemma deg_lt g h : g < h -> g * 180 / PI < h * 180 / PI.
Proof. intros H. assert (HP := PI_RGT_0). unfold Rdiv. apply Rmult_lt_compat_r; [apply Rinv_0_lt_compat, HP|]. lra. Qed.
Lemma arg_sin k m hd : 1 < m -> m - 1 < k < (m - 1) * (m - 1) -> k < 80 -> -1 <= hd <= 90 -> sin ((hd + k / (hd + m)) * PI / 180) <> 0.
Proof.
  intros. destruct (arg_range k m hd) as [A B]; try lra. unfold arg in A, B. set (w := hd + k / (hd + m)) in *.
  assert (HP := PI_RGT_0). assert (0 < sin (w * PI / 180)) by (apply sin_gt_0; nra). lra.
Qed.
Lemma Bennett_refr h : degrees (-1) <= h <= degrees 90 -> Bennett h = refr 1 (731 / 100) (44 / 10) (h * 180 / PI).
Proof. intros H. apply to_deg in H. unfold Bennett, refr, arg. cbv zeta. f_equal. apply inv_tan, arg_sin; lra. Qed.
Lemma Saem_refr h : degrees (-1) <= h <= degrees 90 -> Saemundsson h = refr (102 / 100) (103 / 10) (511 / 100) (h * 180 / PI).
Proof. intros H. apply to_deg in H. unfold Saemundsson, refr, arg. cbv zeta. f_equal. apply inv_tan, arg_sin; lra. Qed.

Lemma Bennett_decr g h : degrees (-1) <= g -> g < h -> h <= degrees 90 -> Bennett h < Bennett g.
Proof.
  intros A B C. rewrite !Bennett_refr by lra. pose proof (deg_lt g h B). pose proof (to_deg (-1) 90 g ltac:(lra)). pose proof (to_deg (-1) 90 h ltac:(lra)).
  apply refr_decreasing; lra.
Qed.
Lemma Saem_decr g h : degrees (-1) <= g -> g < h -> h <= degrees 90 -> Saemundsson h < Saemundsson g.
Proof.
  intros A B C. rewrite !Saem_refr by lra. pose proof (deg_lt g h B). pose proof (to_deg (-1) 90 g ltac:(lra)). pose proof (to_deg (-1) 90 h ltac:(lra)).
  apply refr_decreasing; lra.
Qed.
Lemma min_back x : AngleFromMin x * 180 / PI * 60 = x.
Proof. unfold AngleFromMin. field. pose proof PI_RGT_0. lra. Qed.
Lemma min_lt x y : x < y <-> AngleFromMin x < AngleFromMin y.
Proof. unfold AngleFromMin. assert (HP := PI_RGT_0). assert (0 < PI / 180 / 60) by lra. split; intros; nra. Qed.
Lemma sin_lip x y : Rabs (sin x - sin y) <= Rabs (x - y).
Proof.
  pose proof (sin_close 1 1 x y 0 (Rabs (x - y))) as H. rewrite Rmult_0_l, Rplus_0_r in H. specialize (H (Rle_refl _)).
  rewrite !Rmult_1_l, Rminus_eq_0, Rabs_R0, Rabs_R1 in H. lra.
Qed.
Lemma Bennett2_decr g h : degrees (-1) <= g -> g < h -> h <= degrees 90 -> Bennett2 h < Bennett2 g.
Proof.
  intros A B C. pose proof (Bennett_decr g h A B C) as D. unfold Bennett2. cbv zeta. apply (proj1 (min_lt _ _)).
  assert (HP := PI_bounds). set (p := Bennett g * 180 / PI * 60). set (q := Bennett h * 180 / PI * 60).
  assert (q < p). { unfold p, q. apply Rmult_lt_compat_r; [lra|]. apply deg_lt, D. }
  pose proof (sin_lip ((147 / 10 * p + 13) * PI / 180) ((147 / 10 * q + 13) * PI / 180)) as L.
  replace ((147 / 10 * p + 13) * PI / 180 - (147 / 10 * q + 13) * PI / 180) with (147 / 10 * (PI / 180) * (p - q)) in L by field.
  rewrite (Rabs_pos_eq (147 / 10 * (PI / 180) * (p - q))) in L by nra. apply Rabs_le_inv in L.
  assert (147 / 10 * (PI / 180) * (p - q) <= 1 * (p - q)) by (apply Rmult_le_compat_r; lra). lra.
Qed.
Lemma Bennett2_close h : Rabs (Bennett2 h - Bennett h) <= AngleFromMin 0.06.
Proof.
  unfold Bennett2. cbv zeta. set (p := Bennett h * 180 / PI * 60). assert (HP := PI_RGT_0).
  assert (E : Bennett h = AngleFromMin p) by (unfold p, AngleFromMin; field; lra). rewrite E. unfold AngleFromMin.
  set (sn := sin _). assert (Rabs sn <= 1) by apply abs_sin.
  replace ((p - 6 / 100 * sn) * (PI / 180 / 60) - p * (PI / 180 / 60)) with (- (6 / 100 * (PI / 180 / 60)) * sn) by field.
  rewrite Rabs_mult, Rabs_Ropp, Rabs_pos_eq by lra. decimals. nra.
Qed.

Lemma PI_fine : 314159 / 100000 < PI < 314160 / 100000.
Proof.
  pose proof (PI_2_3_7_ineq 2) as [A _]. pose proof (PI_2_3_7_ineq 3) as [_ B]. cbn [Nat.mul Nat.add sum_f_R0] in A, B. unfold tg_alt, PI_2_3_7_tg, Ratan_seq in A, B.
  cbn [Nat.mul Nat.add pow INR] in A, B. lra.
Qed.
Lemma Saem_order g h : degrees (-1) <= g -> g < h -> h <= degrees 90 -> g + Saemundsson g < h + Saemundsson h.
Proof.
  intros A B C. rewrite !Saem_refr by lra. pose proof (deg_lt g h B) as L. pose proof (to_deg (-1) 90 g ltac:(lra)) as G. pose proof (to_deg (-1) 90 h ltac:(lra)) as H.
  assert (HP := PI_fine).
  assert (E : (h * 180 / PI - g * 180 / PI) * (PI / 180) = h - g) by (field; lra).
  assert (A1 : arg (103 / 10) (511 / 100) (-1) = -1 + 1030 / 411) by (unfold arg; field).
  assert (A2 : arg (103 / 10) (511 / 100) 90 = 90 + 1030 / 9511) by (unfold arg; field).
  pose proof (refr_rate (102 / 100) (103 / 10) (511 / 100) (g * 180 / PI) (h * 180 / PI) (26 / 1000)) as R0. rewrite E in R0.
  assert (refr (102 / 100) (103 / 10) (511 / 100) (g * 180 / PI) - refr (102 / 100) (103 / 10) (511 / 100) (h * 180 / PI) < h - g); [|lra].
  apply R0; try lra.
  rewrite A1. set (x := (-1 + 1030 / 411) * PI / 180). assert (X : 26 / 1000 + 2 / 10000 <= x <= 27 / 1000) by (unfold x; lra).
  pose proof (sin_cube x ltac:(lra)) as S. assert (x * x * x <= 27 / 1000 * (27 / 1000) * (27 / 1000)) by nra. lra.
Qed.
Lemma Bennett_order g h : degrees (-1) <= g -> g < h -> h <= degrees 90 -> g - Bennett g < h - Bennett h.
Proof. intros A B C. pose proof (Bennett_decr g h A B C). lra. Qed.
Lemma deg_le a b : a <= b -> degrees a <= degrees b.
Proof. intros. unfold degrees. pose proof PI_RGT_0. nra. Qed.
Lemma arg_mono k m u v : 1 < m -> 0 < k < (m - 1) * (m - 1) -> -1 <= u -> u <= v -> arg k m u <= arg k m v.
Proof. intros. destruct (Req_dec u v) as [->|N]; [lra|]. destruct (arg_diff k m u v); lra. Qed.
Lemma Bennett_pos h : degrees (-1) <= h <= degrees 89.92 -> 0 < Bennett h.
Proof.
  intros H. assert (D : 89.92 <= 90) by (decimals; lra). apply deg_le in D. rewrite Bennett_refr by lra.
  assert (G : -1 <= h * 180 / PI <= 89.92) by (apply to_deg; lra). revert G. decimals. intros G.
  apply refr_sign; try lra. apply Rle_lt_trans with (arg (731 / 100) (44 / 10) (8992 / 100)); [apply arg_mono; lra|]. unfold arg. lra.
Qed.
Lemma Saem_pos h : degrees (-1) <= h <= degrees 89.89 -> 0 < Saemundsson h.
Proof.
  intros H. assert (D : 89.89 <= 90) by (decimals; lra). apply deg_le in D. rewrite Saem_refr by lra.
  assert (G : -1 <= h * 180 / PI <= 89.89) by (apply to_deg; lra). revert G. decimals. intros G.
  apply refr_sign; try lra. apply Rle_lt_trans with (arg (103 / 10) (511 / 100) (8989 / 100)); [apply arg_mono; lra|]. unfold arg. lra.
Qed.
Lemma zenith_deg : PI / 2 = degrees 90. Proof. unfold degrees. field. Qed.
Lemma zenith_back : PI / 2 * 180 / PI = 90. Proof. field. pose proof PI_RGT_0. lra. Qed.
Lemma range90 : degrees (-1) <= PI / 2 <= degrees 90.
Proof. rewrite zenith_deg. split; apply deg_le; lra. Qed.
Lemma cot_zenith : - (1 / 100) < cot ((90 + 731 / 9440) * PI / 180) < 0.
Proof.
  assert (HP := PI_fine). set (y := 731 / 9440 * PI / 180). replace ((90 + 731 / 9440) * PI / 180) with (PI / 2 + y) by (unfold y; field).
  unfold cot. rewrite cos_plus, sin_plus, cos_PI2, sin_PI2. 
  assert (Y : 0 < y < 2 / 1000) by (unfold y; lra).
  assert (C : 1 / 2 < cos y). { pose proof (pre_cos_bound y 0 ltac:(lra) ltac:(lra)) as [P _]. revert P. unfold cos_approx, cos_term. cbn. intros P. nra. }
  assert (0 < sin y < 2 / 1000). { split; [apply sin_gt_0; lra|]. pose proof (sin_le_x y ltac:(lra)). lra. }
  replace ((0 * cos y - 1 * sin y) / (1 * cos y + 0 * sin y)) with (- (sin y / cos y)) by (field; lra).
  assert (sin y / cos y < 1 / 100). { apply (Rmult_lt_reg_r (cos y)); [lra|]. unfold Rdiv at 1. rewrite Rmult_assoc, Rinv_l by lra. lra. }
  assert (0 < sin y / cos y) by (apply Rdiv_lt_0_compat; lra). lra.
Qed.
Lemma zenith_negative : Bennett (PI / 2) < 0 /\ Bennett2 (PI / 2) < 0 /\ Saemundsson (PI / 2) < 0.
Proof.
  pose proof range90 as RG. assert (HP := PI_fine).
  assert (B : Bennett (PI / 2) = AngleFromMin (cot ((90 + 731 / 9440) * PI / 180))).
  { rewrite Bennett_refr by exact RG. rewrite zenith_back. unfold refr. f_equal. rewrite Rmult_1_l. f_equal. f_equal. f_equal. unfold arg. field. }
  pose proof cot_zenith as C. split; [|split].
  - rewrite B. replace 0 with (AngleFromMin 0) by (unfold AngleFromMin; ring). apply (proj1 (min_lt _ _)). lra.
  - unfold Bennett2. cbv zeta. rewrite B, min_back. set (b := cot _) in *.
    replace 0 with (AngleFromMin 0) by (unfold AngleFromMin; ring). apply (proj1 (min_lt _ _)).
    assert (0 < sin ((147 / 10 * b + 13) * PI / 180)) by (apply sin_gt_0; nra). lra.
  - rewrite Saem_refr by exact RG. rewrite zenith_back. apply refr_sign; try lra. unfold arg. lra.
Qed.
Lemma Bennett_horizon : AngleFromMin 34 < Bennett 0 < AngleFromMin 35.
Proof.
  assert (HP := PI_fine). rewrite Bennett_refr by (unfold degrees; lra). replace (0 * 180 / PI) with 0 by (field; lra).
  unfold refr. set (x := arg _ _ 0 * PI / 180). assert (X : 2898 / 100000 < x < 29 / 1000) by (unfold x, arg; lra).
  pose proof (sin_cube x ltac:(lra)) as S1. pose proof (sin_le_x x ltac:(lra)) as S2. assert (x * x * x <= 29 / 1000 * (29 / 1000) * (29 / 1000)) by nra.
  pose proof (COS_bound x) as [_ C2]. assert (C1 : 9995 / 10000 < cos x). { pose proof (pre_cos_bound x 0 ltac:(lra) ltac:(lra)) as [P _]. revert P. unfold cos_approx, cos_term. cbn. intros P. nra. }
  assert (E : cot x * sin x = cos x) by (unfold cot; field; lra). rewrite Rmult_1_l.
  split; apply (proj1 (min_lt _ _)).
  - apply Rnot_le_lt. intros H'. assert (cot x * sin x <= 34 * (29 / 1000)) by nra. lra.
  - apply Rnot_le_lt. intros H'. assert (35 * sin x <= cot x * sin x) by nra. lra.
Qed.
Lemma Bennett2_pos h : degrees (-1) <= h <= degrees 89 -> 0 < Bennett2 h.
Proof.
  intros H. pose proof (deg_le 89 90 ltac:(lra)) as D. assert (HP := PI_fine).
  assert (B : AngleFromMin (16 / 1000) < Bennett (degrees 89)).
  { pose proof (deg_le (-1) 89 ltac:(lra)). rewrite Bennett_refr by lra. rewrite (deg_back _ 89) by reflexivity. unfold refr. apply (proj1 (min_lt _ _)). rewrite Rmult_1_l.
    set (y := (90 - arg (731 / 100) (44 / 10) 89) * PI / 180). replace (arg (731 / 100) (44 / 10) 89 * PI / 180) with (PI / 2 - y) by (unfold y; field).
    assert (Y : 16085 / 1000000 < y < 17 / 1000) by (unfold y, arg; lra).
    unfold cot. rewrite cos_shift, sin_shift.
    pose proof (sin_cube y ltac:(lra)) as S1. assert (y * y * y <= 17 / 1000 * (17 / 1000) * (17 / 1000)) by nra.
    assert (0 < cos y) by (apply cos_gt_0; lra). pose proof (COS_bound y) as [_ C2].
    apply (Rmult_lt_reg_r (cos y)); [assumption|]. unfold Rdiv at 2. rewrite Rmult_assoc, Rinv_l by lra. nra. }
  assert (B' : AngleFromMin (16 / 1000) < Bennett h).
  { destruct (Req_dec h (degrees 89)) as [->|N]; [exact B|]. pose proof (Bennett_decr h (degrees 89) ltac:(lra) ltac:(lra) ltac:(lra)). lra. }
  unfold Bennett2. cbv zeta. set (b := Bennett h * 180 / PI * 60).
  assert (Eb : Bennett h = AngleFromMin b) by (unfold b, AngleFromMin; field; lra). rewrite Eb in B'. apply (proj2 (min_lt _ _)) in B'.
  replace 0 with (AngleFromMin 0) by (unfold AngleFromMin; ring). apply (proj1 (min_lt _ _)).
  assert (sin ((147 / 10 * b + 13) * PI / 180) <= (147 / 10 * b + 13) * PI / 180) by (apply sin_le_x; nra). nra.
Qed.

(** Altitudes above 15 degrees: t is the cotangent of the altitude. *)
Lemma sqrt3_hi : sqrt 3 <= 17321 / 10000.
Proof. rewrite <- (sqrt_Rsqr (17321 / 10000)) by lra. apply sqrt_le_1; unfold Rsqr; lra. Qed.
Lemma cot15 : cot (PI / 12) <= 37321 / 10000.
Proof.
  assert (HP := PI_RGT_0). pose proof sqrt3_hi as S3. assert (0 < sin (PI / 12)) by (apply sin_gt_0; lra).
  assert (E : cot (PI / 12) = (1 + cos (PI / 6)) / sin (PI / 6)).
  { replace (PI / 6) with (2 * (PI / 12)) by field. rewrite sin_2a, cos_2a. unfold cot. pose proof (sc1 (PI / 12)). 
    assert (0 < cos (PI / 12)) by (apply cos_gt_0; lra).
    replace (1 + (cos (PI / 12) * cos (PI / 12) - sin (PI / 12) * sin (PI / 12))) with (2 * cos (PI / 12) * cos (PI / 12)) by lra. field. lra. }
  rewrite E, sin_PI6, cos_PI6. lra.
Qed.
Lemma tan_cot h : 0 < sin h -> tan (PI / 2 - h) = cot h.
Proof. intros H. unfold tan, cot. rewrite sin_shift, cos_shift. reflexivity. Qed.
Lemma cot_range h : degrees 15 <= h <= degrees 90 -> 0 < sin h /\ 0 <= cot h <= 37321 / 10000.
Proof.
  unfold degrees. intros H. assert (HP := PI_RGT_0). assert (S : 0 < sin h) by (apply sin_gt_0; lra). split; [exact S|]. split.
  - unfold cot. apply Rmult_le_pos; [apply cos_ge_0; lra | left; apply Rinv_0_lt_compat; exact S].
  - pose proof cot15. destruct (Req_dec h (PI / 12)) as [->|N]; [lra|]. pose proof (cot_decreasing (PI / 12) h ltac:(lra) ltac:(lra) ltac:(lra)). lra.
Qed.
Lemma gt15_poly a b t u : 0 <= t -> t < u -> u <= 37321 / 10000 -> 50 < a < 60 -> 0 < b < 1 / 10 -> 0 <= a * t - b * (t * t * t) < a * u - b * (u * u * u).
Proof. intros. split; [assert (b * (t * t) <= 2) by nra; nra|]. assert (t * t + t * u + u * u <= 45) by nra. assert (b * (t * t + t * u + u * u) < 5) by nra. nra. Qed.
Lemma Gt15_decr g h : degrees 15 <= g -> g < h -> h <= degrees 90 ->
  0 <= Gt15True h < Gt15True g /\ 0 <= Gt15Apparent h < Gt15Apparent g.
Proof.
  intros A B C. destruct (cot_range g) as [Sg Rg]; [lra|]. destruct (cot_range h) as [Sh Rh]; [lra|].
  assert (D : cot h < cot g). { assert (HP := PI_RGT_0). unfold degrees in *. apply cot_decreasing; lra. }
  unfold Gt15True, Gt15Apparent, gt15true1, gt15true2, gt15app1, gt15app2. cbv zeta. rewrite !tan_cot by assumption.
  set (t := cot h) in *. set (u := cot g) in *. clearbody t u.
  pose proof (gt15_poly (58294 / 1000) (668 / 10000) t u) as P1. pose proof (gt15_poly (58276 / 1000) (824 / 10000) t u) as P2.
  unfold AngleFromSec. assert (K : 0 < PI / 180 / 3600) by (pose proof PI_RGT_0; lra). set (k := PI / 180 / 3600) in *. clearbody k.
  assert (Q : forall a b w, a * k * w - b * k * (w * w * w) = (a * w - b * (w * w * w)) * k) by (intros; ring). rewrite !Q.
  destruct P1 as [P1 P1']; try lra. destruct P2 as [P2 P2']; try lra. split; split; try (apply Rmult_le_pos; lra); apply Rmult_lt_compat_r; assumption.
Qed.
Lemma gt15_core k t r d : 0 <= t <= 37321 / 10000 -> 314159 / 64800000000 < k < 314160 / 64800000000 ->
  let w := (58294 / 1000 * t - 668 / 10000 * (t * t * t)) * k in
  w * (1 - 1 / 1000000) <= r <= w * (1 + 1 / 1000000) -> r * (1 + t * t) <= d <= r * (1 + t * t) * (1004 / 1000) ->
  Rabs (58276 / 1000 * (t + d) - 824 / 10000 * ((t + d) * (t + d) * (t + d)) - (58294 / 1000 * t - 668 / 10000 * (t * t * t))) <= 3 / 100.
Proof.
  intros Ht Hk w Hr Hd. destruct (ex_intro (fun s => s = t * t) (t * t) eq_refl) as [s Es]. rewrite <- Es in Hd.
  assert (Hs : 0 <= s <= 1392858 / 100000) by (rewrite Es; nra).
  set (p := 58294 / 1000 - 668 / 10000 * s). assert (Hp : 57 < p <= 58294 / 1000) by (unfold p; lra).
  set (e := p * k). assert (He : 276 / 1000000 < e < 283 / 1000000) by (unfold e; split; nra).
  assert (Ew : w = t * e) by (unfold w, e, p; rewrite Es; ring).
  (* d = t * m, with m between the bounds *)
  set (lo := e * (1 - 1 / 1000000) * (1 + s)). set (hi := e * (1 + 1 / 1000000) * (1 + s) * (1004 / 1000)).
  assert (D : t * lo <= d <= t * hi).
  { split.
    - apply Rle_trans with (2 := proj1 Hd). replace (t * lo) with (w * (1 - 1 / 1000000) * (1 + s)) by (rewrite Ew; unfold lo; ring). apply Rmult_le_compat_r; lra.
    - apply Rle_trans with (1 := proj2 Hd). replace (t * hi) with (w * (1 + 1 / 1000000) * (1 + s) * (1004 / 1000)) by (rewrite Ew; unfold hi; ring). apply Rmult_le_compat_r; [lra|]. apply Rmult_le_compat_r; lra. }
  assert (Hhi : hi <= 43 / 10000). { unfold hi. assert (e * (1 + s) <= 283 / 1000000 * (1493 / 100)) by (apply Rmult_le_compat; lra). nra. } assert (Hlo : 0 < lo) by (unfold lo; apply Rmult_lt_0_compat; [apply Rmult_lt_0_compat|]; lra).
  assert (D1 : d <= t * (43 / 10000)) by (apply Rle_trans with (1 := proj2 D); apply Rmult_le_compat_l; lra). assert (D0 : 0 <= d <= 161 / 10000) by (split; [apply Rle_trans with (2 := proj1 D); apply Rmult_le_pos; lra | lra]).
  assert (DD : 0 <= d * d <= 26 / 100000) by nra.
  assert (E : 58276 / 1000 * (t + d) - 824 / 10000 * ((t + d) * (t + d) * (t + d)) - (58294 / 1000 * t - 668 / 10000 * (t * t * t)) =
    - (18 / 1000) * t - 156 / 10000 * (t * s) + d * (58276 / 1000 - 2472 / 10000 * s) - 2472 / 10000 * (t * (d * d)) - 824 / 10000 * (d * (d * d))).
  { rewrite Es. field. }
  rewrite E. clear E.
  set (q := 58276 / 1000 - 2472 / 10000 * s). assert (Hq : 54 < q <= 58276 / 1000) by (unfold q; lra).
  assert (L1 : t * (lo * q) <= d * q <= t * (hi * q)) by (split; [replace (t * (lo * q)) with (t * lo * q) by ring | replace (t * (hi * q)) with (t * hi * q) by ring]; apply Rmult_le_compat_r; lra).
  assert (S1 : 0 <= t * (d * d) <= t * (26 / 100000)) by nra.
  assert (S2 : 0 <= d * (d * d) <= t * (43 / 10000 * (26 / 100000))) by (split; [apply Rmult_le_pos; lra | replace (t * (43 / 10000 * (26 / 100000))) with (t * (43 / 10000) * (26 / 100000)) by ring; apply Rmult_le_compat; lra]).
  (* polynomial bounds *)
  assert (G1 : 18 / 1000 + 156 / 10000 * s - lo * q <= 79 / 10000).
  { assert (KL : 314158 / 64800000000 * (p * (1 + s) * q) <= lo * q).
    { unfold lo, e. replace (p * k * (1 - 1 / 1000000) * (1 + s) * q) with (k * (1 - 1 / 1000000) * (p * (1 + s) * q)) by ring. apply Rmult_le_compat_r; [|lra]. assert (0 < p * (1 + s)) by (apply Rmult_lt_0_compat; lra). apply Rmult_le_pos; lra. }
    assert (X : p * (1 + s) * q = 58294 / 1000 * (58276 / 1000) + s * (58294 / 1000 * (58276 / 1000) - 58294 / 1000 * (2472 / 10000) - 668 / 10000 * (58276 / 1000)) + s * s * (668 / 10000 * (2472 / 10000) - 58294 / 1000 * (2472 / 10000) - 668 / 10000 * (58276 / 1000)) + s * s * s * (668 / 10000 * (2472 / 10000))) by (unfold p, q; field).
    assert (X2 : s * s <= 1392858 / 100000 * s) by (apply Rmult_le_compat_r; lra). assert (X3 : 0 <= s * s * s) by (apply Rmult_le_pos; [apply Rmult_le_pos|]; lra). lra. }
  assert (G2 : hi * q - 18 / 1000 - 156 / 10000 * s <= 79 / 10000).
  { assert (KL : hi * q <= 314161 / 64800000000 * (1004 / 1000) * (p * (1 + s) * q)).
    { unfold hi, e. replace (p * k * (1 + 1 / 1000000) * (1 + s) * (1004 / 1000) * q) with (k * (1 + 1 / 1000000) * (1004 / 1000) * (p * (1 + s) * q)) by ring. apply Rmult_le_compat_r; [|lra]. assert (0 < p * (1 + s)) by (apply Rmult_lt_0_compat; lra). apply Rmult_le_pos; lra. }
    assert (X : p * (1 + s) * q = 58294 / 1000 * (58276 / 1000) + s * (58294 / 1000 * (58276 / 1000) - 58294 / 1000 * (2472 / 10000) - 668 / 10000 * (58276 / 1000)) + s * s * (668 / 10000 * (2472 / 10000) - 58294 / 1000 * (2472 / 10000) - 668 / 10000 * (58276 / 1000)) + s * s * s * (668 / 10000 * (2472 / 10000))) by (unfold p, q; field).
    pose proof (Rle_0_sqr (s - 5)) as X1. unfold Rsqr in X1. assert (X2 : 0 <= s * s) by (apply Rmult_le_pos; lra). assert (X3 : s * s * s <= s * s * (1392858 / 100000)) by (apply Rmult_le_compat_l; lra). lra. }
  apply Rabs_le. split.
  - assert (t * (18 / 1000 + 156 / 10000 * s - lo * q) <= t * (79 / 10000)) by (apply Rmult_le_compat_l; lra). rewrite Rmult_minus_distr_l in H. lra.
  - assert (t * (hi * q - 18 / 1000 - 156 / 10000 * s) <= t * (79 / 10000)) by (apply Rmult_le_compat_l; lra). rewrite Rmult_minus_distr_l in H. lra.
Qed.
Lemma tan_small x : 0 <= x <= 11 / 10000 -> x * (1 - 1 / 1000000) <= tan x <= x * (1 + 1 / 1000000).
Proof.
  intros H. assert (HP := PI_fine). pose proof (sin_cube x ltac:(lra)) as S1. pose proof (sin_le_x x ltac:(lra)) as S2.
  assert (C1 : 1 - x * x / 2 <= cos x). { pose proof (pre_cos_bound x 0 ltac:(lra) ltac:(lra)) as [P _]. revert P. unfold cos_approx, cos_term. cbn. intros P. lra. }
  pose proof (COS_bound x) as [_ C2]. assert (XX : x * x <= 11 / 10000 * (11 / 10000)) by nra. assert (0 < cos x) by lra.
  assert (E : tan x * cos x = sin x) by (unfold tan; field; lra).
  assert (T0 : 0 <= tan x). { unfold tan. apply Rmult_le_pos; [apply sin_ge_0; lra | left; apply Rinv_0_lt_compat; lra]. }
  split.
  - assert (sin x <= tan x) by (rewrite <- E; nra). assert (x * x * x <= x * (121 / 100000000)) by nra. lra.
  - apply (Rmult_le_reg_r (cos x)); [lra|]. rewrite E. apply Rle_trans with (1 := S2).
    assert (x * (1 + 1 / 1000000) * (1 - x * x / 2) <= x * (1 + 1 / 1000000) * cos x) by (apply Rmult_le_compat_l; nra).
    assert (x * (x * x) <= x * (121 / 100000000)) by nra. nra.
Qed.
Lemma tan_add x y : cos x <> 0 -> cos y <> 0 -> 1 - tan x * tan y <> 0 -> tan (x + y) = tan x + tan y * (1 + tan x * tan x) / (1 - tan x * tan y).
Proof.
  intros A B C. assert (cos (x + y) <> 0).
  { rewrite cos_plus. intros E. apply C. unfold tan. apply (Rmult_eq_reg_r (cos x * cos y)); [|apply Rmult_integral_contrapositive_currified; assumption].
    rewrite Rmult_0_l, <- E. field. split; assumption. }
  rewrite tan_plus by assumption. field. exact C.
Qed.
Lemma Gt15_inverse h0 : degrees 15 <= h0 <= degrees 90 -> Rabs (Gt15Apparent (h0 - Gt15True h0) - Gt15True h0) <= arcsec 0.03.
Proof.
  intros Hh. destruct (cot_range h0 Hh) as [Sh Rt]. assert (HP := PI_fine).
  set (k := PI / 180 / 3600). assert (Hk : 314159 / 64800000000 < k < 314160 / 64800000000) by (unfold k; lra).
  assert (T : Gt15True h0 = (58294 / 1000 * cot h0 - 668 / 10000 * (cot h0 * cot h0 * cot h0)) * k).
  { unfold Gt15True, gt15true1, gt15true2, AngleFromSec. cbv zeta. rewrite tan_cot by exact Sh. fold k. ring. }
  set (z := PI / 2 - h0). assert (Et : tan z = cot h0) by (apply tan_cot, Sh).
  set (t := cot h0) in *.
  set (w := (58294 / 1000 * t - 668 / 10000 * (t * t * t)) * k) in *.
  assert (Ht3 : 0 <= t * t * t <= 1393 / 100 * t). { assert (0 <= t * t <= 1393 / 100) by nra. split; [apply Rmult_le_pos; lra|]. replace (t * t * t) with (t * t * t) by ring. apply Rmult_le_compat_r; lra. }
  assert (Hw : 0 <= w <= 1039 / 1000000).
  { unfold w. assert (0 <= (t - 37321 / 10000) * (t - 37321 / 10000) * (t + 2 * (37321 / 10000))) by (apply Rmult_le_pos; [pose proof (Rle_0_sqr (t - 37321 / 10000)) as X; exact X | lra]).
    assert (0 <= 58294 / 1000 * t - 668 / 10000 * (t * t * t) <= 2142 / 10) by lra. split; [apply Rmult_le_pos; lra|].
    apply Rle_trans with (2142 / 10 * (314160 / 64800000000)); [apply Rmult_le_compat; lra | lra]. }
  pose proof (tan_small w ltac:(lra)) as Hr. set (r := tan w) in *.
  assert (Hr0 : 0 <= r <= 104 / 100000) by lra.
  assert (Htr : 0 <= t * r <= 389 / 100000) by (split; [apply Rmult_le_pos; lra | apply Rle_trans with (37321 / 10000 * (104 / 100000)); [apply Rmult_le_compat; lra | lra]]).
  set (d := r * (1 + t * t) / (1 - t * r)).
  assert (A : Gt15Apparent (h0 - Gt15True h0) = (58276 / 1000 * (t + d) - 824 / 10000 * ((t + d) * (t + d) * (t + d))) * k).
  { unfold Gt15Apparent, gt15app1, gt15app2, AngleFromSec. cbv zeta. rewrite T. fold w.
    replace (PI / 2 - (h0 - w)) with (z + w) by (unfold z; ring).
    assert (tan (z + w) = t + d). { rewrite tan_add; rewrite ?Et; fold t; fold r; try lra; [reflexivity | unfold z; rewrite cos_shift; lra | assert (0 < cos w) by (apply cos_gt_0; lra); lra]. }
    rewrite H. fold k. ring. }
  rewrite A, T. fold w. 
  assert (C : Rabs (58276 / 1000 * (t + d) - 824 / 10000 * ((t + d) * (t + d) * (t + d)) - (58294 / 1000 * t - 668 / 10000 * (t * t * t))) <= 3 / 100).
  { apply (gt15_core k t r d Rt Hk); [exact Hr|]. unfold d.
    assert (I1 : 1 <= / (1 - t * r) <= 1004 / 1000). 
    { split; [rewrite <- Rinv_1 at 1; apply Rinv_le_contravar; lra|]. apply (Rmult_le_reg_r (1 - t * r)); [lra|]. rewrite Rinv_l by lra. lra. }
    assert (P : 0 <= r * (1 + t * t)) by (apply Rmult_le_pos; [lra|]; nra). unfold Rdiv. split; nra. }
  unfold w. rewrite <- Rmult_minus_distr_r, Rabs_mult, (Rabs_pos_eq k) by lra. unfold arcsec. fold k. apply Rmult_le_compat_r; [lra|]. decimals. lra.
Qed.
