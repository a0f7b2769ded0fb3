(** Lemmas for P_apparent: the velocity of the Earth of the Ron-Vondrak expression and of the elliptic orbit. *)
From Coq Require Import ZArith Reals List Lra Lia Psatz.
From Verif Require Import GoFloat GoMath M_base M_precess M_solar M_apparent S_Sphere S_precess S_solar S_apparent L_trig L_coord L_kepler L_precess L_solar L_elements L_physical L_apparent.
Import ListNotations.
Local Open Scope R_scope.

Lemma PI_10 : 31415926535 / 10000000000 < PI < 31415926536 / 10000000000.
Proof.
  pose proof (PI_2_3_7_ineq 5) as [A _]. pose proof (PI_2_3_7_ineq 5) as [_ B]. cbn [Nat.mul Nat.add sum_f_R0] in A, B. unfold tg_alt, PI_2_3_7_tg, Ratan_seq in A, B.
  cbn [Nat.mul Nat.add pow INR] in A, B. lra.
Qed.
Lemma abs_le_inv x y : Rabs x <= y -> - y <= x <= y.
Proof. intros H. pose proof (Rle_abs x). pose proof (Rle_abs (- x)) as H1. rewrite Rabs_Ropp in H1. lra. Qed.
Lemma sin7 x : 0 <= x <= 1 -> x - x ^ 3 / 6 + x ^ 5 / 120 - x ^ 7 / 5040 <= sin x <= x - x ^ 3 / 6 + x ^ 5 / 120.
Proof.
  intros H. pose proof PI_10. destruct (sin_bound x 1) as [A _]; [lra|lra|]. destruct (sin_bound x 0) as [_ B]; [lra|lra|].
  unfold sin_approx, sin_term in A, B. simpl in A, B. lra.
Qed.
Lemma cos8 x : 0 <= x <= 1 -> 1 - x ^ 2 / 2 + x ^ 4 / 24 - x ^ 6 / 720 <= cos x <= 1 - x ^ 2 / 2 + x ^ 4 / 24.
Proof.
  intros H. pose proof PI_10. destruct (cos_bound x 1) as [A _]; [lra|lra|]. destruct (cos_bound x 0) as [_ B]; [lra|lra|].
  unfold cos_approx, cos_term in A, B. simpl in A, B. lra.
Qed.
Definition eps0 : R := AngleFromSec (84381448 / 1000).
Lemma eps0_sc : 3977771 / 10000000 <= sin eps0 <= 3977776 / 10000000 /\ 9174819 / 10000000 <= cos eps0 <= 9174895 / 10000000.
Proof.
  pose proof PI_10 as P. set (q := 409092804 / 1000000000). assert (D : Rabs (eps0 - q) <= 2 / 100000000). { unfold eps0, AngleFromSec, q. apply Rabs_le. lra. }
  pose proof (sin_lip eps0 q) as S. pose proof (cos_lip eps0 q) as C. pose proof (sin7 q ltac:(unfold q; lra)) as S7. pose proof (cos8 q ltac:(unfold q; lra)) as C8.
  assert (S' := Rle_trans _ _ _ S D). assert (C' := Rle_trans _ _ _ C D). clear S C D. apply abs_le_inv in S', C'. set (sq := sin q) in *. set (cq := cos q) in *. clearbody sq cq.
  unfold q in S7, C8. simpl pow in S7, C8. lra.
Qed.
Definition peri0 : R := AngleFromDeg (10293735 / 100000).
Lemma peri0_sc : - 2238900 / 10000000 <= cos peri0 <= - 2238800 / 10000000 /\ 9746140 / 10000000 <= sin peri0 <= 9746200 / 10000000.
Proof.
  pose proof PI_10 as P. set (q := 2257993 / 10000000). set (d := peri0 - PI / 2). assert (D : Rabs (d - q) <= 1 / 1000000). { unfold d, peri0, AngleFromDeg, q. apply Rabs_le. lra. }
  replace peri0 with (PI / 2 + d) by (unfold d; ring). rewrite <- cos_sin. replace (cos (PI / 2 + d)) with (- sin d) by (rewrite cos_plus, cos_PI2, sin_PI2; ring).
  pose proof (sin_lip d q) as S. pose proof (cos_lip d q) as C. pose proof (sin7 q ltac:(unfold q; lra)) as S7. pose proof (cos8 q ltac:(unfold q; lra)) as C8.
  assert (S' := Rle_trans _ _ _ S D). assert (C' := Rle_trans _ _ _ C D). clear S C D. clearbody d. apply abs_le_inv in S', C'. set (sq := sin q) in *. set (cq := cos q) in *. clearbody sq cq.
  unfold q in S7, C8. simpl pow in S7, C8. lra.
Qed.
Lemma norm_box x y z kx ky kz k : Rabs x <= kx -> Rabs y <= ky -> Rabs z <= kz -> 0 <= k -> kx * kx + ky * ky + kz * kz <= k * k -> norm (mkvec x y z) <= k.
Proof.
  intros X Y Z K H. apply norm_le; [exact K|]. unfold dot. cbn [vx vy vz].
  assert (sq : forall a b, Rabs a <= b -> a * a <= b * b). { intros a b Hab. apply abs_le_inv in Hab. nra. }
  pose proof (sq _ _ X). pose proof (sq _ _ Y). pose proof (sq _ _ Z). lra.
Qed.
Lemma sc_bound t a b ka kb : Rabs a <= ka -> Rabs b <= kb -> Rabs (a * sin t + b * cos t) <= ka + kb.
Proof.
  intros A B. eapply Rle_trans; [apply Rabs_triang|]. rewrite !Rabs_mult.
  assert (S : Rabs (sin t) <= 1) by (apply Rabs_le, SIN_bound). assert (C : Rabs (cos t) <= 1) by (apply Rabs_le, COS_bound).
  pose proof (Rabs_pos a). pose proof (Rabs_pos b). pose proof (Rabs_pos (sin t)). pose proof (Rabs_pos (cos t)). nra.
Qed.
Lemma T_bound T a b ka kb : Rabs T <= 1 -> Rabs a <= ka -> Rabs b <= kb -> Rabs (a + T * b) <= ka + kb.
Proof.
  intros HT A B. eapply Rle_trans; [apply Rabs_triang|]. rewrite Rabs_mult. pose proof (Rabs_pos b). pose proof (Rabs_pos T). nra.
Qed.
Definition ev (t : R) : vec := mkvec (- sin t) (cos t) 0.
Definition KC : R := kappa * 17314463350.
Lemma KC_range : 1720453 <= KC <= 1720454.
Proof. pose proof PI_10. unfold KC, kappa, AngleFromSec. lra. Qed.
Definition rvA (T : R) : R := 17534703 / 10000000 + 6283075849 / 10000000 * T.
Definition row1 : rvrow := ([0; 1; 0; 0; 0; 0; 0; 0; 0; 0; 0], (((-1719914), (-2), (-25), 0), (25, (-13), 1578089, 156), (10, 32, 684185, (-358))))%Z.
Definition row2 : rvrow := ([0; 2; 0; 0; 0; 0; 0; 0; 0; 0; 0], ((6434, 141, 28007, (-107)), (25697, (-95), (-5904), (-130)), (11141, (-48), (-2559), (-55))))%Z.
Lemma row1_bound T : Rabs T <= 1 -> norm (vsub (app (rot_x eps0) (vec_of (rv_value T row1))) (scale KC (ev (rvA T)))) <= 880.
Proof.
  intros HT. unfold row1, rv_value. cbv beta iota zeta. replace (rv_arg _ (rv_args T)) with (rvA T) by (unfold rv_arg, rv_args, rvA; cbn [combine fold_right fst snd]; ring).
  unfold vec_of, rv_coord, ev, app, rot_x, dot, vsub, vadd, scale. cbn [r1 r2 r3 vx vy vz].
  pose proof eps0_sc as [S C]. pose proof KC_range as K. set (e := eps0) in *. set (k := KC) in *. set (A := rvA T). clearbody e k A.
  apply norm_box with (kx := 570) (ky := 482) (kz := 450); [| | |lra|lra].
  - match goal with |- Rabs ?x <= _ => replace x with ((k - 1719914 + T * (-2)) * sin A + (-25) * cos A) by ring end.
    eapply Rle_trans; [apply sc_bound with (ka := 545) (kb := 25)|lra]; [|apply Rabs_le; lra].
    eapply Rle_trans; [apply T_bound with (ka := 543) (kb := 2)|lra]; [exact HT| |]; apply Rabs_le; lra.
  - match goal with |- Rabs ?x <= _ => replace x with ((25 * cos e + 10 * sin e + T * (-13 * cos e + 32 * sin e)) * sin A + (1578089 * cos e + 684185 * sin e - k + T * (156 * cos e - 358 * sin e)) * cos A) by ring end.
    eapply Rle_trans; [apply sc_bound with (ka := 30) (kb := 451)|lra].
    + eapply Rle_trans; [apply T_bound with (ka := 27) (kb := 1)|lra]; [exact HT| |]; apply Rabs_le; lra.
    + eapply Rle_trans; [apply T_bound with (ka := 450) (kb := 1)|lra]; [exact HT| |]; apply Rabs_le; lra.
  - match goal with |- Rabs ?x <= _ => replace x with ((10 * cos e - 25 * sin e + T * (32 * cos e + 13 * sin e)) * sin A + (684185 * cos e - 1578089 * sin e + T * (- 358 * cos e - 156 * sin e)) * cos A) by ring end.
    eapply Rle_trans; [apply sc_bound with (ka := 40) (kb := 410)|lra].
    + eapply Rle_trans; [apply T_bound with (ka := 1) (kb := 36)|lra]; [exact HT| |]; apply Rabs_le; lra.
    + eapply Rle_trans; [apply T_bound with (ka := 12) (kb := 391)|lra]; [exact HT| |]; apply Rabs_le; lra.
Qed.
Definition c10 : R := AngleFromDeg (1914602 / 1000000).
Lemma KC2_range : 28745 <= KC * (c10 / 2) <= 28746.
Proof. pose proof PI_10. pose proof KC_range. unfold c10, AngleFromDeg. assert (33416107 / 1000000000 <= 1914602 / 1000000 * (PI / 180) <= 33416109 / 1000000000) by lra. set (g := _ * (PI / 180)) in *. clearbody g. nra. Qed.
Lemma row2_bound T : Rabs T <= 1 -> norm (vsub (app (rot_x eps0) (vec_of (rv_value T row2))) (scale (KC * (c10 / 2)) (ev (2 * rvA T - peri0)))) <= 378.
Proof.
  intros HT. unfold row2, rv_value. cbv beta iota zeta. replace (rv_arg _ (rv_args T)) with (2 * rvA T) by (unfold rv_arg, rv_args, rvA; cbn [combine fold_right fst snd]; ring).
  unfold vec_of, rv_coord, ev, app, rot_x, dot, vsub, vadd, scale. cbn [r1 r2 r3 vx vy vz].
  pose proof eps0_sc as [S C]. pose proof KC2_range as K. pose proof peri0_sc as [PC PS]. set (e := eps0) in *. set (k := KC * (c10 / 2)) in *. set (A := 2 * rvA T). set (p := peri0) in *. clearbody e k A p.
  assert (KCp : 6435 <= - (k * cos p) <= 6437) by nra. assert (KSp : 28014 <= k * sin p <= 28017) by nra. rewrite sin_minus, cos_minus.
  apply norm_box with (kx := 263) (ky := 270) (kz := 16); [| | |lra|lra].
  - match goal with |- Rabs ?x <= _ => replace x with ((6434 + k * cos p + T * 141) * sin A + (28007 - k * sin p + T * (-107)) * cos A) by ring end.
    eapply Rle_trans; [apply sc_bound with (ka := 145) (kb := 118)|lra].
    + eapply Rle_trans; [apply T_bound with (ka := 4) (kb := 141)|lra]; [exact HT| |]; apply Rabs_le; lra.
    + eapply Rle_trans; [apply T_bound with (ka := 11) (kb := 107)|lra]; [exact HT| |]; apply Rabs_le; lra.
  - match goal with |- Rabs ?x <= _ => replace x with ((25697 * cos e + 11141 * sin e - k * sin p + T * (-95 * cos e - 48 * sin e)) * sin A + (- 5904 * cos e - 2559 * sin e - k * cos p + T * (- 130 * cos e - 55 * sin e)) * cos A) by ring end.
    eapply Rle_trans; [apply sc_bound with (ka := 120) (kb := 146)|lra].
    + eapply Rle_trans; [apply T_bound with (ka := 12) (kb := 107)|lra]; [exact HT| |]; apply Rabs_le; lra.
    + eapply Rle_trans; [apply T_bound with (ka := 4) (kb := 142)|lra]; [exact HT| |]; apply Rabs_le; lra.
  - match goal with |- Rabs ?x <= _ => replace x with ((11141 * cos e - 25697 * sin e + T * (- 48 * cos e + 95 * sin e)) * sin A + (- 2559 * cos e + 5904 * sin e + T * (- 55 * cos e + 130 * sin e)) * cos A) by ring end.
    eapply Rle_trans; [apply sc_bound with (ka := 8) (kb := 4)|lra].
    + eapply Rle_trans; [apply T_bound with (ka := 1) (kb := 7)|lra]; [exact HT| |]; apply Rabs_le; lra.
    + eapply Rle_trans; [apply T_bound with (ka := 1) (kb := 2)|lra]; [exact HT| |]; apply Rabs_le; lra.
Qed.
Lemma bnm x y a b : Rabs x <= a -> Rabs y <= b -> Rabs (x * y) <= a * b.
Proof. intros H H0. rewrite Rabs_mult. pose proof (Rabs_pos x). pose proof (Rabs_pos y). nra. Qed.
(** The direction of motion of the Earth. *)
Lemma ev_norm t : norm (ev t) = 1.
Proof. unfold norm, ev, dot. cbn [vx vy vz]. replace (_ + _) with (sin t * sin t + cos t * cos t) by ring. rewrite sc1. apply sqrt_1. Qed.
Lemma ev_close x y : norm (vsub (ev x) (ev y)) <= Rabs (x - y).
Proof.
  apply norm_le; [apply Rabs_pos|]. rewrite <- Rabs_mult. rewrite (Rabs_pos_eq ((x - y) * (x - y))) by apply Rle_0_sqr. unfold vsub, vadd, scale, ev, dot. cbn [vx vy vz].
  pose proof (sin_abs_le ((x - y) / 2)) as S. assert (Q : sin ((x - y) / 2) * sin ((x - y) / 2) <= (x - y) / 2 * ((x - y) / 2)).
  { apply Rsqr_le_abs_1 in S. exact S. }
  pose proof (cos_2a_sin ((x - y) / 2)) as C2. replace (2 * ((x - y) / 2)) with (x - y) in C2 by field. rewrite cos_minus in C2. pose proof (sc1 x). pose proof (sc1 y). nra.
Qed.
Lemma ev_second A C : Rabs C <= 1 -> norm (vsub (ev (A + C)) (vadd (ev A) (scale C (ev (A + PI / 2))))) <= C * C / 2 + Rabs C * Rabs C * Rabs C / 6.
Proof.
  intros H. replace (vsub _ _) with (vadd (scale (cos C - 1) (ev A)) (scale (sin C - C) (ev (A + PI / 2)))).
  - eapply Rle_trans; [apply norm_add|]. rewrite !norm_scale, !ev_norm, !Rmult_1_r. pose proof (sin_cubic C ltac:(lra)) as S.
    assert (K : Rabs (cos C - 1) <= C * C / 2); [|lra]. pose proof (sin_abs_le (C / 2)) as SS. apply Rsqr_le_abs_1 in SS. unfold Rsqr in SS.
    pose proof (cos_2a_sin (C / 2)) as C2. replace (2 * (C / 2)) with C in C2 by field. apply Rabs_le. pose proof (COS_bound C). nra.
  - unfold vsub, vadd, scale, ev. cbn [vx vy vz]. rewrite !sin_plus, !cos_plus, sin_PI2, cos_PI2. apply mkvec_eq; ring.
Qed.
Lemma ev_product A p : scale (2 * sin (A - p)) (ev (A + PI / 2)) = vsub (ev (2 * A - p)) (ev p).
Proof.
  unfold vsub, vadd, scale, ev. cbn [vx vy vz]. replace (2 * A - p) with (A + (A - p)) by ring. rewrite (sin_plus A (A - p)), (cos_plus A (A - p)), sin_plus, cos_plus, sin_PI2, cos_PI2.
  rewrite !sin_minus, !cos_minus. pose proof (sc1 A) as Q. set (sA := sin A) in *. set (cA := cos A) in *. set (sp := sin p). set (cp := cos p). clearbody sA cA sp cp. apply mkvec_eq; [| |ring].
  - apply Rminus_diag_uniq. match goal with |- ?x = 0 => transitivity (sp * (sA * sA + cA * cA - 1)); [ring|rewrite Q; ring] end.
  - apply Rminus_diag_uniq. match goal with |- ?x = 0 => transitivity (cp * (1 - (sA * sA + cA * cA))); [ring|rewrite Q; ring] end.
Qed.

(** The elements of the Sun, in the ecliptic of J2000. *)
Definition pA (T : R) : R := AngleFromSec (5029.0966 * T + 1.11113 * T * T - 0.000006 * T * T * T).
Definition periT (T : R) : R := perihelion T - pA T.
Lemma T_powers T : Rabs T <= 1 -> -1 <= T <= 1 /\ Rabs (T * T) <= 1 /\ Rabs (T * T * T) <= 1.
Proof.
  intros H. split; [apply abs_le_inv, H|]. assert (Rabs (T * T) <= 1). { rewrite Rabs_mult. pose proof (Rabs_pos T). nra. }
  split; [assumption|]. rewrite Rabs_mult. pose proof (Rabs_pos T). pose proof (Rabs_pos (T * T)). nra.
Qed.
Lemma poly_bound T a b c d ka kb kc kd k : Rabs T <= 1 -> Rabs a <= ka -> Rabs b <= kb -> Rabs c <= kc -> Rabs d <= kd -> ka + kb + kc + kd <= k ->
  Rabs (a + b * T + c * (T * T) + d * (T * T * T)) <= k.
Proof.
  intros HT A B C D K. destruct (T_powers T HT) as (_ & T2 & T3).
  pose proof (Rabs_triang (a + b * T + c * (T * T)) (d * (T * T * T))). pose proof (Rabs_triang (a + b * T) (c * (T * T))). pose proof (Rabs_triang a (b * T)).
  pose proof (bnm b T kb 1 B HT). pose proof (bnm c (T * T) kc 1 C T2). pose proof (bnm d (T * T * T) kd 1 D T3). lra.
Qed.
Lemma periT_close T : Rabs T <= 1 -> Rabs (periT T - peri0) <= 0.00564.
Proof.
  intros HT. pose proof PI_10 as P. unfold periT, perihelion, pA, peri0. rewrite HornerR3. unfold AngleFromDeg, AngleFromSec.
  match goal with |- Rabs ?x <= _ => replace x with (0 + ((171946 / 100000) * (PI / 180) - 5029.0966 / 3600 * (PI / 180)) * T + (46 / 100000 * (PI / 180) - 1.11113 / 3600 * (PI / 180)) * (T * T) + (0.000006 / 3600 * (PI / 180)) * (T * T * T)) by field end.
  apply poly_bound with (ka := 0) (kb := 0.00563) (kc := 0.000005) (kd := 0.000001); [exact HT|apply Rabs_le; lra..|lra].
Qed.
Definition L0T (T : R) : R := degrees (280.46646 + 36000.76983 * T + 0.0003032 * T ^ 2).
Definition MT (T : R) : R := degrees (357.52911 + 35999.05029 * T - 0.0001537 * T ^ 2).
Definition CT (T : R) : R := degrees ((1.914602 - 0.004817 * T - 0.000014 * T ^ 2) * sin (MT T) + (0.019993 - 0.000101 * T) * sin (2 * MT T) + 0.000289 * sin (3 * MT T)).
Lemma L0_close T : Rabs T <= 1 -> Rabs (L0T T - pA T - (rvA T + PI)) <= 0.000002.
Proof.
  intros HT. pose proof PI_10 as P. unfold L0T, pA, rvA, degrees, AngleFromSec.
  match goal with |- Rabs ?x <= _ => replace x with (280.46646 * (PI / 180) - PI - 17534703 / 10000000 + (36000.76983 * (PI / 180) - 5029.0966 / 3600 * (PI / 180) - 6283075849 / 10000000) * T + (0.0003032 * (PI / 180) - 1.11113 / 3600 * (PI / 180)) * (T * T) + (0.000006 / 3600 * (PI / 180)) * (T * T * T)) by field end.
  apply poly_bound with (ka := 0.000001) (kb := 0.0000005) (kc := 0.0000002) (kd := 0.00000001); [exact HT|apply Rabs_le; lra..|lra].
Qed.
Lemma M_close T : Rabs T <= 1 -> Rabs (MT T - (rvA T - periT T + 2 * PI)) <= 0.000004.
Proof.
  intros HT. pose proof PI_10 as P. unfold MT, periT, perihelion, pA, rvA, degrees. rewrite HornerR3. unfold AngleFromDeg, AngleFromSec.
  match goal with |- Rabs ?x <= _ => replace x with (357.52911 * (PI / 180) - 2 * PI - 17534703 / 10000000 + 10293735 / 100000 * (PI / 180) + (35999.05029 * (PI / 180) + 171946 / 100000 * (PI / 180) - 5029.0966 / 3600 * (PI / 180) - 6283075849 / 10000000) * T + (46 / 100000 * (PI / 180) - 0.0001537 * (PI / 180) - 1.11113 / 3600 * (PI / 180)) * (T * T) + (0.000006 / 3600 * (PI / 180)) * (T * T * T)) by field end.
  apply poly_bound with (ka := 0.0000015) (kb := 0.000002) (kc := 0.0000002) (kd := 0.00000001); [exact HT|apply Rabs_le; lra..|lra].
Qed.
