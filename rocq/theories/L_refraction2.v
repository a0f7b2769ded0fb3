(** Lemmas for C80: Bennett's and Saemundsson's formulas are inverse to each other within 4 arc seconds. *)
From Coq Require Import ZArith Reals List Lra Lia Psatz Bool.
From Flocq Require Import Core.
From Verif Require Import GoMath S_solar M_refraction L_trig L_kepler L_precess L_solar L_refraction L_apparent2 L_taylor L_season2.
Import ListNotations.
Local Open Scope R_scope.

(** ** Bounds for a cotangent, in units of 2^-32
    The half angle x = n / 2^24 is at most 0.8 radians; [sin_q] and [cos_q] are the Taylor polynomials 5040 sin x / x and
    40320 cos x in units of 2^-24, with an error below 2^16. *)
Definition fx (q a : Z) : Z := Z.shiftr (q * a) 24.
Definition sin_q (n : Z) : Z := let q := fx n n in (84557168640 - fx q (14092861440 - fx q (704643072 - q)))%Z.
Definition cos_q (n : Z) : Z := let q := fx n n in (676457349120 - fx q (338228674560 - fx q (28185722880 - fx q (939524096 - q))))%Z.
Definition sin_0 (n : Z) : Z := (n * (sin_q n - 65536))%Z.
Definition sin_1 (n : Z) : Z := (n * (sin_q n + 131072))%Z.
Definition cos_0 (n : Z) : Z := (cos_q n - 65536)%Z.
Definition cos_1 (n : Z) : Z := (cos_q n + 65536)%Z.
Definition half_lo (z : Z) (d : positive) : Z := (z * (314159265 * 16777216) / (36000000000 * Zpos d))%Z.
Definition half_hi (z : Z) (d : positive) : Z := (z * (314159266 * 16777216) / (36000000000 * Zpos d) + 1)%Z.
Definition half_ok (n : Z) : bool := ((0 <? n) && (n <=? 13421772))%Z.
Definition cot_ok (z : Z) (d : positive) : bool := ((0 <=? z)%Z && half_ok (half_lo z d) && half_ok (half_hi z d)).
Definition cot_lo (z : Z) (d : positive) : Z :=
  let n := half_hi z d in let s1 := sin_1 n in let c0 := cos_0 n in (c0 * 4503599627370496 / s1 - s1 * 1024 / c0 - 1)%Z.
Definition cot_hi (z : Z) (d : positive) : Z :=
  let n := half_lo z d in let s0 := sin_0 n in let c1 := cos_1 n in (c1 * 4503599627370496 / s0 + 1 - s0 * 1024 / c1)%Z.
Lemma div_bounds a b : (0 < b)%Z -> IZR (a / b) <= IZR a / IZR b < IZR (a / b) + 1.
Proof.
  intros B. pose proof (Z.div_mod a b ltac:(lia)) as E. pose proof (Z.mod_pos_bound a b B) as M. assert (B' := B). apply IZR_lt in B'. apply (f_equal IZR) in E. rewrite plus_IZR, mult_IZR in E.
  destruct M as [M1 M2]. apply IZR_le in M1. apply IZR_lt in M2. split.
  - apply Rmult_le_reg_r with (IZR b); [lra|]. unfold Rdiv. rewrite Rmult_assoc, Rinv_l by lra. lra.
  - apply Rmult_lt_reg_r with (IZR b); [lra|]. unfold Rdiv. rewrite Rmult_assoc, Rinv_l by lra. lra.
Qed.
Lemma quot_mono a b c d : 0 <= a <= b -> 0 < c <= d -> a / d <= b / c.
Proof. intros A C. unfold Rdiv. apply Rmult_le_compat; [lra|left; apply Rinv_0_lt_compat; lra|lra|apply Rinv_le_contravar; lra]. Qed.
Lemma cot_half x : sin (x / 2) <> 0 -> cos (x / 2) <> 0 -> cot x = (cos (x / 2) / sin (x / 2) - sin (x / 2) / cos (x / 2)) / 2.
Proof.
  intros A B. unfold cot. replace x with (2 * (x / 2)) at 1 2 by field. rewrite cos_2a, sin_2a. field. split; assumption.
Qed.

Lemma pow_le' x y n : 0 <= x <= y -> x ^ n <= y ^ n. Proof. intros H. apply pow_incr. exact H. Qed.
Lemma fx_ok q a : IZR (fx q a) <= IZR q * IZR a / 16777216 < IZR (fx q a) + 1.
Proof. unfold fx. rewrite Z.shiftr_div_pow2 by lia. change (2 ^ 24)%Z with 16777216%Z. rewrite <- mult_IZR. apply div_bounds. lia. Qed.
(** One step of the scheme: q approximates y, a approximates A. *)
Lemma fx_step y A d m q a : 0 <= y <= 64 / 100 -> y * 16777216 - 1 <= IZR q <= y * 16777216 -> Rabs (IZR a - A * 16777216) <= d -> Rabs A <= m -> Rabs (IZR (fx q a) - y * A * 16777216) <= m + d * 64 / 100 + 1.
Proof.
  intros Y Q D M. pose proof (fx_ok q a) as F. set (v := IZR (fx q a)) in *. clearbody v. set (z := IZR q) in *. set (w := IZR a) in *. clearbody z w.
  assert (Z0 : 0 <= z \/ z < 0) by lra. assert (B : Rabs (z * w / 16777216 - y * A * 16777216) <= m + d * 64 / 100).
  { replace (z * w / 16777216 - y * A * 16777216) with ((z - y * 16777216) * A + z / 16777216 * (w - A * 16777216)) by field. eapply Rle_trans; [apply Rabs_triang|]. rewrite !Rabs_mult.
    assert (P1 : Rabs (z - y * 16777216) <= 1) by (apply Rabs_le; lra). assert (P2 : Rabs (z / 16777216) <= 64 / 100) by (apply Rabs_le; lra).
    pose proof (Rabs_pos A). pose proof (Rabs_pos (w - A * 16777216)). assert (Rabs (z - y * 16777216) * Rabs A <= 1 * Rabs A) by (apply Rmult_le_compat_r; lra).
    assert (Rabs (z / 16777216) * Rabs (w - A * 16777216) <= 64 / 100 * Rabs (w - A * 16777216)) by (apply Rmult_le_compat_r; lra). lra. }
  apply abs_le_inv in B. apply Rabs_le. lra.
Qed.
Lemma sub_step k B b e : Rabs (IZR b - B * 16777216) <= e -> Rabs (IZR (k * 16777216 - b) - (IZR k - B) * 16777216) <= e.
Proof. intros H. rewrite minus_IZR, mult_IZR. replace (IZR k * 16777216 - IZR b - (IZR k - B) * 16777216) with (- (IZR b - B * 16777216)) by ring. rewrite Rabs_Ropp. exact H. Qed.
Lemma half_x n : half_ok n = true -> let x := IZR n / 16777216 in 0 < x <= 8 / 10 /\ x * x * 16777216 - 1 <= IZR (fx n n) <= x * x * 16777216 /\ 0 <= x * x <= 64 / 100.
Proof.
  intros H x. unfold half_ok in H. rewrite andb_true_iff, Z.ltb_lt, Z.leb_le in H. destruct H as [A B]. apply IZR_lt in A. apply IZR_le in B.
  assert (X : 0 < x <= 8 / 10) by (unfold x; lra). pose proof (fx_ok n n) as F. replace (IZR n * IZR n / 16777216) with (x * x * 16777216) in F by (unfold x; field). split; [exact X|]. split; [lra|nra].
Qed.
Lemma sin_q_ok n : half_ok n = true -> let y := IZR n / 16777216 * (IZR n / 16777216) in Rabs (IZR (sin_q n) - (5040 - y * (840 - y * (42 - y))) * 16777216) <= 1000.
Proof.
  intros H y. destruct (half_x n H) as [_ [Q Y]]. fold y in Q, Y. clearbody y. unfold sin_q. cbv zeta. set (q := fx n n) in *. clearbody q.
  assert (D1 : Rabs (IZR q - y * 16777216) <= 1) by (apply Rabs_le; lra). pose proof (sub_step 42 y q 1 D1) as D2. change (42 * 16777216)%Z with 704643072%Z in D2.
  pose proof (fx_step y _ 1 42 q _ Y Q D2 ltac:(apply Rabs_le; lra)) as D3. pose proof (sub_step 840 _ _ _ D3) as D4. change (840 * 16777216)%Z with 14092861440%Z in D4.
  pose proof (fx_step y _ _ 840 q _ Y Q D4 ltac:(apply Rabs_le; nra)) as D5. pose proof (sub_step 5040 _ _ _ D5) as D6. change (5040 * 16777216)%Z with 84557168640%Z in D6. eapply Rle_trans; [exact D6|]. lra.
Qed.
Lemma cos_q_ok n : half_ok n = true -> let y := IZR n / 16777216 * (IZR n / 16777216) in Rabs (IZR (cos_q n) - (40320 - y * (20160 - y * (1680 - y * (56 - y)))) * 16777216) <= 22000.
Proof.
  intros H y. destruct (half_x n H) as [_ [Q Y]]. fold y in Q, Y. clearbody y. unfold cos_q. cbv zeta. set (q := fx n n) in *. clearbody q.
  assert (D1 : Rabs (IZR q - y * 16777216) <= 1) by (apply Rabs_le; lra). pose proof (sub_step 56 y q 1 D1) as D2. change (56 * 16777216)%Z with 939524096%Z in D2.
  pose proof (fx_step y _ 1 56 q _ Y Q D2 ltac:(apply Rabs_le; lra)) as D3. pose proof (sub_step 1680 _ _ _ D3) as D4. change (1680 * 16777216)%Z with 28185722880%Z in D4.
  pose proof (fx_step y _ _ 1680 q _ Y Q D4 ltac:(apply Rabs_le; nra)) as D5. pose proof (sub_step 20160 _ _ _ D5) as D6. change (20160 * 16777216)%Z with 338228674560%Z in D6.
  pose proof (fx_step y _ _ 20160 q _ Y Q D6 ltac:(apply Rabs_le; nra)) as D7. pose proof (sub_step 40320 _ _ _ D7) as D8. change (40320 * 16777216)%Z with 676457349120%Z in D8. eapply Rle_trans; [exact D8|]. lra.
Qed.
Lemma sin_bounds n : half_ok n = true -> let x := IZR n / 16777216 in
  IZR (sin_0 n) <= sin x * (5040 * 281474976710656) <= IZR (sin_1 n) /\ 0 < IZR (sin_0 n).
Proof.
  intros H x. destruct (half_x n H) as [X [_ Y]]. pose proof (sin_q_ok n H) as E. cbv zeta in E. fold x in X, Y, E. apply abs_le_inv in E.
  pose proof (sin9_pos x ltac:(lra)) as U. apply abs_le_inv in U. destruct (sin7 x ltac:(lra)) as [L _].
  assert (Q : 4000 <= 5040 - x * x * (840 - x * x * (42 - x * x))) by nra.
  unfold sin_0, sin_1. rewrite !mult_IZR, plus_IZR, minus_IZR. assert (N : IZR n = x * 16777216) by (unfold x; field). rewrite N.
  assert (Z8 : x ^ 8 <= (8 / 10) ^ 8) by (apply pow_le'; lra). set (q := 5040 - x * x * (840 - x * x * (42 - x * x))) in *. set (k := IZR (sin_q n)) in *. clearbody k.
  assert (L' : x * q <= sin x * 5040) by (unfold q; lra).
  assert (U' : sin x * 5040 <= x * (q + 1 / 256)). { assert (x * x ^ 8 <= x * (8 / 10) ^ 8) by (apply Rmult_le_compat_l; lra). unfold q. lra. }
  clearbody q x. clear - X Q L' U' E. assert (x * (k - 65536) <= x * (q * 16777216)) by (apply Rmult_le_compat_l; lra). assert (x * ((q + 1 / 256) * 16777216) <= x * (k + 131072)) by (apply Rmult_le_compat_l; lra).
  split; [split; lra|]. apply Rmult_lt_0_compat; lra.
Qed.
Lemma cos_bounds n : half_ok n = true -> let x := IZR n / 16777216 in
  IZR (cos_0 n) <= cos x * (40320 * 16777216) <= IZR (cos_1 n) /\ 0 < IZR (cos_0 n).
Proof.
  intros H x. destruct (half_x n H) as [X [_ Y]]. pose proof (cos_q_ok n H) as E. cbv zeta in E. fold x in X, Y, E. apply abs_le_inv in E.
  pose proof (cos10 x ltac:(rewrite Rabs_pos_eq; lra)) as U. apply abs_le_inv in U. rewrite (Rabs_pos_eq x) in U by lra.
  assert (Q : 20000 <= 40320 - x * x * (20160 - x * x * (1680 - x * x * (56 - x * x)))) by nra.
  unfold cos_0, cos_1. rewrite minus_IZR, plus_IZR. assert (Z8 : x ^ 10 <= (8 / 10) ^ 10) by (apply pow_le'; lra).
  set (q := 40320 - x * x * (20160 - x * x * (1680 - x * x * (56 - x * x)))) in *. set (k := IZR (cos_q n)) in *. clearbody k.
  assert (U' : cos x * 40320 <= q + 1 / 512) by (unfold q; lra). assert (L' : q - 1 / 512 <= cos x * 40320) by (unfold q; lra). clearbody q. clear - X Q L' U' E. split; [split; lra|lra].
Qed.
Lemma cot_le x y : 0 < x -> x <= y -> y < PI -> cot y <= cot x.
Proof. intros A B C. destruct (Req_dec x y) as [->|N]; [lra|]. left. apply cot_decreasing; lra. Qed.
Lemma cot_lo_ok n : half_ok n = true -> IZR (cos_0 n * 4503599627370496 / sin_1 n - sin_1 n * 1024 / cos_0 n - 1) <= cot (2 * (IZR n / 16777216)) * 4294967296.
Proof.
  intros H. destruct (sin_bounds n H) as [[S0 S1] S2]. destruct (cos_bounds n H) as [[C0 C1] C2]. set (x := IZR n / 16777216) in *. set (P := sin x) in *. set (Q := cos x) in *.
  set (s := sin_1 n) in *. set (c := cos_0 n) in *. 
  assert (Ps : 0 < P) by nra. assert (Pc : 0 < Q) by nra. rewrite cot_half; replace (2 * x / 2) with x by field; fold P Q; [|lra|lra].
  pose proof (div_bounds (c * 4503599627370496) s ltac:(apply lt_IZR; lra)) as D1. pose proof (div_bounds (s * 1024) c ltac:(apply lt_IZR; lra)) as D2. rewrite !minus_IZR. rewrite !mult_IZR in D1, D2.
  pose proof (quot_mono (IZR c) (Q * (40320 * 16777216)) (P * (5040 * 281474976710656)) (IZR s) ltac:(lra) ltac:(split; [apply Rmult_lt_0_compat; lra|lra])) as Q1.
  pose proof (quot_mono (P * (5040 * 281474976710656)) (IZR s) (IZR c) (Q * (40320 * 16777216)) ltac:(split; [left; apply Rmult_lt_0_compat; lra|lra]) ltac:(lra)) as Q2.
  replace (Q * (40320 * 16777216) / (P * (5040 * 281474976710656))) with (Q / P * 8 / 16777216) in Q1 by (field; lra). replace (P * (5040 * 281474976710656) / (Q * (40320 * 16777216))) with (P / Q * 16777216 / 8) in Q2 by (field; lra).
  assert (F : forall a k b, a * k / b = a / b * k) by (intros; unfold Rdiv; ring). rewrite F in D1, D2. lra.
Qed.
Lemma cot_hi_ok n : half_ok n = true -> cot (2 * (IZR n / 16777216)) * 4294967296 <= IZR (cos_1 n * 4503599627370496 / sin_0 n + 1 - sin_0 n * 1024 / cos_1 n).
Proof.
  intros H. destruct (sin_bounds n H) as [[S0 S1] S2]. destruct (cos_bounds n H) as [[C0 C1] C2]. set (x := IZR n / 16777216) in *. set (P := sin x) in *. set (Q := cos x) in *.
  set (s := sin_0 n) in *. set (c := cos_1 n) in *. 
  assert (Ps : 0 < P) by nra. assert (Pc : 0 < Q) by nra. rewrite cot_half; replace (2 * x / 2) with x by field; fold P Q; [|lra|lra].
  pose proof (div_bounds (c * 4503599627370496) s ltac:(apply lt_IZR; lra)) as D1. pose proof (div_bounds (s * 1024) c ltac:(apply lt_IZR; lra)) as D2. rewrite minus_IZR, plus_IZR. rewrite !mult_IZR in D1, D2.
  pose proof (quot_mono (Q * (40320 * 16777216)) (IZR c) (IZR s) (P * (5040 * 281474976710656)) ltac:(split; [left; apply Rmult_lt_0_compat; lra|lra]) ltac:(lra)) as Q1.
  pose proof (quot_mono (IZR s) (P * (5040 * 281474976710656)) (Q * (40320 * 16777216)) (IZR c) ltac:(lra) ltac:(split; [apply Rmult_lt_0_compat; lra|lra])) as Q2.
  replace (Q * (40320 * 16777216) / (P * (5040 * 281474976710656))) with (Q / P * 8 / 16777216) in Q1 by (field; lra). replace (P * (5040 * 281474976710656) / (Q * (40320 * 16777216))) with (P / Q * 16777216 / 8) in Q2 by (field; lra).
  assert (F : forall a k b, a * k / b = a / b * k) by (intros; unfold Rdiv; ring). rewrite F in D1, D2. lra.
Qed.
Lemma cot_bounds z d : cot_ok z d = true -> let x := degrees (IZR z / IZR (Zpos d)) in IZR (cot_lo z d) <= cot x * 4294967296 <= IZR (cot_hi z d).
Proof.
  unfold cot_ok, cot_lo, cot_hi. cbv zeta. rewrite !andb_true_iff, Z.leb_le. intros [[H1 H2] H3]. pose proof (cot_lo_ok _ H3) as L. pose proof (cot_hi_ok _ H2) as U.
  unfold half_ok in H2, H3. rewrite andb_true_iff, Z.ltb_lt, Z.leb_le in H2, H3. destruct H2 as [H2 _]. destruct H3 as [_ H3]. apply IZR_lt in H2. apply IZR_le in H1, H3.
  assert (D : 0 < IZR (Zpos d)) by (apply (IZR_lt 0); reflexivity).
  assert (N0 : 2 * (IZR (half_lo z d) / 16777216) <= degrees (IZR z / IZR (Zpos d))).
  { unfold half_lo. pose proof (div_bounds (z * (314159265 * 16777216)) (36000000000 * Zpos d) (Pos2Z.is_pos (36000000000 * d))) as B. rewrite !mult_IZR in B. set (w := IZR (_ / _)) in *. clearbody w. unfold degrees.
    replace (IZR z * (314159265 * 16777216) / (36000000000 * IZR (Zpos d))) with (IZR z / IZR (Zpos d) * (314159265 * 16777216 / 36000000000)) in B by (field; lra). set (v := IZR z / IZR (Zpos d)) in *.
    assert (V : 0 <= v) by (unfold v; apply Rmult_le_pos; [exact H1|left; apply Rinv_0_lt_compat; exact D]). clearbody v. pose proof PI_10. assert (v * (314159265 / 100000000) <= v * PI) by (apply Rmult_le_compat_l; lra). lra. }
  assert (N1 : degrees (IZR z / IZR (Zpos d)) <= 2 * (IZR (half_hi z d) / 16777216)).
  { unfold half_hi. rewrite plus_IZR. pose proof (div_bounds (z * (314159266 * 16777216)) (36000000000 * Zpos d) (Pos2Z.is_pos (36000000000 * d))) as B. rewrite !mult_IZR in B. set (w := IZR (_ / _)) in *. clearbody w. unfold degrees.
    replace (IZR z * (314159266 * 16777216) / (36000000000 * IZR (Zpos d))) with (IZR z / IZR (Zpos d) * (314159266 * 16777216 / 36000000000)) in B by (field; lra). set (v := IZR z / IZR (Zpos d)) in *.
    assert (V : 0 <= v) by (unfold v; apply Rmult_le_pos; [exact H1|left; apply Rinv_0_lt_compat; exact D]). clearbody v. pose proof PI_10. assert (v * PI <= v * (314159266 / 100000000)) by (apply Rmult_le_compat_l; lra). lra. }
  pose proof PI_10. set (x := degrees (IZR z / IZR (Zpos d))) in *. set (n0 := IZR (half_lo z d)) in *. set (n1 := IZR (half_hi z d)) in *. clearbody x n0 n1.
  pose proof (cot_le (2 * (n0 / 16777216)) x ltac:(lra) N0 ltac:(lra)). pose proof (cot_le x (2 * (n1 / 16777216)) ltac:(lra) N1 ltac:(lra)). lra.
Qed.

(** ** The two formulas, in minutes, at an altitude of p / 2^20 degrees *)
Definition r (c k m u : R) : R := c * cot (arg k m u * PI / 180).
Definition num (K M p : Z) : Z := (p * (100 * p + M * 1048576) + K * 1099511627776)%Z.
Definition den (M p : Z) : positive := Z.to_pos (1048576 * (100 * p + M * 1048576)).
Definition pt (p : Z) : R := IZR p / 1048576.
Definition r_ok (K M p : Z) : bool := ((0 <? 100 * p + M * 1048576) && cot_ok (num K M p) (den M p))%Z.
Definition r_lo (c K M p : Z) : Z := (c * cot_lo (num K M p) (den M p) / 100)%Z.
Definition r_hi (c K M p : Z) : Z := (c * cot_hi (num K M p) (den M p) / 100 + 1)%Z.
Lemma r_bounds c K M p : (0 < c)%Z -> r_ok K M p = true -> IZR (r_lo c K M p) <= r (IZR c / 100) (IZR K / 100) (IZR M / 100) (pt p) * 4294967296 <= IZR (r_hi c K M p).
Proof.
  intros Hc H. unfold r_ok in H. apply andb_true_iff in H. destruct H as [H1 H2]. apply Z.ltb_lt in H1. pose proof (cot_bounds _ _ H2) as B. cbv zeta in B.
  assert (E : degrees (IZR (num K M p) / IZR (Zpos (den M p))) = arg (IZR K / 100) (IZR M / 100) (pt p) * PI / 180).
  { unfold den. rewrite Z2Pos.id by lia. unfold num, arg, pt, degrees. apply IZR_lt in H1. rewrite plus_IZR, !mult_IZR in H1. rewrite ?plus_IZR, ?mult_IZR, ?plus_IZR, ?mult_IZR. field. lra. }
  rewrite E in B. unfold r. set (w := cot _) in *. unfold r_lo, r_hi. apply IZR_lt in Hc. pose proof (div_bounds (c * cot_lo (num K M p) (den M p)) 100 ltac:(lia)) as D1. pose proof (div_bounds (c * cot_hi (num K M p) (den M p)) 100 ltac:(lia)) as D2.
  rewrite mult_IZR in D1, D2. rewrite plus_IZR. destruct B as [B1 B2]. split.
  - apply Rle_trans with (1 := proj1 D1). assert (IZR c * IZR (cot_lo (num K M p) (den M p)) <= IZR c * (w * 4294967296)) by (apply Rmult_le_compat_l; lra). lra.
  - left. apply Rle_lt_trans with (2 := proj2 D2). assert (IZR c * (w * 4294967296) <= IZR c * IZR (cot_hi (num K M p) (den M p))) by (apply Rmult_le_compat_l; lra). lra.
Qed.
Definition ben (u : R) : R := r (100 / 100) (731 / 100) (440 / 100) u.
Definition sae (u : R) : R := r (102 / 100) (1030 / 100) (511 / 100) u.
Lemma ben_decr u v : -1 <= u -> u <= v -> v <= 90 -> ben v <= ben u.
Proof.
  intros A B C. destruct (Req_dec u v) as [->|N]; [lra|]. left. apply min_lt. apply (refr_decreasing (100 / 100) (731 / 100) (440 / 100)); lra.
Qed.
Lemma sae_decr u v : -1 <= u -> u <= v -> v <= 90 -> sae v <= sae u.
Proof.
  intros A B C. destruct (Req_dec u v) as [->|N]; [lra|]. left. apply min_lt. apply (refr_decreasing (102 / 100) (1030 / 100) (511 / 100)); lra.
Qed.
Lemma back u : degrees u * 180 / PI = u. Proof. apply deg_back. reflexivity. Qed.
Lemma Bennett_ben u : -1 <= u <= 90 -> Bennett (degrees u) = degrees (ben u / 60).
Proof.
  intros H. rewrite Bennett_refr by (split; apply deg_le; lra). rewrite back. unfold refr, ben, r, AngleFromMin, degrees. replace (100 / 100) with 1 by field. replace (440 / 100) with (44 / 10) by field. field.
Qed.
Lemma Saem_sae u : -1 <= u <= 90 -> Saemundsson (degrees u) = degrees (sae u / 60).
Proof.
  intros H. rewrite Saem_refr by (split; apply deg_le; lra). rewrite back. unfold refr, sae, r, AngleFromMin, degrees. replace (1030 / 100) with (103 / 10) by field. field.
Qed.
Lemma deg_inj_le a b : degrees a <= degrees b -> a <= b.
Proof. unfold degrees. pose proof PI_pos. intros H0. apply Rmult_le_reg_r with (PI / 180); [lra|exact H0]. Qed.
Lemma ben_order u v : -1 <= u -> u <= v -> v <= 90 -> u - ben u / 60 <= v - ben v / 60.
Proof.
  intros A B C. destruct (Req_dec u v) as [->|N]; [lra|]. apply deg_inj_le. left. pose proof (Bennett_order (degrees u) (degrees v) ltac:(apply deg_le; lra)) as O. assert (D : degrees u < degrees v) by (unfold degrees; pose proof PI_pos; apply Rmult_lt_compat_r; lra).
  specialize (O D ltac:(apply deg_le; lra)). rewrite !Bennett_ben in O by lra. unfold degrees in *. lra.
Qed.
Lemma sae_order u v : -1 <= u -> u <= v -> v <= 90 -> u + sae u / 60 <= v + sae v / 60.
Proof.
  intros A B C. destruct (Req_dec u v) as [->|N]; [lra|]. apply deg_inj_le. left. pose proof (Saem_order (degrees u) (degrees v) ltac:(apply deg_le; lra)) as O. assert (D : degrees u < degrees v) by (unfold degrees; pose proof PI_pos; apply Rmult_lt_compat_r; lra).
  specialize (O D ltac:(apply deg_le; lra)). rewrite !Saem_sae in O by lra. unfold degrees in *. lra.
Qed.

(** ** A chain of cells *)
Fixpoint run (cell : Z -> Z -> bool) (p : Z) (l : list Z) : bool :=
  match l with [] => true | q :: l' => if cell p q then run cell q l' else false end.
Lemma run_ok (P : R -> Prop) cell : (forall p q, cell p q = true -> forall u, pt p <= u <= pt q -> P u) ->
  forall l p, l <> [] -> run cell p l = true -> forall u, pt p <= u <= pt (last l p) -> P u.
Proof.
  intros H. induction l as [|q l IH]; [congruence|]. intros p _. cbn [run]. destruct (cell p q) eqn:E; [|discriminate]. intros R0 u Hu. destruct l as [|q' l]; [exact (H _ _ E u Hu)|].
  destruct (Rle_dec u (pt q)) as [L|L]; [apply (H _ _ E); lra|]. apply (IH q ltac:(discriminate) R0). split; [lra|]. destruct Hu as [_ Hu]. eapply Rle_trans; [exact Hu|]. right. f_equal. clear. change (last (q :: q' :: l) p) with (last (q' :: l) p). revert q'. induction l as [|a l IH]; intros q'; [reflexivity|]. change (last (a :: l) p = last (a :: l) q). apply IH.
Qed.
Lemma diff_min a b : Rabs (a - b) <= 4 / 60 -> Rabs (degrees (a / 60) - degrees (b / 60)) <= arcsec 4.
Proof.
  intros H. unfold degrees, arcsec. pose proof PI_RGT_0 as P. replace (a / 60 * (PI / 180) - b / 60 * (PI / 180)) with ((a - b) * (PI / 10800)) by field.
  rewrite Rabs_mult, (Rabs_pos_eq (PI / 10800)) by lra. unfold degrees in *. apply Rle_trans with (4 / 60 * (PI / 10800)); [apply Rmult_le_compat_r; lra|lra].
Qed.
Lemma in_deg h : h = degrees (h * 180 / PI).
Proof. unfold degrees. field. pose proof PI_RGT_0. lra. Qed.
