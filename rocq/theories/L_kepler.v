(** Lemmas for package kepler. *)
From Coq Require Import ZArith Reals Bool List Lra Lia Psatz.
From Flocq Require Import Core.
From Verif Require Import GoFloat GoMath S_base S_iterate M_iterate L_iterate L_trig S_kepler M_kepler.
Local Open Scope R_scope.

(** ** Elementary inequalities *)
Lemma sin_le_x x : 0 <= x -> sin x <= x.
Proof. intros [H|<-]; [left; apply sin_lt_x, H|rewrite sin_0; lra]. Qed.
Lemma sin_abs_le x : Rabs (sin x) <= Rabs x.
Proof.
  assert (P : forall x, 0 <= x -> Rabs (sin x) <= x).
  { intros y Hy. destruct (Rle_dec y PI) as [L|L].
    - rewrite Rabs_pos_eq by (apply sin_ge_0; lra). apply sin_le_x, Hy.
    - pose proof (SIN_bound y). pose proof PI_RGT_0. pose proof PI2_3_2. apply Rabs_le. lra. }
  destruct (Rle_dec 0 x) as [H|H].
  - rewrite (Rabs_pos_eq x) by exact H. apply P, H.
  - rewrite (Rabs_left x) by lra. rewrite <- (Rabs_Ropp (sin x)), <- sin_neg. apply P. lra.
Qed.
Lemma sin_lip x y : Rabs (sin x - sin y) <= Rabs (x - y).
Proof.
  rewrite (form4 x y). rewrite !Rabs_mult. rewrite (Rabs_pos_eq 2) by lra.
  pose proof (sin_abs_le ((x - y) / 2)) as S. assert (C : Rabs (cos ((x + y) / 2)) <= 1) by (apply Rabs_le; apply COS_bound).
  pose proof (Rabs_pos (cos ((x + y) / 2))). pose proof (Rabs_pos (sin ((x - y) / 2))).
  assert (E : Rabs ((x - y) / 2) = Rabs (x - y) / 2). { unfold Rdiv. rewrite Rabs_mult, (Rabs_pos_eq (/ 2)) by lra. reflexivity. }
  rewrite E in S. nra.
Qed.
Lemma cos_lip x y : Rabs (cos x - cos y) <= Rabs (x - y).
Proof.
  rewrite !cos_sin. eapply Rle_trans; [apply sin_lip|]. right. f_equal. ring.
Qed.

Lemma sin_cubic_pos u : 0 <= u <= 4 -> u - u * u * u / 6 <= sin u <= u.
Proof.
  intros H. split; [|apply sin_le_x; lra]. pose proof (pre_sin_bound u 0 ltac:(lra) ltac:(lra)) as [P _].
  unfold sin_approx, sum_f_R0, sin_term in P. cbn [Nat.mul Nat.add pow fact INR] in P. lra.
Qed.
Lemma sin_cubic u : Rabs u <= 4 -> Rabs (sin u - u) <= Rabs u * Rabs u * Rabs u / 6.
Proof.
  intros H. destruct (Rle_dec 0 u) as [L|L].
  - rewrite (Rabs_pos_eq u) in * by lra. pose proof (sin_cubic_pos u ltac:(lra)). apply Rabs_le. lra.
  - rewrite (Rabs_left u) in * by lra. pose proof (sin_cubic_pos (- u) ltac:(lra)) as K. rewrite sin_neg in K. apply Rabs_le. lra.
Qed.
(** Second order: |sin (a+d) - sin a - d cos a| <= d^2 *)
Lemma sin_second a d : Rabs d <= 1 -> Rabs (sin (a + d) - sin a - d * cos a) <= d * d.
Proof.
  intros H. rewrite (form4 (a + d) a). replace ((a + d - a) / 2) with (d / 2) by field. replace ((a + d + a) / 2) with (a + d / 2) by field.
  replace (2 * cos (a + d / 2) * sin (d / 2) - d * cos a) with
    (2 * sin (d / 2) * (cos (a + d / 2) - cos a) + cos a * (2 * (sin (d / 2) - d / 2))) by field.
  eapply Rle_trans; [apply Rabs_triang|].
  assert (Hd : Rabs (d / 2) = Rabs d / 2) by (unfold Rdiv; rewrite Rabs_mult, (Rabs_pos_eq (/ 2)) by lra; reflexivity).
  pose proof (sin_abs_le (d / 2)) as S. pose proof (cos_lip (a + d / 2) a) as C. replace (a + d / 2 - a) with (d / 2) in C by ring.
  pose proof (sin_cubic (d / 2) ltac:(lra)) as K. rewrite Hd in *.
  assert (CB : Rabs (cos a) <= 1) by (apply Rabs_le, COS_bound).
  rewrite !Rabs_mult, !(Rabs_pos_eq 2) by lra.
  assert (D2 : d * d = Rabs d * Rabs d). { rewrite <- Rabs_mult. symmetry. apply Rabs_pos_eq. apply Rle_0_sqr. }
  rewrite D2. pose proof (Rabs_pos d). pose proof (Rabs_pos (sin (d / 2))). pose proof (Rabs_pos (cos (a + d / 2) - cos a)). pose proof (Rabs_pos (cos a)). pose proof (Rabs_pos (sin (d / 2) - d / 2)).
  set (x := Rabs d) in *. set (s := Rabs (sin (d / 2))) in *. set (c := Rabs (cos (a + d / 2) - cos a)) in *. set (m := Rabs (cos a)) in *. set (k := Rabs (sin (d / 2) - d / 2)) in *.
  assert (s * c <= x / 2 * (x / 2)) by (apply Rmult_le_compat; lra).
  assert (m * k <= 1 * k) by (apply Rmult_le_compat_r; lra).
  assert (x * x * x <= x * x * 1) by (apply Rmult_le_compat_l; [apply Rle_0_sqr|lra]). nra.
Qed.

(** ** Kepler's equation *)
Lemma kepler_expand e x y : 0 <= e < 1 -> (1 - e) * Rabs (x - y) <= Rabs ((x - e * sin x) - (y - e * sin y)).
Proof.
  intros He. pose proof (sin_lip x y) as S.
  replace ((x - e * sin x) - (y - e * sin y)) with ((x - y) - e * (sin x - sin y)) by ring.
  pose proof (Rabs_triang_inv (x - y) (e * (sin x - sin y))) as T. rewrite Rabs_mult, (Rabs_pos_eq e) in T by lra.
  pose proof (Rabs_pos (x - y)). nra.
Qed.
Lemma kepler_mono e x y : 0 <= e < 1 -> x - e * sin x <= y - e * sin y -> x <= y.
Proof.
  intros He H. destruct (Rle_dec x y) as [L|L]; [exact L|]. exfalso.
  pose proof (sin_lip x y) as S. rewrite (Rabs_pos_eq (x - y)) in S by lra. pose proof (Rle_abs (sin x - sin y)). nra.
Qed.
Lemma kepler_exists e m : 0 <= e < 1 -> 0 <= m <= PI -> exists E, 0 <= E <= PI /\ E - e * sin E = m.
Proof.
  intros He Hm. pose proof PI_RGT_0 as HP.
  set (f := fun x => x - e * sin x - m).
  assert (Hf : continuity f). { unfold f. reg. }
  destruct (IVT_cor f 0 PI Hf ltac:(lra)) as [z [B Z]].
  { unfold f. rewrite sin_0, sin_PI. assert (0 <= (PI - m) * m) by (apply Rmult_le_pos; lra). nra. }
  exists z. split; [exact B|]. unfold f in Z. lra.
Qed.
Lemma kepler_total e M : 0 <= e < 1 -> exists! E, solves e M E.
Proof.
  intros He. assert (U : forall x y, solves e M x -> solves e M y -> x = y).
  { unfold solves. intros x y Hx Hy. apply Rle_antisym; apply (kepler_mono e); lra. }
  assert (Ex : exists E, solves e M E).
  { unfold solves. pose proof PI_RGT_0 as HP.
    set (f := fun x => x - e * sin x - M). assert (Hf : continuity f) by (unfold f; reg).
    destruct (IVT_cor f (M - 1) (M + 1) Hf ltac:(lra)) as [z [B Z]].
    { unfold f. pose proof (SIN_bound (M - 1)). pose proof (SIN_bound (M + 1)).
      assert (0 <= (1 + e * sin (M - 1)) * (1 - e * sin (M + 1))) by (apply Rmult_le_pos; nra). nra. }
    exists z. unfold f in Z. lra. }
  destruct Ex as [E HE]. exists E. split; [exact HE|]. intros y Hy. apply U; assumption.
Qed.

Lemma residual_error e M E Es r : 0 <= e < 1 -> solves e M Es -> Rabs (E - e * sin E - M) <= r -> Rabs (E - Es) <= r / (1 - e).
Proof.
  intros He Hs Hr. pose proof (kepler_expand e E Es He) as K. unfold solves in Hs. rewrite Hs in K.
  apply Rmult_le_reg_l with (1 - e); [lra|]. replace ((1 - e) * (r / (1 - e))) with r by (field; lra). lra.
Qed.

(** ** The iterative solvers *)
Lemma pow10_pos n : 0 < pow10 n. Proof. apply powerRZ_lt. lra. Qed.

Lemma DP_ok (f : R -> R) M places max r : DecimalPlaces (fl := RFlt) pow10 f M places max = Ok r ->
  exists (k : nat), (Z.of_nat k < max)%Z /\ r = f (iter_n f k M) /\ Rabs (r - iter_n f k M) < pow10 (- places).
Proof.
  intros H. apply (DecimalPlaces_ok (fl := RFlt)) in H. destruct H as [k [A [B [C _]]]]. exists k.
  split; [exact A|]. split; [exact B|]. revert C. cbn. case Rlt_bool_spec; [trivial|discriminate].
Qed.
Lemma pow10_le1 p : (1 <= p)%Z -> pow10 (- p) <= 1 / 10.
Proof.
  intros H. unfold pow10. rewrite powerRZ_neg'.
  assert (10 <= powerRZ 10 p). { replace p with (1 + (p - 1))%Z by lia. rewrite powerRZ_add by lra. rewrite powerRZ_1.
    assert (1 <= powerRZ 10 (p - 1)); [|lra]. rewrite <- (Z2Nat.id (p - 1)) by lia. rewrite <- pow_powerRZ. apply pow_R1_Rle. lra. }
  replace (1 / 10) with (/ 10) by field. apply Rinv_le_contravar; lra.
Qed.

Lemma Kepler1_ok e M p E : 0 <= e < 1 -> Kepler1 e M p = Ok E -> Rabs (E - e * sin E - M) <= e * powerRZ 10 (- p).
Proof.
  intros He H. apply DP_ok in H. destruct H as [k [_ [E1 L]]]. set (E0 := iter_n _ k M) in *. fold (pow10 (- p)).
  replace (E - e * sin E - M) with (e * (sin E0 - sin E)) by (rewrite E1 at 2; ring).
  rewrite Rabs_mult, (Rabs_pos_eq e) by lra. apply Rmult_le_compat_l; [lra|].
  eapply Rle_trans; [apply sin_lip|]. rewrite Rabs_minus_sym. lra.
Qed.

Lemma den_pos e x : 0 <= e < 1 -> 0 < 1 - e * cos x.
Proof. intros He. pose proof (COS_bound x). nra. Qed.

Lemma newton_residual e M E0 d : 0 <= e < 1 -> d * (1 - e * cos E0) = M + e * sin E0 - E0 -> Rabs d <= 1 ->
  Rabs ((E0 + d) - e * sin (E0 + d) - M) <= e * (d * d).
Proof.
  intros He Hd L. replace (E0 + d - e * sin (E0 + d) - M) with (- (e * (sin (E0 + d) - sin E0 - d * cos E0))) by lra.
  rewrite Rabs_Ropp, Rabs_mult, (Rabs_pos_eq e) by lra. apply Rmult_le_compat_l; [lra|]. apply sin_second, L.
Qed.
Lemma sq_abs d r : Rabs d < r -> d * d <= r * r.
Proof. intros H. pose proof (Rabs_pos d). replace (d * d) with (Rabs d * Rabs d); [apply Rmult_le_compat; lra|]. rewrite <- Rabs_mult. apply Rabs_pos_eq, Rle_0_sqr. Qed.
Lemma pow10_dbl p : powerRZ 10 (- (2 * p)) = pow10 (- p) * pow10 (- p).
Proof. unfold pow10. rewrite <- powerRZ_add by lra. f_equal. lia. Qed.

Lemma newton_close e M p (E0 d : R) : 0 <= e < 1 -> (1 <= p)%Z -> d = (M + e * sin E0 - E0) / (1 - e * cos E0) ->
  Rabs d < pow10 (- p) -> Rabs (E0 + d - e * sin (E0 + d) - M) <= e * powerRZ 10 (- (2 * p)).
Proof.
  intros He Hp Ed L. pose proof (pow10_le1 p Hp) as P. pose proof (den_pos e E0 He).
  eapply Rle_trans; [apply newton_residual; [exact He| |lra]|].
  - rewrite Ed. field. lra.
  - rewrite pow10_dbl. apply Rmult_le_compat_l; [lra|]. apply sq_abs, L.
Qed.

Lemma Kepler2_ok e M p E : 0 <= e < 1 -> Kepler2 e M p = Ok E -> Rabs (E - e * sin E - M) <= e * powerRZ 10 (- (2 * p)).
Proof.
  intros He H. apply DP_ok in H. destruct H as [k [K [E1 L]]]. set (E0 := iter_n _ k M) in *. clearbody E0.
  rewrite E1. apply newton_close; [exact He|lia|reflexivity|]. rewrite E1 in L.
  match type of L with Rabs (E0 + ?d - E0) < _ => replace (E0 + d - E0) with d in L by ring end. exact L.
Qed.
Lemma Kepler2b_ok e M p E : 0 <= e < 1 -> Kepler2b e M p = Ok E -> Rabs (E - e * sin E - M) <= e * powerRZ 10 (- (2 * p)).
Proof.
  intros He H. apply DP_ok in H. destruct H as [k [K [E1 L]]]. set (E0 := iter_n _ k M) in *. clearbody E0. cbv zeta in E1.
  set (d := (M + e * sin E0 - E0) / (1 - e * cos E0)) in *.
  assert (P : pow10 (- p) <= 1 / 10) by (apply pow10_le1; lia).
  rewrite E1 in L |- *. clear E1.
  destruct (Rlt_dec (5 / 10) d).
  { replace (E0 + 5 / 10 - E0) with (5 / 10) in L by ring. rewrite Rabs_pos_eq in L by lra. lra. }
  destruct (Rlt_dec d (- (5 / 10))).
  { replace (E0 + - (5 / 10) - E0) with (- (5 / 10)) in L by ring. rewrite Rabs_left in L by lra. lra. }
  replace (E0 + d - E0) with d in L by ring.
  apply newton_close; [exact He|lia|reflexivity|exact L].
Qed.

(** Kepler2a with steps below a quarter turn. *)
Lemma step2a_bound e M E0 : 0 <= e <= 3 / 10 -> Rabs (E0 - M) <= 3 / 4 ->
  let s := (M + e * sin E0 - E0) / (1 - e * cos E0) in Rabs s <= 3 / 2 /\ Rabs (E0 + s - M) <= 3 / 4.
Proof.
  intros He HD s. pose proof (den_pos e E0 ltac:(lra)) as Dp. set (D := E0 - M) in *.
  assert (HD' : - (3 / 4) <= D <= 3 / 4) by (apply Rabs_def2_le || (split; [pose proof (Rabs_pos D); pose proof (Rle_abs (- D)); rewrite Rabs_Ropp in *; lra|pose proof (Rle_abs D); lra])).
  pose proof (SIN_bound E0) as S. pose proof (COS_bound E0) as C.
  assert (Es : s * (1 - e * cos E0) = e * sin E0 - D) by (unfold s, D; field; lra).
  assert (Et : (E0 + s - M) * (1 - e * cos E0) = e * (sin E0 - D * cos E0)).
  { replace (E0 + s - M) with (D + s) by (unfold D; ring). rewrite Rmult_plus_distr_r, Es. ring. }
  assert (LD : 7 / 10 <= 1 - e * cos E0) by nra.
  set (w := 1 - e * cos E0) in *. set (t := E0 + s - M) in *.
  assert (DC : - (3 / 4) <= D * cos E0 <= 3 / 4) by nra.
  assert (T1 : - (525 / 1000) <= t * w <= 525 / 1000) by (rewrite Et; nra).
  assert (T : - (3 / 4) <= t <= 3 / 4) by nra.
  split; apply Rabs_le; [|exact T]. assert (t = D + s) by (unfold t, D; ring). lra.
Qed.

Lemma iter2a e M k : 0 <= e <= 3 / 10 ->
  Rabs (iter_n (fun E0 : R => E0 + asin (sin ((M + e * sin E0 - E0) / (1 - e * cos E0)))) k M - M) <= 3 / 4.
Proof.
  intros He. pose proof PI2_3_2 as HP. induction k as [|k IH].
  - cbn [iter_n]. replace (M - M) with 0 by ring. rewrite Rabs_R0. lra.
  - cbn [iter_n]. set (E0 := iter_n _ k M) in *. destruct (step2a_bound e M E0 He IH) as [A B]. cbv zeta in *.
    set (s := (M + e * sin E0 - E0) / (1 - e * cos E0)) in *.
    assert (- (3 / 2) <= s <= 3 / 2). { pose proof (Rle_abs s). pose proof (Rle_abs (- s)). rewrite Rabs_Ropp in *. lra. }
    rewrite asin_sin by lra. exact B.
Qed.

Lemma Kepler2a_ok e M p E : 0 <= e <= 3 / 10 -> Kepler2a e M p = Ok E -> Rabs (E - e * sin E - M) <= e * powerRZ 10 (- (2 * p)).
Proof.
  intros He H. pose proof PI2_3_2 as HP. apply DP_ok in H. destruct H as [k [K [E1 L]]].
  pose proof (iter2a e M k He) as B. set (E0 := iter_n _ k M) in *. clearbody E0.
  destruct (step2a_bound e M E0 He B) as [A _]. cbv zeta in A.
  set (s := (M + e * sin E0 - E0) / (1 - e * cos E0)) in *.
  assert (- (3 / 2) <= s <= 3 / 2). { pose proof (Rle_abs s). pose proof (Rle_abs (- s)). rewrite Rabs_Ropp in *. lra. }
  rewrite asin_sin in E1 by lra. rewrite E1 in L |- *. replace (E0 + s - E0) with s in L by ring.
  apply newton_close; [lra|lia|reflexivity|exact L].
Qed.

(** Kepler2a accepts a step of half a turn. *)
Lemma Kepler2a_false : exists e M, 0 <= e < 1 /\ 0 <= M <= PI / 2 /\
  forall p, (1 <= p)%Z -> exists E, Kepler2a e M p = Ok E /\ 1 / 5 <= Rabs (E - e * sin E - M).
Proof.
  pose proof PI_RGT_0 as HP. pose proof PI2_3_2 as HP3. pose proof PI_4 as HP4.
  set (w := sqrt (1 + PI * PI)). assert (Pw : 0 < 1 + PI * PI) by nra.
  assert (W2 : w * w = 1 + PI * PI) by (apply sqrt_sqrt; lra). assert (Wp : 0 < w) by (apply sqrt_lt_R0, Pw).
  assert (Wg : PI < w) by nra.
  set (e := PI / w). assert (He : 0 <= e < 1).
  { unfold e. split; [apply Rlt_le, Rdiv_lt_0_compat; lra|]. apply Rmult_lt_reg_r with w; [exact Wp|]. unfold Rdiv. rewrite Rmult_assoc, Rinv_l; lra. }
  assert (E2 : e * e = PI * PI / (w * w)) by (unfold e; field; lra).
  set (M := acos e). assert (CM : cos M = e) by (apply cos_acos; lra).
  assert (BM : 0 <= M <= PI / 2).
  { unfold M. pose proof (acos_bound e). split; [lra|]. destruct (Rle_dec (acos e) (PI / 2)); [lra|]. exfalso.
    assert (cos (acos e) < 0) by (apply cos_lt_0; lra). fold M in H0. lra. }
  assert (SM : sin M = 1 / w).
  { assert (0 <= sin M) by (apply sin_ge_0; lra). assert (0 < 1 / w) by (apply Rdiv_lt_0_compat; lra).
    assert (Q : sin M * sin M = 1 / w * (1 / w)).
    { pose proof (sc1 M) as S. rewrite CM in S. assert (sin M * sin M = 1 - e * e) by lra. rewrite H1, E2. 
      replace (1 / w * (1 / w)) with (1 / (w * w)) by (field; lra). rewrite W2. field. lra. }
    nra. }
  exists e, M. split; [exact He|]. split; [exact BM|]. intros p Hp. exists M.
  assert (St : (M + e * sin M - M) / (1 - e * cos M) = PI).
  { rewrite CM, SM, E2. unfold e. rewrite W2. replace (M + PI / w * (1 / w) - M) with (PI / (w * w)) by (field; lra). rewrite W2. field.
    split; [|lra]. nra. }
  split.
  - unfold Kepler2a. replace (Z.to_nat (p * 5)) with (S (Z.to_nat (p * 5 - 1))) by lia.
    unfold DecimalPlaces. replace (Z.to_nat (p * 5)) with (S (Z.to_nat (p * 5 - 1))) by lia.
    cbn [DecimalPlaces_loop]. cbv zeta. rewrite St, sin_PI, asin_0, Rplus_0_r. cbn.
    replace (M - M) with 0 by ring. rewrite Rabs_R0. rewrite Rlt_bool_true by apply pow10_pos. reflexivity.
  - replace (M - e * sin M - M) with (- (e * sin M)) by ring. rewrite Rabs_Ropp, SM. unfold e.
    replace (PI / w * (1 / w)) with (PI / (w * w)) by (field; lra). rewrite W2.
    assert (P0 : 0 < PI / (1 + PI * PI)) by (apply Rdiv_lt_0_compat; lra). rewrite Rabs_pos_eq by lra.
    apply Rmult_le_reg_r with (1 + PI * PI); [lra|]. replace (PI / (1 + PI * PI) * (1 + PI * PI)) with PI by (field; lra). nra.
Qed.


(** Kepler1 converges for e up to 0.63. *)
Lemma Kepler1_steps e M k : 0 <= e < 1 -> let f := fun E0 : R => M + e * sin E0 in
  Rabs (iter_n f (S k) M - iter_n f k M) <= e ^ (S k).
Proof.
  intros He f. induction k as [|k IH].
  - cbn [iter_n pow]. unfold f. replace (M + e * sin M - M) with (e * sin M) by ring.
    rewrite Rabs_mult, (Rabs_pos_eq e) by lra. assert (Rabs (sin M) <= 1) by (apply Rabs_le, SIN_bound). pose proof (Rabs_pos (sin M)). nra.
  - change (iter_n f (S (S k)) M) with (f (iter_n f (S k) M)). change (iter_n f (S k) M) with (f (iter_n f k M)) at 2.
    set (a := iter_n f (S k) M) in *. set (b := iter_n f k M) in *. unfold f.
    replace (M + e * sin a - (M + e * sin b)) with (e * (sin a - sin b)) by ring.
    rewrite Rabs_mult, (Rabs_pos_eq e) by lra. cbn [pow]. apply Rmult_le_compat_l; [lra|].
    eapply Rle_trans; [apply sin_lip|]. exact IH.
Qed.
Lemma Kepler1_total e M p : 0 <= e <= 63 / 100 -> (1 <= p)%Z -> exists E, Kepler1 e M p = Ok E.
Proof.
  intros He Hp. destruct (Kepler1 e M p) as [E|] eqn:K; [eauto|exfalso].
  unfold Kepler1 in K. pose proof (proj1 (DecimalPlaces_err (fl := RFlt) _ _ _ _ _) K) as Q. clear K.
  specialize (Q (Z.to_nat (p * 5 - 1)) ltac:(lia)). cbn in Q. revert Q. case Rlt_bool_spec; [discriminate|]. intros Q _.
  pose proof (Kepler1_steps e M (Z.to_nat (p * 5 - 1)) ltac:(lra)) as S. cbn [iter_n] in S.
  assert (e ^ (Datatypes.S (Z.to_nat (p * 5 - 1))) < pow10 (- p)); [|lra].
  replace (Datatypes.S (Z.to_nat (p * 5 - 1))) with (5 * Z.to_nat p)%nat by lia. rewrite pow_mult.
  assert (E5 : 0 <= e ^ 5 <= 63 / 100 * (63 / 100) * (63 / 100) * (63 / 100) * (63 / 100)).
  { split; [apply pow_le; lra|]. cbn [pow]. rewrite Rmult_1_r. 
    assert (0 <= e * e <= 63 / 100 * (63 / 100)) by (split; [apply Rle_0_sqr|apply Rmult_le_compat; lra]).
    assert (0 <= e * e * (e * e) <= 63 / 100 * (63 / 100) * (63 / 100 * (63 / 100))) by (split; [apply Rle_0_sqr|apply Rmult_le_compat; lra]). nra. }
  unfold pow10. rewrite powerRZ_neg'. rewrite <- (Z2Nat.id p) at 2 by lia. rewrite <- pow_powerRZ.
  rewrite <- pow_inv. apply Rle_lt_trans with ((e ^ 5) ^ Z.to_nat p); [lra|].
  assert (N : (Z.to_nat p <> 0)%nat) by lia. destruct (Z.to_nat p) as [|n]; [lia|]. clear N.
  assert (L : e ^ 5 < / 10) by lra. set (q := e ^ 5) in *. clearbody q.
  cbn [pow]. apply Rle_lt_trans with (q * (/ 10) ^ n).
  - apply Rmult_le_compat_l; [lra|]. apply pow_incr. lra.
  - apply Rmult_lt_compat_r; [apply pow_lt; lra|exact L].
Qed.

(** ** Kepler3 *)
Lemma Kepler3_loop_ok e MR Es n : 0 <= e < 1 -> Es - e * sin Es = MR -> forall E0 d, 0 <= d ->
  E0 - 2 * d <= Es <= E0 + 2 * d -> Rabs (Kepler3_loop e MR E0 d n - Es) <= 2 * d / 2 ^ n.
Proof.
  intros He Hs. induction n as [|n IH]; intros E0 d Hd B.
  - cbn. apply Rabs_le. lra.
  - cbn [Kepler3_loop]. cbv zeta.
    replace (2 * d / 2 ^ S n) with (2 * (d * (5 / 10)) / 2 ^ n) by (cbn [pow]; field; apply pow_nonzero; lra).
    destruct (Rlt_dec (MR - (E0 - e * sin E0)) 0) as [L|L]; apply IH; try lra.
    + assert (Es <= E0) by (apply (kepler_mono e); lra). lra.
    + assert (E0 <= Es) by (apply (kepler_mono e); lra). lra.
Qed.

Lemma Kepler3_ok e M : 0 <= e < 1 -> exists Es m, solves e m Es /\ same_angle m M /\ - PI <= Es <= PI /\
  Rabs (Kepler3 e M - Es) <= PI / 2 ^ 54.
Proof.
  intros He. pose proof PI_RGT_0 as HP. unfold Kepler3. pose proof (Mod1_bound M) as B. destruct (PMod_eq M _ two_PI_pos) as [k Ek]. fold (Mod1 M) in Ek.
  set (m := Mod1 M) in *. clearbody m.
  generalize 53%nat. intros n.
  assert (Ew : 2 * (PI * (25 / 100)) / 2 ^ n = PI / 2 ^ S n) by (cbn [pow]; field; apply pow_nonzero; lra).
  destruct (Rlt_dec PI m) as [L|L]; cbv iota beta.
  - change (-1 <? 0)%Z with true. cbv iota.
    destruct (kepler_exists e (2 * PI - m) He ltac:(lra)) as [Es [BE HE]].
    exists (- Es), (m - 2 * PI). unfold solves. rewrite sin_neg. split; [lra|]. split.
    { exists (k - 1)%Z. rewrite minus_IZR. rewrite Ek. ring. }
    split; [lra|]. replace (- Kepler3_loop e (2 * PI - m) (PI * (5 / 10)) (PI * (25 / 100)) n - - Es) with
      (- (Kepler3_loop e (2 * PI - m) (PI * (5 / 10)) (PI * (25 / 100)) n - Es)) by ring.
    rewrite Rabs_Ropp, <- Ew. apply Kepler3_loop_ok; try assumption; lra.
  - change (1 <? 0)%Z with false. cbv iota.
    destruct (kepler_exists e m He ltac:(lra)) as [Es [BE HE]].
    exists Es, m. split; [exact HE|]. split; [exists k; exact Ek|]. split; [lra|].
    rewrite <- Ew. apply Kepler3_loop_ok; try assumption; lra.
Qed.

(** ** Kepler4 *)
Lemma Kepler4_ok e M : 0 <= e < 1 -> exists E, same_angle (Kepler4 e M) E /\ Rabs (E - e * sin E - M) <= e * e * e.
Proof.
  intros He. pose proof PI_RGT_0 as HP. pose proof PI_4 as HP4.
  assert (N : cos M - e <> 0 \/ sin M <> 0).
  { destruct (Req_dec (sin M) 0) as [Z|Z]; [left|right; exact Z]. intros Q. pose proof (sc1 M) as S. rewrite Z in S.
    assert (cos M = e) by lra. rewrite H in S. nra. }
  destruct (atan2_spec _ _ N) as [A B]. unfold Kepler4. set (t := atan2 (sin M) (cos M - e)) in *.
  set (r := hypot (cos M - e) (sin M)) in *. assert (Pr : 0 < r) by (apply hypot_gt0, N).
  (* theta = t - M reduced to (-PI/2, PI/2) *)
  assert (Sd : r * sin (t - M) = e * sin M). { rewrite sin_minus. transitivity (r * sin t * cos M - r * cos t * sin M); [ring|]. rewrite A, B. ring. }
  assert (Cd : r * cos (t - M) = 1 - e * cos M). { rewrite cos_minus. transitivity (r * cos t * cos M + r * sin t * sin M); [ring|]. rewrite A, B. pose proof (sc1 M). lra. }
  assert (Cp : 0 < cos (t - M)). { pose proof (den_pos e M He). apply Rmult_lt_reg_l with r; [exact Pr|]. lra. }
  set (th := asin (sin (t - M))). assert (Bt : - (PI / 2) <= th <= PI / 2) by apply asin_bound.
  assert (Sth : sin th = sin (t - M)) by (apply sin_asin, SIN_bound).
  assert (Cth : cos th = cos (t - M)).
  { assert (0 <= cos th) by (apply cos_ge_0; lra). pose proof (sc1 th) as S1. pose proof (sc1 (t - M)) as S2. rewrite Sth in S1. nra. }
  destruct (angle_eq (t - M) th ltac:(lra) ltac:(lra)) as [k Ek].
  exists (M + th). split; [exists k; lra|].
  assert (SE : sin (M + th) = sin t).
  { replace (M + th) with (t + IZR (- k) * (2 * PI)) by (rewrite opp_IZR; lra). apply sin_Z. }
  assert (Es : e * sin (M + th) = sin th). { rewrite SE, Sth. apply Rmult_eq_reg_l with r; [|lra]. rewrite Sd, <- B. ring. }
  rewrite Es. replace (M + th - sin th - M) with (th - sin th) by ring.
  assert (Ls : Rabs (sin th) <= e).
  { rewrite <- Es, Rabs_mult, (Rabs_pos_eq e) by lra. assert (Rabs (sin (M + th)) <= 1) by (apply Rabs_le, SIN_bound). pose proof (Rabs_pos (sin (M + th))). nra. }
  rewrite Rabs_minus_sym. assert (Lt : Rabs th <= 2) by (apply Rabs_le; lra).
  pose proof (sin_cubic th ltac:(lra)) as Q. eapply Rle_trans; [exact Q|].
  pose proof (Rabs_pos th) as P0. 
  (* |th| <= (9/5) |sin th| *)
  pose proof (Rabs_triang_inv th (th - sin th)) as T. replace (th - (th - sin th)) with (sin th) in T by ring. rewrite (Rabs_minus_sym th (sin th)) in T.
  set (x := Rabs th) in *. set (y := Rabs (sin th)) in *.
  assert (XB : x <= PI / 2) by (apply Rabs_le; lra).
  assert (PB : PI / 2 <= 16 / 10) by (pose proof PI_bounds; lra).
  assert (X2 : x * x <= 256 / 100) by nra.
  assert (XX : x * x * x <= x * (256 / 100)) by (rewrite (Rmult_comm (x * x)); apply Rmult_le_compat_l; lra).
  assert (XY : x * (1 - 256 / 600) <= y) by lra.
  assert (XE : x <= 18 / 10 * e) by lra.
  assert (S2 : x * x <= 18 / 10 * e * (18 / 10 * e)) by (apply Rmult_le_compat; lra).
  assert (S3 : x * x * x <= 18 / 10 * e * (18 / 10 * e) * (18 / 10 * e)) by (apply Rmult_le_compat; try lra; apply Rle_0_sqr).
  assert (0 <= e * e * e) by (apply Rmult_le_pos; [apply Rle_0_sqr|lra]). lra.
Qed.

Lemma DP_fixed (f : R -> R) M places max : f M = M -> (0 < max)%Z -> DecimalPlaces (fl := RFlt) pow10 f M places max = Ok M.
Proof.
  intros Hf Hm. unfold DecimalPlaces. destruct (Z.to_nat max) as [|n] eqn:E; [lia|]. cbn [DecimalPlaces_loop]. cbv zeta.
  rewrite Hf. cbn. rewrite Rminus_diag_eq, Rabs_R0 by reflexivity.
  case Rlt_bool_spec; [reflexivity|]. pose proof (pow10_pos (- places)). lra.
Qed.
Lemma kepler_examples : (exists E, Kepler1 (1 / 2) 1 10 = Ok E) /\ Kepler2 (1 / 2) PI 10 = Ok PI /\ Kepler2b (1 / 2) PI 10 = Ok PI /\
  Kepler2a (3 / 10) PI 10 = Ok PI.
Proof.
  split; [apply Kepler1_total; [lra|lia]|].
  assert (Z : forall e, (PI + e * sin PI - PI) / (1 - e * cos PI) = 0) by (intros e; rewrite sin_PI; unfold Rdiv; ring).
  split; [|split]; (unfold Kepler2, Kepler2a, Kepler2b; apply DP_fixed; [|lia]); cbv zeta; rewrite Z.
  - ring.
  - destruct (Rlt_dec (5 / 10) 0); [lra|]. destruct (Rlt_dec 0 (- (5 / 10))); [lra|]. ring.
  - rewrite sin_0, asin_0. ring.
Qed.
