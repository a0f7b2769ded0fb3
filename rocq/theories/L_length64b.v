(** Lemmas for C108, second part: when elliptic.Length4 does not return, and how exact the result is. *)
From Coq Require Import ZArith Bool Reals List Lra Lia Psatz.
From Flocq Require Import Core Relative IEEE754.BinarySingleNaN.
From Verif Require Import GoInt GoFloat M_length S_float64 S_ellipse L_b64 L_round L_epoch64 L_julian64 L_orbit2 M_orbit L_ellipse L_length64.
Local Open Scope R_scope.

(** ** Calls that do not return *)
Lemma nan_loop f : forall m2 nf df s0, rounds m2 (B754_nan : float64) nf df s0 (B754_nan : float64) f = None.
Proof. induction f as [|f IH]; intros; [reflexivity|]. cbn [Length4_rounds]. apply IH. Qed.
Lemma plus_nan (x : float64) : Bplus mode_NE x B754_nan = B754_nan. Proof. destruct x; reflexivity. Qed.
Lemma minus_nan (x : float64) : Bminus mode_NE x B754_nan = B754_nan. Proof. destruct x; reflexivity. Qed.
Lemma mult_nan (x : float64) : Bmult mode_NE x B754_nan = B754_nan. Proof. destruct x; reflexivity. Qed.
Lemma nan_m a e fuel : m64 a e = B754_nan -> Length4 (fl := BFlt) fuel a e = None.
Proof.
  intros E. rewrite Length4_unfold, E. change (Bmult mode_NE (B754_nan : float64) B754_nan) with (B754_nan : float64).
  change (Bmult mode_NE (B754_nan : float64) (fconst (Flt := BFlt) 25 100)) with (B754_nan : float64). rewrite plus_nan, nan_loop. reflexivity.
Qed.
Lemma m_nan_root a e : root64 e = B754_nan -> m64 a e = B754_nan.
Proof. intros E. unfold m64. cbv zeta. rewrite E, mult_nan, minus_nan. reflexivity. Qed.
Lemma sqrt_neg (x : float64) : is_finite x = true -> B2R x < 0 -> Bsqrt mode_NE x = B754_nan.
Proof.
  intros F H. destruct x as [s|s| |s m ex p]; try discriminate F; [cbn in H; lra|]. destruct s; [reflexivity|]. exfalso. cbn in H. pose proof (F2R_gt_0 radix2 (Float radix2 (Zpos m) ex) ltac:(reflexivity)). lra.
Qed.
Lemma root_nan e : is_finite e = false \/ 1 < Rabs (B2R e) -> root64 e = B754_nan.
Proof.
  intros H. unfold root64. destruct (isint_const 1 ltac:(reflexivity)) as [Fo Eo]. set (one := fconst (Flt := BFlt) 1 1) in *. clearbody one.
  destruct (is_finite e) eqn:Fe.
  - destruct H as [H|H]; [discriminate|].
    assert (G : Rabs (B2R e) <= R64 (B2R e * B2R e)).
    { apply Rle_trans with (R64 (Rabs (B2R e))); [rewrite <- B2R_Babs, R64_id; apply Rle_refl|]. apply R64_monotone. rewrite <- (Rabs_pos_eq (B2R e * B2R e)) by apply Rle_0_sqr. rewrite Rabs_mult. pose proof (Rabs_pos (B2R e)). clear - H. nra. }
    pose proof (Bmult_correct 53 1024 _ _ mode_NE e e) as C. revert C. case Rlt_bool_spec; intros K C.
    + destruct C as (E2 & F2 & _). rewrite Fe in F2. cbn [andb] in F2. change (B2R (Bmult mode_NE e e) = R64 (B2R e * B2R e)) in E2. set (e2 := Bmult mode_NE e e) in *. clearbody e2.
      pose proof (Bminus_correct 53 1024 _ _ mode_NE one e2 Fo F2) as C. revert C. case Rlt_bool_spec; intros K2 C.
      * destruct C as (Eq & Fq & _). set (q := Bminus mode_NE one e2) in *. clearbody q. change (B2R q = R64 (B2R one - B2R e2)) in Eq. apply sqrt_neg; [exact Fq|]. rewrite Eq, Eo.
        assert (N : R64 (1 - B2R e2) <= 0) by (rewrite <- R64_0; apply R64_monotone; lra). destruct (Rle_lt_or_eq_dec _ _ N) as [N'|N']; [exact N'|exfalso].
        destruct (R64_err (1 - B2R e2)) as (x & t & X & T & W). rewrite N' in W. apply Rabs_le_inv in X, T. pose proof u_num. destruct eta_tiny.
        assert (B2R e2 - 1 <= / 10 ^ 80). { assert ((B2R e2 - 1) * (1 + x) <= eta) by lra. assert ((B2R e2 - 1) * / 2 <= (B2R e2 - 1) * (1 + x)) by (apply Rmult_le_compat_l; lra). assert (/ 10 ^ 90 <= / 2 * / 10 ^ 80) by lra. lra. }
        assert (B2R e2 = 1).
        { assert (Q : R64 (1 + (B2R e2 - 1)) = 1). { rewrite <- Eo. apply absorb; [lra|]. split; [lra|]. rewrite u_pow. lra. } replace (1 + (B2R e2 - 1)) with (B2R e2) in Q by ring. rewrite R64_id in Q. exact Q. }
        lra.
      * destruct C as [C _]. change (binary_overflow 53 1024 mode_NE (Bsign one)) with (SpecFloat.S754_infinity (Bsign one)) in C.
        exfalso. assert (B : Rabs (R64 (B2R one - B2R e2)) <= Rabs (B2R e2)).
        { apply in_range. rewrite Eo. assert (1 < B2R e2) by lra. rewrite Rabs_left1, Rabs_pos_eq by lra. lra. }
        pose proof (abs_B2R_lt_emax 53 1024 e2) as L. change (bpow radix2 1024 <= Rabs (R64 (B2R one - B2R e2))) in K2. lra.
    + change (binary_overflow 53 1024 mode_NE (xorb (Bsign e) (Bsign e))) with (SpecFloat.S754_infinity (xorb (Bsign e) (Bsign e))) in C. rewrite xorb_nilpotent in C.
      destruct (Bmult mode_NE e e) as [|sg| |]; cbn in C; try discriminate C. injection C as ->. destruct one; try discriminate Fo; reflexivity.
  - destruct e as [s|s| |s m ex p]; try discriminate Fe.
    + replace (Bmult mode_NE (B754_infinity s : float64) (B754_infinity s)) with (B754_infinity false : float64) by (destruct s; reflexivity). destruct one; try discriminate Fo; reflexivity.
    + rewrite mult_nan, minus_nan. reflexivity.
Qed.
Lemma root_cases e : root64 e = B754_nan \/ (is_finite (root64 e) = true /\ 0 <= B2R (root64 e)).
Proof.
  destruct (is_finite e) eqn:Fe; [|left; apply root_nan; left; exact Fe]. destruct (Rlt_or_le 1 (Rabs (B2R e))) as [H|H]; [left; apply root_nan; right; exact H|].
  destruct (root_ok e Fe H) as (A & _ & B). right. split; [exact A|lra].
Qed.
Lemma m_nan_a a e : is_finite a = false \/ B2R a = 0 -> m64 a e = B754_nan.
Proof.
  intros H. destruct (root_cases e) as [E|[F P]]; [apply m_nan_root, E|]. unfold m64. cbv zeta. set (s := root64 e) in *. clearbody s.
  destruct (is_finite a) eqn:Fa.
  - destruct H as [H|H]; [discriminate|]. destruct a as [sa|sa| |sa m ex p]; try discriminate Fa.
    + destruct s as [ss|ss| |ss ms es ps]; try discriminate F; destruct sa, ss; reflexivity.
    + exfalso. cbn in H. apply eq_0_F2R in H. destruct sa; discriminate H.
  - destruct a as [sa|sa| |sa m ex p]; try discriminate Fa; [|reflexivity].
    destruct s as [ss|ss| |ss ms es ps]; try discriminate F; [reflexivity|]. destruct ss; [exfalso; cbn in P; pose proof (F2R_lt_0 radix2 (Float radix2 (Zneg ms) es) ltac:(reflexivity)); lra|]. destruct sa; reflexivity.
Qed.

Lemma Length4_hangs a e fuel : is_finite a = false \/ B2R a = 0 \/ is_finite e = false \/ 1 < Rabs (B2R e) -> Length4 (fl := BFlt) fuel a e = None.
Proof.
  intros H. apply nan_m. destruct H as [H|[H|H]]; [apply m_nan_a; tauto|apply m_nan_a; tauto|apply m_nan_root, root_nan, H].
Qed.
Lemma Length4_returns a e : is_finite a = true -> B2R a <> 0 -> is_finite e = true -> Rabs (B2R e) <= 1 ->
  exists r, forall fuel, (131072 <= Z.of_nat fuel)%Z -> Length4 (fl := BFlt) fuel a e = Some r.
Proof.
  intros Fa Ha Fe He. destruct (Length4_run a e last_round Fa Ha Fe He ltac:(rewrite last_round_Z; lia) (fun t n d x y => end_small _ t n d x y)) as (d & t & n & df & s0 & s1 & Hd & _ & _ & R & _).
  eexists. intros fuel Hf. apply R. pose proof last_round_Z. lia.
Qed.

(** ** The tail of the series *)
Lemma tau_dec H d n : 0 <= H <= 1 -> let k := INR d + 1 in tau H (S (d + n)) * ((k + INR n) * (k + INR n)) <= tau H (S d) * (k * k).
Proof.
  intros HH k. pose proof (pos_INR d) as Pd. induction n as [|n IH]; [rewrite Nat.add_0_r; cbn [INR]; rewrite Rplus_0_r; apply Rle_refl|].
  eapply Rle_trans; [|exact IH]. rewrite <- plus_n_Sm, tau_S, S_INR, plus_INR. pose proof (pos_INR n) as Pn. pose proof (tau_pos H (S (d + n)) (proj1 HH)) as T0. set (t := tau H (S (d + n))) in *. clearbody t.
  replace (INR d + INR n + 1) with (k + INR n) by (unfold k; ring). replace (k + (INR n + 1)) with (k + INR n + 1) by ring. set (j := k + INR n). assert (J : 1 <= j) by (unfold j, k; lra). clearbody j.
  rewrite Rmult_assoc. apply Rmult_le_compat_l; [exact T0|].
  replace ((2 * j - 1) * (2 * j - 1) * H / ((2 * j + 2) * (2 * j + 2)) * ((j + 1) * (j + 1))) with ((2 * j - 1) * (2 * j - 1) / 4 * H) by (field; lra). clear - J HH.
  assert (0 <= (2 * j - 1) * (2 * j - 1) / 4 <= j * j) by (split; nra). nra.
Qed.
Lemma tail H d n : 0 <= H <= 1 -> let k := INR d + 1 in 0 <= hsum H (S (d + n)) - hsum H d <= tau H (S d) * (1 + k - k * k / (k + INR n)).
Proof.
  intros HH k. pose proof (pos_INR d) as Pd. assert (K : 1 <= k) by (unfold k; lra). pose proof (tau_pos H (S d) (proj1 HH)) as T0. induction n as [|n IH].
  - rewrite Nat.add_0_r, hsum_S. cbn [INR]. replace (hsum H d + tau H (S d) - hsum H d) with (tau H (S d)) by ring. replace (1 + k - k * k / (k + 0)) with 1 by (field; lra). lra.
  - rewrite <- plus_n_Sm, hsum_S. pose proof (tau_pos H (S (S (d + n))) (proj1 HH)) as T1. split; [lra|]. pose proof (tau_dec H d (S n) HH) as D. cbv zeta in D. fold k in D. rewrite <- plus_n_Sm in D. rewrite S_INR in *. pose proof (pos_INR n) as Pn.
    set (t := tau H (S d)) in *. set (t1 := tau H (S (S (d + n)))) in *. replace (k + (INR n + 1)) with (k + INR n + 1) in * by ring. set (j := k + INR n) in *. assert (J : 1 <= j) by (unfold j; lra). clearbody t t1 j.
    assert (t1 <= t * (k * k / j - k * k / (j + 1))).
    { apply Rmult_le_reg_r with ((j + 1) * (j + 1)); [nra|]. eapply Rle_trans; [exact D|]. replace (t * (k * k / j - k * k / (j + 1)) * ((j + 1) * (j + 1))) with (t * (k * k) * ((j + 1) / j)) by (field; lra).
      assert (1 <= (j + 1) / j) by (apply Rmult_le_reg_r with j; [lra|]; replace ((j + 1) / j * j) with (j + 1) by (field; lra); lra). assert (0 <= t * (k * k)) by (apply Rmult_le_pos; [exact T0|nra]). rewrite <- (Rmult_1_r (t * (k * k))) at 1. apply Rmult_le_compat_l; assumption. }
    lra.
Qed.

(** The sum when the loop ends. *)
Lemma final_sum H d term nf df s0 s1 n : 0 <= H <= 1 -> (Z.of_nat d <= 131072)%Z -> inv H d term nf df s0 s1 -> B2R s1 = B2R s0 ->
  Rabs (B2R s0 - hsum H (S (d + n))) <= 6 * (INR d + 1) * u53.
Proof.
  intros HH Hd (_ & _ & (_ & Ht) & (_ & _ & H0 & _ & E1) & Te & _ & S0) E. pose proof u_num as U. destruct eta_tiny as [P0 P1]. assert (P2 : eta <= 1e-90) by lra. clear P1.
  assert (Kd : INR d <= 131072) by (rewrite INR_IZR_INZ; apply IZR_le, Hd). pose proof (pos_INR d) as Pd. set (k := INR d + 1) in *. pose proof (inv_k3 k ltac:(unfold k; lra)) as K3.
  assert (T : B2R term <= 1.77 * u53).
  { destruct (R64_err (B2R s0 + B2R term)) as (e & t & X & T & W). rewrite <- E1, E in W. apply Rabs_le_inv in X, T.
    assert (- ((B2R s0 + B2R term) * e) <= 1.76 * u53). { replace (- ((B2R s0 + B2R term) * e)) with ((B2R s0 + B2R term) * - e) by ring. apply Rle_trans with ((B2R s0 + B2R term) * u53); [apply Rmult_le_compat_l; lra|apply Rmult_le_compat_r; lra]. } lra. }
  pose proof (tau_pos H (S d) (proj1 HH)) as T0. set (ta := tau H (S d)) in *. apply Rabs_le_inv in Te.
  assert (KU : 7 * k * u53 <= 1e-9). { assert (k * u53 <= 131073 * 1.111e-16) by (apply Rmult_le_compat; unfold k; lra). lra. }
  assert (KE : 4 * k * eta <= 1e-30). { assert (4 * k * eta <= 4 * 131073 * 1e-90) by (apply Rmult_le_compat; unfold k; lra). lra. }
  assert (TA : ta <= 1.78 * u53). { assert (7 * k * u53 * ta <= 1e-9 * ta) by (apply Rmult_le_compat_r; lra). lra. }
  destruct (tail H d n HH) as [L1 L2]. fold k ta in L2. pose proof (pos_INR n) as Pn.
  assert (L3 : hsum H (S (d + n)) - hsum H d <= 1.78 * u53 * (1 + k)).
  { eapply Rle_trans; [exact L2|]. assert (0 <= k * k / (k + INR n)) by (apply Rmult_le_pos; [unfold k; nra|left; apply Rinv_0_lt_compat; unfold k; lra]).
    apply Rle_trans with (ta * (1 + k)); [apply Rmult_le_compat_l; lra|apply Rmult_le_compat_r; [unfold k; lra|exact TA]]. }
  replace (B2R s0 - hsum H (S (d + n))) with ((B2R s0 - hsum H d) - (hsum H (S (d + n)) - hsum H d)) by ring. set (D := hsum H (S (d + n)) - hsum H d) in *. clearbody D.
  apply Rabs_le_inv in S0. assert (0 <= INR d * u53) by (apply Rmult_le_pos; lra). unfold k in *. apply Rabs_le. split; lra.
Qed.

(** ** Sensitivity of the series *)
Lemma pow_lip x y k : 0 <= x <= 1 -> 0 <= y <= 1 -> Rabs (x ^ k - y ^ k) <= INR k * Rabs (x - y).
Proof.
  intros Hx Hy. induction k as [|k IH]; [cbn; replace (1 - 1) with 0 by ring; rewrite Rabs_R0; lra|]. rewrite S_INR. cbn [pow]. replace (x * x ^ k - y * y ^ k) with (x * (x ^ k - y ^ k) + (x - y) * y ^ k) by ring.
  eapply Rle_trans; [apply Rabs_triang|]. rewrite !Rabs_mult, (Rabs_pos_eq x) by lra. assert (Y : 0 <= y ^ k <= 1) by (split; [apply pow_le; lra|rewrite <- (pow1 k); apply pow_incr; lra]). rewrite (Rabs_pos_eq (y ^ k)) by lra.
  pose proof (Rabs_pos (x - y)) as P1. pose proof (Rabs_pos (x ^ k - y ^ k)) as P2. assert (x * Rabs (x ^ k - y ^ k) <= 1 * Rabs (x ^ k - y ^ k)) by (apply Rmult_le_compat_r; lra). assert (Rabs (x - y) * y ^ k <= Rabs (x - y) * 1) by (apply Rmult_le_compat_l; lra). lra.
Qed.
Lemma hsum_lip M m n : 0 <= M <= 1 -> 0 <= m <= 1 -> Rabs (hsum (M * M) n - hsum (m * m) n) <= Rabs (M - m).
Proof.
  intros HM Hm. set (D := Rabs (M - m)). assert (D0 : 0 <= D) by apply Rabs_pos.
  assert (T : forall n, Rabs (tau (M * M) (S n) - tau (m * m) (S n)) <= D * / (2 * ((INR n + 1) * (INR n + 1)))).
  { clear n. intros n. pose proof (pos_INR n) as Pn. set (k := INR n + 1) in *. assert (K : 1 <= k) by (unfold k; lra).
    unfold tau. replace (dc (S n) * dc (S n) * (M * M) ^ S n - dc (S n) * dc (S n) * (m * m) ^ S n) with (dc (S n) * dc (S n) * ((M * M) ^ S n - (m * m) ^ S n)) by ring. rewrite Rabs_mult, (Rabs_pos_eq (dc (S n) * dc (S n))) by apply Rle_0_sqr.
    pose proof (tau_le 1 n ltac:(lra)) as TL. unfold tau in TL. rewrite pow1, Rmult_1_r in TL. fold k in TL.
    pose proof (pow_lip (M * M) (m * m) (S n) ltac:(clear - HM; nra) ltac:(clear - Hm; nra)) as PL. rewrite S_INR in PL. fold k in PL.
    assert (Q : Rabs (M * M - m * m) <= 2 * D). { replace (M * M - m * m) with ((M + m) * (M - m)) by ring. rewrite Rabs_mult, Rabs_pos_eq by lra. apply Rmult_le_compat_r; [exact D0|lra]. }
    apply Rle_trans with (/ (4 * (k * k * k)) * (k * (2 * D))).
    - apply Rmult_le_compat; [apply Rle_0_sqr|apply Rabs_pos|exact TL|]. eapply Rle_trans; [exact PL|]. apply Rmult_le_compat_l; lra.
    - right. field. lra. }
  assert (Z : hsum (M * M) 0 - hsum (m * m) 0 = 0) by (unfold hsum; cbn; ring).
  assert (Sp : forall n, hsum (M * M) (S n) - hsum (m * m) (S n) = (hsum (M * M) n - hsum (m * m) n) + (tau (M * M) (S n) - tau (m * m) (S n))) by (intros; rewrite !hsum_S; ring).
  assert (G : forall n, Rabs (hsum (M * M) (S n) - hsum (m * m) (S n)) <= D * (1 - / (2 * (INR n + 1)))).
  { clear n. induction n as [|n IH].
    - rewrite Sp, Z, Rplus_0_l. eapply Rle_trans; [apply T|]. cbn [INR]. lra.
    - rewrite Sp. eapply Rle_trans; [apply Rabs_triang|]. pose proof (T (S n)) as T1. rewrite S_INR in *. pose proof (pos_INR n) as Pn. set (k := INR n + 1) in *. assert (K : 1 <= k) by (unfold k; lra). clearbody k.
      assert (/ (2 * ((k + 1) * (k + 1))) <= / (2 * k) - / (2 * (k + 1))).
      { replace (/ (2 * k) - / (2 * (k + 1))) with (/ (2 * (k * (k + 1)))) by (field; lra). apply Rinv_le_contravar; clear - K; nra. }
      assert (D * / (2 * ((k + 1) * (k + 1))) <= D * (/ (2 * k) - / (2 * (k + 1)))) by (apply Rmult_le_compat_l; assumption). lra. }
  destruct n as [|n]; [rewrite Z, Rabs_R0; exact D0|]. eapply Rle_trans; [apply G|]. pose proof (pos_INR n). assert (0 < / (2 * (INR n + 1))) by (apply Rinv_0_lt_compat; lra). clear - D0 H0. nra.
Qed.

(** ** Accuracy of the root and of m *)
Definition sigma (e : R) : R := sqrt (1 - e * e).
Lemma sigma_range e : Rabs e < 1 -> 0 < sigma e <= 1 /\ sigma e * sigma e = 1 - e * e.
Proof.
  intros H. apply Rabs_def2 in H. assert (0 < 1 - e * e <= 1) by (split; nra). unfold sigma. split; [split; [apply sqrt_lt_R0; lra|rewrite <- sqrt_1 at 2; apply sqrt_le_1_alt; lra]|apply sqrt_sqrt; lra].
Qed.
Lemma root_err e : is_finite e = true -> Rabs (B2R e) < 1 ->
  Rabs (B2R (root64 e) - sigma (B2R e)) <= 1.01 * u53 / sigma (B2R e) + 1.01 * u53 /\ Rabs (B2R (root64 e) - sigma (B2R e)) <= 1.071e-8.
Proof.
  intros Fe He. destruct (root_ok e Fe ltac:(lra)) as (_ & E & _). destruct (sigma_range _ He) as [S01 SS]. set (E0 := B2R e) in *. set (sg := sigma E0) in *. rewrite E. clear E.
  pose proof u_num as U. destruct eta_tiny as [P0 P1]. assert (P2 : eta <= 1e-90) by lra. clear P1.
  assert (H2 : 0 <= E0 * E0 <= 1) by (apply Rabs_def2 in He; split; nra).
  destruct (R64_err (E0 * E0)) as (e1 & z1 & X1 & Y1 & W1). set (p := R64 (E0 * E0)) in *. assert (Pp : 0 <= p <= 1) by (unfold p; split; [apply R64_ge0|apply R64_le1]; lra). clearbody p.
  destruct (R64_err (1 - p)) as (e2 & z2 & X2 & Y2 & W2). set (q := R64 (1 - p)) in *. assert (Q : 0 <= q <= 1) by (unfold q; split; [apply R64_ge0|apply R64_le1]; lra). clearbody q.
  apply Rabs_le_inv in X1, Y1, X2, Y2.
  assert (QS : Rabs (q - sg * sg) <= 1.01 * u53).
  { rewrite SS, W2. replace ((1 - p) * (1 + e2) + z2 - (1 - E0 * E0)) with ((1 - p) * e2 + (E0 * E0 - p) + z2) by ring. rewrite W1 at 2. replace (E0 * E0 - (E0 * E0 * (1 + e1) + z1)) with (- (E0 * E0 * e1) - z1) by ring.
    assert (A1 : Rabs ((1 - p) * e2) <= (1 - p) * u53) by (rewrite Rabs_mult, Rabs_pos_eq by lra; apply Rmult_le_compat_l; [lra|apply Rabs_le; lra]).
    assert (A2 : Rabs (E0 * E0 * e1) <= E0 * E0 * u53) by (rewrite Rabs_mult, Rabs_pos_eq by lra; apply Rmult_le_compat_l; [lra|apply Rabs_le; lra]).
    assert (A3 : E0 * E0 - p <= u53 + eta). { apply Rabs_le_inv in A2. rewrite W1. assert (E0 * E0 * u53 <= 1 * u53) by (apply Rmult_le_compat_r; lra). lra. }
    assert (A4 : (1 - p + E0 * E0) * u53 <= (1 + u53 + eta) * u53) by (apply Rmult_le_compat_r; lra).
    assert (A5 : (1 + u53 + eta) * u53 <= 1.001 * u53) by (apply Rmult_le_compat_r; lra).
    apply Rabs_le_inv in A1, A2. apply Rabs_le. lra. }
  pose proof (sqrt_pos q) as R0. pose proof (sqrt_sqrt q (proj1 Q)) as RR. assert (R1 : sqrt q <= 1) by (rewrite <- sqrt_1; apply sqrt_le_1_alt; lra). set (r := sqrt q) in *. clearbody r.
  destruct (R64_err r) as (e3 & z3 & X3 & Y3 & W3). apply Rabs_le_inv in X3, Y3.
  assert (RS : Rabs (R64 r - r) <= 1.001 * u53). { rewrite W3. replace (r * (1 + e3) + z3 - r) with (r * e3 + z3) by ring. assert (Rabs (r * e3) <= 1 * u53) by (rewrite Rabs_mult, Rabs_pos_eq by lra; apply Rmult_le_compat; [lra|apply Rabs_pos|lra|apply Rabs_le; lra]). apply Rabs_le_inv in H. apply Rabs_le. lra. }
  set (D := Rabs (r - sg)). assert (D0 : 0 <= D) by apply Rabs_pos. assert (DD : D * (r + sg) <= 1.01 * u53). { unfold D. rewrite <- (Rabs_pos_eq (r + sg)) by lra. rewrite <- Rabs_mult. replace ((r - sg) * (r + sg)) with (r * r - sg * sg) by ring. rewrite RR. exact QS. }
  assert (T : Rabs (R64 r - sg) <= 1.001 * u53 + D). { replace (R64 r - sg) with ((R64 r - r) + (r - sg)) by ring. eapply Rle_trans; [apply Rabs_triang|]. unfold D. lra. }
  split.
  - assert (D <= 1.01 * u53 / sg). { apply Rmult_le_reg_r with sg; [lra|]. replace (1.01 * u53 / sg * sg) with (1.01 * u53) by (field; lra). assert (0 <= D * r) by (apply Rmult_le_pos; lra). lra. } lra.
  - assert (D2 : D <= r + sg). { unfold D. apply Rabs_le. lra. } assert (D * D <= 1.01 * u53) by (eapply Rle_trans; [|exact DD]; apply Rmult_le_compat_l; assumption).
    assert (D <= 1.07e-8). { apply Rnot_lt_le. intros N. assert (1.07e-8 * 1.07e-8 <= D * D) by (apply Rmult_le_compat; lra). lra. } lra.
Qed.

Lemma eta_rel x : bpow radix2 (-900) <= x -> eta <= 1e-40 * x.
Proof.
  intros H. apply Rle_trans with (1e-40 * bpow radix2 (-900)); [|apply Rmult_le_compat_l; [lra|exact H]]. apply Rle_trans with (bpow radix2 (-134) * bpow radix2 (-900)); [rewrite <- bpow_plus; unfold eta; apply bpow_le; lia|].
  apply Rmult_le_compat_r; [apply bpow_ge_0|]. change (bpow radix2 (-134)) with (/ IZR (2 ^ 134)). apply Rle_trans with (/ IZR (10 ^ 40)); [apply Rinv_le_contravar; [apply IZR_lt; reflexivity|apply IZR_le; now vm_compute]|]. replace (IZR (10 ^ 40)) with (10 ^ 40) by (rewrite (pow_IZR 10 40); reflexivity). lra.
Qed.

Lemma m_err a e : is_finite a = true -> bpow radix2 (-900) <= B2R a <= bpow radix2 1000 -> is_finite e = true -> Rabs (B2R e) < 1 ->
  let sg := sigma (B2R e) in Rabs (B2R (m64 a e) - (1 - sg) / (1 + sg)) <= 2 * Rabs (B2R (root64 e) - sg) + 5.1 * u53.
Proof.
  intros Fa Ha Fe He sg. destruct (sigma_range _ He) as [S01 _]. fold sg in S01. destruct (root_ok e Fe ltac:(lra)) as (Fs & _ & R01). unfold m64. set (s := root64 e) in *. clearbody s sg. set (A := B2R a) in *.
  pose proof (bpow_gt_0 radix2 (-900)) as B9. assert (A0 : 0 < A) by lra. pose proof (eta_rel A (proj1 Ha)) as EA. pose proof u_num as U. destruct eta_tiny as [P0 P1]. assert (P2 : eta <= 1e-90) by lra. clear P1.
  assert (K : Rabs (A * B2R s) <= Rabs A). { rewrite Rabs_mult, (Rabs_pos_eq (B2R s)) by lra. pose proof (Rabs_pos A). clear - H R01. nra. }
  destruct (mult_le a s Fa Fs K) as [Fb Eb]. set (b := Bmult mode_NE a s) in *. clearbody b. fold A in Eb. pose proof (R64_id a) as IA. fold A in IA.
  assert (Bp : 0 <= B2R b <= A). { rewrite Eb. split; [apply R64_ge0, Rmult_le_pos; lra|]. rewrite <- IA at 2. apply R64_monotone. clear - A0 R01. nra. }
  destruct (R64_err (A * B2R s)) as (e1 & z1 & X1 & Y1 & W1). rewrite <- Eb in W1.
  destruct (minus_le a b Fa Fb ltac:(fold A; rewrite !Rabs_pos_eq by lra; lra)) as [Fx Ex]. set (x := Bminus mode_NE a b) in *. clearbody x. fold A in Ex.
  assert (Xp : 0 <= B2R x <= A). { rewrite Ex. split; [apply R64_ge0; lra|]. rewrite <- IA at 2. apply R64_monotone. lra. }
  destruct (R64_err (A - B2R b)) as (e2 & z2 & X2 & Y2 & W2). rewrite <- Ex in W2.
  assert (TB : bpow radix2 1000 + bpow radix2 1000 <= bpow radix2 1023). { replace (bpow radix2 1000 + bpow radix2 1000) with (bpow radix2 1001); [apply bpow_le; lia|]. change 1001%Z with (1 + 1000)%Z. rewrite bpow_plus. change (bpow radix2 1) with 2. ring. }
  destruct (plus_ok a b Fa Fb ltac:(fold A; rewrite Rabs_pos_eq by lra; lra)) as [Fy Ey]. set (y := Bplus mode_NE a b) in *. clearbody y. fold A in Ey.
  assert (Yp : A <= B2R y). { rewrite Ey. apply Rle_trans with (R64 A); [rewrite IA; apply Rle_refl|apply R64_monotone; lra]. }
  destruct (R64_err (A + B2R b)) as (e3 & z3 & X3 & Y3 & W3). rewrite <- Ey in W3.
  assert (Q : 0 <= B2R x / B2R y <= 1). { split; [apply Rmult_le_pos; [lra|left; apply Rinv_0_lt_compat; lra]|]. apply Rmult_le_reg_r with (B2R y); [lra|]. replace (B2R x / B2R y * B2R y) with (B2R x) by (field; lra). lra. }
  destruct (div_ok x y Fx ltac:(lra)) as [Fm Em]; [apply (small_ok _ 1); [lia|exact Q]|]. destruct (R64_err (B2R x / B2R y)) as (e4 & z4 & X4 & Y4 & W4). rewrite <- Em in W4. rewrite W4. clear Em Ex Ey Eb IA Fm Fx Fy Fb TB K.
  apply Rabs_le_inv in X1, X2, X3, X4, Y1, Y2, Y3, Y4.
  (* everything in units of A *)
  set (be := B2R b / A). assert (EB : B2R b = A * be) by (unfold be; field; lra). set (xa := B2R x / A). assert (EX : B2R x = A * xa) by (unfold xa; field; lra). set (ya := B2R y / A). assert (EY : B2R y = A * ya) by (unfold ya; field; lra).
  assert (ZA : forall z, - eta <= z <= eta -> Rabs (z / A) <= 1e-40). { intros z Hz. unfold Rdiv. rewrite Rabs_mult, (Rabs_pos_eq (/ A)) by (left; apply Rinv_0_lt_compat, A0). apply Rmult_le_reg_r with A; [exact A0|]. rewrite Rmult_assoc, Rinv_l, Rmult_1_r by lra. eapply Rle_trans; [|exact EA]. apply Rabs_le. lra. }
  assert (Be : be = B2R s * (1 + e1) + z1 / A) by (unfold be; rewrite W1; field; lra). assert (Xe : xa = (1 - be) * (1 + e2) + z2 / A) by (unfold xa; rewrite W2, EB; field; lra). assert (Ye : ya = (1 + be) * (1 + e3) + z3 / A) by (unfold ya; rewrite W3, EB; field; lra).
  pose proof (ZA z1 Y1) as V1. pose proof (ZA z2 Y2) as V2. pose proof (ZA z3 Y3) as V3. set (v1 := z1 / A) in *. set (v2 := z2 / A) in *. set (v3 := z3 / A) in *.
  assert (EQ : B2R x / B2R y = xa / ya) by (rewrite EX, EY; field; split; [intros Z; rewrite EY, Z in Yp; lra|lra]). rewrite EQ in Q |- *. clear EQ.
  assert (be01 : 0 <= be <= 1). { rewrite EB in Bp. split; [apply Rmult_le_reg_l with A; lra|]. apply Rmult_le_reg_l with A; lra. }
  assert (ya1 : 1 <= ya). { rewrite EY in Yp. apply Rmult_le_reg_l with A; lra. }
  clearbody be xa ya v1 v2 v3. clear EB EX EY ZA W1 W2 W3 W4 Bp Xp Yp.
  assert (D1 : Rabs (be - B2R s) <= 1.001 * u53). { rewrite Be. replace (B2R s * (1 + e1) + v1 - B2R s) with (B2R s * e1 + v1) by ring. assert (Rabs (B2R s * e1) <= 1 * u53) by (rewrite Rabs_mult, Rabs_pos_eq by lra; apply Rmult_le_compat; [lra|apply Rabs_pos|lra|apply Rabs_le; lra]). eapply Rle_trans; [apply Rabs_triang|]. lra. }
  assert (DX : Rabs (xa - (1 - be)) <= u53 + 1e-40). { rewrite Xe. replace ((1 - be) * (1 + e2) + v2 - (1 - be)) with ((1 - be) * e2 + v2) by ring. assert (Rabs ((1 - be) * e2) <= 1 * u53) by (rewrite Rabs_mult, Rabs_pos_eq by lra; apply Rmult_le_compat; [lra|apply Rabs_pos|lra|apply Rabs_le; lra]). eapply Rle_trans; [apply Rabs_triang|]. lra. }
  assert (DY : Rabs (ya - (1 + be)) <= (1 + be) * u53 + 1e-40). { rewrite Ye. replace ((1 + be) * (1 + e3) + v3 - (1 + be)) with ((1 + be) * e3 + v3) by ring. assert (Rabs ((1 + be) * e3) <= (1 + be) * u53) by (rewrite Rabs_mult, Rabs_pos_eq by lra; apply Rmult_le_compat_l; [lra|apply Rabs_le; lra]). eapply Rle_trans; [apply Rabs_triang|]. lra. }
  set (ph := (1 - be) / (1 + be)). assert (PH : 0 <= ph <= 1). { unfold ph. split; [apply Rmult_le_pos; [lra|left; apply Rinv_0_lt_compat; lra]|]. apply Rmult_le_reg_r with (1 + be); [lra|]. replace ((1 - be) / (1 + be) * (1 + be)) with (1 - be) by (field; lra). lra. }
  assert (DQ : Rabs (xa / ya - ph) <= 2.001 * u53).
  { replace (xa / ya - ph) with (((xa - (1 - be)) - ph * (ya - (1 + be))) / ya) by (unfold ph; field; lra). unfold Rdiv. rewrite Rabs_mult, (Rabs_pos_eq (/ ya)) by (left; apply Rinv_0_lt_compat; lra).
    assert (I1 : / ya <= 1) by (rewrite <- Rinv_1; apply Rinv_le_contravar; lra). assert (I0 : 0 < / ya) by (apply Rinv_0_lt_compat; lra).
    assert (PY : Rabs (ph * (ya - (1 + be))) <= u53 + 1e-40). { rewrite Rabs_mult, (Rabs_pos_eq ph) by lra. apply Rle_trans with (ph * ((1 + be) * u53 + 1e-40)); [apply Rmult_le_compat_l; lra|]. replace (ph * ((1 + be) * u53 + 1e-40)) with ((1 - be) * u53 + ph * 1e-40) by (unfold ph; field; lra). assert ((1 - be) * u53 <= 1 * u53) by (apply Rmult_le_compat_r; lra). lra. }
    assert (N : Rabs (xa - (1 - be) - ph * (ya - (1 + be))) <= 2 * u53 + 2e-40). { apply Rabs_le_inv in DX, PY. apply Rabs_le. lra. }
    apply Rle_trans with ((2 * u53 + 2e-40) * 1); [apply Rmult_le_compat; [apply Rabs_pos|lra|exact N|exact I1]|lra]. }
  assert (D4 : Rabs (xa / ya * (1 + e4) + z4 - xa / ya) <= 1.001 * u53). { replace (xa / ya * (1 + e4) + z4 - xa / ya) with (xa / ya * e4 + z4) by ring. assert (Rabs (xa / ya * e4) <= 1 * u53) by (rewrite Rabs_mult, (Rabs_pos_eq (xa / ya)) by lra; apply Rmult_le_compat; [lra|apply Rabs_pos|lra|apply Rabs_le; lra]). apply Rabs_le_inv in H. apply Rabs_le. lra. }
  assert (DP : Rabs (ph - (1 - sg) / (1 + sg)) <= 2 * Rabs (be - sg)).
  { replace (ph - (1 - sg) / (1 + sg)) with ((sg - be) * (2 / ((1 + be) * (1 + sg)))) by (unfold ph; field; lra). rewrite Rabs_mult, (Rabs_minus_sym sg be). assert (G : 0 < 2 / ((1 + be) * (1 + sg)) <= 2). { assert (1 <= (1 + be) * (1 + sg)) by (clear - be01 S01; nra). split; [apply Rdiv_lt_0_compat; lra|]. apply Rmult_le_reg_r with ((1 + be) * (1 + sg)); [lra|]. replace (2 / ((1 + be) * (1 + sg)) * ((1 + be) * (1 + sg))) with 2 by (field; lra). lra. }
    rewrite (Rabs_pos_eq (2 / _)) by lra. pose proof (Rabs_pos (be - sg)). clear - G H. nra. }
  assert (T : Rabs (be - sg) <= Rabs (B2R s - sg) + 1.001 * u53). { replace (be - sg) with ((be - B2R s) + (B2R s - sg)) by ring. eapply Rle_trans; [apply Rabs_triang|]. lra. }
  replace (xa / ya * (1 + e4) + z4 - (1 - sg) / (1 + sg)) with ((xa / ya * (1 + e4) + z4 - xa / ya) + (xa / ya - ph) + (ph - (1 - sg) / (1 + sg))) by ring.
  eapply Rle_trans; [apply Rabs_triang|]. eapply Rle_trans; [apply Rplus_le_compat_r, Rabs_triang|]. lra.
Qed.

(** ** The value returned *)
Lemma PI_16 : 31415926535897929 / 10000000000000000 < PI < 31415926535897934 / 10000000000000000.
Proof.
  pose proof (PI_2_3_7_ineq 8) as [A _]. pose proof (PI_2_3_7_ineq 8) as [_ B]. cbn [Nat.mul Nat.add sum_f_R0] in A, B. unfold tg_alt, PI_2_3_7_tg, Ratan_seq in A, B.
  cbn [Nat.mul Nat.add pow INR] in A, B. lra.
Qed.
Lemma twoPi_value : is_finite (twoPi (fl := BFlt)) = true /\ B2R (twoPi (fl := BFlt)) = 7074237752028440 / 1125899906842624.
Proof.
  assert (Q : B2SF (twoPi (fl := BFlt)) = SpecFloat.S754_finite false 7074237752028440 (-50)) by (vm_compute; reflexivity).
  set (x := twoPi (fl := BFlt)) in *. clearbody x. destruct x as [s|s| |s m ex p]; cbn in Q; try discriminate Q. injection Q as -> -> ->. split; [reflexivity|]. cbn. unfold F2R. cbn. lra.
Qed.
Lemma twoPi_rel : exists e, Rabs e <= u53 /\ B2R (twoPi (fl := BFlt)) = 2 * PI * (1 + e).
Proof.
  pose proof PI_16 as P. exists (B2R (twoPi (fl := BFlt)) / (2 * PI) - 1). rewrite (proj2 twoPi_value). split; [|field; lra]. rewrite u_pow.
  assert (K : forall w, Rabs (w - 2 * PI) <= / 9007199254740992 * (2 * PI) -> Rabs (w / (2 * PI) - 1) <= / 9007199254740992).
  { intros w H. replace (w / (2 * PI) - 1) with ((w - 2 * PI) * / (2 * PI)) by (field; lra). rewrite Rabs_mult, (Rabs_pos_eq (/ (2 * PI))) by (left; apply Rinv_0_lt_compat; lra). apply Rmult_le_reg_r with (2 * PI); [lra|]. rewrite Rmult_assoc, Rinv_l, Rmult_1_r by lra. exact H. }
  apply K. apply Rabs_le. lra.
Qed.
Lemma R64_rel x : bpow radix2 (-900) <= x -> exists e, Rabs e <= 1.001 * u53 /\ R64 x = x * (1 + e).
Proof.
  intros H. pose proof (bpow_gt_0 radix2 (-900)) as B. destruct (R64_err x) as (e & t & X & T & W). exists (e + t / x). split; [|rewrite W; field; lra].
  eapply Rle_trans; [apply Rabs_triang|]. assert (Rabs (t / x) <= 1e-40). { unfold Rdiv. rewrite Rabs_mult, (Rabs_pos_eq (/ x)) by (left; apply Rinv_0_lt_compat; lra). apply Rmult_le_reg_r with x; [lra|]. rewrite Rmult_assoc, Rinv_l, Rmult_1_r by lra. eapply Rle_trans; [exact T|]. apply eta_rel, H. }
  pose proof u_num. lra.
Qed.
Lemma rel_inv e v : Rabs e <= v -> v <= 1e-6 -> exists g, Rabs g <= 1.00001 * v /\ / (1 + e) = 1 + g.
Proof.
  intros H V. apply Rabs_le_inv in H. exists (/ (1 + e) - 1). split; [|ring]. replace (/ (1 + e) - 1) with (- e * / (1 + e)) by (field; lra). rewrite Rabs_mult, Rabs_Ropp, (Rabs_pos_eq (/ (1 + e))) by (left; apply Rinv_0_lt_compat; lra).
  assert (/ (1 + e) <= 1.00001). { apply Rmult_le_reg_r with (1 + e); [lra|]. rewrite Rinv_l by lra. lra. } replace (1.00001 * v) with (v * 1.00001) by ring. apply Rmult_le_compat; [apply Rabs_pos|left; apply Rinv_0_lt_compat; lra|apply Rabs_le; lra|assumption].
Qed.
Lemma relc' a x e v w : Rabs (x - 1) <= a -> Rabs e <= v -> a + v + a * v <= w -> Rabs (x * (1 + e) - 1) <= w.
Proof. intros. eapply Rle_trans; [apply relc; eassumption|assumption]. Qed.

(** The result in terms of the sum, apart from rounding. *)
Definition out (a : float64) (s m : float64) : float64 := Bdiv mode_NE (Bmult mode_NE (Bmult mode_NE (twoPi (fl := BFlt)) a) s) (Bplus mode_NE (fconst (Flt := BFlt) 1 1) m).
Lemma out_err a s m : is_finite a = true -> bpow radix2 (-900) <= B2R a <= bpow radix2 1000 -> is_finite s = true -> 1 <= B2R s <= 1.51 -> is_finite m = true -> 0 <= B2R m <= 1 ->
  is_finite (out a s m) = true /\ exists t, Rabs (t - 1) <= 5.1 * u53 /\ B2R (out a s m) = 2 * PI * B2R a * B2R s / (1 + B2R m) * t.
Proof.
  intros Fa Ha Fs Hs Fm Hm. unfold out. destruct twoPi_value as [Fp Ep]. destruct twoPi_rel as (e0 & X0 & W0). set (P := twoPi (fl := BFlt)) in *. clearbody P. pose proof (bpow_gt_0 radix2 (-900)) as B9. set (A := B2R a) in *. pose proof u_num as U.
  assert (P6 : 6 <= B2R P <= 7) by (rewrite Ep; lra). assert (TB : 16 * bpow radix2 1000 <= bpow radix2 1023). { change 16 with (bpow radix2 4). rewrite <- bpow_plus. apply bpow_le. lia. }
  destruct (mult_ok P a Fp Fa) as [F1 E1]. { fold A. rewrite Rabs_pos_eq by (apply Rmult_le_pos; lra). apply Rle_trans with (7 * bpow radix2 1000); [apply Rmult_le_compat; lra|lra]. }
  set (x1 := Bmult mode_NE P a) in *. clearbody x1. fold A in E1. assert (G1 : 6 * A <= B2R P * A <= 7 * A) by (split; apply Rmult_le_compat_r; lra). destruct (R64_rel (B2R P * A) ltac:(lra)) as (e1 & X1 & W1). rewrite W1 in E1. clear W1.
  assert (H1 : 5 * A <= B2R x1 <= 8 * A). { rewrite E1. apply Rabs_le_inv in X1. assert (0.99 <= 1 + e1 <= 1.01) by lra. split; [apply Rle_trans with (6 * A * 0.99); [lra|apply Rmult_le_compat; lra]|apply Rle_trans with (7 * A * 1.01); [apply Rmult_le_compat; lra|lra]]. }
  assert (G2 : 5 * A <= B2R x1 * B2R s <= 15 * A). { split; [apply Rle_trans with (5 * A * 1); [lra|apply Rmult_le_compat; lra]|apply Rle_trans with (8 * A * 1.51); [apply Rmult_le_compat; lra|lra]]. }
  destruct (mult_ok x1 s F1 Fs) as [F2 E2]. { rewrite Rabs_pos_eq by lra. lra. }
  set (x2 := Bmult mode_NE x1 s) in *. clearbody x2. destruct (R64_rel (B2R x1 * B2R s) ltac:(lra)) as (e2 & X2 & W2). rewrite W2 in E2. clear W2.
  assert (H2 : 4 * A <= B2R x2 <= 16 * A). { rewrite E2. apply Rabs_le_inv in X2. assert (0.99 <= 1 + e2 <= 1.01) by lra. split; [apply Rle_trans with (5 * A * 0.99); [lra|apply Rmult_le_compat; lra]|apply Rle_trans with (15 * A * 1.01); [apply Rmult_le_compat; lra|lra]]. }
  destruct (isint_const 1 ltac:(reflexivity)) as [Fo Eo]. set (one := fconst (Flt := BFlt) 1 1) in *. clearbody one. destruct (plus_ok one m Fo Fm) as [F3 E3]. { rewrite Eo. apply (small_ok _ 2); [lia|lra]. }
  set (y := Bplus mode_NE one m) in *. clearbody y. rewrite Eo in E3. destruct (R64_rel (1 + B2R m)) as (e3 & X3 & W3). { apply Rle_trans with (bpow radix2 0); [apply bpow_le; lia|change (bpow radix2 0) with 1; lra]. }
  assert (Y1 : 1 <= B2R y). { rewrite E3. apply Rle_trans with (R64 1); [rewrite R64_1; lra|apply R64_monotone; lra]. } rewrite W3 in E3. clear W3.
  assert (Y2 : B2R y <= 2.1). { rewrite E3. apply Rabs_le_inv in X3. apply Rle_trans with (2 * 1.01); [apply Rmult_le_compat; lra|lra]. }
  assert (I0 : 0 < / B2R y <= 1) by (split; [apply Rinv_0_lt_compat; lra|rewrite <- Rinv_1; apply Rinv_le_contravar; lra]).
  assert (I1 : 1 / 4 <= / B2R y). { apply Rmult_le_reg_r with (B2R y); [lra|]. rewrite Rinv_l by lra. lra. }
  assert (G3 : A <= B2R x2 / B2R y <= 16 * A). { unfold Rdiv. split; [apply Rle_trans with (4 * A * (1 / 4)); [lra|apply Rmult_le_compat; lra]|apply Rle_trans with (16 * A * 1); [apply Rmult_le_compat; lra|lra]]. }
  destruct (div_ok x2 y F2 ltac:(lra)) as [F4 E4]. { rewrite Rabs_pos_eq by lra. lra. }
  split; [exact F4|]. rewrite E4. destruct (R64_rel (B2R x2 / B2R y) ltac:(lra)) as (e4 & X4 & W4). rewrite W4. clear W4 E4.
  destruct (rel_inv e3 (1.001 * u53) X3 ltac:(lra)) as (g & XG & EG). exists ((1 + e0) * (1 + e1) * (1 + e2) * (1 + e4) * (1 + g)). split.
  - apply relc' with (a := 4.0045 * u53) (v := 1.002 * u53); [|lra|clear - U; nra]. apply relc' with (a := 3.003 * u53) (v := 1.001 * u53); [|exact X4|clear - U; nra].
    apply relc' with (a := 2.0015 * u53) (v := 1.001 * u53); [|exact X2|clear - U; nra]. apply relc' with (a := u53) (v := 1.001 * u53); [apply rel1, X0|exact X1|clear - U; nra].
  - rewrite E2, E1, E3, W0. rewrite <- EG. apply Rabs_le_inv in X3. field. lra.
Qed.

(** The real length and the sum. *)
Lemma after_value n a e : 0 < a -> 0 <= e < 1 -> let m := (1 - sigma e) / (1 + sigma e) in Length4_after n a e = 2 * PI * a * hsum (m * m) n / (1 + m).
Proof.
  intros Ha He m. rewrite (L4_value n a e Ha He). destruct (sigma_range e ltac:(rewrite Rabs_pos_eq; lra)) as [S01 _]. fold (sigma e). set (sg := sigma e) in *. clearbody sg.
  assert (0 < a * (1 + sg)) by (apply Rmult_lt_0_compat; lra). assert (E : (a - a * sg) / (a + a * sg) = m) by (unfold m; field; split; lra). rewrite E. set (h := hsum (m * m) n). clearbody h.
  replace (1 + m) with (2 / (1 + sg)) by (unfold m; field; lra). field. lra.
Qed.
Lemma hsum_ge1 H n : 0 <= H -> 1 <= hsum H n.
Proof. intros HH. induction n as [|n IH]; [unfold hsum; cbn; lra|]. rewrite hsum_S. pose proof (tau_pos H (S n) HH). lra. Qed.
Lemma limit_rel u L r p : 0 <= p <= 1 -> Un_cv u L -> (forall n, 0 < u n) -> (exists N, forall n, (N <= n)%nat -> Rabs (r - u n) <= p * u n) -> Rabs (r - L) <= p * L.
Proof.
  intros Hp Hu Hpos [N HN]. apply le_epsilon. intros eps He. destruct (Hu (eps / 2) ltac:(lra)) as [N2 H2]. specialize (H2 (max N N2) ltac:(lia)). specialize (HN (max N N2) ltac:(lia)). unfold R_dist in H2. set (x := u (max N N2)) in *. pose proof (Hpos (max N N2)) as X. fold x in X.
  replace (r - L) with ((r - x) + (x - L)) by ring. eapply Rle_trans; [apply Rabs_triang|]. apply Rabs_def2 in H2 as H3. assert (p * x <= p * L + eps / 2). { assert (p * (x - L) <= p * (eps / 2)) by (apply Rmult_le_compat_l; lra). assert (p * (eps / 2) <= 1 * (eps / 2)) by (apply Rmult_le_compat_r; lra). lra. } lra.
Qed.
Lemma rel_total u k mu p d t s V M m : 0 <= u -> 0 <= k -> 0 <= mu <= 3e-8 -> u <= 1e-15 -> k <= 1e-10 -> 1 <= V -> 0 <= m <= 1 -> 0 <= M <= 1 ->
  Rabs (t - 1) <= u -> Rabs (s - V) <= k + mu -> Rabs (M - m) <= mu -> d = k + 2.00001 * mu + 1.00001 * u -> d <= p ->
  Rabs (s / (1 + M) * t - V / (1 + m)) <= p * (V / (1 + m)).
Proof.
  intros Hu Hk Hmu U1 K1 HV Hm HM Ht Hs HD Ed Hp. set (W := V / (1 + m)). assert (W0 : 0 < W) by (apply Rdiv_lt_0_compat; lra).
  set (f := (s - V) / V). assert (F : Rabs f <= k + mu). { unfold f, Rdiv. rewrite Rabs_mult, (Rabs_pos_eq (/ V)) by (left; apply Rinv_0_lt_compat; lra). assert (0 < / V <= 1) by (split; [apply Rinv_0_lt_compat; lra|rewrite <- Rinv_1; apply Rinv_le_contravar; lra]). pose proof (Rabs_pos (s - V)). clear - Hs H H0. nra. }
  set (g := (m - M) / (1 + M)). assert (G : Rabs g <= mu). { unfold g, Rdiv. rewrite Rabs_mult, (Rabs_pos_eq (/ (1 + M))) by (left; apply Rinv_0_lt_compat; lra). rewrite Rabs_minus_sym. assert (0 < / (1 + M) <= 1) by (split; [apply Rinv_0_lt_compat; lra|rewrite <- Rinv_1; apply Rinv_le_contravar; lra]). pose proof (Rabs_pos (M - m)). clear - HD H H0. nra. }
  replace (s / (1 + M) * t - W) with ((t * (1 + f) * (1 + g) - 1) * W) by (unfold f, g, W; field; lra). rewrite Rabs_mult, (Rabs_pos_eq W) by lra. apply Rmult_le_compat_r; [lra|]. eapply Rle_trans; [|exact Hp].
  pose proof (relc u t f (k + mu) Ht F) as R1. pose proof (relc _ _ g mu R1 G) as R2. eapply Rle_trans; [exact R2|]. rewrite Ed.
  assert (u * (k + mu) <= u * 4e-8) by (apply Rmult_le_compat_l; lra). assert ((u + (k + mu) + u * (k + mu)) * mu <= 1e-7 * mu) by (apply Rmult_le_compat_r; lra). lra.
Qed.

Lemma Length4_accuracy a e J : is_finite a = true -> bpow radix2 (-900) <= B2R a <= bpow radix2 1000 -> is_finite e = true -> 0 <= B2R e < 1 -> (Z.of_nat J <= 131072)%Z ->
  (forall term nf df s0 s1, inv (B2R (m64 a e) * B2R (m64 a e)) J term nf df s0 s1 -> B2R term < u53) ->
  exists d r, (d <= J)%nat /\ is_finite r = true /\ (forall f, (d <= f)%nat -> Length4 (fl := BFlt) f a e = Some r) /\ (forall f, (f < d)%nat -> Length4 (fl := BFlt) f a e = None) /\
    forall L, perimeter (B2R a) (B2R a * sqrt (1 - B2R e * B2R e)) L ->
      Rabs (B2R r - L) <= (6 * INR d + 26 + 4.1 / sqrt (1 - B2R e * B2R e)) * u53 * L /\ Rabs (B2R r - L) <= 5e-8 * L.
Proof.
  intros Fa Ha Fe He HJ Hs. pose proof (bpow_gt_0 radix2 (-900)) as B9. assert (He' : Rabs (B2R e) < 1) by (rewrite Rabs_pos_eq; lra).
  destruct (Length4_run a e J Fa ltac:(lra) Fe ltac:(lra) HJ Hs) as (d & term & nf & df & s0 & s1 & Hd & I & Q & R1 & R2).
  destruct (m_ok a e Fa ltac:(lra) Fe ltac:(lra)) as [Fm Hm]. pose proof I as (_ & _ & _ & (F0 & _ & H0 & _) & _). destruct (out_err a s0 (m64 a e) Fa Ha F0 H0 Fm Hm) as [Fr (t & Ht & Er)].
  exists d, (out a s0 (m64 a e)). split; [exact Hd|]. split; [exact Fr|]. split; [exact R1|]. split; [exact R2|]. intros L HL. rewrite Er. clear Er R1 R2 Hs.
  destruct (Length4_limit (B2R a) (B2R e) L ltac:(lra) He HL) as [_ Cv]. destruct (sigma_range _ He') as [S01 _]. destruct (root_err e Fe He') as [D1 D2]. pose proof (m_err a e Fa Ha Fe He') as D3. cbv zeta in D3. fold (sigma (B2R e)) in *. set (sg := sigma (B2R e)) in *.
  set (m := (1 - sg) / (1 + sg)) in *. assert (M01 : 0 <= m <= 1). { unfold m. split; [apply Rmult_le_pos; [lra|left; apply Rinv_0_lt_compat; lra]|]. apply Rmult_le_reg_r with (1 + sg); [lra|]. replace ((1 - sg) / (1 + sg) * (1 + sg)) with (1 - sg) by (field; lra). lra. }
  pose proof u_num as U. set (M := B2R (m64 a e)) in *. assert (HH : 0 <= M * M <= 1) by (clear - Hm; nra). set (D := Rabs (B2R (root64 e) - sg)) in *. assert (DB : Rabs (M - m) <= 2 * D + 5.1 * u53) by exact D3. pose proof (Rabs_pos (B2R (root64 e) - sg)) as D0. fold D in D0.
  set (mu := 2 * D + 5.1 * u53) in *. assert (Dd : INR d <= 131072). { rewrite INR_IZR_INZ. apply IZR_le. lia. } pose proof (pos_INR d) as Pd. pose proof PI_16 as PP. pose proof u53_pos as U0.
  assert (KB : 6 * (INR d + 1) * u53 <= 1e-10). { assert ((INR d + 1) * u53 <= 131073 * 1.111e-16) by (apply Rmult_le_compat; lra). lra. }
  assert (K0 : 0 <= 6 * (INR d + 1) * u53) by (apply Rmult_le_pos; lra).
  assert (Main : forall p, 0 <= p <= 1 -> 6 * (INR d + 1) * u53 + 2.00001 * mu + 1.00001 * (5.1 * u53) <= p -> Rabs (2 * PI * B2R a * B2R s0 / (1 + M) * t - L) <= p * L).
  { intros p Hp Bp. apply (limit_rel (fun n => Length4_after n (B2R a) (B2R e)) L); [exact Hp|exact Cv| |].
    - intros n. rewrite after_value by lra. fold sg. fold m. pose proof (hsum_ge1 (m * m) n ltac:(clear - M01; nra)). apply Rdiv_lt_0_compat; [|lra]. apply Rmult_lt_0_compat; [apply Rmult_lt_0_compat; lra|lra].
    - exists (S d). intros n Hn. rewrite after_value by lra. fold sg. fold m. replace n with (S (d + (n - S d)))%nat by lia. set (N := S (d + (n - S d))).
      pose proof (final_sum (M * M) d term nf df s0 s1 (n - S d) HH ltac:(lia) I Q) as FS. fold N in FS. pose proof (hsum_lip M m N Hm M01) as HL2.
      pose proof (hsum_ge1 (m * m) N ltac:(clear - M01; nra)) as V1. set (V := hsum (m * m) N) in *.
      assert (SV : Rabs (B2R s0 - V) <= 6 * (INR d + 1) * u53 + mu). { replace (B2R s0 - V) with ((B2R s0 - hsum (M * M) N) + (hsum (M * M) N - V)) by ring. eapply Rle_trans; [apply Rabs_triang|]. lra. }
      pose proof (rel_total (5.1 * u53) (6 * (INR d + 1) * u53) mu p _ t (B2R s0) V M m ltac:(lra) K0 ltac:(unfold mu; lra) ltac:(lra) KB V1 M01 Hm Ht SV DB eq_refl Bp) as RT.
      replace (2 * PI * B2R a * B2R s0 / (1 + M) * t - 2 * PI * B2R a * V / (1 + m)) with (2 * PI * B2R a * (B2R s0 / (1 + M) * t - V / (1 + m))) by (field; lra).
      rewrite Rabs_mult, (Rabs_pos_eq (2 * PI * B2R a)) by (apply Rmult_le_pos; lra). replace (p * (2 * PI * B2R a * V / (1 + m))) with (2 * PI * B2R a * (p * (V / (1 + m)))) by (field; lra). apply Rmult_le_compat_l; [apply Rmult_le_pos; lra|exact RT]. }
  assert (I1 : 1 <= / sg) by (rewrite <- Rinv_1; apply Rinv_le_contravar; lra). split.
  - set (p := (6 * INR d + 26 + 4.1 / sg) * u53). destruct (Rle_or_lt p 1) as [P1|P1].
    + apply Main.
      * split; [|exact P1]. unfold p, Rdiv. apply Rmult_le_pos; lra.
      * unfold mu, p, Rdiv in *. assert (0 <= u53 * / sg) by (apply Rmult_le_pos; lra). assert (0 <= INR d * u53) by (apply Rmult_le_pos; lra). lra.
    + assert (Lp : 0 <= L). { destruct (minor_axis (B2R a) (B2R e) ltac:(lra) He) as [b0 b1]. pose proof (perimeter_range _ _ _ (conj b0 b1) HL). lra. }
      eapply Rle_trans; [apply (Main 1 ltac:(lra)); unfold mu; lra|]. apply Rmult_le_compat_r; lra.
  - apply Main; [lra|unfold mu; lra].
Qed.

Lemma accuracy_n a e n r L : is_finite a = true -> bpow radix2 (-900) <= B2R a <= bpow radix2 1000 -> is_finite e = true -> 0 <= B2R e < 1 ->
  Length4 (fl := BFlt) n a e = Some r -> perimeter (B2R a) (B2R a * sqrt (1 - B2R e * B2R e)) L ->
  is_finite r = true /\ Rabs (B2R r - L) <= (6 * INR n + 26 + 4.1 / sqrt (1 - B2R e * B2R e)) * / 2 ^ 53 * L /\ Rabs (B2R r - L) <= 5e-8 * L.
Proof.
  intros Fa Ha Fe He E HL. destruct (Length4_accuracy a e last_round Fa Ha Fe He ltac:(rewrite last_round_Z; lia) (fun t n d x y => end_small _ t n d x y)) as (d & r' & _ & Fr & R1 & R2 & B).
  assert (Hd : (d <= n)%nat) by (destruct (Nat.le_gt_cases d n) as [G|G]; [exact G|rewrite (R2 n G) in E; discriminate]). rewrite (R1 n Hd) in E. injection E as <-. split; [exact Fr|]. destruct (B L HL) as [B1 B2]. split; [|exact B2].
  fold u53. eapply Rle_trans; [exact B1|]. pose proof (bpow_gt_0 radix2 (-900)) as B9. destruct (minor_axis (B2R a) (B2R e) ltac:(lra) He) as [b0 b1]. pose proof (perimeter_range _ _ _ (conj b0 b1) HL) as [LP _]. apply le_INR in Hd. pose proof u53_pos.
  apply Rmult_le_compat_r; [lra|]. apply Rmult_le_compat_r; lra.
Qed.
Lemma within_15 a e : is_finite a = true -> bpow radix2 (-900) <= B2R a <= bpow radix2 1000 -> is_finite e = true -> 0 <= B2R e <= 0.91 ->
  exists r, is_finite r = true /\ (forall n, (15 <= n)%nat -> Length4 (fl := BFlt) n a e = Some r) /\
    forall L, perimeter (B2R a) (B2R a * sqrt (1 - B2R e * B2R e)) L -> Rabs (B2R r - L) <= 1.4e-14 * L.
Proof.
  intros Fa Ha Fe He. assert (He' : Rabs (B2R e) < 1) by (rewrite Rabs_pos_eq; lra). pose proof u_num as U. pose proof (bpow_gt_0 radix2 (-900)) as B9.
  destruct (sigma_range _ He') as [S01 SS]. assert (SL : 0.4145 <= sigma (B2R e)). { unfold sigma. rewrite <- (sqrt_square 0.4145) by lra. apply sqrt_le_1_alt. assert (B2R e * B2R e <= 0.91 * 0.91) by (apply Rmult_le_compat; lra). lra. }
  destruct (Length4_accuracy a e 15 Fa Ha Fe ltac:(lra) ltac:(lia)) as (d & r & Hd & Fr & R1 & _ & B).
  { intros term nf df s0 s1 (_ & _ & _ & _ & Te & _). destruct (m_ok a e Fa ltac:(lra) Fe ltac:(lra)) as [_ Hm]. destruct (root_err e Fe He') as [_ D2]. pose proof (m_err a e Fa Ha Fe He') as D3. cbv zeta in D3. set (sg := sigma (B2R e)) in *. set (M := B2R (m64 a e)) in *.
    assert (M1 : (1 - sg) / (1 + sg) <= 0.414). { apply Rmult_le_reg_r with (1 + sg); [lra|]. replace ((1 - sg) / (1 + sg) * (1 + sg)) with (1 - sg) by (field; lra). lra. }
    apply Rabs_le_inv in D3. assert (M2 : M <= 0.4141) by lra. assert (HH : 0 <= M * M <= 0.1715) by (split; [nra|]; apply Rle_trans with (0.4141 * 0.4141); [apply Rmult_le_compat; lra|lra]).
    assert (T : tau (M * M) 16 <= 6e-13 * (1 / 16000)).
    { unfold tau. pose proof (tau_le 1 15 ltac:(lra)) as TL. unfold tau in TL. rewrite pow1, Rmult_1_r in TL. replace (INR 15 + 1) with 16 in TL by (cbn; lra). rewrite Rmult_comm. apply Rmult_le_compat; [apply pow_le; lra|apply Rle_0_sqr| |lra].
      apply Rle_trans with (0.1715 ^ 16); [apply pow_incr; lra|lra]. }
    pose proof (tau_pos (M * M) 16 (proj1 HH)) as T0. set (ta := tau (M * M) 16) in *. apply Rabs_le_inv in Te. replace (INR 15 + 1) with 16 in Te by (cbn; lra). destruct eta_tiny as [P0 P1]. assert (P2 : eta <= 1e-90) by lra. clear P1.
    assert (7 * 16 * u53 * ta <= 7 * 16 * 1.111e-16 * ta) by (apply Rmult_le_compat_r; lra). rewrite u_pow. lra. }
  exists r. split; [exact Fr|]. split; [intros n Hn; apply R1; lia|]. intros L HL. destruct (B L HL) as [B1 _]. eapply Rle_trans; [exact B1|]. fold (sigma (B2R e)). destruct (minor_axis (B2R a) (B2R e) ltac:(lra) ltac:(lra)) as [b0 b1]. pose proof (perimeter_range _ _ _ (conj b0 b1) HL) as [LP _].
  apply Rmult_le_compat_r; [lra|]. assert (INR d <= 15). { apply le_INR in Hd. cbn in Hd. lra. } set (sg := sigma (B2R e)) in *. assert (4.1 / sg <= 9.9). { apply Rmult_le_reg_r with sg; [lra|]. replace (4.1 / sg * sg) with 4.1 by (field; lra). lra. }
  apply Rle_trans with (126 * u53); [apply Rmult_le_compat_r; lra|lra].
Qed.
Lemma Length4_returns_iff a e : (exists fuel r, Length4 (fl := BFlt) fuel a e = Some r) <-> is_finite a = true /\ B2R a <> 0 /\ is_finite e = true /\ Rabs (B2R e) <= 1.
Proof.
  split.
  - intros (fuel & r & E). destruct (is_finite a) eqn:Fa; [|rewrite Length4_hangs in E by tauto; discriminate]. split; [reflexivity|]. destruct (Req_dec (B2R a) 0) as [Z|Z]; [rewrite Length4_hangs in E by tauto; discriminate|]. split; [exact Z|].
    destruct (is_finite e) eqn:Fe; [|rewrite Length4_hangs in E by tauto; discriminate]. split; [reflexivity|]. destruct (Rle_or_lt (Rabs (B2R e)) 1) as [G|G]; [exact G|rewrite Length4_hangs in E by tauto; discriminate].
  - intros (Fa & Ha & Fe & He). destruct (Length4_returns a e Fa Ha Fe He) as [r R]. exists last_round, r. apply R. rewrite last_round_Z. lia.
Qed.
