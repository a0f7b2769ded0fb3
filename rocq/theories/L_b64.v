(** Exactness of binary64 arithmetic on fixed-point grids. *)
From Coq Require Import ZArith Bool Reals Lra Lia.
From Flocq Require Import Core IEEE754.BinarySingleNaN.
From Verif Require Import GoInt GoFloat.
Local Open Scope R_scope.

(** [isfx e x k]: x is finite and equal to k * 2^-e. *)
Definition isfx (e : Z) (x : float64) (k : Z) : Prop :=
  is_finite x = true /\ B2R x = IZR k * bpow radix2 (- e).

Lemma format_fx e k : (0 <= e <= 1000)%Z -> (Z.abs k < 2 ^ 53)%Z ->
  generic_format radix2 (SpecFloat.fexp 53 1024) (IZR k * bpow radix2 (- e)).
Proof.
  intros He Hk. apply generic_format_FLT.
  exists (Float radix2 k (- e)); [reflexivity| exact Hk |].
  cbn. unfold SpecFloat.emin. lia.
Qed.

Lemma bound_fx e k : (0 <= e)%Z -> (Z.abs k < 2 ^ 53)%Z ->
  Rabs (IZR k * bpow radix2 (- e)) < bpow radix2 1024.
Proof.
  intros He Hk. rewrite Rabs_mult, (Rabs_pos_eq (bpow _ _)) by apply bpow_ge_0.
  rewrite <- abs_IZR.
  apply Rle_lt_trans with (bpow radix2 53 * bpow radix2 0).
  - apply Rmult_le_compat; try apply bpow_ge_0.
    + apply IZR_le. lia.
    + change (bpow radix2 53) with (IZR (2 ^ 53)). apply IZR_le. lia.
    + apply bpow_le. lia.
  - rewrite <- bpow_plus. apply bpow_lt. lia.
Qed.

Lemma round_fx e k : (0 <= e <= 1000)%Z -> (Z.abs k < 2 ^ 53)%Z ->
  round radix2 (SpecFloat.fexp 53 1024) (round_mode mode_NE) (IZR k * bpow radix2 (- e))
  = IZR k * bpow radix2 (- e).
Proof. intros He Hk. apply round_generic; [typeclasses eauto|]. apply format_fx; assumption. Qed.

Lemma isfx_add e x y kx ky : (0 <= e <= 1000)%Z -> isfx e x kx -> isfx e y ky ->
  (Z.abs (kx + ky) < 2 ^ 53)%Z -> isfx e (Bplus mode_NE x y) (kx + ky).
Proof.
  intros He [Fx Ex] [Fy Ey] Hk.
  pose proof (Bplus_correct 53 1024 _ _ mode_NE x y Fx Fy) as H.
  assert (E : B2R x + B2R y = IZR (kx + ky) * bpow radix2 (- e))
    by (rewrite Ex, Ey, plus_IZR; ring).
  rewrite E in H. rewrite round_fx in H by assumption.
  rewrite Rlt_bool_true in H by (apply bound_fx; [lia|assumption]).
  destruct H as [H1 [H2 _]]. split; assumption.
Qed.

Lemma isfx_sub e x y kx ky : (0 <= e <= 1000)%Z -> isfx e x kx -> isfx e y ky ->
  (Z.abs (kx - ky) < 2 ^ 53)%Z -> isfx e (Bminus mode_NE x y) (kx - ky).
Proof.
  intros He [Fx Ex] [Fy Ey] Hk.
  pose proof (Bminus_correct 53 1024 _ _ mode_NE x y Fx Fy) as H.
  assert (E : B2R x - B2R y = IZR (kx - ky) * bpow radix2 (- e))
    by (rewrite Ex, Ey, minus_IZR; ring).
  rewrite E in H. rewrite round_fx in H by assumption.
  rewrite Rlt_bool_true in H by (apply bound_fx; [lia|assumption]).
  destruct H as [H1 [H2 _]]. split; assumption.
Qed.

Lemma isfx_ofZ n : (Z.abs n < 2 ^ 53)%Z -> isfx 0 (b64_ofZ n) n.
Proof.
  intros Hn. unfold b64_ofZ.
  pose proof (binary_normalize_correct 53 1024 _ _ mode_NE n 0 false) as H. cbv zeta in H.
  assert (E : F2R (Float radix2 n 0) = IZR n * bpow radix2 (Z.opp 0)) by reflexivity.
  rewrite E in H. rewrite (round_fx 0 n) in H by (lia || assumption).
  rewrite Rlt_bool_true in H by (apply bound_fx; [lia|assumption]).
  destruct H as [H1 [H2 _]]. split; assumption.
Qed.

(** Refining the grid. *)
Lemma isfx_scale e e' x k : (0 <= e <= e')%Z -> isfx e x k -> isfx e' x (k * 2 ^ (e' - e)).
Proof.
  intros He [Fx Ex]. split; [assumption|]. rewrite Ex.
  rewrite mult_IZR. change 2%Z with (radix_val radix2). rewrite IZR_Zpower by lia.
  rewrite Rmult_assoc, <- bpow_plus. f_equal. f_equal. lia.
Qed.

Lemma bpow_pos_Z e : (0 <= e)%Z -> bpow radix2 e = IZR (2 ^ e).
Proof. intros He. change 2%Z with (radix_val radix2). rewrite IZR_Zpower by lia. reflexivity. Qed.

Lemma Ztrunc_fx e k : (0 <= e)%Z -> Ztrunc (IZR k * bpow radix2 (- e)) = Z.quot k (2 ^ e).
Proof.
  intros He. rewrite bpow_opp, bpow_pos_Z by assumption.
  rewrite <- (Ztrunc_div k (2 ^ e)) by (apply Z.pow_nonzero; lia).
  reflexivity.
Qed.

Lemma isfx_trunc e x k : (0 <= e <= 1000)%Z -> (Z.abs k < 2 ^ 53)%Z -> isfx e x k ->
  isfx 0 (Bnearbyint mode_ZR x) (Z.quot k (2 ^ e)).
Proof.
  intros He Hk [Fx Ex].
  pose proof (Bnearbyint_correct 53 1024 _ mode_ZR x) as [H1 [H2 _]].
  split; [congruence|]. rewrite H1, Ex.
  cbn [round_mode]. rewrite round_FIX_IZR.
  rewrite Ztrunc_fx by lia. cbn. ring.
Qed.

Lemma isfx_int64 x k : isfx 0 x k -> in64b k = true -> b64_int64 x = Some k.
Proof.
  intros [Fx Ex] Hk. cbn [Z.opp bpow] in Ex. rewrite Rmult_1_r in Ex.
  unfold b64_int64. destruct x as [s| s | | s m e Hme]; try discriminate.
  - cbn in Ex. apply (eq_IZR 0) in Ex. congruence.
  - pose proof (Btrunc_correct 53 1024 _ (B754_finite s m e Hme)) as H.
    rewrite round_FIX_IZR in H. rewrite Ex in H. rewrite Ztrunc_IZR in H.
    apply eq_IZR in H. rewrite H, Hk. reflexivity.
Qed.
