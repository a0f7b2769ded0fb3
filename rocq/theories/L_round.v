(** Rounding errors of binary64 arithmetic. *)
From Coq Require Import ZArith Bool Reals List Lra Lia.
From Flocq Require Import Core Relative IEEE754.BinarySingleNaN.
From Verif Require Import GoInt GoFloat.
Import ListNotations.
Local Open Scope R_scope.

Definition u53 : R := / 2 ^ 53.
Definition R64 (x : R) : R := round radix2 (SpecFloat.fexp 53 1024) (round_mode mode_NE) x.
(** Half the smallest positive number. *)
Definition eta : R := bpow radix2 (-1075).
Lemma u53_pos : 0 < u53. Proof. unfold u53. apply Rinv_0_lt_compat, pow_lt. lra. Qed.
Lemma eta_pos : 0 < eta. Proof. apply bpow_gt_0. Qed.
Lemma u53_bpow : u53 = / 2 * bpow radix2 (- 53 + 1).
Proof. unfold u53. simpl. lra. Qed.
Lemma R64_err x : exists e t, Rabs e <= u53 /\ Rabs t <= eta /\ R64 x = x * (1 + e) + t.
Proof.
  destruct (error_N_FLT radix2 (-1074) 53 (eq_refl _) (fun z => negb (Z.even z)) x) as (e & t & H1 & H2 & _ & H4).
  exists e, t. split; [|split].
  - rewrite u53_bpow. exact H1.
  - eapply Rle_trans; [exact H2|]. unfold eta. change (/ 2) with (bpow radix2 (-1)). rewrite <- bpow_plus. apply Rle_refl.
  - exact H4.
Qed.
Lemma R64_monotone x y : x <= y -> R64 x <= R64 y.
Proof. apply round_le; typeclasses eauto. Qed.
Lemma R64_id (x : float64) : R64 (B2R x) = B2R x.
Proof. apply round_generic; [typeclasses eauto|]. apply generic_format_B2R. Qed.
Lemma format_scale2 (x : float64) : generic_format radix2 (SpecFloat.fexp 53 1024) (2 * B2R x).
Proof.
  pose proof (generic_format_B2R 53 1024 x) as G. apply FLT_format_generic in G; [|typeclasses eauto]. destruct G as [[m e] E1 E2 E3]. cbn [Fnum Fexp] in *.
  apply generic_format_FLT. exists (Float radix2 m (e + 1)); cbn [Fnum Fexp]; [|exact E2|lia]. rewrite E1. unfold F2R. cbn [Fnum Fexp]. rewrite bpow_plus. change (bpow radix2 1) with 2. ring.
Qed.
Lemma R64_twice (x : float64) : R64 (2 * B2R x) = 2 * B2R x.
Proof. apply round_generic; [typeclasses eauto|]. apply format_scale2. Qed.
Lemma R64_bound x k : (-1074 <= k)%Z -> Rabs x <= bpow radix2 k -> Rabs (R64 x) <= bpow radix2 k.
Proof.
  intros K H. assert (G : R64 (bpow radix2 k) = bpow radix2 k).
  { apply round_generic; [typeclasses eauto|]. apply generic_format_bpow. unfold SpecFloat.fexp, SpecFloat.emin. lia. }
  apply Rabs_le. assert (- bpow radix2 k <= x <= bpow radix2 k) by (revert H; unfold Rabs; destruct (Rcase_abs x); lra).
  split; [|rewrite <- G; apply R64_monotone; lra].
  assert (N : R64 (- bpow radix2 k) = - bpow radix2 k).
  { apply round_generic; [typeclasses eauto|]. apply generic_format_opp, generic_format_bpow. unfold SpecFloat.fexp, SpecFloat.emin. lia. }
  rewrite <- N. apply R64_monotone; lra.
Qed.

(** ** Operations with a finite result *)
Lemma overflow_infinite s x : B2SF (prec := 53) (emax := 1024) x = binary_overflow 53 1024 mode_NE s -> is_finite x = false.
Proof. intros H. rewrite <- is_finite_SF_B2SF, H. reflexivity. Qed.
Lemma plus_fin (a b : float64) : is_finite (Bplus mode_NE a b) = true ->
  is_finite a = true /\ is_finite b = true /\ B2R (Bplus mode_NE a b) = R64 (B2R a + B2R b).
Proof.
  intros H. assert (A : is_finite a = true /\ is_finite b = true).
  { destruct a as [s|s| |s m e p], b as [s'|s'| |s' m' e' p']; try (split; reflexivity); try discriminate H. revert H. cbn. destruct (Bool.eqb s s'); discriminate. }
  destruct A as [A B]. split; [exact A|]. split; [exact B|]. pose proof (Bplus_correct 53 1024 _ _ mode_NE a b A B) as C. revert C. case Rlt_bool_spec; intros K C.
  - exact (proj1 C).
  - destruct C as [C _]. apply overflow_infinite in C. congruence.
Qed.
Lemma minus_fin (a b : float64) : is_finite (Bminus mode_NE a b) = true ->
  is_finite a = true /\ is_finite b = true /\ B2R (Bminus mode_NE a b) = R64 (B2R a - B2R b).
Proof.
  intros H. assert (A : is_finite a = true /\ is_finite b = true).
  { destruct a as [s|s| |s m e p], b as [s'|s'| |s' m' e' p']; try (split; reflexivity); try discriminate H. revert H. cbn. destruct s, s'; discriminate. }
  destruct A as [A B]. split; [exact A|]. split; [exact B|]. pose proof (Bminus_correct 53 1024 _ _ mode_NE a b A B) as C. revert C. case Rlt_bool_spec; intros K C.
  - exact (proj1 C).
  - destruct C as [C _]. apply overflow_infinite in C. congruence.
Qed.
Lemma mult_fin (a b : float64) : is_finite (Bmult mode_NE a b) = true ->
  is_finite a = true /\ is_finite b = true /\ B2R (Bmult mode_NE a b) = R64 (B2R a * B2R b).
Proof.
  intros H. assert (A : is_finite a = true /\ is_finite b = true).
  { destruct a as [s|s| |s m e p], b as [s'|s'| |s' m' e' p']; try (split; reflexivity); try discriminate H. }
  destruct A as [A B]. split; [exact A|]. split; [exact B|]. pose proof (Bmult_correct 53 1024 _ _ mode_NE a b) as C. revert C. case Rlt_bool_spec; intros K C.
  - exact (proj1 C).
  - apply overflow_infinite in C. congruence.
Qed.
(** ** Operations with a result in range *)
Lemma plus_ok (a b : float64) : is_finite a = true -> is_finite b = true -> Rabs (B2R a + B2R b) <= bpow radix2 1023 ->
  is_finite (Bplus mode_NE a b) = true /\ B2R (Bplus mode_NE a b) = R64 (B2R a + B2R b).
Proof.
  intros A B K. pose proof (Bplus_correct 53 1024 _ _ mode_NE a b A B) as C. rewrite Rlt_bool_true in C.
  - destruct C as (C1 & C2 & _). split; assumption.
  - eapply Rle_lt_trans; [apply (R64_bound _ 1023); [lia|exact K]|apply bpow_lt; lia].
Qed.
Lemma minus_ok (a b : float64) : is_finite a = true -> is_finite b = true -> Rabs (B2R a - B2R b) <= bpow radix2 1023 ->
  is_finite (Bminus mode_NE a b) = true /\ B2R (Bminus mode_NE a b) = R64 (B2R a - B2R b).
Proof.
  intros A B K. pose proof (Bminus_correct 53 1024 _ _ mode_NE a b A B) as C. rewrite Rlt_bool_true in C.
  - destruct C as (C1 & C2 & _). split; assumption.
  - eapply Rle_lt_trans; [apply (R64_bound _ 1023); [lia|exact K]|apply bpow_lt; lia].
Qed.
Lemma mult_ok (a b : float64) : is_finite a = true -> is_finite b = true -> Rabs (B2R a * B2R b) <= bpow radix2 1023 ->
  is_finite (Bmult mode_NE a b) = true /\ B2R (Bmult mode_NE a b) = R64 (B2R a * B2R b).
Proof.
  intros A B K. pose proof (Bmult_correct 53 1024 _ _ mode_NE a b) as C. rewrite Rlt_bool_true in C.
  - destruct C as (C1 & C2 & _). rewrite A, B in C2. split; assumption.
  - eapply Rle_lt_trans; [apply (R64_bound _ 1023); [lia|exact K]|apply bpow_lt; lia].
Qed.
Lemma div_ok (a b : float64) : is_finite a = true -> B2R b <> 0 -> Rabs (B2R a / B2R b) <= bpow radix2 1023 ->
  is_finite (Bdiv mode_NE a b) = true /\ B2R (Bdiv mode_NE a b) = R64 (B2R a / B2R b).
Proof.
  intros A B K. pose proof (Bdiv_correct 53 1024 _ _ mode_NE a b B) as C. rewrite Rlt_bool_true in C.
  - destruct C as (C1 & C2 & _). rewrite A in C2. split; assumption.
  - eapply Rle_lt_trans; [apply (R64_bound _ 1023); [lia|exact K]|apply bpow_lt; lia].
Qed.
