(** Lemmas for C108: elliptic.Length4 in float64. *)
From Coq Require Import ZArith Bool Reals List Lra Lia Psatz.
From Flocq Require Import Core Relative IEEE754.BinarySingleNaN.
From Verif Require Import GoInt GoFloat M_length S_float64 S_ellipse L_b64 L_round L_epoch64 L_julian64 L_ellipse.
Local Open Scope R_scope.

(** ** Small integers are exact *)
Definition isint (x : float64) (n : Z) : Prop := is_finite x = true /\ B2R x = IZR n.
Lemma R64_int n : (Z.abs n < 2 ^ 53)%Z -> R64 (IZR n) = IZR n.
Proof. intros H. apply Rle_antisym; [apply R64_int_mono'|apply R64_int_mono]; try assumption; apply Rle_refl. Qed.
Lemma int_bound n : (Z.abs n < 2 ^ 53)%Z -> Rabs (IZR n) <= bpow radix2 1023.
Proof.
  intros H. rewrite <- abs_IZR. apply Rle_trans with (bpow radix2 53); [|apply bpow_le; lia]. change (bpow radix2 53) with (IZR (2 ^ 53)). apply IZR_le. lia.
Qed.
Lemma isint_add x y n m : isint x n -> isint y m -> (Z.abs (n + m) < 2 ^ 53)%Z -> isint (Bplus mode_NE x y) (n + m).
Proof.
  intros [Fx Ex] [Fy Ey] H. assert (E : B2R x + B2R y = IZR (n + m)) by (rewrite Ex, Ey, plus_IZR; reflexivity).
  destruct (plus_ok x y Fx Fy) as [A B]; [rewrite E; apply int_bound, H|]. split; [exact A|]. rewrite B, E. apply R64_int, H.
Qed.
Lemma isint_mul x y n m : isint x n -> isint y m -> (Z.abs (n * m) < 2 ^ 53)%Z -> isint (Bmult mode_NE x y) (n * m).
Proof.
  intros [Fx Ex] [Fy Ey] H. assert (E : B2R x * B2R y = IZR (n * m)) by (rewrite Ex, Ey, mult_IZR; reflexivity).
  destruct (mult_ok x y Fx Fy) as [A B]; [rewrite E; apply int_bound, H|]. split; [exact A|]. rewrite B, E. apply R64_int, H.
Qed.
Lemma isint_const n : (Z.abs n < 2 ^ 53)%Z -> isint (fconst (Flt := BFlt) n 1) n.
Proof. intros H. destruct (acc_Z n H) as [A B]. split; [exact A|]. assert (Rabs (B2R (fconst (Flt := BFlt) n 1) - IZR n) = 0) by (pose proof (Rabs_pos (B2R (fconst (Flt := BFlt) n 1) - IZR n)); lra).
  destruct (Req_dec (B2R (fconst (Flt := BFlt) n 1) - IZR n) 0) as [Z|Z]; [lra|]. apply Rabs_no_R0 in Z. lra. Qed.
Lemma R64_0 : R64 0 = 0. Proof. apply (R64_int 0). reflexivity. Qed.
Lemma R64_1 : R64 1 = 1. Proof. apply (R64_int 1). reflexivity. Qed.
Lemma R64_ge0 x : 0 <= x -> 0 <= R64 x. Proof. intros H. rewrite <- R64_0. apply R64_monotone, H. Qed.
Lemma R64_le1 x : x <= 1 -> R64 x <= 1. Proof. intros H. rewrite <- R64_1. apply R64_monotone, H. Qed.
Lemma small_ok x n : (0 <= n < 2 ^ 53)%Z -> 0 <= x <= IZR n -> Rabs x <= bpow radix2 1023.
Proof. intros H K. rewrite Rabs_pos_eq by lra. eapply Rle_trans; [exact (proj2 K)|]. pose proof (int_bound n ltac:(lia)). pose proof (Rle_abs (IZR n)). lra. Qed.

(** ** Size of the constants *)
Lemma u_num : 1.11e-16 <= u53 <= 1.111e-16. Proof. replace u53 with (/ 9007199254740992); [lra|unfold u53; simpl; lra]. Qed.
Lemma u_pow : u53 = / 9007199254740992. Proof. unfold u53; simpl; lra. Qed.
Lemma eta_tiny : 0 < eta <= / 10 ^ 90.
Proof. split; [apply eta_pos|]. apply Rle_trans with (bpow radix2 (-400)); [unfold eta; apply bpow_le; lia|]. change (bpow radix2 (-400)) with (/ IZR (2 ^ 400)).
  replace (10 ^ 90) with (IZR (10 ^ 90)). { apply Rinv_le_contravar; [apply IZR_lt; reflexivity|]. apply IZR_le. now vm_compute. }
  rewrite (pow_IZR 10 90). reflexivity.
Qed.

(** ** One round *)
Lemma relc a x e u : Rabs (x - 1) <= a -> Rabs e <= u -> Rabs (x * (1 + e) - 1) <= a + u + a * u.
Proof.
  intros H K. replace (x * (1 + e) - 1) with ((x - 1) + e + (x - 1) * e) by ring. pose proof (Rabs_pos (x - 1)). pose proof (Rabs_pos e).
  eapply Rle_trans; [apply Rabs_triang|]. apply Rplus_le_compat; [eapply Rle_trans; [apply Rabs_triang|]; lra|]. rewrite Rabs_mult. apply Rmult_le_compat; lra.
Qed.
Lemma rel1 e u : Rabs e <= u -> Rabs ((1 + e) - 1) <= u. Proof. intros H. replace (1 + e - 1) with e by ring. exact H. Qed.

(** The growth of the terms, k the index of the present one. *)
Lemma term_bound k t rho t' : 1 <= k <= 131074 -> 0 <= t <= / (4 * (k * k * k)) -> 0 <= rho <= (2 * k - 1) * (2 * k - 1) / ((2 * k + 2) * (2 * k + 2)) * (1 + u53) + eta ->
  t' <= t * rho * (1 + u53) + eta -> t' <= / (4 * ((k + 1) * (k + 1) * (k + 1))).
Proof.
  intros Hk Ht Hr H. destruct eta_tiny as [E0 E1]. pose proof u_num as U. set (eps := eta) in *. clearbody eps.
  assert (E2 : eps <= 1 / 10 ^ 90) by lra. clear E1. set (v := 1.112e-16) in *. assert (V : u53 <= v) by (unfold v; lra).
  set (c := k * k * k) in *. assert (C1 : 1 <= c) by (unfold c; nra).
  set (d := (k + 1) * (k + 1) * (k + 1)). assert (D1 : 1 <= d) by (unfold d; nra). assert (D2 : d <= 131075 * 131075 * 131075) by (unfold d; apply Rmult_le_compat; [nra|lra|nra|lra]).
  assert (C2 : c <= 131075 * 131075 * 131075) by (unfold c; apply Rmult_le_compat; [nra|lra|nra|lra]).
  assert (B : t * rho <= / (4 * c) * ((2 * k - 1) * (2 * k - 1) / ((2 * k + 2) * (2 * k + 2)) * (1 + v) + eps)).
  { apply Rmult_le_compat; [lra|lra|lra|]. eapply Rle_trans; [exact (proj2 Hr)|]. apply Rplus_le_compat_r. apply Rmult_le_compat_l; [|lra]. apply Rmult_le_pos; [nra|left; apply Rinv_0_lt_compat; nra]. }
  set (w := (2 * k - 1) * (2 * k - 1) / ((2 * k + 2) * (2 * k + 2))) in *.
  assert (W : w = (c - 3 / 4 * k + 1 / 4) / d) by (unfold w, c, d; field; lra).
  assert (P : t * rho * (1 + u53) <= / (4 * c) * (w * (1 + v) + eps) * (1 + v)). { apply Rmult_le_compat; [apply Rmult_le_pos; lra|lra|exact B|lra]. }
  apply Rle_trans with (/ (4 * c) * (w * (1 + v) + eps) * (1 + v) + eps); [lra|]. clear H P B Ht Hr.
  apply Rmult_le_reg_r with (4 * c * d); [nra|]. replace (/ (4 * d) * (4 * c * d)) with c by (field; lra).
  replace ((/ (4 * c) * (w * (1 + v) + eps) * (1 + v) + eps) * (4 * c * d)) with ((w * d * (1 + v) + eps * d) * (1 + v) + eps * (4 * c * d)) by (field; lra).
  rewrite W. replace ((c - 3 / 4 * k + 1 / 4) / d * d) with (c - 3 / 4 * k + 1 / 4) by (field; lra).
  assert (CD : c * d <= 131075 * 131075 * 131075 * (131075 * 131075 * 131075)) by (apply Rmult_le_compat; lra).
  assert (X1 : eps * d <= 1 / 10 ^ 90 * (131075 * 131075 * 131075)) by (apply Rmult_le_compat; lra).
  assert (X2 : eps * (c * d) <= 1 / 10 ^ 90 * (131075 * 131075 * 131075 * (131075 * 131075 * 131075))) by (apply Rmult_le_compat; nra).
  assert (S1 : eps * d * (1 + v) <= 1 / 10 ^ 60) by (apply Rle_trans with (1 / 10 ^ 90 * (131075 * 131075 * 131075) * 2); [apply Rmult_le_compat; unfold v; nra|lra]).
  assert (S2 : eps * (4 * c * d) <= 1 / 10 ^ 50) by lra.
  assert (K2 : k * k <= 131074 * 131074) by nra. assert (C3 : c = k * k * k) by reflexivity.
  assert (CV : c * (2 * v + v * v) <= k * (131074 * 131074 * (2 * v + v * v))). { rewrite C3. replace (k * k * k * (2 * v + v * v)) with (k * (k * k * (2 * v + v * v))) by ring. apply Rmult_le_compat_l; [lra|]. apply Rmult_le_compat_r; unfold v; lra. }
  assert (V2 : 131074 * 131074 * (2 * v + v * v) <= 1 / 100) by (unfold v; lra).
  assert (KV : k * (131074 * 131074 * (2 * v + v * v)) <= k * (1 / 100)) by (apply Rmult_le_compat_l; lra).
  replace (((c - 3 / 4 * k + 1 / 4) * (1 + v) + eps * d) * (1 + v)) with (c + c * (2 * v + v * v) - (3 / 4 * k - 1 / 4) * ((1 + v) * (1 + v)) + eps * d * (1 + v)) by ring.
  assert (NV : (3 / 4 * k - 1 / 4) <= (3 / 4 * k - 1 / 4) * ((1 + v) * (1 + v))) by (unfold v; nra).
  lra.
Qed.

(** ** Absorption: a small term does not change a sum in [1, 2) *)
Lemma cexp_1 x : 1 <= x < 2 -> cexp radix2 (SpecFloat.fexp 53 1024) x = (-52)%Z.
Proof. intros H. unfold cexp. rewrite (mag_unique radix2 x 1); [reflexivity|]. rewrite Rabs_pos_eq by lra. cbn. lra. Qed.
Lemma absorb (s : float64) t : 1 <= B2R s <= 1.51 -> 0 <= t < u53 -> R64 (B2R s + t) = B2R s.
Proof.
  intros Hs Ht. pose proof u_pow as U. pose proof (R64_id s) as Id.
  assert (Lo : B2R s <= R64 (B2R s + t)) by (rewrite <- Id at 1; apply R64_monotone; lra).
  destruct (Rle_lt_or_eq_dec _ _ Lo) as [G|G]; [exfalso|lra].
  assert (Gs : generic_format radix2 (SpecFloat.fexp 53 1024) (B2R s)) by apply generic_format_B2R.
  assert (Gr : generic_format radix2 (SpecFloat.fexp 53 1024) (R64 (B2R s + t))) by (apply generic_format_round; typeclasses eauto).
  pose proof (succ_le_lt radix2 (SpecFloat.fexp 53 1024) _ _ Gs Gr G) as S. rewrite succ_eq_pos in S by lra. rewrite ulp_neq_0 in S by lra. rewrite cexp_1 in S by lra.
  change (bpow radix2 (-52)) with (/ 4503599627370496) in S.
  pose proof (round_N_pt radix2 (SpecFloat.fexp 53 1024) (fun z => negb (Z.even z)) (B2R s + t)) as [_ N]. specialize (N (B2R s) Gs). cbv beta in N. change (round radix2 (SpecFloat.fexp 53 1024) (Znearest (fun z => negb (Z.even z))) (B2R s + t)) with (R64 (B2R s + t)) in N.
  replace (B2R s - (B2R s + t)) with (- t) in N by ring. rewrite Rabs_Ropp, (Rabs_pos_eq t) in N by lra. apply Rabs_le_inv in N. lra.
Qed.

(** ** The invariant *)
Definition tau (H : R) (k : nat) : R := dc k * dc k * H ^ k.
Lemma tau_S H j : tau H (S (S j)) = tau H (S j) * ((2 * (INR j + 1) - 1) * (2 * (INR j + 1) - 1) * H / ((2 * (INR j + 1) + 2) * (2 * (INR j + 1) + 2))).
Proof. unfold tau. pose proof (pos_INR j) as P. change (dc (S (S j))) with (dc (S j) * ((INR (S j) - / 2) / (INR (S j) + 1))). rewrite S_INR. cbn [pow]. field. lra. Qed.
Lemma tau_pos H k : 0 <= H -> 0 <= tau H k. Proof. intros P. apply Rmult_le_pos; [apply Rle_0_sqr|apply pow_le, P]. Qed.
Lemma hsum_S H k : hsum H (S k) = hsum H k + tau H (S k). Proof. reflexivity. Qed.

Definition inv (H : R) (j : nat) (term nf df s0 s1 : float64) : Prop :=
  let k := INR j + 1 in
  isint nf (2 * Z.of_nat j - 1) /\ isint df (2 * Z.of_nat j + 2) /\
  (is_finite term = true /\ 0 <= B2R term <= / (4 * (k * k * k))) /\
  (is_finite s0 = true /\ is_finite s1 = true /\ 1 <= B2R s0 <= 1.51 /\ B2R s1 <= 1.51 - 1 / (4 * k) /\ B2R s1 = R64 (B2R s0 + B2R term)) /\
  Rabs (B2R term - tau H (S j)) <= 7 * k * u53 * tau H (S j) + 4 * k * eta /\
  Rabs (B2R s1 - hsum H (S j)) <= 4 * k * u53 /\ Rabs (B2R s0 - hsum H j) <= 4 * INR j * u53.

Lemma tau_le H j : 0 <= H <= 1 -> tau H (S j) <= / (4 * ((INR j + 1) * (INR j + 1) * (INR j + 1))).
Proof.
  intros HH. induction j as [|j IH]. { unfold tau. cbn. lra. }
  rewrite tau_S, S_INR. pose proof (pos_INR j) as P. set (k := INR j + 1) in *. assert (K : 1 <= k) by (unfold k; lra). clearbody k.
  pose proof (tau_pos H (S j) (proj1 HH)) as T0. set (t := tau H (S j)) in *. clearbody t.
  apply Rle_trans with (/ (4 * (k * k * k)) * ((2 * k - 1) * (2 * k - 1) / ((2 * k + 2) * (2 * k + 2)))).
  - apply Rmult_le_compat; [exact T0| |exact IH|].
    + apply Rmult_le_pos; [apply Rmult_le_pos; [nra|lra]|left; apply Rinv_0_lt_compat; nra].
    + apply Rmult_le_compat_r; [left; apply Rinv_0_lt_compat; nra|]. rewrite <- (Rmult_1_r ((2 * k - 1) * (2 * k - 1))) at 2. apply Rmult_le_compat_l; [nra|lra].
  - apply Rmult_le_reg_r with (4 * (k * k * k) * ((k + 1) * (k + 1) * (k + 1))); [apply Rmult_lt_0_compat; [nra|]; apply Rmult_lt_0_compat; nra|].
    replace (/ (4 * (k * k * k)) * ((2 * k - 1) * (2 * k - 1) / ((2 * k + 2) * (2 * k + 2))) * (4 * (k * k * k) * ((k + 1) * (k + 1) * (k + 1)))) with (k * k * k - 3 / 4 * k + 1 / 4) by (field; lra).
    replace (/ (4 * ((k + 1) * (k + 1) * (k + 1))) * (4 * (k * k * k) * ((k + 1) * (k + 1) * (k + 1)))) with (k * k * k) by (field; lra). lra.
Qed.

Lemma term_error k t tau H h A rho t' : 1 <= k <= 131074 -> 0 <= H <= 1 -> 0 <= t <= 1 / 4 -> 0 <= tau ->
  let n2 := (2 * k - 1) * (2 * k - 1) in let d2 := (2 * k + 2) * (2 * k + 2) in
  Rabs (t - tau) <= 7 * k * u53 * tau + 4 * k * eta ->
  h = R64 H -> A = R64 (n2 * h) -> rho = R64 (A / d2) -> t' = R64 (t * rho) ->
  Rabs (t' - tau * (n2 * H / d2)) <= 7 * (k + 1) * u53 * (tau * (n2 * H / d2)) + 4 * (k + 1) * eta.
Proof.
  intros Hk HH Ht Htau n2 d2 Herr Eh EA Er Et'. destruct (R64_err H) as (e1 & z1 & E1 & Z1 & X1). destruct (R64_err (n2 * h)) as (e2 & z2 & E2 & Z2 & X2).
  destruct (R64_err (A / d2)) as (e3 & z3 & E3 & Z3 & X3). destruct (R64_err (t * rho)) as (e4 & z4 & E4 & Z4 & X4).
  rewrite <- Eh in X1. rewrite <- EA in X2. rewrite <- Er in X3. rewrite <- Et' in X4. clear Eh EA Er Et'.
  assert (N2 : 1 <= n2) by (unfold n2; clear - Hk; nra). assert (D2 : n2 + 1 <= d2) by (unfold n2, d2; clear - Hk; nra). clearbody n2 d2.
  pose proof u_num as U. destruct eta_tiny as [P0 P1].
  set (th3 := (1 + e1) * (1 + e2) * (1 + e3) - 1). assert (T3 : Rabs th3 <= 3.01 * u53).
  { unfold th3. eapply Rle_trans; [apply relc; [apply relc; [apply rel1, E1|exact E2]|exact E3]|]. clear - U; nra. }
  set (th4 := (1 + e1) * (1 + e2) * (1 + e3) * (1 + e4) - 1). assert (T4 : Rabs th4 <= 4.02 * u53).
  { unfold th4. eapply Rle_trans; [apply relc; [exact T3|exact E4]|]. clear - U; nra. }
  set (r := n2 * H / d2). assert (R0 : 0 <= r <= 1).
  { unfold r. split; [apply Rmult_le_pos; [apply Rmult_le_pos; lra|left; apply Rinv_0_lt_compat; lra]|]. apply Rmult_le_reg_r with d2; [lra|]. replace (n2 * H / d2 * d2) with (n2 * H) by (field; lra). clear - N2 D2 HH; nra. }
  set (z := n2 / d2 * z1 * (1 + e2) * (1 + e3) + z2 / d2 * (1 + e3) + z3).
  assert (ER : rho = r * (1 + th3) + z). { rewrite X3, X2, X1. unfold r, th3, z. field. lra. }
  assert (ND : 0 <= n2 / d2 <= 1). { split; [apply Rmult_le_pos; [lra|left; apply Rinv_0_lt_compat; lra]|]. apply Rmult_le_reg_r with d2; [lra|]. replace (n2 / d2 * d2) with n2 by (field; lra). lra. }
  assert (ID : 0 <= / d2 <= 1 / 2). { split; [left; apply Rinv_0_lt_compat; lra|]. replace (1 / 2) with (/ 2) by field. apply Rinv_le_contravar; lra. }
  apply Rabs_le_inv in E1, E2, E3, E4, Z1, Z2, Z3, Z4. set (eps := eta) in *. clearbody eps.
  assert (ZB : Rabs z <= 3 * eps).
  { assert (A1 : Rabs (n2 / d2 * z1 * (1 + e2) * (1 + e3)) <= 1.1 * eps).
    { rewrite !Rabs_mult. apply Rle_trans with (1 * eps * (1 + u53) * (1 + u53)); [|replace (1 * eps * (1 + u53) * (1 + u53)) with ((1 + u53) * (1 + u53) * eps) by ring; apply Rmult_le_compat_r; [lra|clear - U; nra]]. assert (Rabs (n2 / d2) <= 1) by (rewrite Rabs_pos_eq; lra). assert (Rabs z1 <= eps) by (apply Rabs_le; lra).
      assert (Rabs (1 + e2) <= 1 + u53) by (apply Rabs_le; lra). assert (Rabs (1 + e3) <= 1 + u53) by (apply Rabs_le; lra).
      repeat (apply Rmult_le_compat; try apply Rabs_pos; try assumption; try (apply Rmult_le_pos; try apply Rmult_le_pos; apply Rabs_pos)). }
    assert (A2 : Rabs (z2 / d2 * (1 + e3)) <= 0.6 * eps).
    { unfold Rdiv. rewrite !Rabs_mult. apply Rle_trans with (eps * (1 / 2) * (1 + u53)); [|replace (eps * (1 / 2) * (1 + u53)) with (1 / 2 * (1 + u53) * eps) by ring; apply Rmult_le_compat_r; [lra|clear - U; lra]]. assert (Rabs (/ d2) <= 1 / 2) by (rewrite Rabs_pos_eq; lra). assert (Rabs z2 <= eps) by (apply Rabs_le; lra).
      assert (Rabs (1 + e3) <= 1 + u53) by (apply Rabs_le; lra).
      repeat (apply Rmult_le_compat; try apply Rabs_pos; try assumption; try (apply Rmult_le_pos; apply Rabs_pos)). }
    unfold z. eapply Rle_trans; [apply Rabs_triang|]. assert (Rabs z3 <= eps) by (apply Rabs_le; lra). pose proof (Rabs_triang (n2 / d2 * z1 * (1 + e2) * (1 + e3)) (z2 / d2 * (1 + e3))). lra. }
  assert (ET : t' - tau * r = r * (t - tau) + r * t * th4 + (t * z * (1 + e4) + z4)). { rewrite X4, ER. unfold th4, th3. ring. }
  rewrite ET. clear ET X1 X2 X3 X4 ER. clearbody th4 r z. clear th3 T3.
  assert (TT : t <= tau + (7 * k * u53 * tau + 4 * k * eps)). { apply Rabs_le_inv in Herr. lra. }
  set (E := 7 * k * u53 * tau + 4 * k * eps) in *. assert (E0 : 0 <= E) by (eapply Rle_trans; [apply Rabs_pos|exact Herr]).
  assert (B1 : Rabs (r * (t - tau)) <= r * E) by (rewrite Rabs_mult, (Rabs_pos_eq r) by lra; apply Rmult_le_compat_l; lra).
  assert (B2 : Rabs (r * t * th4) <= r * (tau + E) * (4.02 * u53)). { rewrite !Rabs_mult, (Rabs_pos_eq r), (Rabs_pos_eq t) by lra. apply Rmult_le_compat; [apply Rmult_le_pos; lra|apply Rabs_pos|apply Rmult_le_compat_l; lra|exact T4]. }
  assert (B3 : Rabs (t * z * (1 + e4) + z4) <= 2 * eps).
  { eapply Rle_trans; [apply Rabs_triang|]. assert (Rabs z4 <= eps) by (apply Rabs_le; lra). rewrite !Rabs_mult, (Rabs_pos_eq t) by lra. assert (Q : Rabs (1 + e4) <= 1.1) by (apply Rabs_le; lra).
    assert (t * Rabs z <= 1 / 4 * (3 * eps)) by (apply Rmult_le_compat; try apply Rabs_pos; lra). pose proof (Rabs_pos (1 + e4)).
    assert (t * Rabs z * Rabs (1 + e4) <= 1 / 4 * (3 * eps) * 1.1) by (apply Rmult_le_compat; [apply Rmult_le_pos; [lra|apply Rabs_pos]|apply Rabs_pos|assumption|exact Q]). lra. }
  eapply Rle_trans; [apply Rabs_triang|]. eapply Rle_trans; [apply Rplus_le_compat; [apply Rabs_triang|exact B3]|].
  assert (EE : E * (4.02 * u53) <= 1 * u53 * tau + eps / 2).
  { unfold E. assert (k * u53 <= 1e-10) by (clear - Hk U; nra). assert (k * u53 * (4.02 * u53) <= 1e-10 * (4.02 * u53)) by (apply Rmult_le_compat_r; lra).
    assert (7 * (k * u53 * (4.02 * u53)) * tau <= 7 * (1e-10 * (4.02 * u53)) * tau) by (apply Rmult_le_compat_r; lra).
    assert (4 * (k * u53) * 4.02 * eps <= 4 * 1e-10 * 4.02 * eps) by (apply Rmult_le_compat_r; lra). assert (0 <= u53 * tau) by (apply Rmult_le_pos; lra). lra. }
  assert (B2' : r * (tau + E) * (4.02 * u53) <= r * (5.02 * u53 * tau) + eps / 2).
  { replace (r * (tau + E) * (4.02 * u53)) with (r * (tau * (4.02 * u53)) + r * (E * (4.02 * u53))) by ring.
    assert (r * (E * (4.02 * u53)) <= r * (1 * u53 * tau + eps / 2)) by (apply Rmult_le_compat_l; lra). assert (r * (eps / 2) <= 1 * (eps / 2)) by (apply Rmult_le_compat_r; lra). lra. }
  assert (RE : r * E <= 7 * k * u53 * (tau * r) + 4 * k * eps). { unfold E. assert (r * (4 * k * eps) <= 1 * (4 * k * eps)) by (apply Rmult_le_compat_r; [apply Rmult_le_pos; lra|lra]). lra. }
  assert (0 <= u53 * (tau * r)) by (apply Rmult_le_pos; [lra|apply Rmult_le_pos; lra]). lra.
Qed.

Lemma dec_step k : 1 <= k <= 131073 -> / (4 * ((k + 1) * (k + 1) * (k + 1))) + 1e-12 <= 1 / (4 * k) - 1 / (4 * (k + 1)).
Proof.
  intros H. set (d := (k + 1) * (k + 1)). assert (D : 4 <= d <= 131074 * 131074) by (unfold d; clear - H; nra).
  assert (A : 1e-12 <= / (4 * d)). { apply Rmult_le_reg_r with (4 * d); [lra|]. rewrite Rinv_l by lra. lra. }
  apply Rle_trans with (/ (4 * (d * (k + 1))) + / (4 * d)); [unfold d in *; lra|].
  apply Rmult_le_reg_r with (4 * k * (d * (k + 1))); [clear - H D; apply Rmult_lt_0_compat; [lra|apply Rmult_lt_0_compat; lra]|].
  replace ((/ (4 * (d * (k + 1))) + / (4 * d)) * (4 * k * (d * (k + 1)))) with (k + k * (k + 1)) by (field; lra).
  replace ((1 / (4 * k) - 1 / (4 * (k + 1))) * (4 * k * (d * (k + 1)))) with d by (unfold d; field; lra). unfold d. clear - H; nra.
Qed.
Lemma inv_k3 k : 1 <= k -> 0 < / (4 * (k * k * k)) <= 1 / 4.
Proof.
  intros K. assert (1 <= k * k * k) by nra. split; [apply Rinv_0_lt_compat; lra|]. replace (1 / 4) with (/ 4) by field. apply Rinv_le_contravar; lra.
Qed.
Lemma add_error x : 0 <= x <= 1.6 -> Rabs (R64 x - x) <= 1.61 * u53.
Proof.
  intros H. destruct (R64_err x) as (e & t & E & T & X). rewrite X. replace (x * (1 + e) + t - x) with (x * e + t) by ring.
  eapply Rle_trans; [apply Rabs_triang|]. rewrite Rabs_mult, (Rabs_pos_eq x) by lra. pose proof u_num. destruct eta_tiny. assert (x * Rabs e <= 1.6 * u53) by (apply Rmult_le_compat; try apply Rabs_pos; lra). lra.
Qed.

Lemma inv_step H m2 j term nf df s0 s1 : (Z.of_nat j <= 131071)%Z -> 0 <= H <= 1 -> is_finite m2 = true -> B2R m2 = R64 H -> inv H j term nf df s0 s1 ->
  let nf' := Bplus mode_NE nf (fconst (Flt := BFlt) 2 1) in let df' := Bplus mode_NE df (fconst (Flt := BFlt) 2 1) in
  let term' := Bmult mode_NE term (Bdiv mode_NE (Bmult mode_NE (Bmult mode_NE nf' nf') m2) (Bmult mode_NE df' df')) in
  inv H (S j) term' nf' df' s1 (Bplus mode_NE s1 term').
Proof.
  intros Hj HH Fm Em (In & Id & (Ft & Ht) & (F0 & F1 & H0 & H1 & E1) & Te & S1 & S0) nf' df' term'.
  assert (In' : isint nf' (2 * Z.of_nat (S j) - 1)). { replace (2 * Z.of_nat (S j) - 1)%Z with (2 * Z.of_nat j - 1 + 2)%Z by lia. apply isint_add; [exact In|apply isint_const; reflexivity|lia]. }
  assert (Id' : isint df' (2 * Z.of_nat (S j) + 2)). { replace (2 * Z.of_nat (S j) + 2)%Z with (2 * Z.of_nat j + 2 + 2)%Z by lia. apply isint_add; [exact Id|apply isint_const; reflexivity|lia]. }
  assert (Kj : INR j <= 131071). { rewrite INR_IZR_INZ. apply IZR_le, Hj. } pose proof (pos_INR j) as Pj.
  unfold inv. rewrite S_INR. set (k := INR j + 1) in *. assert (Hk : 1 <= k <= 131072) by (unfold k; lra).
  assert (EK : IZR (Z.of_nat (S j)) = k) by (rewrite <- INR_IZR_INZ, S_INR; reflexivity).
  pose proof (isint_mul _ _ _ _ In' In' ltac:(nia)) as [Fn2 En2]. pose proof (isint_mul _ _ _ _ Id' Id' ltac:(nia)) as [Fd2 Ed2].
  assert (En : B2R (Bmult mode_NE nf' nf') = (2 * k - 1) * (2 * k - 1)). { rewrite En2, mult_IZR, minus_IZR, mult_IZR, EK. reflexivity. } clear En2.
  assert (Ed : B2R (Bmult mode_NE df' df') = (2 * k + 2) * (2 * k + 2)). { rewrite Ed2, mult_IZR, plus_IZR, mult_IZR, EK. reflexivity. } clear Ed2.
  unfold term'. clear term'. set (N := Bmult mode_NE nf' nf') in *. set (D := Bmult mode_NE df' df') in *. clearbody N D. clear Fd2.
  set (n2 := (2 * k - 1) * (2 * k - 1)) in *. set (d2 := (2 * k + 2) * (2 * k + 2)) in *.
  assert (N2 : 1 <= n2) by (unfold n2; clear - Hk; nra). assert (D2 : n2 + 1 <= d2) by (unfold n2, d2; clear - Hk; nra). assert (DB : n2 <= 262144 * 262144) by (unfold n2; clear - Hk; nra).
  assert (M01 : 0 <= B2R m2 <= 1) by (rewrite Em; split; [apply R64_ge0|apply R64_le1]; lra).
  destruct (mult_ok N m2 Fn2 Fm) as [Fa Ea]. { rewrite En. apply (small_ok _ (262144 * 262144)); [lia|]. rewrite mult_IZR. split; [apply Rmult_le_pos; lra|]. clear - DB M01 N2. nra. }
  set (A := Bmult mode_NE N m2) in *. clearbody A. rewrite En, Em in Ea.
  assert (A01 : 0 <= B2R A <= n2). { rewrite Ea, <- Em. split; [apply R64_ge0, Rmult_le_pos; lra|].
    assert (Q : R64 n2 = n2). { rewrite <- En. apply R64_id. } rewrite <- Q at 2. apply R64_monotone. clear - M01 N2. nra. }
  assert (AD : 0 <= B2R A / d2 <= n2 / d2). { assert (0 < / d2) by (apply Rinv_0_lt_compat; lra). split; [apply Rmult_le_pos; lra|]. apply Rmult_le_compat_r; lra. }
  assert (ND : n2 / d2 <= 1). { apply Rmult_le_reg_r with d2; [lra|]. replace (n2 / d2 * d2) with n2 by (field; lra). lra. }
  destruct (div_ok A D Fa) as [Fr Er]; [rewrite Ed; lra|rewrite Ed; apply (small_ok _ 1); [lia|lra]|].
  set (rho := Bdiv mode_NE A D) in *. clearbody rho. rewrite Ed in Er.
  assert (R01 : 0 <= B2R rho <= 1) by (rewrite Er; split; [apply R64_ge0|apply R64_le1]; lra).
  pose proof (inv_k3 k (proj1 Hk)) as K3.
  assert (TR : 0 <= B2R term * B2R rho <= 1) by (clear - R01 Ht K3; split; [apply Rmult_le_pos; lra|nra]).
  destruct (mult_ok term rho Ft Fr) as [Ft' Et']. { apply (small_ok _ 1); [lia|exact TR]. }
  set (t' := Bmult mode_NE term rho) in *. clearbody t'.
  assert (T0 : 0 <= B2R t') by (rewrite Et'; apply R64_ge0; lra).
  assert (TB : B2R t' <= / (4 * ((k + 1) * (k + 1) * (k + 1)))).
  { apply (term_bound k (B2R term) (B2R rho)); [lra|exact Ht| |].
    - split; [lra|]. rewrite Er. destruct (R64_err (B2R A / d2)) as (e & t & P & T & X). rewrite X. apply Rabs_le_inv in P, T.
      assert (B2R A / d2 * (1 + e) <= n2 / d2 * (1 + u53)) by (apply Rmult_le_compat; try lra; pose proof u_num; lra). fold n2 d2. lra.
    - rewrite Et'. destruct (R64_err (B2R term * B2R rho)) as (e & t & P & T & X). rewrite X. apply Rabs_le_inv in P, T.
      assert (B2R term * B2R rho * (1 + e) <= B2R term * B2R rho * (1 + u53)) by (apply Rmult_le_compat_l; lra). lra. }
  pose proof (dec_step k ltac:(lra)) as DS. pose proof (inv_k3 (k + 1) ltac:(lra)) as K4.
  assert (G1 : B2R s0 <= B2R s1) by (rewrite E1, <- (R64_id s0) at 1; apply R64_monotone; lra).
  assert (Q1 : 0 < 1 / (4 * k)) by (apply Rmult_lt_0_compat; [lra|apply Rinv_0_lt_compat; lra]). assert (Q2 : 0 < 1 / (4 * (k + 1))) by (apply Rmult_lt_0_compat; [lra|apply Rinv_0_lt_compat; lra]).
  destruct (plus_ok s1 t' F1 Ft') as [Fs Es]. { apply (small_ok _ 2); [lia|]. lra. }
  pose proof (add_error (B2R s1 + B2R t') ltac:(lra)) as AE. rewrite <- Es in AE.
  set (s2 := Bplus mode_NE s1 t') in *. clearbody s2.
  split; [exact In'|]. split; [exact Id'|]. split; [split; [exact Ft'|lra]|]. split.
  { split; [exact F1|]. split; [exact Fs|]. split; [lra|]. split; [|exact Es]. apply Rabs_le_inv in AE. pose proof u_num. lra. }
  pose proof (tau_pos H (S j) (proj1 HH)) as TP.
  assert (TE : Rabs (B2R t' - tau H (S (S j))) <= 7 * (k + 1) * u53 * tau H (S (S j)) + 4 * (k + 1) * eta).
  { rewrite tau_S. fold k. apply (term_error k (B2R term) (tau H (S j)) H (B2R m2) (B2R A) (B2R rho) (B2R t')); try assumption; try lra. now rewrite Ea, Em. }
  split; [exact TE|]. split; [|replace (4 * k * u53) with (4 * k * u53) in S1 by ring; exact S1].
  rewrite hsum_S. pose proof (tau_le H (S j) HH) as TL. rewrite S_INR in TL. fold k in TL.
  assert (KT : (k + 1) * tau H (S (S j)) <= 1 / 8).
  { apply Rle_trans with ((k + 1) * / (4 * ((k + 1) * (k + 1) * (k + 1)))); [apply Rmult_le_compat_l; lra|].
    replace ((k + 1) * / (4 * ((k + 1) * (k + 1) * (k + 1)))) with (/ (4 * ((k + 1) * (k + 1)))) by (field; lra).
    apply Rle_trans with (/ 8); [apply Rinv_le_contravar; [lra|clear - Hk; nra]|lra]. }
  pose proof u_num as U. destruct eta_tiny as [P0 P1]. assert (P2 : eta <= 1e-90) by lra. clear P1.
  assert (TE' : Rabs (B2R t' - tau H (S (S j))) <= 0.9 * u53).
  { eapply Rle_trans; [exact TE|]. replace (7 * (k + 1) * u53 * tau H (S (S j))) with (7 * u53 * ((k + 1) * tau H (S (S j)))) by ring.
    assert (7 * u53 * ((k + 1) * tau H (S (S j))) <= 7 * u53 * (1 / 8)) by (apply Rmult_le_compat_l; lra).
    assert (4 * (k + 1) * eta <= 4 * 131073 * 1e-90) by (apply Rmult_le_compat; lra). lra. }
  replace (B2R s2 - (hsum H (S j) + tau H (S (S j)))) with ((B2R s2 - (B2R s1 + B2R t')) + (B2R s1 - hsum H (S j)) + (B2R t' - tau H (S (S j)))) by ring.
  eapply Rle_trans; [apply Rabs_triang|]. eapply Rle_trans; [apply Rplus_le_compat_r, Rabs_triang|]. lra.
Qed.

(** ** The loop *)
Notation rounds := (Length4_rounds (fl := BFlt)).
Lemma rounds_run H m2 J : (Z.of_nat J <= 131072)%Z -> 0 <= H <= 1 -> is_finite m2 = true -> B2R m2 = R64 H ->
  (forall term nf df s0 s1, inv H J term nf df s0 s1 -> B2R term < u53) ->
  forall n j term nf df s0 s1, (j + n = J)%nat -> inv H j term nf df s0 s1 ->
  exists d term' nf' df' s0' s1', (d <= n)%nat /\ inv H (j + d) term' nf' df' s0' s1' /\ B2R s1' = B2R s0' /\
    (forall f, (d <= f)%nat -> rounds m2 term nf df s0 s1 f = Some s0') /\ (forall f, (f < d)%nat -> rounds m2 term nf df s0 s1 f = None).
Proof.
  intros HJ HH Fm Em Hsmall. induction n as [|n IH]; intros j term nf df s0 s1 E I.
  - exists O, term, nf, df, s0, s1. rewrite Nat.add_0_r in *. subst j. split; [lia|]. split; [exact I|].
    assert (Q : B2R s1 = B2R s0). { pose proof (Hsmall _ _ _ _ _ I) as L. destruct I as (_ & _ & (_ & [T _]) & (_ & _ & S & _ & S1) & _). rewrite S1. apply absorb; lra. }
    split; [exact Q|]. split; [|intros f Hf; lia]. intros f _. destruct I as (_ & _ & _ & (F0 & F1 & _) & _).
    destruct f; cbn [Length4_rounds]; change (feq (Flt := BFlt) s1 s0) with (Beqb s1 s0); rewrite (Beqb_correct 53 1024 s1 s0 F1 F0), Q, Req_bool_true by reflexivity; reflexivity.
  - pose proof I as (_ & _ & _ & (F0 & F1 & _) & _). pose proof (Beqb_correct 53 1024 s1 s0 F1 F0) as EB. destruct (Req_dec (B2R s1) (B2R s0)) as [Q|Q].
    + exists O, term, nf, df, s0, s1. rewrite Nat.add_0_r. split; [lia|]. split; [exact I|]. split; [exact Q|]. split; [|intros f Hf; lia]. intros f _.
      destruct f; cbn [Length4_rounds]; change (feq (Flt := BFlt) s1 s0) with (Beqb s1 s0); rewrite EB, Req_bool_true by exact Q; reflexivity.
    + rewrite Req_bool_false in EB by exact Q.
      destruct (IH (S j) _ _ _ _ _ ltac:(lia) (inv_step H m2 j term nf df s0 s1 ltac:(lia) HH Fm Em I)) as (d & term' & nf' & df' & s0' & s1' & Hd & I' & Q' & R1 & R2).
      exists (S d), term', nf', df', s0', s1'. split; [lia|]. split; [rewrite <- plus_n_Sm; exact I'|]. split; [exact Q'|]. split.
      * intros f Hf. destruct f as [|f]; [lia|]. cbn [Length4_rounds]. change (feq (Flt := BFlt) s1 s0) with (Beqb s1 s0). rewrite EB. apply R1. lia.
      * intros f Hf. destruct f as [|f]; cbn [Length4_rounds]; change (feq (Flt := BFlt) s1 s0) with (Beqb s1 s0); rewrite EB; [reflexivity|]. apply R2. lia.
Qed.

Lemma quarter : B2R (fconst (Flt := BFlt) 25 100) = / 4 /\ is_finite (fconst (Flt := BFlt) 25 100) = true.
Proof.
  assert (Q : B2SF (fconst (Flt := BFlt) 25 100) = SpecFloat.S754_finite false 4503599627370496 (-54)) by (vm_compute; reflexivity).
  set (x := fconst (Flt := BFlt) 25 100) in *. clearbody x. destruct x as [s|s| |s m ex p]; cbn in Q; try discriminate Q. injection Q as -> -> ->. split; [|reflexivity]. cbn. unfold F2R. cbn. lra.
Qed.

Lemma entry m : is_finite m = true -> 0 <= B2R m <= 1 ->
  let m2 := Bmult mode_NE m m in let term := Bmult mode_NE m2 (fconst (Flt := BFlt) 25 100) in
  is_finite m2 = true /\ B2R m2 = R64 (B2R m * B2R m) /\
  inv (B2R m * B2R m) 0 term (fconst (Flt := BFlt) (-1) 1) (fconst (Flt := BFlt) 2 1) (fconst (Flt := BFlt) 1 1) (Bplus mode_NE (fconst (Flt := BFlt) 1 1) term).
Proof.
  intros Fm Hm m2 term. set (H := B2R m * B2R m). assert (HH : 0 <= H <= 1) by (unfold H; clear - Hm; nra).
  destruct (mult_ok m m Fm Fm) as [F2 E2]; [apply (small_ok _ 1); [lia|exact HH]|]. fold m2 in F2, E2. fold H in E2. split; [exact F2|]. split; [exact E2|].
  destruct quarter as [Q1 Q2]. assert (M2 : 0 <= B2R m2 <= 1) by (rewrite E2; split; [apply R64_ge0|apply R64_le1]; lra).
  destruct (mult_ok m2 (fconst (Flt := BFlt) 25 100) F2 Q2) as [Ft Et]; [rewrite Q1; apply (small_ok _ 1); [lia|lra]|]. fold term in Ft, Et. rewrite Q1 in Et.
  assert (QR : R64 (/ 4) = / 4) by (rewrite <- Q1; apply R64_id).
  assert (T4 : 0 <= B2R term <= / 4). { rewrite Et. split; [apply R64_ge0; lra|]. rewrite <- QR at 2. apply R64_monotone. lra. }
  destruct (isint_const 1 ltac:(reflexivity)) as [F1 E1]. set (one := fconst (Flt := BFlt) 1 1) in *. clearbody one.
  destruct (plus_ok one term F1 Ft) as [Fs Es]; [apply (small_ok _ 2); [lia|lra]|]. pose proof (add_error (B2R one + B2R term) ltac:(lra)) as AE. rewrite <- Es in AE.
  set (s1 := Bplus mode_NE one term) in *. clearbody s1. pose proof u_num as U. destruct eta_tiny as [P0 P1].
  assert (TE : Rabs (B2R term - tau H 1) <= 7 * 1 * u53 * tau H 1 + 4 * 1 * eta).
  { replace (tau H 1) with (H / 4) by (unfold tau; cbn; field). destruct (R64_err H) as (e1 & z1 & X1 & Y1 & W1). destruct (R64_err (B2R m2 * / 4)) as (e2 & z2 & X2 & Y2 & W2).
    rewrite Et, W2, E2, W1. replace ((H * (1 + e1) + z1) * / 4 * (1 + e2) + z2 - H / 4) with (H / 4 * ((1 + e1) * (1 + e2) - 1) + (z1 / 4 * (1 + e2) + z2)) by field.
    pose proof (relc u53 (1 + e1) e2 u53 (rel1 _ _ X1) X2) as RR. eapply Rle_trans; [apply Rabs_triang|].
    assert (A1 : Rabs (H / 4 * ((1 + e1) * (1 + e2) - 1)) <= H / 4 * (7 * u53)). { rewrite Rabs_mult, (Rabs_pos_eq (H / 4)) by lra. apply Rmult_le_compat_l; [lra|]. eapply Rle_trans; [exact RR|]. clear - U; nra. }
    assert (A2 : Rabs (z1 / 4 * (1 + e2) + z2) <= 4 * eta).
    { eapply Rle_trans; [apply Rabs_triang|]. unfold Rdiv. rewrite !Rabs_mult, (Rabs_pos_eq (/ 4)) by lra. assert (Rabs (1 + e2) <= 1.1) by (apply Rabs_le; apply Rabs_le_inv in X2; lra).
      assert (Rabs z1 * / 4 * Rabs (1 + e2) <= eta * / 4 * 1.1). { apply Rmult_le_compat; [apply Rmult_le_pos; [apply Rabs_pos|lra]|apply Rabs_pos|apply Rmult_le_compat_r; lra|assumption]. } lra. }
    lra. }
  assert (T1 : tau H 1 <= / 4) by (unfold tau; cbn; lra). pose proof (tau_pos H 1 (proj1 HH)) as T0. assert (P2 : eta <= 1e-90) by lra. clear P1.
  unfold inv. cbn [INR]. rewrite !Rplus_0_l, !Rmult_1_r.
  split; [apply isint_const; reflexivity|]. split; [apply isint_const; reflexivity|]. split; [split; [exact Ft|exact T4]|]. split.
  { split; [exact F1|]. split; [exact Fs|]. split; [lra|]. split; [|exact Es]. apply Rabs_le_inv in AE. lra. }
  split; [rewrite !Rmult_1_r in TE; exact TE|]. replace (hsum H 0) with 1 by (unfold hsum; cbn; ring). rewrite hsum_S. replace (hsum H 0) with 1 by (unfold hsum; cbn; ring). split.
  - replace (B2R s1 - (1 + tau H 1)) with ((B2R s1 - (B2R one + B2R term)) + (B2R term - tau H 1)) by (rewrite E1; ring). eapply Rle_trans; [apply Rabs_triang|].
    assert (u53 * tau H 1 <= u53 * / 4) by (apply Rmult_le_compat_l; lra). lra.
  - rewrite E1. replace (1 - 1) with 0 by ring. rewrite Rabs_R0. lra.
Qed.

(** ** The quantities before the loop *)
Lemma sqrt_ok (x : float64) : is_finite x = true -> 0 <= B2R x -> is_finite (Bsqrt mode_NE x) = true /\ B2R (Bsqrt mode_NE x) = R64 (sqrt (B2R x)).
Proof.
  intros Fx Hx. destruct (Bsqrt_correct 53 1024 _ _ mode_NE x) as (A & B & _). split; [|exact A]. rewrite B. destruct x as [s|s| |s m ex p]; try discriminate Fx; [reflexivity|].
  destruct s; [|reflexivity]. exfalso. cbn in Hx. pose proof (F2R_lt_0 radix2 (Float radix2 (Zneg m) ex) ltac:(reflexivity)). lra.
Qed.
Lemma in_range (a : float64) x : Rabs x <= Rabs (B2R a) -> Rabs (R64 x) <= Rabs (B2R a).
Proof.
  intros H. apply Rabs_le_inv in H. apply Rabs_le. assert (N : R64 (- Rabs (B2R a)) = - Rabs (B2R a)). { unfold Rabs. destruct (Rcase_abs (B2R a)); [rewrite Ropp_involutive; apply R64_id|]. rewrite <- B2R_Bopp. apply R64_id. }
  assert (P : R64 (Rabs (B2R a)) = Rabs (B2R a)) by (rewrite <- B2R_Babs; apply R64_id). split; [rewrite <- N|rewrite <- P]; apply R64_monotone; lra.
Qed.
Lemma mult_le (a b : float64) : is_finite a = true -> is_finite b = true -> Rabs (B2R a * B2R b) <= Rabs (B2R a) ->
  is_finite (Bmult mode_NE a b) = true /\ B2R (Bmult mode_NE a b) = R64 (B2R a * B2R b).
Proof.
  intros A B K. pose proof (Bmult_correct 53 1024 _ _ mode_NE a b) as C. rewrite Rlt_bool_true in C.
  - destruct C as (C1 & C2 & _). rewrite A, B in C2. split; assumption.
  - eapply Rle_lt_trans; [apply (in_range a), K|]. apply abs_B2R_lt_emax.
Qed.
Lemma minus_le (a b : float64) : is_finite a = true -> is_finite b = true -> Rabs (B2R a - B2R b) <= Rabs (B2R a) ->
  is_finite (Bminus mode_NE a b) = true /\ B2R (Bminus mode_NE a b) = R64 (B2R a - B2R b).
Proof.
  intros A B K. pose proof (Bminus_correct 53 1024 _ _ mode_NE a b A B) as C. rewrite Rlt_bool_true in C.
  - destruct C as (C1 & C2 & _). split; assumption.
  - eapply Rle_lt_trans; [apply (in_range a), K|]. apply abs_B2R_lt_emax.
Qed.

Definition root64 (e : float64) : float64 := Bsqrt mode_NE (Bminus mode_NE (fconst (Flt := BFlt) 1 1) (Bmult mode_NE e e)).
Lemma root_ok e : is_finite e = true -> Rabs (B2R e) <= 1 ->
  is_finite (root64 e) = true /\ B2R (root64 e) = R64 (sqrt (R64 (1 - R64 (B2R e * B2R e)))) /\ 0 <= B2R (root64 e) <= 1.
Proof.
  intros Fe He. apply Rabs_le_inv in He. assert (S01 : 0 <= B2R e * B2R e <= 1) by (clear - He; nra).
  destruct (mult_ok e e Fe Fe) as [F1 E1]; [apply (small_ok _ 1); [lia|exact S01]|]. set (e2 := Bmult mode_NE e e) in *.
  assert (H2 : 0 <= B2R e2 <= 1) by (rewrite E1; split; [apply R64_ge0|apply R64_le1]; lra).
  destruct (isint_const 1 ltac:(reflexivity)) as [Fo Eo]. destruct (minus_ok (fconst (Flt := BFlt) 1 1) e2 Fo F1) as [Fq Eq]; [rewrite Eo; apply (small_ok _ 1); [lia|lra]|]. rewrite Eo in Eq.
  unfold root64. fold e2. set (q := Bminus mode_NE (fconst (Flt := BFlt) 1 1) e2) in *.
  assert (Q : 0 <= B2R q <= 1) by (rewrite Eq; split; [apply R64_ge0|apply R64_le1]; lra).
  destruct (sqrt_ok q Fq (proj1 Q)) as [Fs Es]. split; [exact Fs|]. split; [rewrite Es, Eq, E1; reflexivity|]. rewrite Es. split; [apply R64_ge0, sqrt_pos|]. apply R64_le1. rewrite <- sqrt_1. apply sqrt_le_1_alt. lra.
Qed.

Definition m64 (a e : float64) : float64 := let b := Bmult mode_NE a (root64 e) in Bdiv mode_NE (Bminus mode_NE a b) (Bplus mode_NE a b).
Lemma quot01 A X Y : A <> 0 -> (0 < A -> 0 <= X <= A /\ A <= Y) -> (A < 0 -> A <= X <= 0 /\ Y <= A) -> Y <> 0 /\ 0 <= X / Y <= 1.
Proof.
  intros HA Hp Hn. destruct (Rlt_or_le 0 A) as [P|P].
  - destruct (Hp P) as [H1 H2]. split; [lra|]. split; [apply Rmult_le_pos; [lra|left; apply Rinv_0_lt_compat; lra]|]. apply Rmult_le_reg_r with Y; [lra|]. replace (X / Y * Y) with X by (field; lra). lra.
  - destruct (Hn ltac:(lra)) as [H1 H2]. split; [lra|]. replace (X / Y) with (- X / - Y) by (field; lra). split; [apply Rmult_le_pos; [lra|left; apply Rinv_0_lt_compat; lra]|]. apply Rmult_le_reg_r with (- Y); [lra|]. replace (- X / - Y * - Y) with (- X) by (field; lra). lra.
Qed.
Lemma m_ok a e : is_finite a = true -> B2R a <> 0 -> is_finite e = true -> Rabs (B2R e) <= 1 -> is_finite (m64 a e) = true /\ 0 <= B2R (m64 a e) <= 1.
Proof.
  intros Fa Ha Fe He. destruct (root_ok e Fe He) as (Fs & _ & S01). unfold m64. set (s := root64 e) in *. clearbody s. set (A := B2R a) in *.
  assert (K : Rabs (A * B2R s) <= Rabs A). { rewrite Rabs_mult, (Rabs_pos_eq (B2R s)) by lra. pose proof (Rabs_pos A). clear - H S01. nra. }
  destruct (mult_le a s Fa Fs K) as [Fb Eb]. set (b := Bmult mode_NE a s) in *. clearbody b. fold A in Eb.
  pose proof (R64_id a) as IA. fold A in IA.
  assert (Bp : 0 < A -> 0 <= B2R b <= A). { intros P. rewrite Eb. split; [apply R64_ge0, Rmult_le_pos; lra|]. rewrite <- IA at 2. apply R64_monotone. clear - P S01. nra. }
  assert (Bn : A < 0 -> A <= B2R b <= 0). { intros P. rewrite Eb. split; [rewrite <- IA at 1; apply R64_monotone; clear - P S01; nra|]. rewrite <- R64_0. apply R64_monotone. clear - P S01; nra. }
  assert (K2 : Rabs (A - B2R b) <= Rabs A). { destruct (Rlt_or_le 0 A) as [P|P]; [pose proof (Bp P); rewrite !Rabs_pos_eq by lra; lra|]. assert (P' : A < 0) by lra. pose proof (Bn P'). rewrite !Rabs_left1 by lra. lra. }
  destruct (minus_le a b Fa Fb K2) as [Fx Ex]. set (x := Bminus mode_NE a b) in *. clearbody x. fold A in Ex.
  assert (Xp : 0 < A -> 0 <= B2R x <= A). { intros P. pose proof (Bp P). rewrite Ex. split; [apply R64_ge0; lra|]. rewrite <- IA at 2. apply R64_monotone. lra. }
  assert (Xn : A < 0 -> A <= B2R x <= 0). { intros P. pose proof (Bn P). rewrite Ex. split; [rewrite <- IA at 1|rewrite <- R64_0]; apply R64_monotone; lra. }
  pose proof (Bplus_correct 53 1024 _ _ mode_NE a b Fa Fb) as C. revert C. case Rlt_bool_spec; intros _ C.
  - destruct C as (Ey & Fy & _). set (y := Bplus mode_NE a b) in *. clearbody y. fold A in Ey. change (B2R y = R64 (A + B2R b)) in Ey.
    destruct (quot01 A (B2R x) (B2R y) Ha) as [Y0 Q].
    { intros P. split; [apply Xp, P|]. rewrite Ey. apply Rle_trans with (R64 A); [rewrite IA; apply Rle_refl|apply R64_monotone; pose proof (Bp P); lra]. }
    { intros P. split; [apply Xn, P|]. rewrite Ey. apply Rle_trans with (R64 A); [apply R64_monotone; pose proof (Bn P); lra|rewrite IA; apply Rle_refl]. }
    destruct (div_ok x y Fx Y0) as [Fm Em]; [apply (small_ok _ 1); [lia|exact Q]|]. split; [exact Fm|]. rewrite Em. split; [apply R64_ge0|apply R64_le1]; lra.
  - destruct C as [C _]. change (binary_overflow 53 1024 mode_NE (Bsign a)) with (SpecFloat.S754_infinity (Bsign a)) in C.
    destruct (Bplus mode_NE a b) as [|sg| |]; cbn in C; try discriminate C. destruct x; try discriminate Fx; cbn; (split; [reflexivity|lra]).
Qed.

Lemma at_end k : 131073 <= k -> / (4 * (k * k * k)) < u53.
Proof.
  intros K. rewrite u_pow. apply Rinv_lt_contravar; [|]. { assert (1 <= k * k * k) by nra. lra. }
  assert (131073 * 131073 <= k * k) by nra. assert (131073 * 131073 * 131073 <= k * k * k) by (apply Rmult_le_compat; nra). lra.
Qed.
Definition last_round : nat := Z.to_nat 131072.
Lemma last_round_Z : Z.of_nat last_round = 131072%Z. Proof. unfold last_round. apply Z2Nat.id. lia. Qed.
Lemma end_small H term nf df s0 s1 : inv H last_round term nf df s0 s1 -> B2R term < u53.
Proof. intros (_ & _ & (_ & T) & _). eapply Rle_lt_trans; [exact (proj2 T)|]. apply at_end. rewrite INR_IZR_INZ, last_round_Z. lra. Qed.

Lemma Length4_unfold fuel a e : Length4 (fl := BFlt) fuel a e =
  match rounds (Bmult mode_NE (m64 a e) (m64 a e)) (Bmult mode_NE (Bmult mode_NE (m64 a e) (m64 a e)) (fconst (Flt := BFlt) 25 100)) (fconst (Flt := BFlt) (-1) 1) (fconst (Flt := BFlt) 2 1)
     (fconst (Flt := BFlt) 1 1) (Bplus mode_NE (fconst (Flt := BFlt) 1 1) (Bmult mode_NE (Bmult mode_NE (m64 a e) (m64 a e)) (fconst (Flt := BFlt) 25 100))) fuel with
  | None => None
  | Some s => Some (Bdiv mode_NE (Bmult mode_NE (Bmult mode_NE (twoPi (fl := BFlt)) a) s) (Bplus mode_NE (fconst (Flt := BFlt) 1 1) (m64 a e)))
  end.
Proof. reflexivity. Qed.

(** What a call computes: the number d of rounds, and the sum. *)
Lemma Length4_run a e J : is_finite a = true -> B2R a <> 0 -> is_finite e = true -> Rabs (B2R e) <= 1 -> (Z.of_nat J <= 131072)%Z ->
  (forall term nf df s0 s1, inv (B2R (m64 a e) * B2R (m64 a e)) J term nf df s0 s1 -> B2R term < u53) ->
  exists d term nf df s0 s1, (d <= J)%nat /\ inv (B2R (m64 a e) * B2R (m64 a e)) d term nf df s0 s1 /\ B2R s1 = B2R s0 /\
    (forall f, (d <= f)%nat -> Length4 (fl := BFlt) f a e = Some (Bdiv mode_NE (Bmult mode_NE (Bmult mode_NE (twoPi (fl := BFlt)) a) s0) (Bplus mode_NE (fconst (Flt := BFlt) 1 1) (m64 a e)))) /\
    (forall f, (f < d)%nat -> Length4 (fl := BFlt) f a e = None).
Proof.
  intros Fa Ha Fe He HJ Hs. destruct (m_ok a e Fa Ha Fe He) as [Fm Hm]. destruct (entry (m64 a e) Fm Hm) as (F2 & E2 & I).
  assert (HH : 0 <= B2R (m64 a e) * B2R (m64 a e) <= 1) by (clear - Hm; nra).
  destruct (rounds_run _ _ J HJ HH F2 E2 Hs J O _ _ _ _ _ eq_refl I) as (d & term & nf & df & s0 & s1 & Hd & I' & Q & R1 & R2).
  exists d, term, nf, df, s0, s1. split; [exact Hd|]. split; [exact I'|]. split; [exact Q|]. split; intros f Hf; rewrite Length4_unfold; [rewrite (R1 f Hf)|rewrite (R2 f Hf)]; reflexivity.
Qed.
