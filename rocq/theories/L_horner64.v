(** Rounding error of Horner's scheme in binary64. *)
From Coq Require Import ZArith Bool Reals List Lra Lia.
From Flocq Require Import Core IEEE754.BinarySingleNaN.
From Verif Require Import GoInt GoFloat M_base S_base L_base L_round.
Import ListNotations.
Local Open Scope R_scope.

Lemma horner_fin (x : float64) rc : forall y, is_finite (horner_loop (fl := BFlt) x y rc) = true -> is_finite y = true.
Proof.
  induction rc as [|c rc IH]; intros y H; [exact H|]. cbn [horner_loop] in H. apply IH in H. cbn [F BFlt fadd fmul] in H.
  apply plus_fin in H. destruct H as (H & _). apply mult_fin in H. exact (proj1 H).
Qed.
Definition loopR (x y : R) (c : list R) : R := horner_loop (fl := RFlt) x y c.
(** One step: product and sum rounded. *)
Lemma horner_step (a x c Y P G g X C : R) (v : float64) : forall (w : R),
  0 <= G -> 1 <= g -> Rabs Y <= P -> Rabs (a - Y) <= (g - 1) * P + g * (2 * eta * G) -> w = R64 (a * x) -> B2R v = R64 (w + c) ->
  Rabs x = X -> Rabs c = C ->
  Rabs (B2R v - (Y * x + c)) <= (g * (1 + u53) ^ 2 - 1) * (P * X + C) + g * (1 + u53) ^ 2 * (2 * eta * (G * X + 1)).
Proof.
  intros w HG Hg HY HA Ew Ev EX EC. destruct (R64_err (a * x)) as (e1 & t1 & A1 & B1 & E1). destruct (R64_err (w + c)) as (e2 & t2 & A2 & B2 & E2).
  rewrite Ev, E2, Ew, E1. pose proof u53_pos as U. pose proof eta_pos as H. assert (UL : u53 <= / 4). { unfold u53. apply Rinv_le_contravar; [lra|]. simpl. lra. }
  assert (X0 : 0 <= X) by (rewrite <- EX; apply Rabs_pos). assert (C0 : 0 <= C) by (rewrite <- EC; apply Rabs_pos). assert (P0 : 0 <= P) by (eapply Rle_trans; [apply Rabs_pos|exact HY]).
  set (u := u53) in *. clearbody u.
  replace ((a * x * (1 + e1) + t1 + c) * (1 + e2) + t2 - (Y * x + c)) with ((a - Y) * x * ((1 + e1) * (1 + e2)) + Y * x * ((1 + e1) * (1 + e2) - 1) + c * e2 + (t1 * (1 + e2) + t2)) by ring.
  assert (D1 : Rabs ((1 + e1) * (1 + e2)) <= (1 + u) ^ 2).
  { rewrite Rabs_mult. replace ((1 + u) ^ 2) with ((1 + u) * (1 + u)) by ring. apply Rmult_le_compat; try apply Rabs_pos; (eapply Rle_trans; [apply Rabs_triang|]; rewrite Rabs_R1; lra). }
  assert (D2 : Rabs ((1 + e1) * (1 + e2) - 1) <= (1 + u) ^ 2 - 1).
  { replace ((1 + e1) * (1 + e2) - 1) with (e1 + e2 + e1 * e2) by ring. eapply Rle_trans; [apply Rabs_triang|]. eapply Rle_trans; [apply Rplus_le_compat_r, Rabs_triang|]. rewrite Rabs_mult.
    assert (Rabs e1 * Rabs e2 <= u * u) by (apply Rmult_le_compat; auto using Rabs_pos). replace ((1 + u) ^ 2 - 1) with (u + u + u * u) by ring. lra. }
  assert (D3 : Rabs (t1 * (1 + e2) + t2) <= (1 + u) ^ 2 * (2 * eta)).
  { eapply Rle_trans; [apply Rabs_triang|]. rewrite Rabs_mult. assert (K : Rabs (1 + e2) <= 1 + u) by (eapply Rle_trans; [apply Rabs_triang|]; rewrite Rabs_R1; lra).
    assert (Rabs t1 * Rabs (1 + e2) <= eta * (1 + u)) by (apply Rmult_le_compat; auto using Rabs_pos). assert (0 < eta * u) by (apply Rmult_lt_0_compat; assumption). assert (0 <= eta * (u * u)) by (apply Rmult_le_pos; [lra|apply Rle_0_sqr]).
    replace ((1 + u) ^ 2 * (2 * eta)) with (2 * eta + 4 * (eta * u) + 2 * (eta * (u * u))) by ring. lra. }
  assert (M1 : Rabs ((a - Y) * x * ((1 + e1) * (1 + e2))) <= ((g - 1) * P + g * (2 * eta * G)) * X * (1 + u) ^ 2).
  { rewrite (Rabs_mult ((a - Y) * x)), (Rabs_mult (a - Y) x), EX. apply Rmult_le_compat; [apply Rmult_le_pos; [apply Rabs_pos|exact X0]|apply Rabs_pos| |exact D1]. apply Rmult_le_compat_r; assumption. }
  assert (M2 : Rabs (Y * x * ((1 + e1) * (1 + e2) - 1)) <= P * X * ((1 + u) ^ 2 - 1)).
  { rewrite (Rabs_mult (Y * x)), (Rabs_mult Y), EX. apply Rmult_le_compat; [apply Rmult_le_pos; [apply Rabs_pos|exact X0]|apply Rabs_pos| |exact D2]. apply Rmult_le_compat_r; assumption. }
  assert (M3 : Rabs (c * e2) <= C * u) by (rewrite Rabs_mult, EC; apply Rmult_le_compat_l; assumption).
  eapply Rle_trans; [apply Rabs_triang|]. eapply Rle_trans; [apply Rplus_le_compat_r, Rabs_triang|]. eapply Rle_trans; [apply Rplus_le_compat_r, Rplus_le_compat_r, Rabs_triang|].
  set (q := (1 + u) ^ 2) in *. assert (Q1 : 1 + u <= q) by (unfold q; replace ((1 + u) ^ 2) with (1 + u + u * (1 + u)) by ring; assert (0 <= u * (1 + u)) by (apply Rmult_le_pos; lra); lra).
  assert (GQ : 0 <= (g - 1) * q) by (apply Rmult_le_pos; lra). assert (C * u <= (g * q - 1) * C). { rewrite (Rmult_comm C u). apply Rmult_le_compat_r; [exact C0|]. lra. }
  assert (q * (2 * eta) <= g * q * (2 * eta)). { rewrite Rmult_assoc. rewrite <- (Rmult_1_l (q * (2 * eta))) at 1. apply Rmult_le_compat_r; [|exact Hg]. apply Rmult_le_pos; lra. }
  replace ((g * q - 1) * (P * X + C) + g * q * (2 * eta * (G * X + 1))) with (((g - 1) * P + g * (2 * eta * G)) * X * q + P * X * (q - 1) + (g * q - 1) * C + g * q * (2 * eta)) by ring. lra.
Qed.
Lemma horner_error (x : float64) rc : forall (y : float64) Y P G k,
  is_finite (horner_loop (fl := BFlt) x y rc) = true -> 0 <= G -> Rabs Y <= P ->
  Rabs (B2R y - Y) <= ((1 + u53) ^ (2 * k) - 1) * P + (1 + u53) ^ (2 * k) * (2 * eta * G) ->
  let n := (2 * (k + length rc))%nat in
  Rabs (B2R (horner_loop (fl := BFlt) x y rc) - loopR (B2R x) Y (map B2R rc)) <=
    ((1 + u53) ^ n - 1) * loopR (Rabs (B2R x)) P (map (fun c => Rabs (B2R c)) rc) + (1 + u53) ^ n * (2 * eta * loopR (Rabs (B2R x)) G (map (fun _ => 1) rc)).
Proof.
  induction rc as [|c rc IH]; intros y Y P G k H HG HY HA.
  - cbn [length map]. rewrite Nat.add_0_r. exact HA.
  - cbn [length map horner_loop]. replace (k + S (length rc))%nat with (S k + length rc)%nat by lia. unfold loopR at 1 2 3. cbn [horner_loop]. cbn [horner_loop] in H.
    pose proof (horner_fin _ _ _ H) as F1. cbn [F BFlt fadd fmul] in F1. destruct (plus_fin _ _ F1) as (F2 & F3 & E2). destruct (mult_fin _ _ F2) as (F4 & F5 & E1).
    apply (IH (Bplus mode_NE (Bmult mode_NE y x) c) _ _ _ (S k) H).
    + cbn [F RFlt fadd fmul]. pose proof (Rabs_pos (B2R x)). nra.
    + cbn [F RFlt fadd fmul]. eapply Rle_trans; [apply Rabs_triang|]. rewrite Rabs_mult. apply Rplus_le_compat_r, Rmult_le_compat_r; [apply Rabs_pos|exact HY].
    + cbn [F RFlt fadd fmul]. replace (2 * S k)%nat with (2 * k + 2)%nat by lia. rewrite pow_add. eapply horner_step; eauto. apply pow_R1_Rle. pose proof u53_pos. lra.
Qed.
Lemma loopR_rev x c y rest : rev c = y :: rest -> loopR x y rest = poly c x.
Proof.
  intros E. assert (N : c <> []) by (intros ->; discriminate). pose proof (Horner_poly x c N) as H. unfold Horner in H. change (@rev (@F RFlt) c) with (@rev R c) in H. rewrite E in H. injection H as H. exact H.
Qed.
Lemma Horner64_error (x : float64) (c : list float64) (r : float64) : Horner (fl := BFlt) x c = Some r -> is_finite r = true ->
  let n := (2 * (length c - 1))%nat in
  Rabs (B2R r - poly (map B2R c) (B2R x)) <=
    ((1 + u53) ^ n - 1) * poly (map (fun a => Rabs (B2R a)) c) (Rabs (B2R x)) + (1 + u53) ^ n * (2 * eta * poly (repeat 1 (length c - 1)) (Rabs (B2R x))).
Proof.
  intros H Fr n. unfold Horner in H. change (@rev (@F BFlt) c) with (@rev float64 c) in H. destruct (rev c) as [|y rest] eqn:E; [discriminate|]. injection H as <-.
  assert (LC : length c = S (length rest)) by (rewrite <- (rev_length c), E; reflexivity).
  pose proof (horner_error x rest y (B2R y) (Rabs (B2R y)) 0 0 Fr (Rle_refl _) (Rle_refl _)) as K. cbv zeta in K.
  change (@length (@F BFlt) rest) with (@length float64 rest) in K. replace (2 * (0 + length rest))%nat with n in K by (unfold n; lia). rewrite (loopR_rev _ (map B2R c)) in K by (rewrite <- map_rev; change (@rev (binary_float 53 1024) c) with (@rev float64 c); rewrite E; reflexivity).
  rewrite (loopR_rev _ (map (fun a => Rabs (B2R a)) c)) in K by (rewrite <- map_rev; change (@rev (binary_float 53 1024) c) with (@rev float64 c); rewrite E; reflexivity).
  assert (GG : loopR (Rabs (B2R x)) 0 (map (fun _ => 1) rest) = poly (repeat 1 (length c - 1)) (Rabs (B2R x))).
  { rewrite (loopR_rev _ (repeat 1 (length rest) ++ [0]) 0 (map (fun _ => 1) rest)).
    - rewrite poly_app. replace (length c - 1)%nat with (length rest) by lia. ring.
    - rewrite rev_app_distr. cbn [rev app]. f_equal. clear. induction rest as [|a l IH]; [reflexivity|]. cbn [length repeat rev map]. rewrite IH. clear IH. induction l as [|b l IH]; [reflexivity|]. cbn [map app]. now rewrite IH. }
  change (map (fun _ : @F BFlt => 1) rest) with (map (fun _ : float64 => 1) rest) in K. rewrite GG in K. apply K. rewrite Rminus_diag_eq by reflexivity. rewrite Rabs_R0. cbn [Nat.mul Nat.add pow]. lra.
Qed.
Lemma pow_u n : (Z.of_nat n <= 2 ^ 52)%Z -> (1 + u53) ^ n - 1 <= 2 * INR n * u53.
Proof.
  intros H. assert (B : forall m, (Z.of_nat m <= 2 ^ 52)%Z -> (1 + u53) ^ m <= 1 + 2 * INR m * u53); [|specialize (B n H); lra].
  pose proof u53_pos as U. induction m as [|m IH]; intros Hm; [simpl; lra|]. specialize (IH ltac:(lia)). rewrite S_INR. cbn [pow].
  assert (K : INR m * u53 <= / 2).
  { apply Rle_trans with (2 ^ 52 * u53); [|unfold u53; apply Req_le; simpl; field]. apply Rmult_le_compat_r; [lra|]. rewrite INR_IZR_INZ. replace (2 ^ 52) with (IZR (2 ^ 52)) by (simpl; lra). apply IZR_le. lia. }
  apply Rle_trans with ((1 + u53) * (1 + 2 * INR m * u53)); [apply Rmult_le_compat_l; lra|]. assert (u53 * (2 * (INR m * u53)) <= u53 * 1) by (apply Rmult_le_compat_l; lra). lra.
Qed.
Lemma Horner64_bound (x : float64) (c : list float64) (r : float64) : Horner (fl := BFlt) x c = Some r -> is_finite r = true -> (Z.of_nat (length c) <= 1000000)%Z ->
  Rabs (B2R r - poly (map B2R c) (B2R x)) <=
    INR (length c) / 2 ^ 51 * poly (map (fun a => Rabs (B2R a)) c) (Rabs (B2R x)) + / 2 ^ 1073 * poly (repeat 1 (length c - 1)) (Rabs (B2R x)).
Proof.
  intros H Fr L. pose proof (Horner64_error x c r H Fr) as K. cbv zeta in K. eapply Rle_trans; [exact K|]. clear K.
  assert (Z2 : (Z.of_nat (2 * (length c - 1)) <= 2 ^ 52)%Z) by lia. pose proof (pow_u _ Z2) as Q. pose proof u53_pos as U.
  assert (NN : INR (2 * (length c - 1)) <= 2 * INR (length c)). { replace (2 * INR (length c)) with (INR (2 * length c)) by (rewrite mult_INR; simpl; ring). apply le_INR. lia. }
  assert (PP : forall l, Forall (fun a => 0 <= a) l -> 0 <= poly l (Rabs (B2R x))).
  { induction l as [|a l IH]; intros HF; [rewrite poly_nil; lra|]. rewrite poly_cons. inversion HF; subst. apply Rplus_le_le_0_compat; [assumption|]. apply Rmult_le_pos; [apply Rabs_pos|auto]. }
  assert (P1 : 0 <= poly (map (fun a => Rabs (B2R a)) c) (Rabs (B2R x))) by (apply PP, Forall_forall; intros a Ha; apply in_map_iff in Ha; destruct Ha as (b & <- & _); apply Rabs_pos).
  assert (P2 : 0 <= poly (repeat 1 (length c - 1)) (Rabs (B2R x))) by (apply PP, Forall_forall; intros a Ha; apply repeat_spec in Ha; subst; lra).
  apply Rplus_le_compat.
  - apply Rmult_le_compat_r; [exact P1|]. eapply Rle_trans; [exact Q|]. apply Rle_trans with (2 * (2 * INR (length c)) * u53); [apply Rmult_le_compat_r; lra|]. unfold u53. apply Req_le. simpl. field.
  - rewrite <- Rmult_assoc. apply Rmult_le_compat_r; [exact P2|]. assert (E2 : / 2 ^ 1073 = 2 * (2 * eta)). { unfold eta. change (-1075)%Z with (- (Z.of_nat (1073 + 2)))%Z. rewrite bpow_opp, bpow_powerRZ, <- pow_powerRZ, pow_add. change (IZR radix2) with 2. assert (Q2 : 2 ^ 1073 <> 0) by (apply pow_nonzero; lra). set (q := 2 ^ 1073) in *. clearbody q. field. assumption. }
    rewrite E2. apply Rmult_le_compat_r; [pose proof eta_pos; lra|]. assert (2 * INR (2 * (length c - 1)) * u53 <= 1); [|lra].
    apply Rle_trans with (2 ^ 53 * u53); [|unfold u53; apply Req_le; simpl; field]. apply Rmult_le_compat_r; [lra|]. rewrite INR_IZR_INZ. replace (2 ^ 53) with (2 * IZR (2 ^ 52)) by (simpl; lra). apply Rmult_le_compat_l; [lra|]. apply IZR_le. exact Z2.
Qed.
