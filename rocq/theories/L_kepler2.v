(** Quadratic convergence of Newton's method in package kepler. *)
From Coq Require Import ZArith Reals Bool List Lra Lia Psatz.
From Flocq Require Import Core.
From Verif Require Import GoFloat GoMath S_base S_iterate M_iterate L_iterate L_trig S_kepler M_kepler L_kepler.
Local Open Scope R_scope.

Lemma sin_taylor_pos a d : 0 < d -> Rabs (sin (a + d) - sin a - d * cos a) <= d * d / 2.
Proof.
  intros Hd.
  assert (G : forall sg, (sg = 1 \/ sg = -1) -> 0 <= d * d / 2 - sg * (sin (a + d) - sin a - d * cos a)).
  { intros sg Hs. pose (f := fun t => t * t / 2 - sg * (sin (a + t) - sin a - t * cos a)).
    destruct (MVT_cor2 f (fun t => t - sg * (cos (a + t) - cos a)) 0 d Hd) as [c [E B]].
    - intros t _. unfold f.
      assert (D1 : derivable_pt_lim (fun t => t * t / 2) t t).
      { replace t with ((1 * t + t * 1) * / 2 + t * t * 0) at 2 by field.
        apply (derivable_pt_lim_mult (fun t => t * t) (fun _ => / 2)); [|apply derivable_pt_lim_const].
        apply (derivable_pt_lim_mult id id); apply derivable_pt_lim_id. }
      assert (D2 : derivable_pt_lim (fun t => sin (a + t) - sin a - t * cos a) t (cos (a + t) - cos a)).
      { replace (cos (a + t) - cos a) with (cos (a + t) * (0 + 1) - 0 - (1 * cos a + t * 0)) by ring.
        apply derivable_pt_lim_minus; [apply derivable_pt_lim_minus|].
        - apply (derivable_pt_lim_comp (fun t => a + t) sin); [|apply derivable_pt_lim_sin].
          apply (derivable_pt_lim_plus (fun _ => a) id); [apply derivable_pt_lim_const|apply derivable_pt_lim_id].
        - apply derivable_pt_lim_const.
        - apply (derivable_pt_lim_mult id (fun _ => cos a)); [apply derivable_pt_lim_id|apply derivable_pt_lim_const]. }
      apply derivable_pt_lim_minus; [exact D1|]. apply (derivable_pt_lim_scal _ sg _ _ D2).
    - unfold f in E. replace (a + 0) with a in E by ring. pose proof (cos_lip (a + c) a) as L. replace (a + c - a) with c in L by ring.
      rewrite (Rabs_pos_eq c) in L by lra. apply Rabs_le_inv in L.
      assert (0 <= c - sg * (cos (a + c) - cos a)) by (destruct Hs as [-> | ->]; lra).
      assert (0 <= (c - sg * (cos (a + c) - cos a)) * (d - 0)) by (apply Rmult_le_pos; lra). lra. }
  pose proof (G 1 (or_introl eq_refl)). pose proof (G (-1) (or_intror eq_refl)). apply Rabs_le. lra.
Qed.
Lemma sin_taylor a d : Rabs (sin (a + d) - sin a - d * cos a) <= d * d / 2.
Proof.
  destruct (Rtotal_order d 0) as [H|[->|H]].
  - pose proof (sin_taylor_pos (- a) (- d) ltac:(lra)) as T. replace (- a + - d) with (- (a + d)) in T by ring. rewrite !sin_neg, cos_neg in T.
    replace (- sin (a + d) - - sin a - - d * cos a) with (- (sin (a + d) - sin a - d * cos a)) in T by ring. rewrite Rabs_Ropp in T. lra.
  - rewrite Rplus_0_r. replace (sin a - sin a - 0 * cos a) with 0 by ring. rewrite Rabs_R0. lra.
  - apply sin_taylor_pos, H.
Qed.

(** The Newton step at E0. *)
Definition nstep (e M E0 : R) : R := (M + e * sin E0 - E0) / (1 - e * cos E0).

Lemma nstep_next e M E0 c : 0 <= e < 1 -> e <= 2 * c * (1 - e) ->
  Rabs (nstep e M (E0 + nstep e M E0)) <= c * (Rabs (nstep e M E0) * Rabs (nstep e M E0)).
Proof.
  intros He Hc. set (d := nstep e M E0). pose proof (den_pos e E0 He) as P0. pose proof (den_pos e (E0 + d) He) as P1.
  assert (Ed : d * (1 - e * cos E0) = M + e * sin E0 - E0) by (unfold d, nstep; field; lra).
  assert (R : M + e * sin (E0 + d) - (E0 + d) = e * (sin (E0 + d) - sin E0 - d * cos E0)) by lra.
  unfold nstep at 1. rewrite R. unfold Rdiv. rewrite Rabs_mult, (Rabs_pos_eq (/ _)) by (apply Rlt_le, Rinv_0_lt_compat, P1).
  apply Rmult_le_reg_r with (1 - e * cos (E0 + d)); [exact P1|]. rewrite Rmult_assoc, Rinv_l, Rmult_1_r by lra.
  rewrite Rabs_mult, (Rabs_pos_eq e) by lra. pose proof (sin_taylor E0 d) as T.
  assert (DD : Rabs d * Rabs d = d * d) by (rewrite <- Rabs_mult; apply Rabs_pos_eq, Rle_0_sqr). rewrite DD.
  pose proof (Rle_0_sqr d) as SQ. unfold Rsqr in SQ. set (q := d * d) in *. clearbody q.
  assert (W : 1 - e <= 1 - e * cos (E0 + d)) by (pose proof (COS_bound (E0 + d)); nra).
  apply Rle_trans with (e * (q / 2)); [apply Rmult_le_compat_l; lra|].
  assert (0 <= c) by (destruct (Rle_dec 0 c); [assumption|nra]).
  apply Rle_trans with (c * q * (1 - e)); [|apply Rmult_le_compat_l; [apply Rmult_le_pos; lra|exact W]].
  assert (e * q <= 2 * c * (1 - e) * q) by (apply Rmult_le_compat_r; lra). lra.
Qed.
Lemma nstep_first e M s : 0 <= e < 1 -> 0 <= s -> e * e <= s * s * (1 - e * e) -> Rabs (nstep e M M) <= s.
Proof.
  intros He Hs H. pose proof (den_pos e M He) as P. unfold nstep. replace (M + e * sin M - M) with (e * sin M) by ring.
  unfold Rdiv. rewrite Rabs_mult, (Rabs_pos_eq (/ _)) by (apply Rlt_le, Rinv_0_lt_compat, P).
  apply Rmult_le_reg_r with (1 - e * cos M); [exact P|]. rewrite Rmult_assoc, Rinv_l, Rmult_1_r by lra.
  apply Rsqr_incr_0_var; [|apply Rmult_le_pos; lra]. rewrite <- Rsqr_abs. unfold Rsqr.
  pose proof (sc1 M) as S. set (x := sin M) in *. set (y := cos M) in *. clearbody x y.
  assert (X : x * x = 1 - y * y) by lra. assert (X0 : 0 <= x * x) by apply Rle_0_sqr.
  replace (e * x * (e * x)) with (e * e * (x * x)) by ring.
  apply Rle_trans with (s * s * (1 - e * e) * (x * x)); [apply Rmult_le_compat_r; [exact X0|exact H]|].
  replace (s * (1 - e * y) * (s * (1 - e * y))) with (s * s * ((1 - e * y) * (1 - e * y))) by ring.
  rewrite Rmult_assoc. apply Rmult_le_compat_l; [apply Rle_0_sqr|]. rewrite X.
  pose proof (Rle_0_sqr (y - e)) as Y. unfold Rsqr in Y. lra.
Qed.

(** A solver whose update is the Newton step whenever that step is at most L. *)
Lemma newton_steps e M c q L f : 0 <= e < 1 -> 0 < c -> 0 <= q <= 1 -> e <= 2 * c * (1 - e) -> e * e <= (q / c) * (q / c) * (1 - e * e) -> q / c <= L ->
  (forall E0, Rabs (nstep e M E0) <= L -> f E0 = E0 + nstep e M E0) ->
  forall k, Rabs (nstep e M (iter_n f k M)) <= q ^ (2 ^ k) / c /\ f (iter_n f k M) = iter_n f k M + nstep e M (iter_n f k M).
Proof.
  intros He Hc Hq H1 H2 HL Hf. assert (Qc : 0 <= q / c) by (apply Rmult_le_pos; [lra|apply Rlt_le, Rinv_0_lt_compat, Hc]).
  assert (QL : forall k, q ^ (2 ^ k) / c <= L).
  { intros k. apply Rle_trans with (q / c); [|exact HL]. apply Rmult_le_compat_r; [apply Rlt_le, Rinv_0_lt_compat, Hc|].
    assert (2 ^ k <> 0)%nat by (apply Nat.pow_nonzero; lia). destruct (2 ^ k)%nat as [|n]; [lia|].
    cbn [pow]. assert (0 <= q ^ n <= 1). { split; [apply pow_le; lra|]. rewrite <- (pow1 n). apply pow_incr. lra. } nra. }
  assert (B : forall k, Rabs (nstep e M (iter_n f k M)) <= q ^ (2 ^ k) / c).
  { induction k as [|k IH].
    - cbn [iter_n]. change (2 ^ 0)%nat with 1%nat. rewrite pow_1. apply nstep_first; assumption.
    - cbn [iter_n]. set (E0 := iter_n f k M) in *. rewrite (Hf E0) by (eapply Rle_trans; [exact IH|apply QL]).
      eapply Rle_trans; [apply (nstep_next e M E0 c He H1)|].
      replace (2 ^ S k)%nat with (2 ^ k + 2 ^ k)%nat by (cbn; lia). rewrite pow_add. set (w := q ^ (2 ^ k)) in *. clearbody w.
      replace (w * w / c) with (c * (w / c * (w / c))) by (field; lra). apply Rmult_le_compat_l; [lra|].
      apply Rmult_le_compat; try apply Rabs_pos; exact IH. }
  intros k. split; [apply B|]. apply Hf. eapply Rle_trans; [apply B|apply QL].
Qed.

(** The last permitted step is small enough. *)
Lemma newton_total e M p max c q L f k0 : 0 <= e < 1 -> 0 < c -> 0 <= q <= 1 -> e <= 2 * c * (1 - e) -> e * e <= (q / c) * (q / c) * (1 - e * e) -> q / c <= L ->
  (forall E0, Rabs (nstep e M E0) <= L -> f E0 = E0 + nstep e M E0) ->
  (1 <= p)%Z -> q ^ (2 ^ k0) < c / 10 -> q ^ (2 ^ k0) <= / 10 -> (Z.of_nat k0 < max)%Z -> (p <= 2 ^ (max - 1 - Z.of_nat k0))%Z ->
  exists E, DecimalPlaces (fl := RFlt) pow10 f M p max = Ok E.
Proof.
  intros He Hc Hq H1 H2 HL Hf Hp Q1 Q2 HK HM. destruct (DecimalPlaces (fl := RFlt) pow10 f M p max) as [E|] eqn:K; [eauto|exfalso].
  pose proof (proj1 (DecimalPlaces_err (fl := RFlt) _ _ _ _ _) K) as Q. clear K.
  set (k := Z.to_nat (max - 1)) in *. specialize (Q k ltac:(unfold k; lia)). cbn in Q. revert Q. case Rlt_bool_spec; [discriminate|]. intros Q _.
  destruct (newton_steps e M c q L f He Hc Hq H1 H2 HL Hf k) as [B F]. rewrite F in Q.
  replace (iter_n f k M + nstep e M (iter_n f k M) - iter_n f k M) with (nstep e M (iter_n f k M)) in Q by ring.
  assert (G : q ^ (2 ^ k) / c < pow10 (- p)); [|lra].
  set (j := (2 ^ (k - k0))%nat). assert (EJ : (2 ^ k = 2 ^ k0 * j)%nat) by (unfold j; rewrite <- Nat.pow_add_r; f_equal; unfold k; lia).
  assert (JP : (Z.to_nat p <= j)%nat).
  { unfold j. apply Nat2Z.inj_le. rewrite Z2Nat.id by lia. rewrite Nat2Z.inj_pow. change (Z.of_nat 2) with 2%Z.
    replace (Z.of_nat (k - k0)) with (max - 1 - Z.of_nat k0)%Z by (unfold k; lia). exact HM. }
  rewrite EJ, pow_mult. set (w := q ^ (2 ^ k0)) in *. assert (W0 : 0 <= w) by (apply pow_le; lra). clearbody w.
  unfold pow10. rewrite powerRZ_neg'. rewrite <- (Z2Nat.id p) by lia. rewrite <- pow_powerRZ, <- pow_inv.
  assert (N : (Z.to_nat p <> 0)%nat) by lia. destruct (Z.to_nat p) as [|n]; [lia|]. clear N.
  destruct j as [|j']; [lia|]. cbn [pow].
  apply Rmult_lt_reg_r with c; [exact Hc|]. replace (w * w ^ j' / c * c) with (w * w ^ j') by (field; lra).
  assert (T0 : 0 < (/ 10) ^ n) by (apply pow_lt; lra).
  assert (T : w ^ j' <= (/ 10) ^ n).
  { apply Rle_trans with ((/ 10) ^ j'); [apply pow_incr; lra|]. replace j' with (n + (j' - n))%nat by lia. rewrite pow_add.
    assert ((/ 10) ^ (j' - n) <= 1). { rewrite <- (pow1 (j' - n)). apply pow_incr. lra. }
    rewrite <- (Rmult_1_r ((/ 10) ^ n)) at 2. apply Rmult_le_compat_l; lra. }
  apply Rle_lt_trans with (w * (/ 10) ^ n); [apply Rmult_le_compat_l; assumption|].
  replace (/ 10 * (/ 10) ^ n * c) with (c / 10 * (/ 10) ^ n) by field. apply Rmult_lt_compat_r; assumption.
Qed.

Lemma pow2_lin (a : Z) : (0 <= a -> a + 1 <= 2 ^ a)%Z.
Proof.
  intros H. rewrite <- (Z2Nat.id a H). generalize (Z.to_nat a). intros n. induction n as [|n IH]; [reflexivity|].
  rewrite Nat2Z.inj_succ, Z.pow_succ_r by lia. lia.
Qed.
Lemma q16 : (7943 / 10000) ^ (2 ^ 4) < 13 / 14 / 10 /\ (7943 / 10000) ^ (2 ^ 4) <= / 10.
Proof. change (2 ^ 4)%nat with 16%nat. split; lra. Qed.
Lemma q2 : (1455 / 10000) ^ (2 ^ 1) < 1 / 3 / 10 /\ (1455 / 10000) ^ (2 ^ 1) <= / 10.
Proof. change (2 ^ 1)%nat with 2%nat. split; lra. Qed.
Lemma e65 e : 0 <= e <= 65 / 100 -> 0 <= e < 1 /\ e <= 2 * (13 / 14) * (1 - e) /\ e * e <= 7943 / 10000 / (13 / 14) * (7943 / 10000 / (13 / 14)) * (1 - e * e).
Proof. intros H. repeat split; try lra. assert (e * e <= 65 / 100 * (65 / 100)) by nra. lra. Qed.
Lemma e40 e : 0 <= e <= 4 / 10 -> 0 <= e < 1 /\ e <= 2 * (1 / 3) * (1 - e) /\ e * e <= 1455 / 10000 / (1 / 3) * (1455 / 10000 / (1 / 3)) * (1 - e * e).
Proof. intros H. repeat split; try lra. assert (e * e <= 4 / 10 * (4 / 10)) by nra. lra. Qed.

Lemma upd2a e M E0 : Rabs (nstep e M E0) <= 3 / 2 -> E0 + asin (sin ((M + e * sin E0 - E0) / (1 - e * cos E0))) = E0 + nstep e M E0.
Proof. intros H. pose proof PI2_3_2. apply Rabs_le_inv in H. change ((M + e * sin E0 - E0) / (1 - e * cos E0)) with (nstep e M E0). rewrite asin_sin by lra. reflexivity. Qed.
Lemma upd2b e M E0 : Rabs (nstep e M E0) <= 5 / 10 ->
  (let d := (M + e * sin E0 - E0) / (1 - e * cos E0) in
   let d := if Rlt_dec (5 / 10) d then 5 / 10 else if Rlt_dec d (- (5 / 10)) then - (5 / 10) else d in E0 + d) = E0 + nstep e M E0.
Proof.
  intros H. apply Rabs_le_inv in H. change ((M + e * sin E0 - E0) / (1 - e * cos E0)) with (nstep e M E0). cbv zeta.
  destruct (Rlt_dec (5 / 10) (nstep e M E0)); [lra|]. destruct (Rlt_dec (nstep e M E0) (- (5 / 10))); [lra|]. reflexivity.
Qed.

Lemma Kepler2a_ok65 e M p E : 0 <= e <= 65 / 100 -> Kepler2a e M p = Ok E -> Rabs (E - e * sin E - M) <= e * powerRZ 10 (- (2 * p)).
Proof.
  intros He H. destruct (e65 e He) as [H0 [H1 H2]]. apply DP_ok in H. destruct H as [k [K [E1 L]]].
  destruct (newton_steps e M (13 / 14) (7943 / 10000) (3 / 2) _ H0 ltac:(lra) ltac:(lra) H1 H2 ltac:(lra) (upd2a e M) k) as [_ F].
  set (E0 := iter_n _ k M) in *. clearbody E0. cbv beta in F, E1. rewrite F in E1. rewrite E1 in L |- *.
  replace (E0 + nstep e M E0 - E0) with (nstep e M E0) in L by ring.
  apply newton_close; [lra|lia|reflexivity|exact L].
Qed.
Lemma Kepler2a_total e M p : 0 <= e <= 65 / 100 -> (1 <= p)%Z -> exists E, Kepler2a e M p = Ok E.
Proof.
  intros He Hp. destruct (e65 e He) as [H0 [H1 H2]]. destruct q16 as [Q1 Q2].
  apply (newton_total e M p (p * 5) (13 / 14) (7943 / 10000) (3 / 2) _ 4 H0 ltac:(lra) ltac:(lra) H1 H2 ltac:(lra) (upd2a e M) Hp Q1 Q2); [lia|].
  pose proof (pow2_lin (p * 5 - 1 - Z.of_nat 4)). lia.
Qed.
Lemma Kepler2_total e M p : 0 <= e <= 65 / 100 -> (8 <= p)%Z -> exists E, Kepler2 e M p = Ok E.
Proof.
  intros He Hp. destruct (e65 e He) as [H0 [H1 H2]]. destruct q16 as [Q1 Q2].
  apply (newton_total e M p p (13 / 14) (7943 / 10000) (3 / 2) _ 4 H0 ltac:(lra) ltac:(lra) H1 H2 ltac:(lra) (fun E0 _ => eq_refl) ltac:(lia) Q1 Q2); [lia|].
  replace (p - 1 - Z.of_nat 4)%Z with (3 + (p - 8))%Z by lia. rewrite Z.pow_add_r by lia. pose proof (pow2_lin (p - 8)). lia.
Qed.
Lemma Kepler2b_total e M p : 0 <= e <= 4 / 10 -> (4 <= p)%Z -> exists E, Kepler2b e M p = Ok E.
Proof.
  intros He Hp. destruct (e40 e He) as [H0 [H1 H2]]. destruct q2 as [Q1 Q2].
  apply (newton_total e M p p (1 / 3) (1455 / 10000) (5 / 10) _ 1 H0 ltac:(lra) ltac:(lra) H1 H2 ltac:(lra) (upd2b e M) ltac:(lia) Q1 Q2); [lia|].
  replace (p - 1 - Z.of_nat 1)%Z with (2 + (p - 4))%Z by lia. rewrite Z.pow_add_r by lia. pose proof (pow2_lin (p - 4)). lia.
Qed.
