(** Convergence of the Newton solvers of package kepler for large eccentricities. *)
From Coq Require Import ZArith Reals Bool Lra Lia Psatz.
From Flocq Require Import Core.
From Verif Require Import GoFloat GoMath S_base S_iterate M_iterate L_iterate L_trig S_kepler M_kepler L_kepler L_kepler2 L_kepler3.
Local Open Scope R_scope.

(** ** Newton's method from above the root removes a third of the error *)
Lemma sin_chord r E : 0 <= r <= E -> E <= PI -> r * sin E <= E * sin r.
Proof.
  intros Hr HE. pose proof (sin_tangent E r ltac:(lra) ltac:(lra)) as A. pose proof (sin_tangent 0 r ltac:(lra) ltac:(lra)) as B. rewrite sin_0 in B.
  assert (r * sin E <= r * (sin r + cos r * (E - r))) by (apply Rmult_le_compat_l; lra). assert (0 <= (E - r) * (sin r + cos r * (0 - r))) by (apply Rmult_le_pos; lra). lra.
Qed.
Lemma third_pos E : 0 <= E <= PI -> 0 <= 2 * E - 3 * sin E + E * cos E.
Proof.
  intros HE. destruct (Req_dec E 0) as [->|N]; [rewrite sin_0; lra|]. pose (f := fun x => 2 * x - 3 * sin x + x * cos x).
  destruct (MVT_cor2 f (fun x => 2 * 1 - 3 * cos x + (1 * cos x + x * - sin x)) 0 E ltac:(lra)) as (c & EC & C).
  - intros x _. unfold f. apply (derivable_pt_lim_plus (fun x => 2 * x - 3 * sin x) (fun x => x * cos x)).
    + apply (derivable_pt_lim_minus (fun x => 2 * x) (fun x => 3 * sin x)).
      * apply (derivable_pt_lim_scal id 2), derivable_pt_lim_id.
      * apply (derivable_pt_lim_scal sin 3), derivable_pt_lim_sin.
    + apply (derivable_pt_lim_mult id cos); [apply derivable_pt_lim_id|apply derivable_pt_lim_cos].
  - unfold f in EC. rewrite sin_0, cos_0 in EC. assert (D : 0 <= 2 * 1 - 3 * cos c + (1 * cos c + c * - sin c)).
    { set (u := c / 2). assert (Hu : 0 <= u <= PI / 2) by (unfold u; lra). replace c with (2 * u) by (unfold u; field). rewrite cos_2a_sin, sin_2a.
      pose proof (sin_tangent 0 u ltac:(lra) ltac:(lra)) as T. rewrite sin_0 in T. assert (S : 0 <= sin u) by (apply sin_ge_0; lra).
      assert (0 <= sin u * (sin u + cos u * (0 - u))) by (apply Rmult_le_pos; lra). lra. }
    assert (0 <= (2 * 1 - 3 * cos c + (1 * cos c + c * - sin c)) * (E - 0)) by (apply Rmult_le_pos; lra). lra.
Qed.
Lemma third r E : 0 <= r <= E -> E <= PI -> (E - r) * (1 - cos E) <= 3 * (E - r - (sin E - sin r)).
Proof.
  intros Hr HE. destruct (Req_dec E 0) as [Z|N]; [assert (r = 0) by lra; subst; lra|]. pose proof (sin_chord r E Hr HE) as C. pose proof (third_pos E ltac:(lra)) as T.
  apply Rmult_le_reg_l with E; [lra|]. assert (0 <= (E - r) * (2 * E - 3 * sin E + E * cos E)) by (apply Rmult_le_pos; lra). lra.
Qed.
Lemma above_step e M r E c : 0 <= e < 1 -> e <= 2 * c * (1 - e) -> 0 <= r <= E -> E <= PI -> r - e * sin r = M ->
  r - E <= nstep e M E <= 0 /\ E + nstep e M E - r <= 2 / 3 * (E - r) /\ E + nstep e M E - r <= c * ((E - r) * (E - r)).
Proof.
  intros He Hc Hr HE Er. pose proof (step_back e M E r He ltac:(lra) ltac:(lra) ltac:(lra)) as SB. pose proof (den_pos e E He) as D.
  assert (EN : nstep e M E * (1 - e * cos E) = - ((E - r) - e * (sin E - sin r))) by (unfold nstep; field_simplify; [lra|lra]).
  pose proof (third r E Hr HE) as T. pose proof (sin_taylor E (r - E)) as S. replace (E + (r - E)) with r in S by ring. apply Rabs_le_inv in S.
  assert (L : Rabs (sin E - sin r) <= Rabs (E - r)). { destruct (Rle_lt_or_eq_dec r E (proj2 Hr)) as [G|G]; [|rewrite G, !Rminus_diag_eq by reflexivity; lra]. destruct (MVT_cor2 sin cos r E G (fun c _ => derivable_pt_lim_sin c)) as (z & Ez & _). rewrite Ez, Rabs_mult. pose proof (COS_bound z). assert (Rabs (cos z) <= 1) by (apply Rabs_le; lra). pose proof (Rabs_pos (E - r)). nra. }
  rewrite (Rabs_pos_eq (E - r)) in L by lra. apply Rabs_le_inv in L. pose proof (COS_bound E) as CB.
  set (d := nstep e M E) in *. set (y := E - r) in *. set (g := sin E - sin r) in *. assert (Y : 0 <= y) by (unfold y; lra).
  split; [split; [exact SB|]|split].
  - apply Rmult_le_reg_r with (1 - e * cos E); [exact D|]. rewrite EN. assert (e * g <= e * y) by (apply Rmult_le_compat_l; lra). assert (e * y <= 1 * y) by (apply Rmult_le_compat_r; lra). lra.
  - replace (E + d - r) with (y + d) by (unfold y; ring). apply Rmult_le_reg_r with (1 - e * cos E); [exact D|]. rewrite Rmult_plus_distr_r, EN.
    assert (e * (y * (1 - cos E)) <= e * (3 * (y - g))) by (apply Rmult_le_compat_l; lra). assert (0 <= (1 - e) * y) by (apply Rmult_le_pos; lra). lra.
  - replace (E + d - r) with (y + d) by (unfold y; ring). apply Rmult_le_reg_r with (1 - e * cos E); [exact D|]. rewrite Rmult_plus_distr_r, EN.
    assert (SR : sin r - sin E - (r - E) * cos E = y * cos E - g) by (unfold y, g; ring). replace ((r - E) * (r - E)) with (y * y) in S by (unfold y; ring). rewrite SR in S.
    assert (C0 : 0 <= c) by (destruct (Rle_dec 0 c); [assumption|nra]). assert (W : 1 - e <= 1 - e * cos E) by nra. assert (Q : 0 <= y * y) by (apply Rmult_le_pos; lra).
    apply Rle_trans with (e * (y * y / 2)); [assert (e * (g - y * cos E) <= e * (y * y / 2)) by (apply Rmult_le_compat_l; lra); lra|].
    apply Rle_trans with (c * (y * y) * (1 - e)); [|apply Rmult_le_compat_l; [apply Rmult_le_pos; lra|exact W]].
    assert (e * (y * y) <= 2 * c * (1 - e) * (y * y)) by (apply Rmult_le_compat_r; lra). lra.
Qed.

(** ** Newton's method with a limited step *)
(** How a solver changes the Newton step: not at all when it goes back by at most [B]; a step
    forward is not lengthened, is at most [B], and, if changed, stays at least [dl]. *)
Definition limiter (L : R -> R) (B dl w : R) : Prop :=
  0 < dl /\ 0 <= B <= PI / 2 /\ (forall d, L (- d) = - L d) /\ (forall d, - B <= d <= 0 -> L d = d) /\
  (forall d, 0 <= d <= w -> 0 <= L d <= B /\ L d <= d /\ (L d = d \/ dl <= L d)).
Definition lupd (L : R -> R) (e M x : R) : R := x + L (nstep e M x).
Definition lzone (B M r x : R) : Prop := M <= x <= PI /\ x <= r + B.

Lemma root_after e M r : 0 <= e < 1 -> 0 <= M <= PI -> 0 <= r <= PI -> r - e * sin r = M -> M <= r <= M + e.
Proof.
  intros He HM Hr Er. pose proof (sin_ge_0 r ltac:(lra) ltac:(lra)). pose proof (SIN_bound r). split; [assert (0 <= e * sin r) by (apply Rmult_le_pos; lra); lra|].
  assert (e * sin r <= e * 1) by (apply Rmult_le_compat_l; lra). lra.
Qed.
Section Limited.
Variables (L : R -> R) (B dl w e M r c : R).
Hypothesis HL : limiter L B dl w.
Hypothesis He : 0 <= e < 1.
Hypothesis HM : 0 <= M <= PI.
Hypothesis Hr : 0 <= r <= PI.
Hypothesis Er : r - e * sin r = M.
Hypothesis Hw : e * e <= w * w * (1 - e * e).
Hypothesis W : 0 <= w.
Hypothesis Hc : e <= 2 * c * (1 - e).

Lemma lim_below x : lzone B M r x -> x < r -> lzone B M r (lupd L e M x) /\ (r <= lupd L e M x \/ x + dl <= lupd L e M x).
Proof.
  intros [Z1 Z2] X. destruct HL as (D0 & HB & _ & _ & HF). pose proof (root_after e M r He HM Hr Er) as RA.
  assert (N0 : r - x <= nstep e M x) by (apply step_back; try lra; exact He).
  assert (N1 : nstep e M x <= w) by (apply step_forward; try lra; assumption). destruct (HF (nstep e M x) ltac:(lra)) as (F1 & F2 & F3).
  unfold lupd. split; [|destruct F3 as [-> |F3]; [left|right]; lra]. unfold lzone. split; [split; [lra|]|lra].
  destruct (Rle_or_lt x (PI / 2)) as [G|G]; [lra|]. pose proof (step_late e M x He ltac:(lra) ltac:(lra)). lra.
Qed.
Lemma lim_above x : lzone B M r x -> r <= x ->
  lupd L e M x = x + nstep e M x /\ r <= lupd L e M x <= x /\ lupd L e M x - r <= 2 / 3 * (x - r) /\ lupd L e M x - r <= c * ((x - r) * (x - r)) /\ lzone B M r (lupd L e M x).
Proof.
  intros [Z1 Z2] X. destruct HL as (D0 & HB & _ & HF & _). pose proof (root_after e M r He HM Hr Er) as RA.
  destruct (above_step e M r x c He Hc ltac:(lra) ltac:(lra) Er) as (A1 & A2 & A3). unfold lupd. rewrite HF by lra. unfold lzone. repeat split; lra.
Qed.
Definition lorb (n : nat) : R := iter_n (lupd L e M) n M.
Lemma lorb_zone n : lzone B M r (lorb n).
Proof.
  unfold lorb. induction n as [|n IH].
  - cbn [iter_n]. pose proof (root_after e M r He HM Hr Er). destruct HL as (_ & HB & _). unfold lzone. lra.
  - cbn [iter_n]. destruct (Rlt_le_dec (iter_n (lupd L e M) n M) r) as [G|G]; [apply lim_below; assumption|apply lim_above; assumption].
Qed.
Lemma lorb_cross n : r <= lorb n \/ M + INR n * dl <= lorb n.
Proof.
  induction n as [|n IH]; [right; cbn; unfold lorb; cbn; lra|]. pose proof (lorb_zone n) as Z. change (lorb (S n)) with (lupd L e M (lorb n)).
  destruct (Rlt_le_dec (lorb n) r) as [G|G].
  - destruct IH as [I|I]; [lra|]. destruct (lim_below _ Z G) as [_ [A|A]]; [left; exact A|right]. rewrite S_INR. lra.
  - left. apply (lim_above _ Z G).
Qed.
Lemma lorb_after K n : e <= INR K * dl -> (K <= n)%nat -> r <= lorb n.
Proof.
  intros HK Hn. assert (RA := root_after e M r He HM Hr Er). induction Hn as [|n Hn IH].
  - destruct (lorb_cross K); lra.
  - change (lorb (S n)) with (lupd L e M (lorb n)). apply (lim_above _ (lorb_zone n) IH).
Qed.
(** From index K on the errors shrink. *)
Definition shrinks (u : nat -> R) : Prop := forall n, 0 <= u n /\ u (S n) <= 2 / 3 * u n /\ u (S n) <= c * (u n * u n).
Lemma lorb_errors K : e <= INR K * dl -> lorb K - r <= B /\ shrinks (fun n => lorb (K + n) - r).
Proof.
  intros HK. split; [destruct (lorb_zone K); lra|]. intros n. pose proof (lorb_after K (K + n) HK ltac:(lia)) as A. rewrite Nat.add_succ_r. change (lorb (S (K + n))) with (lupd L e M (lorb (K + n))).
  destruct (lim_above _ (lorb_zone (K + n)) A) as (_ & A1 & A2 & A3 & _). repeat split; lra.
Qed.
Lemma shrinks_fast u N h j : shrinks u -> u N <= h -> h * c <= / 100 -> u (N + j)%nat <= h * (/ 100) ^ j.
Proof.
  intros S HN Hh. assert (C0 : 0 <= c) by (destruct (Rle_dec 0 c); [assumption|exfalso; nra]). induction j as [|j IH].
  - rewrite Nat.add_0_r. cbn. lra.
  - rewrite Nat.add_succ_r. destruct (S (N + j)%nat) as (U0 & _ & U2). assert (H0 : 0 <= h) by (destruct (S N); lra).
    assert (Q : (/ 100) ^ j <= 1) by (rewrite <- (pow1 j); apply pow_incr; lra). assert (Q0 : 0 < (/ 100) ^ j) by (apply pow_lt; lra).
    apply Rle_trans with (1 := U2). cbn [pow]. set (q := (/ 100) ^ j) in *. set (v := u (N + j)%nat) in *. clearbody q v.
    assert (V : v <= h) by nra. apply Rle_trans with (c * (v * h)); [apply Rmult_le_compat_l; [exact C0|apply Rmult_le_compat_l; lra]|].
    replace (c * (v * h)) with (v * (h * c)) by ring. apply Rle_trans with (v * / 100); [apply Rmult_le_compat_l; lra|]. lra.
Qed.
End Limited.

(** ** The solver for every mean anomaly *)
Lemma lupd_turn L B dl w e M s M' k n : limiter L B dl w -> (s = 1 \/ s = -1) -> M = s * M' + IZR k * (2 * PI) ->
  iter_n (lupd L e M) n M = s * iter_n (lupd L e M') n M' + IZR k * (2 * PI).
Proof.
  intros HL Hs EM. induction n as [|n IH]; [exact EM|]. cbn [iter_n]. rewrite IH. set (x := iter_n (lupd L e M') n M'). unfold lupd at 1. rewrite (nstep_turn e M s M' x k Hs EM).
  destruct HL as (_ & _ & HO & _). unfold lupd. destruct Hs as [-> | ->].
  - rewrite !Rmult_1_l. ring.
  - replace (-1 * nstep e M' x) with (- nstep e M' x) by ring. rewrite HO. ring.
Qed.
Lemma limited_total L B dl w e M c p max K N a h : limiter L B dl w -> 0 <= e < 1 -> e * e <= w * w * (1 - e * e) -> 0 <= w -> e <= 2 * c * (1 - e) ->
  e <= INR K * dl -> (forall u, shrinks c u -> u 0%nat <= B -> u N <= h) -> h * c <= / 100 -> h < (/ 10) ^ a ->
  (Z.of_nat (K + N) < max)%Z -> (p <= 2 * (max - 1 - Z.of_nat (K + N)) + Z.of_nat a)%Z ->
  exists E, DecimalPlaces (fl := RFlt) pow10 (lupd L e M) M p max = Ok E.
Proof.
  intros HL He Hw W Hc HK HN Hh Ha Hm Hp. destruct (DecimalPlaces (fl := RFlt) pow10 (lupd L e M) M p max) as [E|] eqn:DP; [eauto|exfalso].
  pose proof (proj1 (DecimalPlaces_err (fl := RFlt) _ _ _ _ _) DP) as Q. clear DP.
  set (n := Z.to_nat (max - 1)) in *. specialize (Q n ltac:(unfold n; lia)). cbn in Q. revert Q. case Rlt_bool_spec; [discriminate|]. intros Q _.
  destruct (half_turn M) as (k & s & M' & Hs & HM & EM). destruct (kepler_exists e M' He HM) as (r & Hr & Er).
  destruct (lorb_errors L B dl w e M' r c HL He HM Hr Er Hw W Hc K HK) as [I SH].
  set (u := fun n => lorb L e M' (K + n) - r) in *. set (j := (n - K - N)%nat).
  assert (U : u (N + j)%nat <= h * (/ 100) ^ j). { apply (shrinks_fast e c He Hc u N h j SH); [|exact Hh]. apply HN; [exact SH|]. unfold u. rewrite Nat.add_0_r. exact I. }
  assert (A : r <= lorb L e M' n) by (apply (lorb_after L B dl w e M' r c HL He HM Hr Er Hw W Hc K n HK); unfold n; lia).
  destruct (lim_above L B dl w e M' r c HL He HM Hr Er Hc _ (lorb_zone L B dl w e M' r c HL He HM Hr Er Hw W Hc n) A) as (_ & A1 & _).
  unfold u in U. replace (K + (N + j))%nat with n in U by (unfold j, n; lia).
  assert (ST : Rabs (iter_n (lupd L e M) (S n) M - iter_n (lupd L e M) n M) <= h * (/ 100) ^ j).
  { rewrite !(lupd_turn L B dl w e M s M' k _ HL Hs EM). change (iter_n (lupd L e M') (S n) M') with (lupd L e M' (lorb L e M' n)). fold (lorb L e M' n).
    set (x := lorb L e M' n) in *. set (y := lupd L e M' x) in *. clearbody x y. apply Rabs_le. destruct Hs as [-> | ->]; lra. }
  assert (G : h * (/ 100) ^ j < pow10 (- p)).
  { unfold pow10. rewrite powerRZ_neg' . replace (/ 100) with (/ 10 * / 10) by field. rewrite Rpow_mult_distr, <- pow_add.
    apply Rlt_le_trans with ((/ 10) ^ a * (/ 10) ^ (j + j)); [apply Rmult_lt_compat_r; [apply pow_lt; lra|exact Ha]|]. rewrite <- pow_add, pow_inv, pow_powerRZ.
    apply Rinv_le_contravar; [apply powerRZ_lt; lra|]. rewrite !powerRZ_Rpower by lra. apply Rle_Rpower; [lra|]. apply IZR_le. unfold j, n. lia. }
  cbn in ST. lra.
Qed.

(** ** The three limiters *)
Definition clamp (d : R) : R := if Rlt_dec (5 / 10) d then 5 / 10 else if Rlt_dec d (- (5 / 10)) then - (5 / 10) else d.
Lemma lim_2a w : 0 <= w < PI -> limiter (fun d => asin (sin d)) (PI / 2) (PI - w) w.
Proof.
  intros H. pose proof PI_RGT_0. unfold limiter. repeat (split; [lra|]). split; [|split].
  - intros d. rewrite sin_neg, asin_opp. reflexivity.
  - intros d Hd. apply asin_sin. lra.
  - intros d Hd. destruct (fold_cases d ltac:(lra)) as [[A ->]|[A ->]]; split; try lra; split; lra.
Qed.
Lemma lim_2b w : limiter clamp (5 / 10) (5 / 10) w.
Proof.
  pose proof PI2_3_2. unfold limiter. repeat (split; [lra|]). unfold clamp. split; [|split]; intros d; [|intros Hd|intros Hd]; repeat match goal with |- context [Rlt_dec ?a ?b] => destruct (Rlt_dec a b) end; lra.
Qed.
Lemma lim_2 w : 0 <= w <= PI / 2 -> limiter (fun d => d) w 1 w.
Proof. intros H. unfold limiter. repeat (split; [lra|]). split; [|split]; intros; try lra. Qed.
Lemma Kepler2a_lim e M p : Kepler2a e M p = DecimalPlaces (fl := RFlt) pow10 (lupd (fun d => asin (sin d)) e M) M p (p * 5).
Proof. reflexivity. Qed.
Lemma Kepler2b_lim e M p : Kepler2b e M p = DecimalPlaces (fl := RFlt) pow10 (lupd clamp e M) M p p.
Proof. reflexivity. Qed.
Lemma Kepler2_lim e M p : Kepler2 e M p = DecimalPlaces (fl := RFlt) pow10 (lupd (fun d => d) e M) M p p.
Proof. reflexivity. Qed.

(** ** Convergence for enough places *)
Lemma shrinks_eventually c B h : 0 <= B -> 0 < h -> exists N, forall u, shrinks c u -> u 0%nat <= B -> u N <= h.
Proof.
  intros HB Hh. destruct (pow_lt_1_zero (2 / 3) ltac:(rewrite Rabs_pos_eq; lra) (h / (B + 1)) ltac:(apply Rdiv_lt_0_compat; lra)) as [N HN]. exists N. intros u S U0.
  assert (I : forall n, u n <= B * (2 / 3) ^ n). { induction n as [|n IH]; [cbn; lra|]. destruct (S n) as (_ & A & _). cbn [pow]. lra. }
  specialize (I N). specialize (HN N ltac:(lia)). assert (P : 0 < (2 / 3) ^ N) by (apply pow_lt; lra). rewrite Rabs_pos_eq in HN by lra.
  apply Rle_trans with (1 := I). apply Rmult_lt_compat_r with (r := B + 1) in HN; [|lra]. replace (h / (B + 1) * (B + 1)) with h in HN by (field; lra). lra.
Qed.
Lemma limited_eventually L B dl w e : limiter L B dl w -> 0 <= e < 1 -> e * e <= w * w * (1 - e * e) -> 0 <= w ->
  exists P, forall M p max, (P <= p <= max)%Z -> exists E, DecimalPlaces (fl := RFlt) pow10 (lupd L e M) M p max = Ok E.
Proof.
  intros HL He Hw W. set (c := e / (2 * (1 - e))). assert (C0 : 0 <= c) by (unfold c; apply Rmult_le_pos; [lra|apply Rlt_le, Rinv_0_lt_compat; lra]).
  assert (Hc : e <= 2 * c * (1 - e)) by (unfold c; right; field; lra). set (h := / (100 * (c + 1))). assert (H0 : 0 < h) by (apply Rinv_0_lt_compat; lra).
  assert (H1 : h * (100 * (c + 1)) = 1) by (unfold h; field; lra). pose proof HL as (D0 & HB & _). destruct (shrinks_eventually c B h ltac:(lra) H0) as [N HN].
  destruct (archimed (e / dl)) as [AK _]. set (K := Z.to_nat (up (e / dl))).
  assert (HK : e <= INR K * dl). { apply Rmult_le_reg_r with (/ dl); [apply Rinv_0_lt_compat; lra|]. rewrite Rmult_assoc, Rinv_r, Rmult_1_r by lra. fold (e / dl). unfold K. rewrite INR_IZR_INZ, Z2Nat.id; [lra|].
    apply le_IZR. assert (0 <= e / dl) by (apply Rmult_le_pos; [lra|apply Rlt_le, Rinv_0_lt_compat; lra]). lra. }
  exists (2 * (Z.of_nat (K + N) + 1))%Z. intros M p max Hp. apply (limited_total L B dl w e M c p max K N 0 h HL He Hw W Hc HK HN); [nra|cbn [pow]; nra|lia|lia].
Qed.
Lemma Kepler2a_eventually e : 0 <= e < 1 -> e * e < PI ^ 2 * (1 - e * e) -> exists P, forall M p, (P <= p)%Z -> exists E, Kepler2a e M p = Ok E.
Proof.
  intros He H. pose proof PI_RGT_0 as HP. set (q := sqrt (1 - e * e)). assert (Q : q * q = 1 - e * e) by (apply sqrt_sqrt; nra). assert (Q0 : 0 < q) by (apply sqrt_lt_R0; nra).
  set (w := e / q). assert (WQ : w * q = e) by (unfold w; field; lra). assert (W0 : 0 <= w) by (unfold w; apply Rmult_le_pos; [lra|apply Rlt_le, Rinv_0_lt_compat, Q0]).
  assert (W1 : w < PI). { apply Rmult_lt_reg_r with q; [exact Q0|]. rewrite WQ. apply Rsqr_incrst_0; [|lra|apply Rmult_le_pos; lra]. unfold Rsqr. replace (PI * q * (PI * q)) with (PI ^ 2 * (q * q)) by ring. rewrite Q. exact H. }
  destruct (limited_eventually _ _ _ w e (lim_2a w (conj W0 W1)) He) as [P HPp]; [rewrite <- Q; right; rewrite <- WQ at 1 2; ring|exact W0|].
  exists (Z.max 1 P). intros M p Hp. rewrite Kepler2a_lim. apply HPp. lia.
Qed.
Lemma Kepler2b_eventually e : 0 <= e < 1 -> exists P, forall M p, (P <= p)%Z -> exists E, Kepler2b e M p = Ok E.
Proof.
  intros He. destruct (limited_eventually _ _ _ (/ (1 - e)) e (lim_2b _) He) as [P HPp].
  - assert (I : / (1 - e) * (1 - e) = 1) by (field; lra). assert (0 < / (1 - e)) by (apply Rinv_0_lt_compat; lra). set (v := / (1 - e)) in *. clearbody v.
    replace (v * v * (1 - e * e)) with (v * (v * (1 - e)) * (1 + e)) by ring. rewrite I. assert (1 <= v) by nra. nra.
  - apply Rlt_le, Rinv_0_lt_compat. lra.
  - exists P. intros M p Hp. rewrite Kepler2b_lim. apply HPp. lia.
Qed.

(** ** How many places are enough *)
Lemma sh_lin c u n b b' : shrinks c u -> u n <= b -> 2 / 3 * b <= b' -> u (S n) <= b'.
Proof. intros S A H. destruct (S n). lra. Qed.
Lemma sh_quad c u n b b' : shrinks c u -> 0 <= c -> u n <= b -> c * (b * b) <= b' -> u (S n) <= b'.
Proof.
  intros S C A H. destruct (S n) as (U & _ & Q). apply Rle_trans with (1 := Q). apply Rle_trans with (2 := H). apply Rmult_le_compat_l; [exact C|]. apply Rmult_le_compat; assumption.
Qed.
Lemma Kepler2a_84 e M p : 0 <= e <= 84 / 100 -> (2 <= p)%Z -> exists E, Kepler2a e M p = Ok E.
Proof.
  intros He Hp. rewrite Kepler2a_lim. pose proof PI_bounds as HP. assert (E2 : e * e <= (441 / 625)) by (clear - He; nra).
  apply (limited_total _ (PI / 2) (PI - 31 / 20) (31 / 20) e M (21 / 8) p (p * 5) 1 8 2 (29431 / 10000000) (lim_2a (31 / 20) ltac:(lra))); try lra; try lia.
  - rewrite INR_IZR_INZ. cbn [Z.of_nat Pos.of_succ_nat Pos.succ]. lra.
  - intros u S U. assert (U0 : u 0%nat <= (63 / 40)) by lra.
    pose proof (sh_lin _ _ _ _ (21 / 20) S U0 ltac:(lra)) as U1.
    pose proof (sh_lin _ _ _ _ (7 / 10) S U1 ltac:(lra)) as U2.
    pose proof (sh_lin _ _ _ _ (46667 / 100000) S U2 ltac:(lra)) as U3.
    pose proof (sh_lin _ _ _ _ (3889 / 12500) S U3 ltac:(lra)) as U4.
    pose proof (sh_lin _ _ _ _ (10371 / 50000) S U4 ltac:(lra)) as U5.
    pose proof (sh_quad _ _ _ _ (5647 / 50000) S ltac:(lra) U5 ltac:(lra)) as U6.
    pose proof (sh_quad _ _ _ _ (8371 / 250000) S ltac:(lra) U6 ltac:(lra)) as U7.
    pose proof (sh_quad _ _ _ _ (29431 / 10000000) S ltac:(lra) U7 ltac:(lra)) as U8.
    exact U8.
Qed.
Lemma Kepler2a_94 e M p : 0 <= e <= 94 / 100 -> (3 <= p)%Z -> exists E, Kepler2a e M p = Ok E.
Proof.
  intros He Hp. rewrite Kepler2a_lim. pose proof PI_bounds as HP. assert (E2 : e * e <= (2209 / 2500)) by (clear - He; nra).
  apply (limited_total _ (PI / 2) (PI - 689 / 250) (689 / 250) e M (39167 / 5000) p (p * 5) 3 11 3 (36841 / 100000000) (lim_2a (689 / 250) ltac:(lra))); try lra; try lia.
  - rewrite INR_IZR_INZ. cbn [Z.of_nat Pos.of_succ_nat Pos.succ]. lra.
  - intros u S U. assert (U0 : u 0%nat <= (63 / 40)) by lra.
    pose proof (sh_lin _ _ _ _ (21 / 20) S U0 ltac:(lra)) as U1.
    pose proof (sh_lin _ _ _ _ (7 / 10) S U1 ltac:(lra)) as U2.
    pose proof (sh_lin _ _ _ _ (46667 / 100000) S U2 ltac:(lra)) as U3.
    pose proof (sh_lin _ _ _ _ (3889 / 12500) S U3 ltac:(lra)) as U4.
    pose proof (sh_lin _ _ _ _ (10371 / 50000) S U4 ltac:(lra)) as U5.
    pose proof (sh_lin _ _ _ _ (3457 / 25000) S U5 ltac:(lra)) as U6.
    pose proof (sh_lin _ _ _ _ (92187 / 1000000) S U6 ltac:(lra)) as U7.
    pose proof (sh_lin _ _ _ _ (30729 / 500000) S U7 ltac:(lra)) as U8.
    pose proof (sh_quad _ _ _ _ (7397 / 250000) S ltac:(lra) U8 ltac:(lra)) as U9.
    pose proof (sh_quad _ _ _ _ (34289 / 5000000) S ltac:(lra) U9 ltac:(lra)) as U10.
    pose proof (sh_quad _ _ _ _ (36841 / 100000000) S ltac:(lra) U10 ltac:(lra)) as U11.
    exact U11.
Qed.
Lemma Kepler2a_952t e M p : 0 <= e <= 952 / 1000 -> (10 <= p)%Z -> exists E, Kepler2a e M p = Ok E.
Proof.
  intros He Hp. rewrite Kepler2a_lim. pose proof PI_bounds as HP. assert (E2 : e * e <= (14161 / 15625)) by (clear - He; nra).
  apply (limited_total _ (PI / 2) (PI - 15551 / 5000) (15551 / 5000) e M (99167 / 10000) p (p * 5) 32 12 4 (18277 / 500000000) (lim_2a (15551 / 5000) ltac:(lra))); try lra; try lia.
  - rewrite INR_IZR_INZ. cbn [Z.of_nat Pos.of_succ_nat Pos.succ]. lra.
  - intros u S U. assert (U0 : u 0%nat <= (63 / 40)) by lra.
    pose proof (sh_lin _ _ _ _ (21 / 20) S U0 ltac:(lra)) as U1.
    pose proof (sh_lin _ _ _ _ (7 / 10) S U1 ltac:(lra)) as U2.
    pose proof (sh_lin _ _ _ _ (46667 / 100000) S U2 ltac:(lra)) as U3.
    pose proof (sh_lin _ _ _ _ (3889 / 12500) S U3 ltac:(lra)) as U4.
    pose proof (sh_lin _ _ _ _ (10371 / 50000) S U4 ltac:(lra)) as U5.
    pose proof (sh_lin _ _ _ _ (3457 / 25000) S U5 ltac:(lra)) as U6.
    pose proof (sh_lin _ _ _ _ (92187 / 1000000) S U6 ltac:(lra)) as U7.
    pose proof (sh_lin _ _ _ _ (30729 / 500000) S U7 ltac:(lra)) as U8.
    pose proof (sh_quad _ _ _ _ (37457 / 1000000) S ltac:(lra) U8 ltac:(lra)) as U9.
    pose proof (sh_quad _ _ _ _ (6957 / 500000) S ltac:(lra) U9 ltac:(lra)) as U10.
    pose proof (sh_quad _ _ _ _ (19199 / 10000000) S ltac:(lra) U10 ltac:(lra)) as U11.
    pose proof (sh_quad _ _ _ _ (18277 / 500000000) S ltac:(lra) U11 ltac:(lra)) as U12.
    exact U12.
Qed.
Lemma Kepler2_84 e M p : 0 <= e <= 84 / 100 -> (13 <= p)%Z -> exists E, Kepler2 e M p = Ok E.
Proof.
  intros He Hp. rewrite Kepler2_lim. pose proof PI_bounds as HP. assert (E2 : e * e <= (441 / 625)) by (clear - He; nra).
  apply (limited_total _ (1549 / 1000) 1 (1549 / 1000) e M (21 / 8) p p 1 11 17 (3339 / 2000000000000000000000) (lim_2 (1549 / 1000) ltac:(lra))); try lra; try lia.
  - rewrite INR_IZR_INZ. cbn [Z.of_nat Pos.of_succ_nat Pos.succ]. lra.
  - intros u S U. assert (U0 : u 0%nat <= (1549 / 1000)) by lra.
    pose proof (sh_lin _ _ _ _ (10327 / 10000) S U0 ltac:(lra)) as U1.
    pose proof (sh_lin _ _ _ _ (68847 / 100000) S U1 ltac:(lra)) as U2.
    pose proof (sh_lin _ _ _ _ (22949 / 50000) S U2 ltac:(lra)) as U3.
    pose proof (sh_lin _ _ _ _ (30599 / 100000) S U3 ltac:(lra)) as U4.
    pose proof (sh_lin _ _ _ _ (51 / 250) S U4 ltac:(lra)) as U5.
    pose proof (sh_quad _ _ _ _ (437 / 4000) S ltac:(lra) U5 ltac:(lra)) as U6.
    pose proof (sh_quad _ _ _ _ (31331 / 1000000) S ltac:(lra) U6 ltac:(lra)) as U7.
    pose proof (sh_quad _ _ _ _ (3221 / 1250000) S ltac:(lra) U7 ltac:(lra)) as U8.
    pose proof (sh_quad _ _ _ _ (1743 / 100000000) S ltac:(lra) U8 ltac:(lra)) as U9.
    pose proof (sh_quad _ _ _ _ (79749 / 100000000000000) S ltac:(lra) U9 ltac:(lra)) as U10.
    pose proof (sh_quad _ _ _ _ (3339 / 2000000000000000000000) S ltac:(lra) U10 ltac:(lra)) as U11.
    exact U11.
Qed.
Lemma Kepler2b_90 e M p : 0 <= e <= 9 / 10 -> (13 <= p)%Z -> exists E, Kepler2b e M p = Ok E.
Proof.
  intros He Hp. rewrite Kepler2b_lim. pose proof PI_bounds as HP. assert (E2 : e * e <= (81 / 100)) by (clear - He; nra).
  apply (limited_total _ (5 / 10) (5 / 10) (21 / 10) e M (9 / 2) p p 2 10 23 (8069 / 1250000000000000000000000000) (lim_2b _)); try lra; try lia.
  - rewrite INR_IZR_INZ. cbn [Z.of_nat Pos.of_succ_nat Pos.succ]. lra.
  - intros u S U. assert (U0 : u 0%nat <= (1 / 2)) by lra.
    pose proof (sh_lin _ _ _ _ (16667 / 50000) S U0 ltac:(lra)) as U1.
    pose proof (sh_lin _ _ _ _ (22223 / 100000) S U1 ltac:(lra)) as U2.
    pose proof (sh_lin _ _ _ _ (463 / 3125) S U2 ltac:(lra)) as U3.
    pose proof (sh_lin _ _ _ _ (49387 / 500000) S U3 ltac:(lra)) as U4.
    pose proof (sh_quad _ _ _ _ (686 / 15625) S ltac:(lra) U4 ltac:(lra)) as U5.
    pose proof (sh_quad _ _ _ _ (86741 / 10000000) S ltac:(lra) U5 ltac:(lra)) as U6.
    pose proof (sh_quad _ _ _ _ (33859 / 100000000) S ltac:(lra) U6 ltac:(lra)) as U7.
    pose proof (sh_quad _ _ _ _ (5159 / 10000000000) S ltac:(lra) U7 ltac:(lra)) as U8.
    pose proof (sh_quad _ _ _ _ (11977 / 10000000000000000) S ltac:(lra) U8 ltac:(lra)) as U9.
    pose proof (sh_quad _ _ _ _ (8069 / 1250000000000000000000000000) S ltac:(lra) U9 ltac:(lra)) as U10.
    exact U10.
Qed.

(** ** The bound on the eccentricity is exact *)
Lemma Kepler2a_sharp e : 0 <= e < 1 -> PI ^ 2 * (1 - e * e) <= e * e -> exists M, 0 <= M <= PI / 2 /\
  forall p, (1 <= p)%Z -> Kepler2a e M p = Ok M /\ PI * (1 - e) <= Rabs (M - e * sin M - M).
Proof.
  intros He H. pose proof PI_RGT_0 as HP. set (g := fun x => e * sin x - PI * (1 - e * cos x)). set (a := acos e). assert (CA : cos a = e) by (apply cos_acos; lra).
  assert (BA : 0 <= a <= PI / 2). { pose proof (acos_bound e) as AB. fold a in AB. split; [lra|]. destruct (Rle_dec a (PI / 2)); [lra|]. exfalso. assert (cos a < 0) by (apply cos_lt_0; lra). lra. }
  assert (GA : 0 <= g a). { unfold g. rewrite CA. assert (S0 : 0 <= sin a) by (apply sin_ge_0; lra). pose proof (sc1 a) as SC. rewrite CA in SC. set (s := sin a) in *. clearbody s.
    replace (1 - e * e) with (s * s) in * by lra. assert (PS : PI * s <= e) by (apply Rsqr_incr_0; [unfold Rsqr; replace (PI * s * (PI * s)) with (PI ^ 2 * (s * s)) by ring; exact H|apply Rmult_le_pos; lra|lra]).
    assert (s * (PI * s) <= s * e) by (apply Rmult_le_compat_l; lra). lra. }
  assert (G0 : g 0 <= 0). { unfold g. rewrite sin_0, cos_0. assert (0 <= PI * (1 - e)) by (apply Rmult_le_pos; lra). lra. }
  assert (CT : continuity g) by (unfold g; apply derivable_continuous; reg).
  destruct (IVT_cor g 0 a CT (proj1 BA)) as (M & HM & GM); [assert (0 <= - g 0 * g a) by (apply Rmult_le_pos; lra); lra|].
  exists M. split; [lra|]. intros p Hp. pose proof (den_pos e M He) as D. unfold g in GM. split.
  - assert (St : (M + e * sin M - M) / (1 - e * cos M) = PI) by (replace (M + e * sin M - M) with (PI * (1 - e * cos M)) by lra; field; lra).
    unfold Kepler2a, DecimalPlaces. replace (Z.to_nat (p * 5)) with (S (Z.to_nat (p * 5 - 1))) by lia.
    cbn [DecimalPlaces_loop]. cbv zeta. rewrite St, sin_PI, asin_0, Rplus_0_r. cbn.
    replace (M - M) with 0 by ring. rewrite Rabs_R0. rewrite Rlt_bool_true by apply pow10_pos. reflexivity.
  - replace (M - e * sin M - M) with (- (e * sin M)) by ring. rewrite Rabs_Ropp. replace (e * sin M) with (PI * (1 - e * cos M)) by lra. rewrite Rabs_pos_eq by (apply Rmult_le_pos; lra).
    apply Rmult_le_compat_l; [lra|]. pose proof (COS_bound M). nra.
Qed.
Lemma kepler_large_examples : (exists E, Kepler2a (9 / 10) 1 10 = Ok E /\ Rabs (E - 9 / 10 * sin E - 1) <= 9 / 10 * powerRZ 10 (- (2 * 10))) /\
  (exists E, Kepler2b (9 / 10) 1 15 = Ok E) /\ PI ^ 2 * (1 - 96 / 100 * (96 / 100)) <= 96 / 100 * (96 / 100).
Proof.
  split; [|split].
  - destruct (Kepler2a_94 (9 / 10) 1 10 ltac:(lra) ltac:(lia)) as [E K]. exists E. split; [exact K|]. apply Kepler2a_949; [lra|exact K].
  - apply Kepler2b_90; [lra|lia].
  - pose proof PI_bounds. assert (PI ^ 2 <= 10) by (cbn [pow]; nra). lra.
Qed.
