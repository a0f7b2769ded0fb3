(** Kepler2a for every eccentricity whose first Newton step cannot reach half a turn. *)
From Coq Require Import ZArith Reals Bool Lra Lia Psatz.
From Flocq Require Import Core.
From Verif Require Import GoFloat GoMath S_base S_iterate M_iterate L_iterate L_trig S_kepler M_kepler L_kepler L_kepler2.
Local Open Scope R_scope.

(** ** Convexity *)
Lemma sin_tangent x y : 0 <= x <= PI -> 0 <= y <= PI -> sin x <= sin y + cos y * (x - y).
Proof.
  intros Hx Hy. destruct (Rtotal_order x y) as [L|[->|L]]; [|lra|].
  - destruct (MVT_cor2 sin cos x y L (fun c _ => derivable_pt_lim_sin c)) as (c & E & C). assert (cos y <= cos c) by (apply cos_decr_1; lra). nra.
  - destruct (MVT_cor2 sin cos y x L (fun c _ => derivable_pt_lim_sin c)) as (c & E & C). assert (cos c <= cos y) by (apply cos_decr_1; lra). nra.
Qed.
(** A Newton step from E goes at most to the other side of any point where the function is not positive. *)
Lemma step_back e M E x : 0 <= e < 1 -> 0 <= x <= PI -> 0 <= E <= PI -> x - e * sin x <= M -> x - E <= nstep e M E.
Proof.
  intros He Hx HE H. unfold nstep. pose proof (den_pos e E He) as D. apply Rmult_le_reg_r with (1 - e * cos E); [exact D|].
  replace ((M + e * sin E - E) / (1 - e * cos E) * (1 - e * cos E)) with (M + e * sin E - E) by (field; lra). pose proof (sin_tangent x E Hx HE) as T.
  assert (e * sin x <= e * (sin E + cos E * (x - E))) by (apply Rmult_le_compat_l; lra). lra.
Qed.
(** Forward steps. *)
Lemma step_forward e M E w : 0 <= e < 1 -> 0 <= M <= E -> E <= PI -> e * e <= w * w * (1 - e * e) -> 0 <= w -> nstep e M E <= w.
Proof.
  intros He HM HE Hw W. unfold nstep. pose proof (den_pos e E He) as D. apply Rmult_le_reg_r with (1 - e * cos E); [exact D|].
  replace ((M + e * sin E - E) / (1 - e * cos E) * (1 - e * cos E)) with (M + e * sin E - E) by (field; lra). apply Rle_trans with (e * sin E); [lra|].
  assert (S0 : 0 <= sin E) by (apply sin_ge_0; lra). pose proof (sin2_cos2 E) as SC. unfold Rsqr in SC. set (s := sin E) in *. set (c := cos E) in *. clearbody s c.
  apply Rsqr_incr_0; [|apply Rmult_le_pos; lra|apply Rmult_le_pos; lra]. unfold Rsqr.
  assert (A : s * s * (1 - e * e) <= (1 - e * c) * (1 - e * c)). { replace (s * s) with (1 - c * c) by lra. pose proof (Rle_0_sqr (c - e)) as Q. unfold Rsqr in Q. nra. }
  apply Rmult_le_reg_r with (1 - e * e); [nra|].
  apply Rle_trans with (e * e * ((1 - e * c) * (1 - e * c))).
  - replace (e * s * (e * s) * (1 - e * e)) with (e * e * (s * s * (1 - e * e))) by ring. apply Rmult_le_compat_l; [nra|exact A].
  - replace (w * (1 - e * c) * (w * (1 - e * c)) * (1 - e * e)) with (w * w * (1 - e * e) * ((1 - e * c) * (1 - e * c))) by ring. apply Rmult_le_compat_r; [nra|exact Hw].
Qed.
Lemma step_late e M E : 0 <= e < 1 -> 0 <= M <= E -> PI / 2 <= E <= PI -> nstep e M E <= PI - E.
Proof.
  intros He HM HE. unfold nstep. pose proof (den_pos e E He) as D. apply Rmult_le_reg_r with (1 - e * cos E); [exact D|].
  replace ((M + e * sin E - E) / (1 - e * cos E) * (1 - e * cos E)) with (M + e * sin E - E) by (field; lra).
  assert (S1 : 0 <= sin E) by (apply sin_ge_0; lra). assert (S : sin E <= PI - E). { rewrite <- sin_PI_x. apply sin_le_x. lra. } assert (C : cos E <= 0) by (apply cos_le_0; lra).
  assert (e * sin E <= 1 * (PI - E)) by (apply Rmult_le_compat; lra). assert (0 <= e * - cos E * (PI - E)) by (apply Rmult_le_pos; [apply Rmult_le_pos|]; lra). lra.
Qed.
(** asin(sin d) between 0 and half a turn. *)
Lemma fold_cases d : 0 <= d <= PI -> (d <= PI / 2 /\ asin (sin d) = d) \/ (PI / 2 <= d /\ asin (sin d) = PI - d).
Proof.
  intros H. pose proof PI_RGT_0. destruct (Rle_or_lt d (PI / 2)) as [L|L]; [left|right]; (split; [lra|]).
  - apply asin_sin. lra.
  - rewrite <- sin_PI_x. apply asin_sin. lra.
Qed.

(** ** The iteration in the first half turn *)
Definition upd (e M E0 : R) : R := E0 + asin (sin (nstep e M E0)).
Definition zone (M r E : R) : Prop := M <= E <= PI /\ E <= r + PI / 2.
Lemma zone_step e M r w E : 0 <= e < 1 -> 0 <= M <= PI -> 0 <= r <= PI -> r - e * sin r = M -> e * e <= w * w * (1 - e * e) -> 0 <= w < PI -> zone M r E ->
  zone M r (upd e M E) /\ (asin (sin (nstep e M E)) = nstep e M E \/ PI - w <= Rabs (asin (sin (nstep e M E)))).
Proof.
  intros He HM Hr Er Hw W [HE1 HE2]. pose proof PI_RGT_0 as P. unfold zone, upd. pose proof (den_pos e E He) as D.
  assert (Mr : M <= r). { apply (kepler_mono e); [exact He|]. rewrite Er. pose proof (sin_ge_0 M ltac:(lra) ltac:(lra)). nra. }
  destruct (Rle_or_lt E r) as [L|L].
  - assert (N0 : 0 <= nstep e M E). { pose proof (step_back e M E r He Hr ltac:(lra) ltac:(lra)). lra. }
    pose proof (step_forward e M E w He ltac:(lra) ltac:(lra) Hw (proj1 W)) as N1. set (d := nstep e M E) in *.
    destruct (fold_cases d ltac:(lra)) as [[A ->]|[A ->]].
    + split; [|left; reflexivity]. split; [|lra]. split; [lra|]. destruct (Rle_or_lt E (PI / 2)) as [B|B]; [lra|]. pose proof (step_late e M E He ltac:(lra) ltac:(lra)) as SL. fold d in SL. lra.
    + split; [|right; rewrite Rabs_pos_eq; lra]. split; [|lra]. split; [lra|]. destruct (Rle_or_lt E (PI / 2)) as [B|B]; [lra|]. pose proof (step_late e M E He ltac:(lra) ltac:(lra)) as SL. fold d in SL. lra.
  - pose proof (step_back e M E r He Hr ltac:(lra) ltac:(lra)) as N1.
    assert (N2 : nstep e M E <= 0). { unfold nstep. apply Rmult_le_reg_r with (1 - e * cos E); [exact D|]. replace ((M + e * sin E - E) / (1 - e * cos E) * (1 - e * cos E)) with (M + e * sin E - E) by (field; lra). 
      destruct (Rle_or_lt (M + e * sin E - E) 0) as [G|G]; [lra|]. exfalso. assert (E <= r) by (apply (kepler_mono e); [exact He|lra]). lra. }
    rewrite asin_sin by lra. split; [|left; reflexivity]. split; lra.
Qed.

(** ** All mean anomalies *)
Lemma half_turn M : exists k : Z, exists s M', (s = 1 \/ s = -1) /\ 0 <= M' <= PI /\ M = s * M' + IZR k * (2 * PI).
Proof.
  pose proof PI_RGT_0 as P. set (k := Zfloor (M / (2 * PI) + / 2)). pose proof (Zfloor_lb (M / (2 * PI) + / 2)) as L. pose proof (Zfloor_ub (M / (2 * PI) + / 2)) as U. fold k in L, U.
  assert (E : M = M / (2 * PI) * (2 * PI)) by (field; lra). set (q := M / (2 * PI)) in *. clearbody q.
  assert (B : - PI <= M - IZR k * (2 * PI) <= PI). { rewrite E. split; nra. }
  exists k. destruct (Rle_or_lt 0 (M - IZR k * (2 * PI))) as [G|G].
  - exists 1, (M - IZR k * (2 * PI)). split; [left; reflexivity|]. split; [lra|ring].
  - exists (-1), (- (M - IZR k * (2 * PI))). split; [right; reflexivity|]. split; [lra|ring].
Qed.
Lemma nstep_turn e M s M' E k : (s = 1 \/ s = -1) -> M = s * M' + IZR k * (2 * PI) -> nstep e M (s * E + IZR k * (2 * PI)) = s * nstep e M' E.
Proof.
  intros Hs ->. unfold nstep. rewrite sin_Z, cos_Z. destruct Hs as [->| ->].
  - rewrite !Rmult_1_l. f_equal. ring.
  - replace (-1 * E) with (- E) by ring. rewrite sin_neg, cos_neg. unfold Rdiv. ring.
Qed.
Lemma asin_sin_sign s d : (s = 1 \/ s = -1) -> asin (sin (s * d)) = s * asin (sin d).
Proof. intros [->| ->]; [rewrite !Rmult_1_l; reflexivity|]. replace (-1 * d) with (- d) by ring. rewrite sin_neg, asin_opp. ring. Qed.

Lemma Kepler2a_all e M p E : 0 <= e < 1 -> e * e <= (PI - powerRZ 10 (- p)) ^ 2 * (1 - e * e) -> Kepler2a e M p = Ok E -> Rabs (E - e * sin E - M) <= e * powerRZ 10 (- (2 * p)).
Proof.
  intros He Hw H. apply DP_ok in H. destruct H as [n [K [E1 L]]]. assert (Hp : (1 <= p)%Z) by lia. pose proof (pow10_le1 p Hp) as P1. fold (pow10 (- p)) in Hw. set (t := pow10 (- p)) in *.
  pose proof PI2_3_2 as HP. assert (Ht : 0 < t) by (unfold t, pow10; apply powerRZ_lt; lra). assert (W : 0 <= PI - t < PI) by lra. replace ((PI - t) ^ 2) with ((PI - t) * (PI - t)) in Hw by ring.
  destruct (half_turn M) as (k & s & M' & Hs & HM & EM). destruct (kepler_exists e M' He HM) as (r & Hr & Er).
  set (f := fun E0 : R => E0 + asin (sin ((M + e * sin E0 - E0) / (1 - e * cos E0)))) in *. assert (F : forall x, f (s * x + IZR k * (2 * PI)) = s * upd e M' x + IZR k * (2 * PI)).
  { intros x. unfold f. fold (nstep e M (s * x + IZR k * (2 * PI))). rewrite (nstep_turn e M s M' x k Hs EM), (asin_sin_sign s _ Hs). unfold upd. ring. }
  assert (Z : exists x, zone M' r x /\ iter_n f n M = s * x + IZR k * (2 * PI)).
  { clear E1 L K. induction n as [|n IH].
    - exists M'. split; [|exact EM]. assert (Mr : M' <= r). { apply (kepler_mono e); [exact He|]. rewrite Er. pose proof (sin_ge_0 M' ltac:(lra) ltac:(lra)). nra. } unfold zone. lra.
    - destruct IH as (x & Zx & Ex). exists (upd e M' x). split; [apply (zone_step e M' r (PI - t) x He HM Hr Er Hw W Zx)|]. cbn [iter_n]. rewrite Ex. apply F. }
  destruct Z as (x & Zx & Ex). destruct (zone_step e M' r (PI - t) x He HM Hr Er Hw W Zx) as [_ C]. rewrite Ex in E1, L. set (E0 := s * x + IZR k * (2 * PI)) in *.
  assert (S1 : Rabs s = 1) by (destruct Hs as [->| ->]; [apply Rabs_R1|rewrite Rabs_left1; lra]).
  assert (NE : nstep e M E0 = s * nstep e M' x) by (apply nstep_turn; assumption).
  assert (ED : E - E0 = s * asin (sin (nstep e M' x))) by (rewrite E1; unfold f; fold (nstep e M E0); rewrite NE, (asin_sin_sign s _ Hs); ring).
  rewrite ED, Rabs_mult, S1, Rmult_1_l in L. destruct C as [C|C]; [|lra].
  assert (EN : E - E0 = nstep e M E0) by (rewrite ED, C, NE; reflexivity).
  replace E with (E0 + nstep e M E0) by lra. apply newton_close; [exact He|exact Hp|reflexivity|]. rewrite <- EN, ED, Rabs_mult, S1, Rmult_1_l. exact L.
Qed.
Lemma pow10_mono p q : (q <= p)%Z -> powerRZ 10 (- p) <= powerRZ 10 (- q).
Proof. intros H. rewrite !powerRZ_Rpower by lra. apply Rle_Rpower; [lra|]. apply IZR_le. lia. Qed.
Lemma ok_places e M p E : Kepler2a e M p = Ok E -> (1 <= p)%Z.
Proof. intros H. apply DP_ok in H. destruct H as [n [K _]]. lia. Qed.
Lemma Kepler2a_949 e M p E : 0 <= e <= 949 / 1000 -> Kepler2a e M p = Ok E -> Rabs (E - e * sin E - M) <= e * powerRZ 10 (- (2 * p)).
Proof.
  intros He H. pose proof (ok_places _ _ _ _ H) as Hp. revert H. apply Kepler2a_all; [lra|].
  pose proof (pow10_mono p 1 Hp) as T. change (powerRZ 10 (- (1))) with (/ (10 * 1)) in T. pose proof PI_bounds as P. set (t := powerRZ 10 (- p)) in *. clearbody t.
  assert (3.04 * 3.04 <= (PI - t) ^ 2) by (cbn [pow]; nra). assert (E2 : 0 <= e * e <= 0.900601) by nra. nra.
Qed.
Lemma Kepler2a_952 e M p E : 0 <= e <= 952 / 1000 -> (2 <= p)%Z -> Kepler2a e M p = Ok E -> Rabs (E - e * sin E - M) <= e * powerRZ 10 (- (2 * p)).
Proof.
  intros He Hp. apply Kepler2a_all; [lra|].
  pose proof (pow10_mono p 2 Hp) as T. change (powerRZ 10 (- (2))) with (/ (10 * (10 * 1))) in T. pose proof PI_bounds as P. set (t := powerRZ 10 (- p)) in *. clearbody t.
  assert (3.13 * 3.13 <= (PI - t) ^ 2) by (cbn [pow]; nra). assert (E2 : 0 <= e * e <= 0.906304) by nra. nra.
Qed.
