(** Lemmas for packages parabolic, nearparabolic, elliptic, node and binary. *)
From Coq Require Import ZArith Reals Bool List Lra Lia Psatz.
From Verif Require Import GoFloat GoMath S_base S_iterate M_iterate S_Sphere L_trig S_kepler M_kepler L_kepler M_orbit.
Local Open Scope R_scope.

(** ** Half-angle formulas *)
Lemma cos_atan_sq y : cos (atan y) * cos (atan y) * (1 + y * y) = 1.
Proof.
  pose proof (atan_bound y) as B. assert (C : 0 < cos (atan y)) by (apply cos_gt_0; lra).
  pose proof (tan_atan y) as T. unfold tan in T. pose proof (sc1 (atan y)) as S.
  assert (sin (atan y) = y * cos (atan y)). { rewrite <- T at 2. field. lra. }
  rewrite H in S. lra.
Qed.
Lemma sin_atan_y y : sin (atan y) = y * cos (atan y).
Proof.
  pose proof (atan_bound y) as B. assert (C : 0 < cos (atan y)) by (apply cos_gt_0; lra).
  pose proof (tan_atan y) as T. unfold tan in T. rewrite <- T at 2. field. lra.
Qed.
Lemma double_atan y : cos (2 * atan y) * (1 + y * y) = 1 - y * y /\ sin (2 * atan y) * (1 + y * y) = 2 * y.
Proof.
  rewrite cos_2a, sin_2a, !sin_atan_y. pose proof (cos_atan_sq y) as C. set (c := cos (atan y)) in *.
  split.
  - transitivity (c * c * (1 + y * y) * (1 - y * y)); [ring|]. rewrite C. ring.
  - transitivity (c * c * (1 + y * y) * (2 * y)); [ring|]. rewrite C. ring.
Qed.
Lemma half_tan E : cos (E / 2) <> 0 -> cos E * (1 + tan (E / 2) * tan (E / 2)) = 1 - tan (E / 2) * tan (E / 2) /\
  sin E * (1 + tan (E / 2) * tan (E / 2)) = 2 * tan (E / 2).
Proof.
  intros H. unfold tan. set (h := E / 2) in *. replace E with (2 * h) by (unfold h; field). rewrite cos_2a, sin_2a.
  pose proof (sc1 h) as S. set (s := sin h) in *. set (c := cos h) in *.
  assert (Q : 1 + s / c * (s / c) = / (c * c)). { transitivity ((s * s + c * c) / (c * c)); [field; exact H|]. rewrite S. field. exact H. }
  rewrite Q. split.
  - transitivity ((c * c - s * s) / (c * c)); [reflexivity|field; exact H].
  - field. exact H.
Qed.

(** ** True anomaly and radius *)
Lemma one_plus_sq y : 0 < 1 + y * y. Proof. pose proof (Rle_0_sqr y). unfold Rsqr in *. lra. Qed.

Lemma True_ok e E : 0 <= e < 1 -> cos (E / 2) <> 0 ->
  let v := True E e in
  - PI < v < PI /\ (1 - e * cos E) * cos v = cos E - e /\ (1 - e * cos E) * sin v = sqrt (1 - e * e) * sin E.
Proof.
  intros He HE v. set (t := tan (E / 2)). set (k := sqrt ((1 + e) / (1 - e))).
  assert (Ev : v = 2 * atan (k * t)) by (unfold v, True, k, t; do 4 f_equal; field). clearbody v.
  assert (K2 : k * k = (1 + e) / (1 - e)) by (apply sqrt_sqrt, Rlt_le, Rdiv_lt_0_compat; lra).
  assert (K2' : k * k * (1 - e) = 1 + e) by (rewrite K2; field; lra).
  assert (Ks : sqrt (1 - e * e) = k * (1 - e)).
  { assert (0 <= k) by apply sqrt_pos. rewrite <- (sqrt_square (k * (1 - e))) by (apply Rmult_le_pos; lra). f_equal.
    transitivity (k * k * (1 - e) * (1 - e)); [rewrite K2'; ring|ring]. }
  destruct (half_tan E HE) as [CE SE]. fold t in CE, SE. destruct (double_atan (k * t)) as [CV SV]. rewrite <- Ev in CV, SV.
  pose proof (one_plus_sq t) as T1. pose proof (one_plus_sq (k * t)) as T2.
  pose proof (atan_bound (k * t)) as AB.
  split; [rewrite Ev; lra|].
  assert (Ec : cos E = (1 - t * t) / (1 + t * t)) by (rewrite <- CE; field; lra).
  assert (Es : sin E = 2 * t / (1 + t * t)) by (rewrite <- SE; field; lra).
  assert (Vc : cos v = (1 - k * t * (k * t)) / (1 + k * t * (k * t))) by (rewrite <- CV; field; lra).
  assert (Vs : sin v = 2 * (k * t) / (1 + k * t * (k * t))) by (rewrite <- SV; field; lra).
  assert (D : (1 - e * cos E) * (1 + t * t) = (1 - e) * (1 + k * t * (k * t))).
  { rewrite Ec. transitivity ((1 + t * t) - e * (1 - t * t)); [field; lra|].
    transitivity ((1 - e) + (k * k * (1 - e)) * (t * t)); [rewrite K2'; ring|ring]. }
  assert (D' : 1 - e * cos E = (1 - e) * (1 + k * t * (k * t)) / (1 + t * t)) by (rewrite <- D; field; lra).
  rewrite Ks, D', Vc, Vs. split.
  - transitivity ((1 - e) * (1 - k * t * (k * t)) / (1 + t * t)); [field; lra|].
    rewrite Ec. replace ((1 - e) * (1 - k * t * (k * t))) with ((1 - e) - (k * k * (1 - e)) * (t * t)) by ring. rewrite K2'. field. lra.
  - rewrite Es. field. lra.
Qed.

Lemma Radius_ok e E a : 0 <= e < 1 -> cos (E / 2) <> 0 ->
  0 < 1 + e * cos (True E e) /\ Radius E e a = a * (1 - e * e) / (1 + e * cos (True E e)).
Proof.
  intros He HE. destruct (True_ok e E He HE) as [_ [C _]]. pose proof (den_pos e E He) as D.
  set (v := True E e) in *. unfold Radius.
  assert (P : (1 + e * cos v) * (1 - e * cos E) = 1 - e * e).
  { transitivity ((1 - e * cos E) + e * ((1 - e * cos E) * cos v)); [ring|]. rewrite C. ring. }
  assert (Q : 0 < 1 - e * e) by nra.
  assert (V : 0 < 1 + e * cos v). { apply Rmult_lt_reg_r with (1 - e * cos E); [exact D|]. lra. }
  split; [exact V|]. rewrite <- P. field. lra.
Qed.

(** Cartesian position on the ellipse. *)
Lemma Ellipse_ok e E a : 0 <= e < 1 -> cos (E / 2) <> 0 ->
  let r := Radius E e a in let v := True E e in
  r * cos v = a * (cos E - e) /\ r * sin v = a * sqrt (1 - e * e) * sin E.
Proof.
  intros He HE r v. destruct (True_ok e E He HE) as [_ [C S]]. fold v in C, S. unfold r, Radius. split.
  - rewrite <- C. ring.
  - transitivity (a * ((1 - e * cos E) * sin v)); [ring|]. rewrite S. ring.
Qed.

(** ** cbrt *)
Lemma cbrt_pos x : 0 < x -> 0 < cbrt x /\ cbrt x * cbrt x * cbrt x = x.
Proof.
  intros H. unfold cbrt. destruct (Rlt_dec 0 x); [|lra]. split; [apply exp_pos|].
  rewrite <- !exp_plus. replace (ln x / 3 + ln x / 3 + ln x / 3) with (ln x) by field. apply exp_ln, H.
Qed.

(** ** Barker's equation *)
Lemma barker_mono s t : s * s * s + 3 * s <= t * t * t + 3 * t -> s <= t.
Proof.
  intros H. destruct (Rle_dec s t) as [L|L]; [exact L|]. exfalso.
  assert (0 <= (s + t) * (s + t)) by apply Rle_0_sqr.
  assert (Q : 0 < (s - t) * (s * s + s * t + t * t + 3)). { apply Rmult_lt_0_compat; [lra|]. nra. }
  nra.
Qed.
Lemma barker_unique s t : s * s * s + 3 * s = t * t * t + 3 * t -> s = t.
Proof. intros H. apply Rle_antisym; apply barker_mono; lra. Qed.

Definition par_s (W : R) : R :=
  let G := W * (5 / 10) in let Y := cbrt (G + sqrt (G * G + 1)) in Y - 1 / Y.
Lemma sqrt_gt G : 0 < G + sqrt (G * G + 1) /\ (G + sqrt (G * G + 1)) * (sqrt (G * G + 1) - G) = 1.
Proof.
  assert (P : 0 <= G * G + 1) by (pose proof (Rle_0_sqr G); unfold Rsqr in *; lra).
  pose proof (sqrt_sqrt _ P) as S. pose proof (sqrt_pos (G * G + 1)). set (w := sqrt (G * G + 1)) in *.
  split; [nra|]. ring_simplify. replace (w ^ 2) with (w * w) by ring. rewrite S. ring.
Qed.
Lemma par_s_barker W : par_s W * par_s W * par_s W + 3 * par_s W = W.
Proof.
  unfold par_s. set (G := W * (5 / 10)). destruct (sqrt_gt G) as [P Q]. set (X := G + sqrt (G * G + 1)) in *.
  destruct (cbrt_pos X P) as [Yp Y3]. set (Y := cbrt X) in *.
  transitivity (Y * Y * Y - 1 / (Y * Y * Y)); [field; lra|]. rewrite Y3.
  assert (1 / X = sqrt (G * G + 1) - G). { apply Rmult_eq_reg_l with X; [|lra]. rewrite Q. field. lra. }
  rewrite H. unfold X. unfold G. lra.
Qed.

(** The time argument of Barker's equation. *)
Definition barker_W (q t : R) : R := 3 * K / sqrt 2 * t / q / sqrt q.

Lemma Par_is e jde : Par_AnomalyDistance e jde =
  (2 * atan (par_s (barker_W (p_PDis e) (jde - p_TimeP e))),
   p_PDis e * (1 + par_s (barker_W (p_PDis e) (jde - p_TimeP e)) * par_s (barker_W (p_PDis e) (jde - p_TimeP e)))).
Proof. reflexivity. Qed.
Lemma tan_half_atan s : tan (2 * atan s / 2) = s.
Proof. replace (2 * atan s / 2) with (atan s) by field. apply tan_atan. Qed.

Lemma Par_ok q T t : 0 < q ->
  let '(v, r) := Par_AnomalyDistance (mkPar T q) t in
  - PI < v < PI /\
  tan (v / 2) + tan (v / 2) * tan (v / 2) * tan (v / 2) / 3 = K / sqrt 2 * (t - T) / (q * sqrt q) /\
  0 < 1 + cos v /\ r = 2 * q / (1 + cos v) /\ q <= r /\ (r = q <-> t = T).
Proof.
  intros Hq. rewrite Par_is. cbn [p_PDis p_TimeP]. set (W := barker_W q (t - T)). set (s := par_s W).
  pose proof (par_s_barker W) as B. fold s in B. rewrite tan_half_atan.
  assert (Sq : 0 < sqrt q) by (apply sqrt_lt_R0, Hq). assert (S2 : 0 < sqrt 2) by (apply sqrt_lt_R0; lra).
  pose proof (atan_bound s) as AB. destruct (double_atan s) as [C _]. pose proof (one_plus_sq s) as P.
  split; [lra|]. split; [|split; [|split; [|split]]].
  - transitivity ((s * s * s + 3 * s) / 3); [field|]. rewrite B. unfold W, barker_W. field. lra.
  - apply Rmult_lt_reg_r with (1 + s * s); [exact P|]. lra.
  - assert (E : 1 + cos (2 * atan s) = 2 / (1 + s * s)). { replace (cos (2 * atan s)) with ((1 - s * s) / (1 + s * s)) by (rewrite <- C; field; lra). field. lra. }
    rewrite E. field. lra.
  - pose proof (Rle_0_sqr s). unfold Rsqr in *. nra.
  - split; intros H.
    + assert (s * s = 0) by nra. assert (s = 0) by nra.
      rewrite H1 in B. unfold W, barker_W in B.
      assert (Kp : 0 < K) by (unfold K; lra).
      assert (Z : 3 * K / sqrt 2 * (t - T) / q / sqrt q = (t - T) * (3 * K / (sqrt 2 * q * sqrt q))) by (field; lra).
      rewrite Z in B. assert (F : 0 < 3 * K / (sqrt 2 * q * sqrt q)) by (apply Rdiv_lt_0_compat; [lra|repeat apply Rmult_lt_0_compat; lra]).
      set (f := 3 * K / (sqrt 2 * q * sqrt q)) in *. assert ((t - T) * f = 0) by lra. apply Rmult_integral in H2. destruct H2; lra.
    + assert (W = 0). { unfold W, barker_W. subst t. unfold Rdiv. ring. }
      assert (s = 0) by (apply barker_unique; rewrite B, H0; ring). rewrite H1. ring.
Qed.
Lemma Par_sym q T t : 0 < q ->
  let '(v1, r1) := Par_AnomalyDistance (mkPar T q) (T + t) in
  let '(v2, r2) := Par_AnomalyDistance (mkPar T q) (T - t) in v2 = - v1 /\ r2 = r1.
Proof.
  intros Hq. rewrite !Par_is. cbn [p_PDis p_TimeP].
  replace (T + t - T) with t by ring. replace (T - t - T) with (- t) by ring.
  assert (E : par_s (barker_W q (- t)) = - par_s (barker_W q t)).
  { apply barker_unique. rewrite par_s_barker. pose proof (par_s_barker (barker_W q t)) as B. set (s := par_s (barker_W q t)) in *.
    replace (- s * - s * - s + 3 * - s) with (- (s * s * s + 3 * s)) by ring. rewrite B. unfold barker_W. unfold Rdiv. ring. }
  rewrite E, atan_opp. split; ring.
Qed.

Lemma archimed_nat x : exists m, x <= INR m.
Proof. exists (Z.to_nat (up x)). rewrite INR_IZR_INZ. pose proof (archimed x) as [A _].
  apply Rle_trans with (IZR (up x)); [lra|]. apply IZR_le. lia. Qed.

(** ** nearparabolic: the Newton loop ends *)
Lemma barker_root q : exists r, r * r * r / 3 + r = q.
Proof. exists (par_s (3 * q)). pose proof (par_s_barker (3 * q)). lra. Qed.

Section Newton.
Variables (q r : R).
Hypothesis Hr : r * r * r / 3 + r = q.
Notation N := (NP_newton q).

Lemma N_minus_r s : N s - r = (s - r) * (s - r) * (2 * s + r) / (3 * (s * s + 1)).
Proof. unfold NP_newton. rewrite <- Hr. pose proof (one_plus_sq s). field. lra. Qed.
Lemma N_minus_s s : (N s - s) * (s * s + 1) = (r - s) * ((r * r + r * s + s * s) / 3 + 1).
Proof. unfold NP_newton. rewrite <- Hr. pose proof (one_plus_sq s). field. lra. Qed.
Lemma form_pos s : 0 < (r * r + r * s + s * s) / 3 + 1.
Proof. assert (0 <= (r + s) * (r + s)) by apply Rle_0_sqr. assert (0 <= r * r) by apply Rle_0_sqr. assert (0 <= s * s) by apply Rle_0_sqr. lra. Qed.
Lemma N_up s : s <= r -> s <= N s.
Proof.
  intros H. pose proof (N_minus_s s) as E. pose proof (form_pos s) as F. pose proof (one_plus_sq s) as P.
  assert (0 <= (N s - s) * (s * s + 1)) by (rewrite E; apply Rmult_le_pos; lra).
  destruct (Rle_dec s (N s)); [assumption|]. exfalso. nra.
Qed.
Lemma N_down s : r <= s -> N s <= s.
Proof.
  intros H. pose proof (N_minus_s s) as E. pose proof (form_pos s) as F. pose proof (one_plus_sq s) as P.
  assert (0 <= - ((N s - s) * (s * s + 1))).
  { rewrite E. replace (- ((r - s) * ((r * r + r * s + s * s) / 3 + 1))) with ((s - r) * ((r * r + r * s + s * s) / 3 + 1)) by ring. apply Rmult_le_pos; lra. }
  destruct (Rle_dec (N s) s); [assumption|]. exfalso. nra.
Qed.
Lemma N_above s : 0 <= 2 * s + r -> r <= N s.
Proof.
  intros H. pose proof (N_minus_r s) as E. pose proof (one_plus_sq s) as P.
  assert (0 <= N s - r); [|lra]. rewrite E. apply Rmult_le_pos; [apply Rmult_le_pos; [apply Rle_0_sqr|exact H]|].
  apply Rlt_le, Rinv_0_lt_compat. lra.
Qed.

Local Notation d := (1 / 1000000000).
Lemma newton_more q3 s n m v : NP_newton_loop q3 s n = Value v -> NP_newton_loop q3 s (n + m) = Value v.
Proof.
  revert s. induction n as [|n IH]; intros s; [discriminate|]. cbn [NP_newton_loop Nat.add]. cbv zeta.
  destruct (Rle_dec _ _); [trivial|apply IH].
Qed.

(** Above the root the iterates decrease to it. *)
Lemma newton_down_phase k : 0 <= r -> forall s, r <= s -> s - r <= INR k * d -> exists v, NP_newton_loop q s (S k) = Value v.
Proof.
  intros R0. induction k as [|k IH]; intros s H B.
  - cbn [INR] in B. assert (s = r) by lra. subst s.
    cbn [NP_newton_loop]. cbv zeta. pose proof (N_up r (Rle_refl r)). pose proof (N_down r (Rle_refl r)).
    destruct (Rle_dec _ _) as [L|L]; [eauto|]. exfalso. apply L. replace (N r - r) with 0 by lra. rewrite Rabs_R0. lra.
  - change (exists v, NP_newton_loop q s (S (S k)) = Value v). cbn [NP_newton_loop] in *. cbv zeta in *.
    pose proof (N_down s H) as D. pose proof (N_above s ltac:(lra)) as U.
    destruct (Rle_dec (Rabs (N s - s)) d) as [L|L]; [eauto|].
    apply IH; [exact U|]. rewrite S_INR in B. rewrite Rabs_left1 in L by lra. lra.
Qed.

(** Below -r/2 they increase, bounded by 0. *)
Lemma newton_up_phase k : 0 <= r -> forall s, - s <= INR k * d -> exists n v, NP_newton_loop q s n = Value v.
Proof.
  intros R0. induction k as [|k IH]; intros s B.
  - cbn [INR] in B. pose proof (N_above s ltac:(lra)) as U.
    destruct (archimed_nat ((N s - r) / d)) as [m Hm].
    destruct (newton_down_phase m R0 (N s) U) as [v Hv].
    { apply Rmult_le_reg_r with (/ d); [lra|]. rewrite Rmult_assoc, Rinv_r by lra. unfold Rdiv in Hm at 1. lra. }
    destruct (Rle_dec (Rabs (N s - s)) d) as [L|L].
    + exists 1%nat, (N s). cbn [NP_newton_loop]. cbv zeta. destruct (Rle_dec _ _); [reflexivity|tauto].
    + exists (S (S m)), v. change (NP_newton_loop q s (S (S m))) with (let s' := N s in if Rle_dec (Rabs (s' - s)) d then Value s' else NP_newton_loop q s' (S m)).
      cbv zeta. destruct (Rle_dec _ _); [tauto|exact Hv].
  - destruct (Rle_dec (Rabs (N s - s)) d) as [L|L].
    + exists 1%nat, (N s). cbn [NP_newton_loop]. cbv zeta. destruct (Rle_dec _ _); [reflexivity|tauto].
    + assert (G : exists n v, NP_newton_loop q (N s) n = Value v).
      { destruct (Rle_dec 0 (2 * s + r)) as [P|P].
        - pose proof (N_above s P) as U. destruct (archimed_nat ((N s - r) / d)) as [m Hm].
          destruct (newton_down_phase m R0 (N s) U) as [v Hv]; [|eauto].
          apply Rmult_le_reg_r with (/ d); [lra|]. rewrite Rmult_assoc, Rinv_r by lra. unfold Rdiv in Hm at 1. lra.
        - apply IH. pose proof (N_up s ltac:(lra)) as U. rewrite Rabs_pos_eq in L by lra. rewrite S_INR in B. lra. }
      destruct G as [n [v Hv]]. exists (S n), v. cbn [NP_newton_loop]. cbv zeta. destruct (Rle_dec _ _); [tauto|exact Hv].
Qed.
End Newton.

Lemma newton_neg q s : NP_newton (- q) (- s) = - NP_newton q s.
Proof. unfold NP_newton. pose proof (one_plus_sq s). field. lra. Qed.
Lemma newton_loop_neg q s n v : NP_newton_loop q s n = Value v -> NP_newton_loop (- q) (- s) n = Value (- v).
Proof.
  revert s. induction n as [|n IH]; intros s; [discriminate|]. cbn [NP_newton_loop]. cbv zeta. rewrite newton_neg.
  replace (- NP_newton q s - - s) with (- (NP_newton q s - s)) by ring. rewrite Rabs_Ropp.
  destruct (Rle_dec _ _); [|apply IH]. intros H. injection H as <-. reflexivity.
Qed.
Lemma newton_ends q s : exists n v, NP_newton_loop q s n = Value v.
Proof.
  assert (P : forall q r s, 0 <= r -> r * r * r / 3 + r = q -> exists n v, NP_newton_loop q s n = Value v).
  { intros q' r s' R0 Hr. destruct (archimed_nat (- s' / (1 / 1000000000))) as [m Hm].
    apply (newton_up_phase q' r Hr m R0). lra. }
  destruct (barker_root q) as [r Hr]. destruct (Rle_dec 0 r) as [R0|R0]; [apply (P q r); assumption|].
  destruct (P (- q) (- r) (- s)) as [n [v H]]; [lra|lra|]. exists n, (- v).
  apply newton_loop_neg in H. rewrite !Ropp_involutive in H. exact H.
Qed.

Lemma series_ends g y n : forall z g1 q3, (z + Z.of_nat n = 51)%Z -> (1 <= n)%nat -> NP_series g y z g1 q3 n <> OutOfFuel.
Proof.
  induction n as [|n IH]; intros z g1 q3 Hz Hn; [lia|]. cbn [NP_series]. cbv zeta.
  destruct (50 <? z + 1)%Z eqn:E; cbn [orb]; [discriminate|].
  match goal with |- context [if (if ?c then true else false) then _ else _] => destruct c end; [discriminate|].
  match goal with |- context [if ?c then _ else _] => destruct c end; [discriminate|].
  apply Z.ltb_ge in E. apply IH; lia.
Qed.

Lemma outer_mono g q2 m n : forall s l N, NP_outer g q2 s l N n <> OutOfFuel -> NP_outer g q2 s l (N + m) n = NP_outer g q2 s l N n.
Proof.
  induction n as [|n IH]; intros s l N H; [reflexivity|]. revert H. cbn [NP_outer]. cbv zeta.
  destruct (NP_series _ _ _ _ _ _) as [q3| |]; [|reflexivity|tauto].
  destruct (50 <? l + 1)%Z; [reflexivity|].
  destruct (NP_newton_loop q3 s N) as [v| |] eqn:E; [|exfalso|tauto].
  - rewrite (newton_more _ _ _ _ _ E). destruct (Rle_dec _ _); [reflexivity|]. apply IH.
  - clear -E. revert s E. induction N as [|N IH]; intros s; [discriminate|]. cbn [NP_newton_loop]. cbv zeta. destruct (Rle_dec _ _); [discriminate|apply IH].
Qed.
Lemma outer_ends g q2 n : forall s l, (l + Z.of_nat n = 51)%Z -> (1 <= n)%nat -> exists N, NP_outer g q2 s l N n <> OutOfFuel.
Proof.
  induction n as [|n IH]; intros s l Hl Hn; [lia|]. cbn [NP_outer]. cbv zeta.
  pose proof (series_ends g (s * s) 50 1 (- (s * s) * s) (q2 + 2 * g * s * (s * s) / 3) eq_refl ltac:(lia)) as SE.
  destruct (NP_series _ _ _ _ _ _) as [q3| |]; [|exists 0%nat; discriminate|tauto].
  destruct (50 <? l + 1)%Z eqn:E; [exists 0%nat; discriminate|]. apply Z.ltb_ge in E.
  destruct (newton_ends q3 s) as [N1 [v Hv]]. destruct (IH v (l + 1)%Z ltac:(lia) ltac:(lia)) as [N2 H2].
  exists (N1 + N2)%nat. rewrite (newton_more _ _ _ _ _ Hv). destruct (Rle_dec _ _); [discriminate|].
  rewrite (Nat.add_comm N1 N2), outer_mono; exact H2.
Qed.

Lemma NP_ends e jde : exists N, forall m, NP_AnomalyDistance (N + m) e jde <> OutOfFuel.
Proof.
  unfold NP_AnomalyDistance. cbv zeta. destruct (Req_EM_T (jde - n_TimeP e) 0); [exists 0%nat; discriminate|].
  destruct (Req_EM_T (n_Ecc e) 1); [exists 0%nat; discriminate|].
  match goal with |- context [NP_outer ?g ?q ?s ?l _ 51] => destruct (outer_ends g q 51 s l eq_refl ltac:(lia)) as [N H] end.
  exists N. intros m. rewrite outer_mono by exact H.
  destruct (NP_outer _ _ _ _ _ _); [discriminate|discriminate|tauto].
Qed.

Lemma NP_value N e jde v r : 0 <= n_Ecc e -> NP_AnomalyDistance N e jde = Value (v, r) ->
  0 <= v < 2 * PI /\ v <> PI /\ r = n_PDis e * (1 + n_Ecc e) / (1 + n_Ecc e * cos v).
Proof.
  intros He. pose proof PI_RGT_0 as HP. unfold NP_AnomalyDistance. cbv zeta. destruct (Req_EM_T (jde - n_TimeP e) 0).
  - intros H. injection H as <- <-. split; [lra|]. split; [lra|]. rewrite cos_0. field. lra.
  - match goal with |- context [match ?x with Value _ => _ | NoConvergence => _ | OutOfFuel => _ end] => destruct x as [s| |]; try discriminate end.
    pose proof (atan_bound s) as B. intros H. injection H as <- <-.
    destruct (Rlt_dec (2 * atan s) 0).
    + split; [lra|]. split; [lra|]. rewrite <- (cos_Z (2 * atan s) 1). replace (2 * atan s + 1 * (2 * PI)) with (2 * atan s + 2 * PI) by ring. reflexivity.
    + split; [lra|]. split; [lra|]. reflexivity.
Qed.

(** The starting value solves Barker's equation. *)
Lemma NP_start_barker q2 : q2 <> 0 -> NP_start q2 * NP_start q2 * NP_start q2 + 3 * NP_start q2 = 3 * Rabs q2.
Proof.
  intros H. assert (P : 0 < Rabs q2) by (apply Rabs_pos_lt, H). unfold NP_start. set (W := 3 * Rabs q2).
  assert (PW : 0 < W) by (unfold W; lra). pose proof PI_RGT_0 as HP.
  assert (X : 0 < 2 / W) by (apply Rdiv_lt_0_compat; lra).
  set (a := atan (2 / W)). assert (Ba : 0 < a < PI / 2).
  { unfold a. split; [rewrite <- atan_0; apply atan_increasing, X|apply atan_bound]. }
  set (u := tan (a / 2)). assert (Pu : 0 < u) by (apply tan_gt_0; lra).
  assert (Ta : tan a = 2 / W) by apply tan_atan.
  assert (Cz : cos (a / 2) <> 0) by (pose proof (cos_gt_0 (a / 2) ltac:(lra) ltac:(lra)); lra).
  destruct (half_tan a Cz) as [C S]. fold u in C, S.
  assert (Ca : 0 < cos a) by (apply cos_gt_0; lra).
  assert (Q : tan a * (1 - u * u) = 2 * u). { unfold tan. rewrite <- C, <- S. field. lra. }
  rewrite Ta in Q.
  assert (Wu : W * u = 1 - u * u). { transitivity (W / 2 * (2 * u)); [field|]. rewrite <- Q. field. lra. }
  destruct (cbrt_pos u Pu) as [PT T3]. set (T := cbrt u) in *. 
  assert (U1 : u < 1). { destruct (Rlt_dec u 1); [assumption|]. exfalso. assert (0 < W * u) by (apply Rmult_lt_0_compat; lra). nra. }
  assert (T1 : T < 1). { destruct (Rlt_dec T 1); [assumption|]. exfalso. assert (1 <= T * T) by nra. assert (1 <= T * T * T) by nra. lra. }
  destruct (double_atan T) as [C2 S2].
  assert (E : 2 / tan (2 * atan T) = 1 / T - T).
  { pose proof (one_plus_sq T) as P2.
    assert (cos (2 * atan T) = (1 - T * T) / (1 + T * T)) by (rewrite <- C2; field; lra).
    assert (sin (2 * atan T) = 2 * T / (1 + T * T)) by (rewrite <- S2; field; lra).
    unfold tan. rewrite H0, H1. field. repeat split; try lra; nra. }
  rewrite E. transitivity (1 / (T * T * T) - T * T * T); [field; lra|]. rewrite T3.
  apply Rmult_eq_reg_r with u; [|lra]. rewrite Wu. field. lra.
Qed.

Lemma NP_parabolic N q T t : 0 < q ->
  let '(v, r) := Par_AnomalyDistance (mkPar T q) t in
  exists v', NP_AnomalyDistance N (mkNP T q 1) t = Value (v', r) /\ same_angle v' v.
Proof.
  intros Hq. rewrite Par_is. cbn [p_PDis p_TimeP]. unfold NP_AnomalyDistance. cbn [n_TimeP n_PDis n_Ecc]. cbv zeta.
  set (s := par_s (barker_W q (t - T))). pose proof (par_s_barker (barker_W q (t - T))) as B. fold s in B.
  assert (Sq : 0 < sqrt q) by (apply sqrt_lt_R0, Hq). assert (S2 : 0 < sqrt 2) by (apply sqrt_lt_R0; lra).
  assert (Qq : sqrt q * sqrt q = q) by (apply sqrt_sqrt; lra). assert (Q2 : sqrt 2 * sqrt 2 = 2) by (apply sqrt_sqrt; lra).
  destruct (Req_EM_T (t - T) 0) as [Z|Z].
  - assert (s = 0). { apply barker_unique. rewrite B. unfold barker_W. rewrite Z. unfold Rdiv. ring. }
    rewrite H. exists 0. split; [f_equal; f_equal; ring|]. exists 0%Z. rewrite atan_0. ring.
  - destruct (Req_EM_T 1 1); [|lra].
    assert (Eq1 : K * sqrt ((1 + 1) / q) / (2 * q) = K / sqrt 2 / q / sqrt q).
    { rewrite sqrt_div by lra. replace (1 + 1) with 2 by ring.
      transitivity (K * (sqrt 2 * sqrt 2) / sqrt 2 / sqrt q / (2 * q)); [field; lra|]. rewrite Q2. field. lra. }
    rewrite Eq1. set (q2 := K / sqrt 2 / q / sqrt q * (t - T)).
    assert (Kp : 0 < K / sqrt 2 / q / sqrt q). { unfold Rdiv. repeat apply Rmult_lt_0_compat; try apply Rinv_0_lt_compat; try lra. }
    assert (EW : barker_W q (t - T) = 3 * q2) by (unfold barker_W, q2; field; lra).
    assert (N2 : q2 <> 0). { unfold q2. apply Rmult_integral_contrapositive_currified; lra. }
    pose proof (NP_start_barker q2 N2) as NB.
    assert (Es : (if Rlt_dec (t - T) 0 then - NP_start q2 else NP_start q2) = s).
    { apply barker_unique. rewrite B, EW. destruct (Rlt_dec (t - T) 0).
      - assert (q2 < 0) by (unfold q2; nra). rewrite Rabs_left in NB by assumption. set (x := NP_start q2) in *.
        transitivity (- (x * x * x + 3 * x)); [ring|]. rewrite NB. ring.
      - assert (0 <= q2) by (unfold q2; apply Rmult_le_pos; lra). rewrite Rabs_pos_eq in NB by assumption. exact NB. }
    rewrite Es. destruct (double_atan s) as [C _]. pose proof (one_plus_sq s) as P.
    assert (Er : q * (1 + 1) / (1 + 1 * cos (2 * atan s)) = q * (1 + s * s)).
    { replace (cos (2 * atan s)) with ((1 - s * s) / (1 + s * s)) by (rewrite <- C; field; lra). field. lra. }
    eexists. split; [rewrite Er; reflexivity|].
    destruct (Rlt_dec (2 * atan s) 0); [exists 1%Z|exists 0%Z]; ring.
Qed.

(** ** The orbital plane *)
Lemma phase r F P x : P <> 0 \/ F <> 0 -> r * hypot F P * sin (atan2 F P + x) = r * (F * cos x + P * sin x).
Proof.
  intros H. destruct (atan2_spec P F H) as [A B]. assert (E : hypot F P = hypot P F) by (unfold hypot; f_equal; ring).
  rewrite E, sin_plus. transitivity (r * (hypot P F * sin (atan2 F P) * cos x + hypot P F * cos (atan2 F P) * sin x)); [ring|]. rewrite A, B. reflexivity.
Qed.
Lemma phase0 r F P x : r * hypot F P * sin (atan2 F P + x) = r * (F * cos x + P * sin x).
Proof.
  destruct (Req_dec P 0) as [Ep|Ep]; [|apply phase; tauto]. destruct (Req_dec F 0) as [Ef|Ef]; [|apply phase; tauto].
  subst. unfold hypot. replace (0 * 0 + 0 * 0) with 0 by ring. rewrite sqrt_0. ring.
Qed.

Lemma Ell_xyz_ok se ce k jde :
  let n := K / (e_Axis k * sqrt (e_Axis k)) in
  0 < e_Axis k ->
  0 <= e_Ecc k < 1 ->
  exists E m, same_angle m (n * (jde - e_TimeP k)) /\ Rabs (E - e_Ecc k * sin E - m) <= 1 / 1000000000000000 /\
  let r := Radius E (e_Ecc k) (e_Axis k) in let v := True E (e_Ecc k) in
  let w := e_ArgP k + v in
  let ecl := app (transpose (rot_z (e_Node k))) (app (transpose (rot_x (e_Inc k))) (mkvec (r * cos w) (r * sin w) 0)) in
  Ell_xyz se ce k jde = (vx ecl, vy ecl * ce - vz ecl * se, vy ecl * se + vz ecl * ce).
Proof.
  intros n Ha He. set (M := K / e_Axis k / sqrt (e_Axis k) * (jde - e_TimeP k)).
  assert (EM : n * (jde - e_TimeP k) = M). { unfold n, M. assert (0 < sqrt (e_Axis k)) by (apply sqrt_lt_R0, Ha). field. lra. }
  rewrite EM.
  assert (HE : exists E m, E = match Kepler2b (e_Ecc k) M 15 with Ok E => E | MaxIterations => Kepler3 (e_Ecc k) M end /\ same_angle m M /\
    Rabs (E - e_Ecc k * sin E - m) <= 1 / 1000000000000000).
  { destruct (Kepler2b (e_Ecc k) M 15) as [E|] eqn:EK.
    - exists E, M. split; [reflexivity|]. split; [exists 0%Z; ring|]. apply Kepler2b_ok in EK; [|exact He]. eapply Rle_trans; [exact EK|].
      change (- (2 * 15))%Z with (-30)%Z. cbn [powerRZ Pos.to_nat]. 
      assert (P30 : / 10 ^ Pos.to_nat 30 <= 1 / 1000000000000000).
      { change (Pos.to_nat 30) with (15 + 15)%nat. rewrite pow_add. assert (T : 10 ^ 15 = 1000000000000000) by (cbn [pow]; ring). rewrite T. 
        replace (1 / 1000000000000000) with (/ 1000000000000000) by field. apply Rinv_le_contravar; lra. }
      assert (0 < / 10 ^ Pos.to_nat 30) by (apply Rinv_0_lt_compat, pow_lt; lra).
      set (x := / 10 ^ Pos.to_nat 30) in *. clearbody x. nra.
    - destruct (Kepler3_ok (e_Ecc k) M He) as [Es [m [HS [HM [_ HK]]]]]. exists (Kepler3 (e_Ecc k) M), m.
      split; [reflexivity|]. split; [exact HM|]. unfold solves in HS. rewrite <- HS.
      set (E := Kepler3 (e_Ecc k) M) in *. clearbody E.
      replace (E - e_Ecc k * sin E - (Es - e_Ecc k * sin Es)) with ((E - Es) + - (e_Ecc k * (sin E - sin Es))) by ring.
      eapply Rle_trans; [apply Rabs_triang|]. rewrite Rabs_Ropp, Rabs_mult, (Rabs_pos_eq (e_Ecc k)) by lra.
      pose proof (sin_lip E Es). pose proof (Rabs_pos (sin E - sin Es)). pose proof PI_4.
      assert (P54 : PI / 2 ^ 54 <= 1 / 2000000000000000).
      { change 54%nat with (10 + (10 + (10 + (10 + (10 + 4)))))%nat. rewrite !pow_add.
        assert (T : 2 ^ 10 = 1024) by (cbn [pow]; ring). assert (T4 : 2 ^ 4 = 16) by (cbn [pow]; ring). rewrite T, T4. lra. }
      nra. }
  destruct HE as [E [m [EE [HM HR]]]]. exists E, m. split; [exact HM|]. split; [exact HR|].
  intros r v w ecl. unfold Ell_xyz. fold M. rewrite <- EE. fold v. fold r. rewrite !Rplus_assoc. fold w. rewrite !phase0.
  unfold ecl, app, transpose, rot_z, rot_x, dot. cbn [vx vy vz r1 r2 r3]. f_equal; [f_equal|]; ring.
Qed.

Lemma NP_fuel e jde N m : NP_AnomalyDistance N e jde <> OutOfFuel -> NP_AnomalyDistance (N + m) e jde = NP_AnomalyDistance N e jde.
Proof.
  unfold NP_AnomalyDistance. cbv zeta. destruct (Req_EM_T (jde - n_TimeP e) 0); [reflexivity|].
  destruct (Req_EM_T (n_Ecc e) 1); [reflexivity|]. intros H.
  match goal with |- context [NP_outer ?g ?q ?s ?l (?a + ?b) 51] => rewrite (outer_mono g q b 51 s l a); [reflexivity|] end.
  intros X. apply H. rewrite X. reflexivity.
Qed.
Lemma Par_example : Par_AnomalyDistance (mkPar 2450000 1) 2450000 = (0, 1).
Proof.
  rewrite Par_is. cbn [p_PDis p_TimeP]. replace (2450000 - 2450000) with 0 by ring.
  assert (E : par_s (barker_W 1 0) = 0). { apply barker_unique. rewrite par_s_barker. unfold barker_W, Rdiv. ring. }
  rewrite E, atan_0. f_equal; ring.
Qed.
Lemma NP_example : NP_AnomalyDistance 0 (mkNP 2450000 1 (99 / 100)) 2450000 = Value (0, 1).
Proof.
  unfold NP_AnomalyDistance. cbv zeta. cbn [n_TimeP n_PDis n_Ecc]. destruct (Req_EM_T (2450000 - 2450000) 0); [reflexivity|lra].
Qed.
Lemma True_example : cos (PI / 2 / 2) <> 0 /\ Radius (PI / 2) (1 / 2) 2 = 2.
Proof.
  split. - pose proof PI_RGT_0. pose proof (cos_gt_0 (PI / 2 / 2) ltac:(lra) ltac:(lra)). lra.
  - unfold Radius. rewrite cos_PI2. field.
Qed.
