(** The near-parabolic iteration converges near the parabola. *)
From Coq Require Import ZArith Reals Bool Lra Lia Psatz.
From Verif Require Import GoFloat GoMath S_base S_kepler S_conic M_kepler M_orbit L_trig L_kepler L_orbit L_nearpar.
Local Open Scope R_scope.

(** ** The remainder of the series for |g| s^2 <= 1/20 *)
Lemma kern_rem20 g N u : (2 <= N)%nat -> Rabs g <= 1 / 3 -> Rabs g * (u * u) <= 1 / 20 ->
  Rabs (kern g u - dser g N u) <= 1 * (Rabs g) ^ N * ((2 * INR N + 3) * ((u * u) ^ N * (u * u))).
Proof.
  intros HN Hg Hx. pose proof (dser_closed g N u) as D. cbv zeta in D.
  set (x := - g * (u * u)) in *. assert (Ux : 0 <= u * u) by nra.
  assert (Ax : Rabs x = Rabs g * (u * u)) by (unfold x; rewrite Rabs_mult, Rabs_Ropp, (Rabs_right (u * u)); lra).
  assert (Bx : Rabs x <= 1 / 20) by lra.
  assert (X1 : - (1 / 20) <= x <= 1 / 20) by (revert Bx; unfold Rabs; destruct Rcase_abs; lra).
  assert (Q : 9 / 10 <= (1 - x) * (1 - x)) by nra.
  assert (E : kern g u - dser g N u = x ^ N * ((INR N + 2) * x - (INR N + 1) * (x * x) + u * u * ((INR N + 1) - INR N * x)) / ((1 - x) * (1 - x))).
  { unfold kern. replace (1 + g * (u * u)) with (1 - x) by (unfold x; ring).
    apply Rmult_eq_reg_r with ((1 - x) * (1 - x)); [|lra].
    transitivity ((1 + u * u) - (1 - x) * (1 - x) * dser g N u); [field; nra|]. rewrite D. field. nra. }
  rewrite E. clear E D. unfold Rdiv. rewrite !Rabs_mult.
  rewrite (Rabs_right (/ _)); [|apply Rle_ge, Rlt_le, Rinv_0_lt_compat; lra].
  rewrite <- RPow_abs, Ax, Rpow_mult_distr.
  assert (HI : 2 <= INR N) by (apply (le_INR 2), HN). set (n := INR N) in *.
  assert (IQ : / ((1 - x) * (1 - x)) <= 10 / 9).
  { replace (10 / 9) with (/ (9 / 10)) by field. apply Rinv_le_contravar; lra. }
  assert (IQ0 : 0 < / ((1 - x) * (1 - x))) by (apply Rinv_0_lt_compat; lra).
  assert (B : Rabs ((n + 2) * x - (n + 1) * (x * x) + u * u * (n + 1 - n * x)) <= (u * u) * (9 / 10 * (2 * n + 3))).
  { assert (G1 : - (1 / 3) <= g <= 1 / 3) by (revert Hg; unfold Rabs; destruct Rcase_abs; lra).
    replace ((n + 2) * x - (n + 1) * (x * x) + u * u * (n + 1 - n * x)) with
      (u * u * (- g * (n + 2) + g * (n + 1) * x + (n + 1) - n * x)) by (unfold x; ring).
    rewrite Rabs_mult, (Rabs_right (u * u)) by lra. apply Rmult_le_compat_l; [lra|].
    assert (GX : - (1 / 60) <= g * x <= 1 / 60) by (clear - G1 X1; split; nra).
    replace (- g * (n + 2) + g * (n + 1) * x + (n + 1) - n * x) with ((- g * (n + 2)) + (n + 1) * (g * x) + (n + 1) - n * x) by ring.
    assert (- (1 / 3) * (n + 2) <= - g * (n + 2) <= 1 / 3 * (n + 2)) by (clear - G1 HI; split; nra).
    assert (- (1 / 60) * (n + 1) <= (n + 1) * (g * x) <= 1 / 60 * (n + 1)) by (clear - GX HI; split; nra).
    assert (- (1 / 20) * n <= n * x <= 1 / 20 * n) by (clear - X1 HI; split; nra).
    apply Rabs_le. lra. }
  assert (P0 : 0 <= Rabs g ^ N * (u * u) ^ N) by (apply Rmult_le_pos; apply pow_le; [apply Rabs_pos|lra]).
  set (A := Rabs g ^ N * (u * u) ^ N) in *.
  replace (1 * Rabs g ^ N * ((2 * n + 3) * ((u * u) ^ N * (u * u)))) with (A * ((2 * n + 3) * (u * u))) by (unfold A; ring).
  rewrite Rmult_assoc. apply Rmult_le_compat_l; [exact P0|].
  apply Rle_trans with ((u * u) * (9 / 10 * (2 * n + 3)) * (10 / 9)).
  - apply Rmult_le_compat; [apply Rabs_pos|lra|exact B|exact IQ].
  - lra.
Qed.

Lemma rem_pos20 g N w S0 : (2 <= N)%nat -> Rabs g <= 1 / 3 -> 0 <= S0 -> Rabs g * (S0 * S0) <= 1 / 20 ->
  w 0 = 0 -> (forall u, 0 <= u <= S0 -> derivable_pt_lim w u (kern g u)) ->
  Rabs (w S0 - ser g N S0) <= 1 * (Rabs g) ^ N * ((S0 * S0) ^ N * (S0 * S0 * S0)).
Proof.
  intros HN Hg H0 Hx W0 WD. pose proof (Rabs_pos g) as Pg.
  assert (Z : ser g N 0 = 0). { clear. induction N as [|m IH]; [reflexivity|]. cbn [ser]. rewrite IH. ring. }
  set (G := fun u => 1 * (Rabs g) ^ N * ((- (-1) * (u * u)) ^ N * (u * u * u))).
  assert (GD : forall u, derivable_pt_lim G u (1 * (Rabs g) ^ N * ((2 * INR N + 3) * ((u * u) ^ N * (u * u))))).
  { intros u. apply (dlim_eq _ _ (1 * (Rabs g) ^ N * ((2 * INR N + 3) * ((- (-1) * (u * u)) ^ N * (u * u))))).
    - apply (derivable_pt_lim_scal (fun u => (- (-1) * (u * u)) ^ N * (u * u * u))). apply term_deriv.
    - replace (- (-1) * (u * u)) with (u * u) by ring. reflexivity. }
  assert (GS : G S0 = 1 * (Rabs g) ^ N * ((S0 * S0) ^ N * (S0 * S0 * S0))).
  { unfold G. replace (- (-1) * (S0 * S0)) with (S0 * S0) by ring. reflexivity. }
  rewrite <- GS.
  assert (G0 : G 0 = 0) by (unfold G; ring).
  assert (KR : forall u, 0 <= u <= S0 -> Rabs (kern g u - dser g N u) <= 1 * (Rabs g) ^ N * ((2 * INR N + 3) * ((u * u) ^ N * (u * u)))).
  { intros u Hu. apply kern_rem20; [exact HN|exact Hg|]. assert (u * u <= S0 * S0) by (clear - Hu; nra).
    apply Rle_trans with (Rabs g * (S0 * S0)); [apply Rmult_le_compat_l; lra|exact Hx]. }
  assert (A1 : 0 <= (fun u => G u - (w u - ser g N u)) S0).
  { apply (nonneg_from (fun u => G u - (w u - ser g N u)) (fun u => 1 * (Rabs g) ^ N * ((2 * INR N + 3) * ((u * u) ^ N * (u * u))) - (kern g u - dser g N u))).
    - exact H0. - rewrite G0, W0, Z. ring.
    - intros u Hu. apply (derivable_pt_lim_minus G (fun u => w u - ser g N u)); [apply GD|].
      apply (derivable_pt_lim_minus w (ser g N)); [apply WD, Hu|apply ser_deriv].
    - intros u Hu. specialize (KR u Hu). pose proof (Rle_abs (kern g u - dser g N u)). lra. }
  assert (A2 : 0 <= (fun u => G u + (w u - ser g N u)) S0).
  { apply (nonneg_from (fun u => G u + (w u - ser g N u)) (fun u => 1 * (Rabs g) ^ N * ((2 * INR N + 3) * ((u * u) ^ N * (u * u))) + (kern g u - dser g N u))).
    - exact H0. - rewrite G0, W0, Z. ring.
    - intros u Hu. apply (derivable_pt_lim_plus G (fun u => w u - ser g N u)); [apply GD|].
      apply (derivable_pt_lim_minus w (ser g N)); [apply WD, Hu|apply ser_deriv].
    - intros u Hu. specialize (KR u Hu). pose proof (Rle_abs (- (kern g u - dser g N u))) as Y. rewrite Rabs_Ropp in Y. lra. }
  cbv beta in A1, A2. apply Rabs_le. lra.
Qed.

(** Both signs. *)
Lemma rem_any20 g N w s : (2 <= N)%nat -> Rabs g <= 1 / 3 -> Rabs g * (s * s) <= 1 / 20 ->
  w 0 = 0 -> (forall u, u * u <= s * s -> derivable_pt_lim w u (kern g u)) ->
  Rabs (w s - ser g N s) <= 1 * (Rabs g) ^ N * ((s * s) ^ N * (s * s * Rabs s)).
Proof.
  intros HN Hg Hx W0 WD. destruct (Rle_dec 0 s) as [P|P].
  - rewrite (Rabs_right s) by lra. apply rem_pos20; try assumption. intros u Hu. apply WD. nra.
  - rewrite (Rabs_left s) by lra.
    pose proof (rem_pos20 g N (fun u => - w (- u)) (- s) HN Hg ltac:(lra)) as H. cbv beta in H.
    rewrite ser_odd, Ropp_involutive in H. replace (- s * - s) with (s * s) in H by ring.
    replace (- w s - - ser g N s) with (- (w s - ser g N s)) in H by ring. rewrite Rabs_Ropp in H.
    apply H; [exact Hx|rewrite Ropp_0, W0; ring|].
    intros u Hu. apply (dlim_eq _ _ (- (kern g (- u) * (-1)))).
    + apply (derivable_pt_lim_opp (fun u => w (- u))).
      apply (derivable_pt_lim_comp (fun u => - u) w).
      * apply (derivable_pt_lim_opp (fun u => u)). apply derivable_pt_lim_id.
      * apply WD. nra.
    + unfold kern. replace (- u * - u) with (u * u) by ring. ring.
Qed.


(** ** The series loop ends with a value *)
Lemma zc_range g n : Rabs g <= 1 / 3 -> (2 <= n)%nat -> 0 <= zc g n <= 1.
Proof.
  intros Hg Hn. pose proof (zc_bound g n Hg Hn). split; [lra|].
  assert (G : - g <= 1 / 3) by (pose proof (Rle_abs (- g)) as Y; rewrite Rabs_Ropp in Y; lra).
  assert (HI : 2 <= INR n) by (apply (le_INR 2), Hn). unfold zc.
  apply Rmult_le_reg_r with (2 * INR n + 1); [lra|]. unfold Rdiv. rewrite Rmult_assoc, Rinv_l, Rmult_1_r by lra. nra.
Qed.

Lemma pow_small x n : 0 <= x <= 1 / 20 -> (1 <= n)%nat -> 0 <= x ^ n <= 1 / 20.
Proof.
  intros Hx Hn. destruct n as [|n]; [lia|]. split; [apply pow_le; lra|]. simpl.
  assert (0 <= x ^ n <= 1). { split; [apply pow_le; lra|]. rewrite <- (pow1 n). apply pow_incr. lra. }
  nra.
Qed.

Definition region (g s : R) : Prop := Rabs g * (s * s) <= 1 / 20 /\ Rabs s <= 50.

Lemma term_size g s n m : region g s -> Rabs g <= 1 / 3 -> (2 <= m)%nat -> (1 <= n)%nat ->
  Rabs (zc g m * - ((- g * (s * s)) ^ n * (s * s * s))) <= (Rabs g * (s * s)) ^ n * 125000.
Proof.
  intros [R1 R2] Hg Hm Hn. pose proof (zc_range g m Hg Hm) as Z. pose proof (Rabs_pos g) as Pg. pose proof (Rabs_pos s) as Ps.
  rewrite Rabs_mult, Rabs_Ropp, Rabs_mult, <- RPow_abs, (Rabs_right (zc g m)) by lra.
  rewrite (Rabs_mult (- g)), Rabs_Ropp, (Rabs_right (s * s)) by nra.
  assert (P : 0 <= (Rabs g * (s * s)) ^ n) by (apply pow_le; nra). set (A := (Rabs g * (s * s)) ^ n) in *.
  assert (C : 0 <= Rabs (s * s * s) <= 125000).
  { split; [apply Rabs_pos|]. rewrite !Rabs_mult. set (a := Rabs s) in *. clearbody a. assert (0 <= a * a <= 2500) by nra. nra. }
  set (c := Rabs (s * s * s)) in *. clearbody A c. set (z := zc g m) in *. clearbody z.
  assert (0 <= A * c <= A * 125000) by (split; nra). nra.
Qed.

Lemma series_returns g s : Rabs g <= 1 / 3 -> region g s -> forall k n fuel g1 q3, (n + k = 20)%nat -> (k < fuel)%nat ->
  g1 = - ((- g * (s * s)) ^ n * (s * s * s)) -> exists v, NP_series g (s * s) (Z.of_nat (S n)) g1 q3 fuel = Value v.
Proof.
  intros Hg HR. assert (X : 0 <= Rabs g * (s * s) <= 1 / 20) by (destruct HR; split; [pose proof (Rabs_pos g); nra|lra]).
  induction k as [|k IH]; intros n fuel g1 q3 Hn Hf G; (destruct fuel as [|fuel]; [lia|]);
  cbn [NP_series]; cbv zeta;
  (replace (Z.of_nat (S n) + 1)%Z with (Z.of_nat (S (S n))) by lia); rewrite !IZR_nat;
  (replace (- g1 * g * (s * s)) with (- ((- g * (s * s)) ^ S n * (s * s * s))) by (rewrite G; simpl; ring));
  fold (zc g (S (S n)));
  pose proof (term_size g s (S n) (S (S n)) HR Hg ltac:(lia) ltac:(lia)) as T;
  pose proof (pow_small _ (S n) X ltac:(lia)) as PS;
  (assert (E5 : (50 <? Z.of_nat (S (S n)))%Z = false) by (apply Z.ltb_ge; lia)); rewrite E5; cbn [orb];
  (destruct Rlt_dec as [L|L]; [exfalso; lra|]); destruct Rle_dec as [L2|L2]; try (eexists; reflexivity).
  - exfalso. apply L2. apply Rle_trans with (1 := T). replace n with 20%nat by lia.
    apply Rle_trans with ((1 / 20) ^ 21 * 125000).
    + apply Rmult_le_compat_r; [lra|]. apply pow_incr. exact X.
    + simpl. lra.
  - apply (IH (S n)); [lia|lia|reflexivity].
Qed.

Definition P3 (s : R) : R := s + s * s * s / 3.

Lemma P3_diff a b : Rabs (a - b) <= Rabs (P3 a - P3 b).
Proof.
  replace (P3 a - P3 b) with ((a - b) * (1 + (a * a + a * b + b * b) / 3)) by (unfold P3; field).
  assert (F : 1 <= 1 + (a * a + a * b + b * b) / 3) by nra. rewrite Rabs_mult, (Rabs_right (1 + _)) by lra.
  pose proof (Rabs_pos (a - b)). nra.
Qed.

Lemma P3_abs s : Rabs (P3 s) = P3 (Rabs s).
Proof.
  unfold P3. replace (s + s * s * s / 3) with (s * (1 + s * s / 3)) by field. rewrite Rabs_mult, (Rabs_right (1 + _)) by nra.
  replace (s * s) with (Rabs s * Rabs s) by (rewrite <- Rabs_mult; apply Rabs_right; nra). field.
Qed.

Lemma newton_residual2 q3 s s1 : s = NP_newton q3 s1 -> Rabs (s - s1) <= 1 / 1000000000 -> Rabs s <= 100 ->
  Rabs (P3 s - q3) <= 1 / 1000000000000.
Proof.
  intros E L HS. assert (P : 0 < s1 * s1 + 1) by nra.
  assert (E1 : s * (s1 * s1 + 1) = 2 * s1 * s1 * s1 / 3 + q3) by (rewrite E; unfold NP_newton; field; lra).
  set (d := s - s1) in *. assert (D : s1 = s - d) by (unfold d; ring). clearbody d. subst s1.
  assert (R : P3 s - q3 = d * d * (s - 2 * d / 3)).
  { unfold P3. replace q3 with (s * ((s - d) * (s - d) + 1) - 2 * (s - d) * (s - d) * (s - d) / 3) by lra. field. }
  rewrite R. clear - L HS. assert (B : - (1 / 1000000000) <= d <= 1 / 1000000000) by (revert L; unfold Rabs; destruct Rcase_abs; lra).
  assert (DD : 0 <= d * d <= 1 / 1000000000000000000) by (split; nra).
  assert (BS : - 100 <= s <= 100) by (revert HS; unfold Rabs; destruct Rcase_abs; lra).
  assert (S1 : - 101 <= s - 2 * d / 3 <= 101) by lra.
  set (m := s - 2 * d / 3) in *. set (k := d * d) in *. clearbody m k. apply Rabs_le. split; nra.
Qed.

(** ** Contraction *)
Section Contract.
Variables (g q2 : R) (w : R -> R).
Hypothesis Hg : Rabs g <= 1 / 3.
Hypothesis W0 : w 0 = 0.
Hypothesis WD : forall u, 0 < 1 + g * (u * u) -> derivable_pt_lim w u (kern g u).

Lemma P3_deriv u : derivable_pt_lim P3 u (1 + u * u).
Proof.
  apply (dlim_eq _ _ (dser 0 1 u)); [|simpl; ring].
  apply (derivable_pt_lim_ext (ser 0 1)); [intros z; unfold P3; simpl; unfold zc; simpl; field|]. apply ser_deriv.
Qed.

Lemma kern_near u : Rabs g * (u * u) <= 1 / 20 -> 0 < 1 + g * (u * u) /\ Rabs (1 + u * u - kern g u) <= 11 / 100 * (1 + u * u).
Proof.
  intros H. assert (Q : 0 <= u * u) by nra.
  assert (X : - (1 / 20) <= g * (u * u) <= 1 / 20).
  { pose proof (Rle_abs (- g)) as Y. rewrite Rabs_Ropp in Y. pose proof (Rle_abs g). split; nra. }
  split; [lra|]. unfold kern. set (x := g * (u * u)) in *. clearbody x.
  replace (1 + u * u - (1 + u * u) / ((1 + x) * (1 + x))) with ((1 + u * u) * (1 - / ((1 + x) * (1 + x)))) by (field; lra).
  rewrite Rabs_mult, (Rabs_right (1 + u * u)), Rmult_comm by lra. apply Rmult_le_compat_r; [lra|].
  assert (Y : 9025 / 10000 <= (1 + x) * (1 + x) <= 11025 / 10000) by (split; nra). set (y := (1 + x) * (1 + x)) in *. clearbody y.
  assert (/ y <= / (9025 / 10000)) by (apply Rinv_le_contravar; lra).
  assert (/ (11025 / 10000) <= / y) by (apply Rinv_le_contravar; lra).
  apply Rabs_le. lra.
Qed.

Lemma contract_lt a b : a < b -> region g a -> region g b ->
  Rabs ((P3 b - w b) - (P3 a - w a)) <= 11 / 100 * (P3 b - P3 a).
Proof.
  intros Hab [Ra _] [Rb _]. pose proof (Rabs_pos g) as Pg.
  assert (IN : forall c, a <= c <= b -> Rabs g * (c * c) <= 1 / 20).
  { intros c Hc. destruct (Rle_dec 0 c) as [C|C].
    - assert (c * c <= b * b) by (clear - C Hc; nra). apply Rle_trans with (2 := Rb). apply Rmult_le_compat_l; assumption.
    - assert (c * c <= a * a) by (clear - C Hc; nra). apply Rle_trans with (2 := Ra). apply Rmult_le_compat_l; assumption. }
  assert (DD : forall c, a <= c <= b -> derivable_pt_lim (fun u => P3 u - w u) c (1 + c * c - kern g c)).
  { intros c Hc. apply (derivable_pt_lim_minus P3 w); [apply P3_deriv|]. apply WD. apply kern_near, IN, Hc. }
  assert (D1 : forall c, a <= c <= b -> derivable_pt_lim (fun u => 11 / 100 * P3 u - (P3 u - w u)) c (11 / 100 * (1 + c * c) - (1 + c * c - kern g c))).
  { intros c Hc. apply (derivable_pt_lim_minus (fun u => 11 / 100 * P3 u) (fun u => P3 u - w u)); [|apply DD, Hc].
    apply (derivable_pt_lim_scal P3). apply P3_deriv. }
  assert (D2 : forall c, a <= c <= b -> derivable_pt_lim (fun u => 11 / 100 * P3 u + (P3 u - w u)) c (11 / 100 * (1 + c * c) + (1 + c * c - kern g c))).
  { intros c Hc. apply (derivable_pt_lim_plus (fun u => 11 / 100 * P3 u) (fun u => P3 u - w u)); [|apply DD, Hc].
    apply (derivable_pt_lim_scal P3). apply P3_deriv. }
  destruct (MVT_cor2 _ _ a b Hab D1) as [c1 [E1 C1]]. destruct (MVT_cor2 _ _ a b Hab D2) as [c2 [E2 C2]].
  destruct (kern_near c1 (IN c1 ltac:(lra))) as [_ K1]. destruct (kern_near c2 (IN c2 ltac:(lra))) as [_ K2].
  assert (N1 : 0 <= 11 / 100 * (1 + c1 * c1) - (1 + c1 * c1 - kern g c1)) by (pose proof (Rle_abs (1 + c1 * c1 - kern g c1)); lra).
  assert (N2 : 0 <= 11 / 100 * (1 + c2 * c2) + (1 + c2 * c2 - kern g c2)).
  { pose proof (Rle_abs (- (1 + c2 * c2 - kern g c2))) as Y. rewrite Rabs_Ropp in Y. lra. }
  assert (M1 : 0 <= (11 / 100 * (1 + c1 * c1) - (1 + c1 * c1 - kern g c1)) * (b - a)) by (apply Rmult_le_pos; lra).
  assert (M2 : 0 <= (11 / 100 * (1 + c2 * c2) + (1 + c2 * c2 - kern g c2)) * (b - a)) by (apply Rmult_le_pos; lra).
  rewrite <- E1 in M1. rewrite <- E2 in M2. apply Rabs_le. lra.
Qed.

Lemma contract a b : region g a -> region g b ->
  Rabs ((P3 b - w b) - (P3 a - w a)) <= 11 / 100 * Rabs (P3 b - P3 a).
Proof.
  intros Ra Rb. destruct (total_order_T a b) as [[H|H]|H].
  - pose proof (contract_lt a b H Ra Rb). pose proof (Rle_abs (P3 b - P3 a)). lra.
  - subst b. replace (P3 a - w a - (P3 a - w a)) with 0 by ring. rewrite Rminus_diag_eq, Rabs_R0 by reflexivity. lra.
  - pose proof (contract_lt b a H Rb Ra) as C. rewrite <- Rabs_Ropp, (Rabs_minus_sym (P3 b)).
    replace (- (P3 b - w b - (P3 a - w a))) with (P3 a - w a - (P3 b - w b)) by ring. pose proof (Rle_abs (P3 a - P3 b)). lra.
Qed.

Lemma region_0 : region g 0.
Proof. split; [rewrite Rmult_0_l, Rmult_0_r; lra|rewrite Rabs_R0; lra]. Qed.

Lemma contract0 a : region g a -> Rabs (P3 a - w a) <= 11 / 100 * Rabs (P3 a).
Proof.
  intros Ra. pose proof (contract 0 a region_0 Ra) as H. rewrite W0 in H. replace (P3 0) with 0 in H by (unfold P3; field).
  rewrite !Rminus_0_r in H. exact H.
Qed.

(** One pass of the series. *)
Lemma series_close s q3 : region g s ->
  NP_series g (s * s) 1 (- (s * s) * s) (q2 + 2 * g * s * (s * s) / 3) 50 = Value q3 ->
  Rabs (q3 - (q2 + P3 s - w s)) <= 1 / 4000000000.
Proof.
  intros [R1 R2] HS. pose proof (Rabs_pos g) as Pg. assert (Q0 : 0 <= s * s) by nra.
  assert (I0 : - (s * s) * s = - ((- g * (s * s)) ^ 0 * (s * s * s))) by (simpl; ring).
  destruct (series_value g s 50 0 _ _ _ HS I0) as [N [N1 [N2 [N3 N4]]]].
  destruct (series_tail g s N Hg N1 N2 N4) as [_ T2]. clear N4 HS.
  assert (N3' : q3 = q2 + P3 s - ser g (S N) s).
  { rewrite N3. unfold P3. replace (ser g 1 s) with (s + (1 - 2 * g) / 3 * (s * s * s)) by (unfold ser, zc; simpl; field). field. }
  rewrite N3'. replace (q2 + P3 s - ser g (S N) s - (q2 + P3 s - w s)) with (w s - ser g (S N) s) by ring.
  apply Rle_trans with (1 * (Rabs g) ^ (S N) * ((s * s) ^ (S N) * (s * s * Rabs s))).
  - apply rem_any20; [lia|exact Hg|exact R1|exact W0|]. intros u Hu. apply WD. apply kern_near. nra.
  - replace (1 * Rabs g ^ S N * ((s * s) ^ S N * (s * s * Rabs s))) with
      ((Rabs g * (s * s)) * ((Rabs g * (s * s)) ^ N * (s * s * Rabs s))) by (rewrite Rpow_mult_distr; simpl; ring).
    set (B := (Rabs g * (s * s)) ^ N * (s * s * Rabs s)) in *.
    assert (0 <= B). { unfold B. apply Rmult_le_pos; [apply pow_le; nra|pose proof (Rabs_pos s); nra]. }
    set (x := Rabs g * (s * s)) in *. assert (0 <= x) by (unfold x; nra). clearbody B x. nra.
Qed.

(** ** The outer loop *)
Variable b0 : R.
Hypothesis B0 : P3 b0 = q2.
Hypothesis B1 : Rabs b0 <= 44.
Hypothesis B2 : Rabs g * (b0 * b0) <= 1 / 27.

Definition inv (s : R) : Prop := Rabs (P3 s) <= 113 / 100 * Rabs q2 + 1 / 1000000000.

Lemma q2_size : Rabs q2 <= 29000.
Proof.
  rewrite <- B0, P3_abs. pose proof (Rabs_pos b0). unfold P3. set (b := Rabs b0) in *. clearbody b.
  assert (b * b <= 1936) by nra. assert (b * b * b <= 85184) by nra. lra.
Qed.

Lemma inv_region s : inv s -> region g s.
Proof.
  unfold inv. rewrite <- B0, !P3_abs. intros H. pose proof (Rabs_pos s) as Ps. pose proof (Rabs_pos b0) as Pb. pose proof (Rabs_pos g) as Pg.
  assert (SS : s * s = Rabs s * Rabs s) by (rewrite <- Rabs_mult; symmetry; apply Rabs_right; nra).
  assert (SB : b0 * b0 = Rabs b0 * Rabs b0) by (rewrite <- Rabs_mult; symmetry; apply Rabs_right; nra).
  unfold region. rewrite SS. rewrite SB in B2. clear SS SB B0 WD W0. set (a := Rabs s) in *. set (b := Rabs b0) in *. set (h := Rabs g) in *. clearbody a b h.
  assert (A : a <= 113 / 100 * b + 1 / 1000000000).
  { destruct (Rle_dec a (113 / 100 * b + 1 / 1000000000)) as [L|L]; [exact L|exfalso].
    set (c := 113 / 100 * b) in *. assert (C0 : 0 <= c) by (unfold c; lra).
    assert (CC : c * c * c <= a * a * a).
    { assert (c * c <= a * a) by nra. assert (0 <= c * c) by nra. nra. }
    assert (BC : 113 / 100 * (b * b * b) <= c * c * c).
    { unfold c. assert (0 <= b * b * b) by (assert (0 <= b * b) by nra; nra).
      replace (113 / 100 * b * (113 / 100 * b) * (113 / 100 * b)) with (113 * 113 * 113 / 1000000 * (b * b * b)) by field. nra. }
    assert (EC : c = 113 / 100 * b) by reflexivity. clearbody c. unfold P3 in H. lra. }
  split; [|lra].
  assert (A2 : a * a <= 12769 / 10000 * (b * b) + 1 / 1000000) by nra.
  apply Rle_trans with (h * (12769 / 10000 * (b * b) + 1 / 1000000)); [apply Rmult_le_compat_l; assumption|].
  replace (h * (12769 / 10000 * (b * b) + 1 / 1000000)) with (12769 / 10000 * (h * (b * b)) + 1 / 1000000 * h) by ring. lra.
Qed.

Lemma round_close s q3 s' fN : inv s ->
  NP_series g (s * s) 1 (- (s * s) * s) (q2 + 2 * g * s * (s * s) / 3) 50 = Value q3 ->
  NP_newton_loop q3 s fN = Value s' -> Rabs (P3 s' - (q2 + P3 s - w s)) <= 26 / 100000000000.
Proof.
  intros HI HS HN. pose proof (inv_region s HI) as HR. pose proof (series_close s q3 HR HS) as SC.
  destruct (newton_value _ _ _ _ HN) as [s1 [E1 L1]].
  pose proof (newton_residual _ _ _ E1 L1) as R1. pose proof q2_size as Q2. pose proof (contract0 s HR) as C0. unfold inv in HI.
  assert (Q3 : Rabs q3 <= 40000).
  { replace q3 with ((q3 - (q2 + P3 s - w s)) + q2 + (P3 s - w s)) by ring.
    eapply Rle_trans; [apply Rabs_triang|]. eapply Rle_trans; [apply Rplus_le_compat_r, Rabs_triang|]. lra. }
  assert (S1 : Rabs s' <= 100).
  { destruct (Rle_dec (Rabs s') 100) as [L|L]; [exact L|exfalso].
    change (s' + s' * s' * s' / 3) with (P3 s') in R1.
    assert (X : Rabs (P3 s') <= 1 / 1000000000000 * (1 + s' * s') + Rabs q3).
    { replace (P3 s') with ((P3 s' - q3) + q3) by ring. eapply Rle_trans; [apply Rabs_triang|]. lra. }
    rewrite P3_abs in X. replace (s' * s') with (Rabs s' * Rabs s') in X by (rewrite <- Rabs_mult; apply Rabs_right; nra).
    unfold P3 in X. set (a := Rabs s') in *. clearbody a. clear - X L Q3. assert (10000 <= a * a) by nra. set (y := a * a) in *. clearbody y.
    assert (100 * y <= y * a) by nra. lra. }
  pose proof (newton_residual2 _ _ _ E1 L1 S1) as R2.
  replace (P3 s' - (q2 + P3 s - w s)) with ((P3 s' - q3) + (q3 - (q2 + P3 s - w s))) by ring.
  eapply Rle_trans; [apply Rabs_triang|]. lra.
Qed.

Lemma round_step s s' E : inv s -> Rabs (w s - q2) <= E -> Rabs (P3 s' - (q2 + P3 s - w s)) <= 26 / 100000000000 ->
  inv s' /\ Rabs (s' - s) <= E + 26 / 100000000000 /\ Rabs (w s' - q2) <= 11 / 100 * E + 29 / 100000000000.
Proof.
  intros HI HE HC. pose proof (inv_region s HI) as HR. pose proof (contract0 s HR) as C0.
  assert (I' : inv s').
  { unfold inv in *. replace (P3 s') with ((P3 s' - (q2 + P3 s - w s)) + q2 + (P3 s - w s)) by ring.
    eapply Rle_trans; [apply Rabs_triang|]. eapply Rle_trans; [apply Rplus_le_compat_r, Rabs_triang|]. pose proof (Rabs_pos q2). lra. }
  assert (D : Rabs (P3 s' - P3 s) <= E + 26 / 100000000000).
  { replace (P3 s' - P3 s) with ((P3 s' - (q2 + P3 s - w s)) + - (w s - q2)) by ring.
    eapply Rle_trans; [apply Rabs_triang|]. rewrite Rabs_Ropp. lra. }
  split; [exact I'|]. split; [pose proof (P3_diff s' s); lra|].
  pose proof (contract s s' HR (inv_region s' I')) as C.
  replace (w s' - q2) with ((P3 s' - (q2 + P3 s - w s)) + - (P3 s' - w s' - (P3 s - w s))) by ring.
  eapply Rle_trans; [apply Rabs_triang|]. rewrite Rabs_Ropp. lra.
Qed.

Lemma newton_no_error q3 fuel : forall s, NP_newton_loop q3 s fuel <> NoConvergence.
Proof.
  induction fuel as [|fuel IH]; intros s; [discriminate|]. cbn [NP_newton_loop]. cbv zeta. destruct Rle_dec; [discriminate|apply IH].
Qed.

Lemma outer_returns fN : forall m s l fuel, inv s -> Rabs (w s - q2) <= 7 / 10000000000 * 5 ^ m ->
  (0 <= l)%Z -> (l + Z.of_nat m < 50)%Z -> (m < fuel)%nat -> NP_outer g q2 s l fN fuel <> OutOfFuel ->
  exists r, NP_outer g q2 s l fN fuel = Value r.
Proof.
  induction m as [|m IH]; intros s l fuel HI HE Hl Hm Hf HO; (destruct fuel as [|fuel]; [lia|]);
  cbn [NP_outer] in HO |- *; cbv zeta in HO |- *;
  pose proof (inv_region s HI) as HR;
  destruct (series_returns g s Hg HR 20 0 50 (- (s * s) * s) (q2 + 2 * g * s * (s * s) / 3) ltac:(lia) ltac:(lia) ltac:(simpl; ring)) as [q3 HS];
  change (Z.of_nat 1) with 1%Z in HS; rewrite HS in HO |- *;
  (assert (L5 : (50 <? l + 1)%Z = false) by (apply Z.ltb_ge; lia)); rewrite L5 in HO |- *;
  (destruct (NP_newton_loop q3 s fN) as [s'| |] eqn:HN; [|destruct (newton_no_error _ _ _ HN)|destruct (HO eq_refl)]);
  destruct (round_step s s' _ HI HE (round_close s q3 s' fN HI HS HN)) as [I' [DS E']];
  (destruct Rle_dec as [L|L]; [eexists; reflexivity|]).
  - exfalso. apply L. simpl in DS. lra.
  - apply IH; [exact I'| |lia|lia|lia|exact HO].
    apply Rle_trans with (1 := E'). simpl.
    assert (1 <= 5 ^ m) by (apply pow_R1_Rle; lra). lra.
Qed.

Lemma outer_from_start fN : NP_outer g q2 b0 0 fN 51 <> OutOfFuel -> exists r, NP_outer g q2 b0 0 fN 51 = Value r.
Proof.
  assert (I0 : inv b0) by (unfold inv; rewrite B0; pose proof (Rabs_pos q2); lra).
  apply (outer_returns fN 20); [exact I0| |lia|lia|lia].
  pose proof (contract0 b0 (inv_region b0 I0)) as C. rewrite B0, Rabs_minus_sym in C. pose proof q2_size.
  apply Rle_trans with (1 := C). simpl. lra.
Qed.
End Contract.

Lemma barker_unique a b : P3 a = P3 b -> a = b.
Proof.
  intros H. pose proof (P3_diff a b) as D. rewrite H, (Rminus_diag_eq (P3 b) (P3 b) eq_refl), Rabs_R0 in D.
  destruct (Req_dec (a - b) 0) as [X|X]; [lra|]. apply Rabs_pos_lt in X. lra.
Qed.

Lemma NP_converges el jde s0 : let q := n_PDis el in let e := n_Ecc el in 0 < q -> 1 / 2 <= e <= 2 ->
  s0 + s0 * s0 * s0 / 3 = K * sqrt ((1 + e) / q) / (2 * q) * (jde - n_TimeP el) ->
  Rabs s0 <= 44 -> Rabs ((1 - e) / (1 + e)) * (s0 * s0) <= 1 / 27 ->
  exists N, forall m, exists v r, NP_AnomalyDistance (N + m) el jde = Value (v, r).
Proof.
  destruct el as [T q e]. cbn [n_PDis n_Ecc n_TimeP]. cbv zeta. intros Hq He HB S1 S2.
  destruct (NP_ends (mkNP T q e) jde) as [N HN]. exists N. intros m. specialize (HN m).
  unfold NP_AnomalyDistance in HN |- *. cbn [n_PDis n_Ecc n_TimeP] in HN |- *. cbv zeta in HN |- *.
  set (q1 := K * sqrt ((1 + e) / q) / (2 * q)) in *. set (g := (1 - e) / (1 + e)) in *. set (t := jde - T) in *.
  destruct (Req_EM_T t 0) as [E0|E0]; [eexists; eexists; reflexivity|].
  destruct (Req_EM_T e 1) as [E1|E1]; [eexists; eexists; reflexivity|].
  assert (P1 : 0 < q1).
  { unfold q1. apply Rdiv_lt_0_compat; [|lra]. apply Rmult_lt_0_compat; [unfold K; lra|]. apply sqrt_lt_R0, Rdiv_lt_0_compat; lra. }
  assert (Q2 : q1 * t <> 0) by (apply Rmult_integral_contrapositive_currified; lra).
  assert (ST : (if Rlt_dec t 0 then - NP_start (q1 * t) else NP_start (q1 * t)) = s0).
  { apply barker_unique. unfold P3. rewrite HB. pose proof (NP_start_barker _ Q2) as BK. clear - BK P1 E0. destruct Rlt_dec as [L|L].
    - rewrite (Rabs_left (q1 * t)) in BK by nra. lra.
    - rewrite (Rabs_right (q1 * t)) in BK by nra. lra. }
  rewrite ST in HN |- *.
  assert (Hg : Rabs g <= 1 / 3).
  { unfold g. apply Rabs_le. split; apply Rmult_le_reg_r with (1 + e); try lra; unfold Rdiv at 2; try rewrite Rmult_assoc, Rinv_l, Rmult_1_r by lra; try lra.
    unfold Rdiv at 1. rewrite Rmult_assoc, Rinv_l by lra. lra. }
  destruct (kern_primitive g) as [w [W0 WD]].
  destruct (outer_from_start g (q1 * t) w Hg W0 WD s0 HB S1 S2 (N + m)) as [r HV].
  - intros X. rewrite X in HN. apply HN. reflexivity.
  - rewrite HV. eexists. eexists. reflexivity.
Qed.

Lemma NP_converges_example : exists jde, 10 < jde /\ 1 + 1 * 1 * 1 / 3 = K * sqrt ((1 + 98 / 100) / 1) / (2 * 1) * (jde - 0) /\
  Rabs 1 <= 44 /\ Rabs ((1 - 98 / 100) / (1 + 98 / 100)) * (1 * 1) <= 1 / 27.
Proof.
  assert (S0 : 1 <= sqrt ((1 + 98 / 100) / 1) <= 2).
  { split; [rewrite <- sqrt_1 at 1|rewrite <- (sqrt_square 2) by lra]; apply sqrt_le_1_alt; lra. }
  set (x := sqrt ((1 + 98 / 100) / 1)) in *. clearbody x.
  exists (8 / 3 / (K * x)). assert (PK : 0 < K * x <= 1 / 20) by (unfold K; lra). split.
  - apply Rmult_lt_reg_r with (K * x); [lra|]. replace (8 / 3 / (K * x) * (K * x)) with (8 / 3) by (field; split; [lra|unfold K; lra]). lra.
  - split; [field; split; [lra|unfold K; lra]|]. split; [rewrite Rabs_right; lra|rewrite Rabs_right; lra].
Qed.
