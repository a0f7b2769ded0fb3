(** The near-parabolic series against Kepler's second law. *)
From Coq Require Import ZArith Reals Bool List Lra Lia Psatz.
From Verif Require Import GoFloat GoMath S_base S_kepler S_conic M_kepler M_orbit L_trig L_kepler L_orbit.
Local Open Scope R_scope.

Definition zc (g : R) (n : nat) : R := (INR n - (INR n + 1) * g) / (2 * INR n + 1).
Fixpoint ser (g : R) (N : nat) (s : R) : R :=
  match N with
  | O => s
  | S m => ser g m s + zc g (S m) * ((- g * (s * s)) ^ m * (s * s * s))
  end.
Fixpoint dser (g : R) (N : nat) (u : R) : R :=
  match N with
  | O => 1
  | S m => dser g m u + ((INR m + 1) - (INR m + 2) * g) * ((- g * (u * u)) ^ m * (u * u))
  end.

Lemma dlim_eq f x a b : derivable_pt_lim f x a -> a = b -> derivable_pt_lim f x b.
Proof. intros H <-. exact H. Qed.

Lemma term_deriv g m u : derivable_pt_lim (fun s => (- g * (s * s)) ^ m * (s * s * s)) u
  ((2 * INR m + 3) * ((- g * (u * u)) ^ m * (u * u))).
Proof.
  induction m as [|m IH].
  - simpl. apply (dlim_eq _ _ (0 * (u * u * u) + 1 * ((1 * u + u * 1) * u + u * u * 1))); [|ring].
    apply (derivable_pt_lim_mult (fun _ => 1) (fun s => s * s * s)); [apply derivable_pt_lim_const|].
    apply (derivable_pt_lim_mult (fun s => s * s) (fun s => s)); [|apply derivable_pt_lim_id].
    apply (derivable_pt_lim_mult (fun s => s) (fun s => s)); apply derivable_pt_lim_id.
  - apply (derivable_pt_lim_ext (fun s => (- g * (s * s)) * ((- g * (s * s)) ^ m * (s * s * s)))); [intros; simpl; ring|].
    apply (dlim_eq _ _ (- g * (1 * u + u * 1) * ((- g * (u * u)) ^ m * (u * u * u)) + (- g * (u * u)) * ((2 * INR m + 3) * ((- g * (u * u)) ^ m * (u * u))))).
    + apply (derivable_pt_lim_mult (fun s => - g * (s * s)) (fun s => (- g * (s * s)) ^ m * (s * s * s))); [|exact IH].
      apply (derivable_pt_lim_scal (fun s => s * s)).
      apply (derivable_pt_lim_mult (fun s => s) (fun s => s)); apply derivable_pt_lim_id.
    + rewrite S_INR. simpl. ring.
Qed.

Lemma ser_deriv g N u : derivable_pt_lim (ser g N) u (dser g N u).
Proof.
  induction N as [|m IH]; [apply derivable_pt_lim_id|].
  apply (dlim_eq _ _ (dser g m u + zc g (S m) * ((2 * INR m + 3) * ((- g * (u * u)) ^ m * (u * u))))).
  - apply (derivable_pt_lim_plus (ser g m) (fun s => zc g (S m) * ((- g * (s * s)) ^ m * (s * s * s)))); [exact IH|].
    apply (derivable_pt_lim_scal (fun s => (- g * (s * s)) ^ m * (s * s * s))). apply term_deriv.
  - cbn [dser]. unfold zc. rewrite S_INR. pose proof (pos_INR m). field. lra.
Qed.

Lemma dser_closed g N u : let x := - g * (u * u) in
  (1 - x) * (1 - x) * dser g N u =
  (1 + u * u) - x ^ N * ((INR N + 2) * x - (INR N + 1) * (x * x) + u * u * ((INR N + 1) - INR N * x)).
Proof.
  cbv zeta. induction N as [|m IH]; [simpl; ring|].
  cbn [dser]. rewrite Rmult_plus_distr_l, IH, S_INR. simpl. ring.
Qed.

Lemma ser_odd g N s : ser g N (- s) = - ser g N s.
Proof.
  induction N as [|m IH]; [reflexivity|]. cbn [ser]. rewrite IH. replace (- s * - s) with (s * s) by ring. ring.
Qed.

(** A function whose derivative is nonnegative on [0, S] does not decrease. *)
Lemma nonneg_from f f' S0 : 0 <= S0 -> f 0 = 0 ->
  (forall u, 0 <= u <= S0 -> derivable_pt_lim f u (f' u)) -> (forall u, 0 <= u <= S0 -> 0 <= f' u) -> 0 <= f S0.
Proof.
  intros H0 F0 D P. destruct (Req_dec S0 0) as [->|N0]; [lra|].
  destruct (MVT_cor2 f f' 0 S0 ltac:(lra) D) as [c [E C]].
  pose proof (P c ltac:(lra)). rewrite F0 in E. nra.
Qed.

Definition kern (g u : R) : R := (1 + u * u) / ((1 + g * (u * u)) * (1 + g * (u * u))).

Lemma kern_rem g N u : (2 <= N)%nat -> Rabs g <= 1 / 3 -> Rabs g * (u * u) <= 7 / 10 ->
  Rabs (kern g u - dser g N u) <= 15 * (Rabs g) ^ N * ((2 * INR N + 3) * ((u * u) ^ N * (u * u))).
Proof.
  intros HN Hg Hx. pose proof (dser_closed g N u) as D. cbv zeta in D.
  set (x := - g * (u * u)) in *. assert (Ux : 0 <= u * u) by nra.
  assert (Ax : Rabs x = Rabs g * (u * u)) by (unfold x; rewrite Rabs_mult, Rabs_Ropp, (Rabs_right (u * u)); lra).
  assert (Bx : Rabs x <= 7 / 10) by lra.
  assert (X1 : - (7 / 10) <= x <= 7 / 10) by (revert Bx; unfold Rabs; destruct Rcase_abs; lra).
  assert (Q : 9 / 100 <= (1 - x) * (1 - x)) by nra.
  assert (E : kern g u - dser g N u = x ^ N * ((INR N + 2) * x - (INR N + 1) * (x * x) + u * u * ((INR N + 1) - INR N * x)) / ((1 - x) * (1 - x))).
  { unfold kern. replace (1 + g * (u * u)) with (1 - x) by (unfold x; ring).
    apply Rmult_eq_reg_r with ((1 - x) * (1 - x)); [|lra].
    transitivity ((1 + u * u) - (1 - x) * (1 - x) * dser g N u); [field; nra|]. rewrite D. field. nra. }
  rewrite E. clear E D. unfold Rdiv. rewrite !Rabs_mult.
  rewrite (Rabs_right (/ _)); [|apply Rle_ge, Rlt_le, Rinv_0_lt_compat; lra].
  rewrite <- RPow_abs, Ax, Rpow_mult_distr.
  assert (HI : 2 <= INR N) by (apply (le_INR 2), HN). set (n := INR N) in *.
  assert (IQ : / ((1 - x) * (1 - x)) <= 100 / 9).
  { replace (100 / 9) with (/ (9 / 100)) by field. apply Rinv_le_contravar; lra. }
  assert (IQ0 : 0 < / ((1 - x) * (1 - x))) by (apply Rinv_0_lt_compat; lra).
  assert (B : Rabs ((n + 2) * x - (n + 1) * (x * x) + u * u * (n + 1 - n * x)) <= (u * u) * (227 / 100 * (n + 2))).
  { assert (G1 : - (1 / 3) <= g <= 1 / 3) by (revert Hg; unfold Rabs; destruct Rcase_abs; lra).
    replace ((n + 2) * x - (n + 1) * (x * x) + u * u * (n + 1 - n * x)) with
      (u * u * (- g * (n + 2) + g * (n + 1) * x + (n + 1) - n * x)) by (unfold x; ring).
    rewrite Rabs_mult, (Rabs_right (u * u)) by lra. apply Rmult_le_compat_l; [lra|].
    assert (GX : - (7 / 30) <= g * x <= 7 / 30) by (clear - G1 X1; split; nra).
    replace (- g * (n + 2) + g * (n + 1) * x + (n + 1) - n * x) with ((- g * (n + 2)) + (n + 1) * (g * x) + (n + 1) - n * x) by ring.
    assert (- (1 / 3) * (n + 2) <= - g * (n + 2) <= 1 / 3 * (n + 2)) by (clear - G1 HI; split; nra).
    assert (- (7 / 30) * (n + 1) <= (n + 1) * (g * x) <= 7 / 30 * (n + 1)) by (clear - GX HI; split; nra).
    assert (- (7 / 10) * n <= n * x <= 7 / 10 * n) by (clear - X1 HI; split; nra).
    apply Rabs_le. lra. }
  assert (P0 : 0 <= Rabs g ^ N * (u * u) ^ N) by (apply Rmult_le_pos; apply pow_le; [apply Rabs_pos|lra]).
  set (A := Rabs g ^ N * (u * u) ^ N) in *.
  replace (15 * Rabs g ^ N * ((2 * n + 3) * ((u * u) ^ N * (u * u)))) with (A * (15 * (2 * n + 3) * (u * u))) by (unfold A; ring).
  rewrite Rmult_assoc. apply Rmult_le_compat_l; [exact P0|].
  apply Rle_trans with ((u * u) * (227 / 100 * (n + 2)) * (100 / 9)).
  - apply Rmult_le_compat; [apply Rabs_pos|lra|exact B|exact IQ].
  - clear - Ux HI. nra.
Qed.

Lemma rem_pos g N w S0 : (2 <= N)%nat -> Rabs g <= 1 / 3 -> 0 <= S0 -> Rabs g * (S0 * S0) <= 7 / 10 ->
  w 0 = 0 -> (forall u, 0 <= u <= S0 -> derivable_pt_lim w u (kern g u)) ->
  Rabs (w S0 - ser g N S0) <= 15 * (Rabs g) ^ N * ((S0 * S0) ^ N * (S0 * S0 * S0)).
Proof.
  intros HN Hg H0 Hx W0 WD. pose proof (Rabs_pos g) as Pg.
  assert (Z : ser g N 0 = 0). { clear. induction N as [|m IH]; [reflexivity|]. cbn [ser]. rewrite IH. ring. }
  set (G := fun u => 15 * (Rabs g) ^ N * ((- (-1) * (u * u)) ^ N * (u * u * u))).
  assert (GD : forall u, derivable_pt_lim G u (15 * (Rabs g) ^ N * ((2 * INR N + 3) * ((u * u) ^ N * (u * u))))).
  { intros u. apply (dlim_eq _ _ (15 * (Rabs g) ^ N * ((2 * INR N + 3) * ((- (-1) * (u * u)) ^ N * (u * u))))).
    - apply (derivable_pt_lim_scal (fun u => (- (-1) * (u * u)) ^ N * (u * u * u))). apply term_deriv.
    - replace (- (-1) * (u * u)) with (u * u) by ring. reflexivity. }
  assert (GS : G S0 = 15 * (Rabs g) ^ N * ((S0 * S0) ^ N * (S0 * S0 * S0))).
  { unfold G. replace (- (-1) * (S0 * S0)) with (S0 * S0) by ring. reflexivity. }
  rewrite <- GS.
  assert (G0 : G 0 = 0) by (unfold G; ring).
  assert (KR : forall u, 0 <= u <= S0 -> Rabs (kern g u - dser g N u) <= 15 * (Rabs g) ^ N * ((2 * INR N + 3) * ((u * u) ^ N * (u * u)))).
  { intros u Hu. apply kern_rem; [exact HN|exact Hg|]. assert (u * u <= S0 * S0) by (clear - Hu; nra).
    apply Rle_trans with (Rabs g * (S0 * S0)); [apply Rmult_le_compat_l; lra|exact Hx]. }
  assert (A1 : 0 <= (fun u => G u - (w u - ser g N u)) S0).
  { apply (nonneg_from (fun u => G u - (w u - ser g N u)) (fun u => 15 * (Rabs g) ^ N * ((2 * INR N + 3) * ((u * u) ^ N * (u * u))) - (kern g u - dser g N u))).
    - exact H0. - rewrite G0, W0, Z. ring.
    - intros u Hu. apply (derivable_pt_lim_minus G (fun u => w u - ser g N u)); [apply GD|].
      apply (derivable_pt_lim_minus w (ser g N)); [apply WD, Hu|apply ser_deriv].
    - intros u Hu. specialize (KR u Hu). pose proof (Rle_abs (kern g u - dser g N u)). lra. }
  assert (A2 : 0 <= (fun u => G u + (w u - ser g N u)) S0).
  { apply (nonneg_from (fun u => G u + (w u - ser g N u)) (fun u => 15 * (Rabs g) ^ N * ((2 * INR N + 3) * ((u * u) ^ N * (u * u))) + (kern g u - dser g N u))).
    - exact H0. - rewrite G0, W0, Z. ring.
    - intros u Hu. apply (derivable_pt_lim_plus G (fun u => w u - ser g N u)); [apply GD|].
      apply (derivable_pt_lim_minus w (ser g N)); [apply WD, Hu|apply ser_deriv].
    - intros u Hu. specialize (KR u Hu). pose proof (Rle_abs (- (kern g u - dser g N u))) as Y. rewrite Rabs_Ropp in Y. lra. }
  cbv beta in A1, A2. apply Rabs_le. lra.
Qed.

(** Both signs. *)
Lemma rem_any g N w s : (2 <= N)%nat -> Rabs g <= 1 / 3 -> Rabs g * (s * s) <= 7 / 10 ->
  w 0 = 0 -> (forall u, u * u <= s * s -> derivable_pt_lim w u (kern g u)) ->
  Rabs (w s - ser g N s) <= 15 * (Rabs g) ^ N * ((s * s) ^ N * (s * s * Rabs s)).
Proof.
  intros HN Hg Hx W0 WD. destruct (Rle_dec 0 s) as [P|P].
  - rewrite (Rabs_right s) by lra. apply rem_pos; try assumption. intros u Hu. apply WD. nra.
  - rewrite (Rabs_left s) by lra.
    pose proof (rem_pos g N (fun u => - w (- u)) (- s) HN Hg ltac:(lra)) as H. cbv beta in H.
    rewrite ser_odd, Ropp_involutive in H. replace (- s * - s) with (s * s) in H by ring.
    replace (- w s - - ser g N s) with (- (w s - ser g N s)) in H by ring. rewrite Rabs_Ropp in H.
    apply H; [exact Hx|rewrite Ropp_0, W0; ring|].
    intros u Hu. apply (dlim_eq _ _ (- (kern g (- u) * (-1)))).
    + apply (derivable_pt_lim_opp (fun u => w (- u))).
      apply (derivable_pt_lim_comp (fun u => - u) w).
      * apply (derivable_pt_lim_opp (fun u => u)). apply derivable_pt_lim_id.
      * apply WD. nra.
    + unfold kern. replace (- u * - u) with (u * u) by ring. ring.
Qed.

(** ** The loops *)
Lemma IZR_nat n : IZR (Z.of_nat n) = INR n.
Proof. symmetry. apply INR_IZR_INZ. Qed.

Lemma series_value g s fuel : forall n g1 q3 v,
  NP_series g (s * s) (Z.of_nat (S n)) g1 q3 fuel = Value v ->
  g1 = - ((- g * (s * s)) ^ n * (s * s * s)) ->
  exists N, (S n <= N)%nat /\ (S N <= 50)%nat /\ v = q3 - (ser g (S N) s - ser g (S n) s) /\
    Rabs (zc g (S N) * ((- g * (s * s)) ^ N * (s * s * s))) <= 1 / 1000000000.
Proof.
  induction fuel as [|fuel IH]; intros n g1 q3 v H G; [discriminate|].
  cbn [NP_series] in H. cbv zeta in H.
  assert (EZ : (Z.of_nat (S n) + 1)%Z = Z.of_nat (S (S n))) by lia. rewrite EZ in H. rewrite !IZR_nat in H.
  assert (EG : - g1 * g * (s * s) = - ((- g * (s * s)) ^ S n * (s * s * s))) by (rewrite G; simpl; ring).
  rewrite EG in H. fold (zc g (S (S n))) in H.
  destruct (50 <? Z.of_nat (S (S n)))%Z eqn:E5; [discriminate|]. apply Z.ltb_ge in E5.
  cbn [orb] in H. destruct Rlt_dec; [discriminate|].
  assert (ST : q3 + zc g (S (S n)) * - ((- g * (s * s)) ^ S n * (s * s * s)) = q3 - (ser g (S (S n)) s - ser g (S n) s)).
  { change (ser g (S (S n)) s) with (ser g (S n) s + zc g (S (S n)) * ((- g * (s * s)) ^ S n * (s * s * s))). ring. }
  destruct Rle_dec as [L|L].
  - injection H as <-. exists (S n). split; [lia|]. split; [lia|]. split; [exact ST|].
    rewrite <- Rabs_Ropp. rewrite <- Ropp_mult_distr_r in L.
    exact L.
  - destruct (IH _ _ _ _ H eq_refl) as [N [N1 [N2 [N3 N4]]]].
    exists N. split; [lia|]. split; [lia|]. split; [|exact N4].
    rewrite N3, ST. ring.
Qed.

Lemma newton_value q3 fuel : forall s0 s, NP_newton_loop q3 s0 fuel = Value s ->
  exists s1, s = NP_newton q3 s1 /\ Rabs (s - s1) <= 1 / 1000000000.
Proof.
  induction fuel as [|fuel IH]; intros s0 s H; [discriminate|]. cbn [NP_newton_loop] in H. cbv zeta in H.
  destruct Rle_dec as [L|L].
  - injection H as <-. exists s0. split; [reflexivity|exact L].
  - exact (IH _ _ H).
Qed.

Lemma newton_residual q3 s s1 : s = NP_newton q3 s1 -> Rabs (s - s1) <= 1 / 1000000000 ->
  Rabs (s + s * s * s / 3 - q3) <= 1 / 1000000000000 * (1 + s * s).
Proof.
  intros E L. assert (P : 0 < s1 * s1 + 1) by nra.
  assert (E1 : s * (s1 * s1 + 1) = 2 * s1 * s1 * s1 / 3 + q3) by (rewrite E; unfold NP_newton; field; lra).
  set (d := s - s1) in *. assert (D : s1 = s - d) by (unfold d; ring). clearbody d. subst s1.
  assert (R : s + s * s * s / 3 - q3 = d * d * (s - 2 * d / 3)).
  { replace q3 with (s * ((s - d) * (s - d) + 1) - 2 * (s - d) * (s - d) * (s - d) / 3) by lra. field. }
  rewrite R. clear - L. assert (B : - (1 / 1000000000) <= d <= 1 / 1000000000) by (revert L; unfold Rabs; destruct Rcase_abs; lra).
  assert (DD : 0 <= d * d <= 1 / 1000000000000000000) by (split; nra).
  assert (S1 : - (1 + s * s) <= s - 2 * d / 3 <= 1 + s * s) by (split; nra).
  set (m := s - 2 * d / 3) in *. set (k := d * d) in *. clearbody m k. assert (0 <= s * s) by nra.
  set (y := s * s) in *. clearbody y. apply Rabs_le. split; nra.
Qed.

Lemma outer_value g q2 fuelN fuel : forall s l r, NP_outer g q2 s l fuelN fuel = Value r ->
  exists s0 q3, NP_series g (s0 * s0) 1 (- (s0 * s0) * s0) (q2 + 2 * g * s0 * (s0 * s0) / 3) 50 = Value q3 /\
    (exists t, NP_newton_loop q3 t fuelN = Value r) /\ Rabs (r - s0) <= 1 / 1000000000.
Proof.
  induction fuel as [|fuel IH]; intros s l r H; [discriminate|]. cbn [NP_outer] in H. cbv zeta in H.
  destruct NP_series as [q3| |] eqn:ES; try discriminate.
  destruct (50 <? l + 1)%Z; [discriminate|].
  destruct NP_newton_loop as [t| |] eqn:EN; try discriminate.
  destruct Rle_dec as [L|L].
  - injection H as <-. exists s, q3. split; [exact ES|]. split; [exists s; exact EN|exact L].
  - exact (IH _ _ _ H).
Qed.

(** A series that ended had a convergent tail. *)
Lemma zc_bound g n : Rabs g <= 1 / 3 -> (2 <= n)%nat -> 1 / 5 <= zc g n.
Proof.
  intros Hg Hn. assert (G : g <= 1 / 3) by (pose proof (Rle_abs g); lra).
  assert (HI : 2 <= INR n) by (apply (le_INR 2), Hn). unfold zc.
  apply Rmult_le_reg_r with (2 * INR n + 1); [lra|]. unfold Rdiv at 2. rewrite Rmult_assoc, Rinv_l, Rmult_1_r by lra. nra.
Qed.

Lemma pow_low r n : 7 / 10 < r -> (n <= 49)%nat -> 1 / 50000000 < r ^ n.
Proof.
  intros Hr Hn. assert (B : 1 / 50000000 < (7 / 10) ^ 49) by (simpl; lra).
  apply Rlt_le_trans with (1 := B). apply Rle_trans with ((7 / 10) ^ n).
  - replace 49%nat with ((49 - n) + n)%nat by lia. rewrite pow_add.
    assert (0 <= (7 / 10) ^ n) by (apply pow_le; lra).
    assert ((7 / 10) ^ (49 - n) <= 1).
    { rewrite <- (pow1 (49 - n)). apply pow_incr. lra. }
    nra.
  - apply pow_incr. lra.
Qed.

Lemma series_tail g s N : Rabs g <= 1 / 3 -> (1 <= N)%nat -> (S N <= 50)%nat ->
  Rabs (zc g (S N) * ((- g * (s * s)) ^ N * (s * s * s))) <= 1 / 1000000000 ->
  Rabs g * (s * s) <= 7 / 10 /\ (Rabs g * (s * s)) ^ N * (s * s * Rabs s) <= 5 / 1000000000.
Proof.
  intros Hg N1 N2 H. pose proof (Rabs_pos g) as Pg. pose proof (Rabs_pos s) as Ps.
  assert (Q : 0 <= s * s) by nra. pose proof (zc_bound g (S N) Hg ltac:(lia)) as Z.
  rewrite !Rabs_mult, <- RPow_abs, Rabs_mult, Rabs_Ropp, (Rabs_right (zc g (S N))) in H by lra.
  replace (Rabs s * Rabs s) with (s * s) in H by (rewrite <- Rabs_mult; rewrite Rabs_right; lra).
  rewrite (Rabs_right (s * s)) in H by lra.
  assert (P : 0 <= (Rabs g * (s * s)) ^ N) by (apply pow_le; nra).
  set (A := (Rabs g * (s * s)) ^ N) in *.
  assert (P3 : 0 <= s * s * Rabs s) by nra.
  assert (T : A * (s * s * Rabs s) <= 5 / 1000000000) by (assert (0 <= A * (s * s * Rabs s)) by nra; nra).
  split; [|exact T].
  destruct (Rle_dec (Rabs s) 1) as [L|L].
  - assert (s * s <= 1) by (replace (s * s) with (Rabs s * Rabs s) by (rewrite <- Rabs_mult; rewrite Rabs_right; lra); nra). nra.
  - destruct (Rle_dec (Rabs g * (s * s)) (7 / 10)) as [K0|K0]; [exact K0|exfalso].
    pose proof (pow_low (Rabs g * (s * s)) N ltac:(lra) ltac:(lia)) as B. fold A in B.
    assert (1 <= s * s * Rabs s).
    { replace (s * s) with (Rabs s * Rabs s) by (rewrite <- Rabs_mult; rewrite Rabs_right; lra). nra. }
    nra.
Qed.

(** ** Accuracy of the outer loop *)
Lemma mvt_abs f f' a b M :
  (forall c, Rmin a b <= c <= Rmax a b -> derivable_pt_lim f c (f' c)) ->
  (forall c, Rmin a b <= c <= Rmax a b -> Rabs (f' c) <= M) -> Rabs (f b - f a) <= M * Rabs (b - a).
Proof.
  intros D B. destruct (total_order_T a b) as [[H|H]|H].
  - rewrite Rmin_left, Rmax_right in * by lra. destruct (MVT_cor2 f f' a b H D) as [c [E C]].
    rewrite E, Rabs_mult. apply Rmult_le_compat_r; [apply Rabs_pos|]. apply B. lra.
  - subst. replace (f b - f b) with 0 by ring. replace (b - b) with 0 by ring. rewrite Rabs_R0. lra.
  - rewrite Rmin_right, Rmax_left in * by lra. destruct (MVT_cor2 f f' b a H D) as [c [E C]].
    rewrite <- Rabs_Ropp. replace (- (f b - f a)) with (f a - f b) by ring. rewrite E, Rabs_mult.
    replace (Rabs (a - b)) with (Rabs (b - a)) by (rewrite <- Rabs_Ropp; f_equal; ring).
    apply Rmult_le_compat_r; [apply Rabs_pos|]. apply B. lra.
Qed.

Lemma kern_bound g u : Rabs g * (u * u) <= 71 / 100 -> 0 < 1 + g * (u * u) /\ Rabs (kern g u) <= 12 * (1 + u * u).
Proof.
  intros H. assert (Q : 0 <= u * u) by nra.
  assert (X : - (71 / 100) <= g * (u * u)).
  { pose proof (Rle_abs (- g)) as Y. rewrite Rabs_Ropp in Y. nra. }
  split; [lra|]. unfold kern. set (x := 1 + g * (u * u)) in *. assert (29 / 100 <= x) by (unfold x; lra).
  assert (841 / 10000 <= x * x) by nra.
  rewrite Rabs_right.
  - unfold Rdiv. rewrite Rmult_comm. apply Rmult_le_compat_r; [lra|].
    apply Rle_trans with (/ (841 / 10000)); [apply Rinv_le_contravar; lra|lra].
  - apply Rle_ge, Rmult_le_pos; [lra|]. apply Rlt_le, Rinv_0_lt_compat. lra.
Qed.

Lemma near_sq a b : Rabs (a - b) <= 1 / 1000000000 -> a * a <= b * b + 2 / 1000000000 * (1 + b * b).
Proof.
  intros L. assert (B : - (1 / 1000000000) <= a - b <= 1 / 1000000000) by (revert L; unfold Rabs; destruct Rcase_abs; lra).
  set (d := a - b) in *. assert (a = b + d) by (unfold d; ring). clearbody d. subst a.
  assert (d * d <= 1 / 1000000000) by (clear - B; nra).
  assert (2 * b * d <= 1 / 1000000000 * (1 + b * b)).
  { clear - B. apply Rle_trans with (1 / 1000000000 * (2 * Rabs b)).
    - unfold Rabs. destruct Rcase_abs; nra.
    - apply Rmult_le_compat_l; [lra|]. pose proof (Rle_0_sqr (b - 1)) as X. pose proof (Rle_0_sqr (b + 1)) as Y. unfold Rsqr in X, Y.
      unfold Rabs. destruct Rcase_abs; lra. }
  pose proof (Rle_0_sqr b) as Z. unfold Rsqr in Z. lra.
Qed.

Lemma outer_accuracy g q2 w fuelN fuel s00 l s : Rabs g <= 1 / 3 -> w 0 = 0 ->
  (forall u, 0 < 1 + g * (u * u) -> derivable_pt_lim w u (kern g u)) ->
  NP_outer g q2 s00 l fuelN fuel = Value s ->
  Rabs g * (s * s) <= 71 / 100 /\ Rabs (w s - q2) <= 1 / 10000000 * (1 + s * s).
Proof.
  intros Hg W0 WD H. destruct (outer_value _ _ _ _ _ _ _ H) as [s0 [q3 [HS [[t HT] HL]]]]. clear H.
  pose proof (Rabs_pos g) as Pg. assert (Q0 : 0 <= s0 * s0) by nra. assert (Q1 : 0 <= s * s) by nra.
  assert (I0 : - (s0 * s0) * s0 = - ((- g * (s0 * s0)) ^ 0 * (s0 * s0 * s0))) by (simpl; ring).
  destruct (series_value g s0 50 0 _ _ _ HS I0) as [N [N1 [N2 [N3 N4]]]].
  destruct (series_tail g s0 N Hg N1 N2 N4) as [T1 T2]. clear N4 HS.
  destruct (newton_value _ _ _ _ HT) as [s1 [E1 L1]]. pose proof (newton_residual _ _ _ E1 L1) as NR. clear E1 L1 HT.
  assert (N3' : q3 = q2 + s0 + s0 * s0 * s0 / 3 - ser g (S N) s0).
  { rewrite N3. replace (ser g 1 s0) with (s0 + (1 - 2 * g) / 3 * (s0 * s0 * s0)) by (unfold ser, zc; simpl; field). field. }
  clear N3.
  assert (RB : Rabs (w s0 - ser g (S N) s0) <= 6 / 100000000).
  { apply Rle_trans with (15 * (Rabs g) ^ (S N) * ((s0 * s0) ^ (S N) * (s0 * s0 * Rabs s0))).
    - apply rem_any; [lia|exact Hg|exact T1|exact W0|]. intros u Hu. apply WD. apply kern_bound. nra.
    - replace (15 * Rabs g ^ S N * ((s0 * s0) ^ S N * (s0 * s0 * Rabs s0))) with
        (15 * (Rabs g * (s0 * s0)) * ((Rabs g * (s0 * s0)) ^ N * (s0 * s0 * Rabs s0))) by (rewrite Rpow_mult_distr; simpl; ring).
      set (B := (Rabs g * (s0 * s0)) ^ N * (s0 * s0 * Rabs s0)) in *.
      assert (0 <= B). { unfold B. apply Rmult_le_pos; [apply pow_le; nra|pose proof (Rabs_pos s0); nra]. }
      set (x := Rabs g * (s0 * s0)) in *. assert (0 <= x) by (unfold x; nra). clearbody B x. nra. }
  assert (GB : forall c, Rabs (c - s0) <= 1 / 1000000000 -> Rabs g * (c * c) <= 71 / 100).
  { intros c Hc. pose proof (near_sq c s0 Hc) as Y.
    apply Rle_trans with (Rabs g * (s0 * s0 + 2 / 1000000000 * (1 + s0 * s0))); [apply Rmult_le_compat_l; lra|].
    set (x := Rabs g * (s0 * s0)) in *.
    replace (Rabs g * (s0 * s0 + 2 / 1000000000 * (1 + s0 * s0))) with (x + 2 / 1000000000 * (Rabs g + x)) by (unfold x; ring). lra. }
  assert (BT : forall c, Rmin s0 s <= c <= Rmax s0 s -> Rabs (c - s0) <= 1 / 1000000000 /\ Rabs (c - s) <= 1 / 1000000000).
  { intros c. clear - HL. revert HL. unfold Rmin, Rmax, Rabs. destruct (Rle_dec s0 s); repeat destruct Rcase_abs; intros; split; lra. }
  assert (WB : Rabs (w s - w s0) <= 13 / 1000000000 * (1 + s * s)).
  { apply Rle_trans with (12 * (1 + s * s + 2 / 1000000000 * (1 + s * s)) * Rabs (s - s0)).
    - apply (mvt_abs w (kern g)).
      + intros c Hc. apply WD. apply kern_bound. apply GB. apply BT, Hc.
      + intros c Hc. destruct (BT c Hc) as [C1 C2]. destruct (kern_bound g c (GB c C1)) as [_ Y].
        pose proof (near_sq c s C2). lra.
    - pose proof (Rabs_pos (s - s0)). set (y := s * s) in *. clearbody y. set (k := Rabs (s - s0)) in *. clearbody k. clear - Q1 HL H. nra. }
  assert (PB : Rabs (s0 + s0 * s0 * s0 / 3 - (s + s * s * s / 3)) <= 2 / 1000000000 * (1 + s * s)).
  { clear - HL. assert (B : - (1 / 1000000000) <= s0 - s <= 1 / 1000000000) by (revert HL; unfold Rabs; destruct Rcase_abs; lra).
    set (d := s0 - s) in *. assert (s0 = s + d) by (unfold d; ring). clearbody d. subst s0.
    replace (s + d + (s + d) * (s + d) * (s + d) / 3 - (s + s * s * s / 3)) with (d * (1 + s * s + s * d + d * d / 3)) by field.
    rewrite Rabs_mult. assert (C : Rabs (1 + s * s + s * d + d * d / 3) <= 2 * (1 + s * s)).
    { assert (0 <= d * d <= 1 / 1000000000) by (split; nra).
      assert (- (1 + s * s) / 2 <= s * d <= (1 + s * s) / 2) by (split; nra). assert (0 <= s * s) by nra. apply Rabs_le. lra. }
    apply Rle_trans with (1 / 1000000000 * (2 * (1 + s * s))); [|lra].
    apply Rmult_le_compat; [apply Rabs_pos|apply Rabs_pos|apply Rabs_le; lra|exact C]. }
  split; [apply GB, HL|].
  replace (w s - q2) with ((w s - w s0) + (w s0 - ser g (S N) s0) + (s0 + s0 * s0 * s0 / 3 - (s + s * s * s / 3)) + (s + s * s * s / 3 - q3)) by (rewrite N3'; ring).
  apply Rle_trans with (13 / 1000000000 * (1 + s * s) + 6 / 100000000 + 2 / 1000000000 * (1 + s * s) + 1 / 1000000000000 * (1 + s * s)); [|lra].
  repeat (eapply Rle_trans; [apply Rabs_triang|]; apply Rplus_le_compat; [|assumption]). exact WB.
Qed.

(** ** Kepler's second law *)
Lemma cos_2atan u : cos (2 * atan u) = (1 - u * u) / (1 + u * u).
Proof. destruct (double_atan u) as [C _]. assert (0 < 1 + u * u) by nra. rewrite <- C. field. lra. Qed.

Lemma one_e_cos e u : 1 + e <> 0 -> 1 + e * cos (2 * atan u) = (1 + e) * (1 + (1 - e) / (1 + e) * (u * u)) / (1 + u * u).
Proof. intros H. rewrite cos_2atan. assert (0 < 1 + u * u) by nra. field. lra. Qed.

Lemma passage_w k q e tau : 0 < k -> 0 < q -> 0 < 1 + e -> passage_time k q e tau ->
  let q1 := k * sqrt ((1 + e) / q) / (2 * q) in let g := (1 - e) / (1 + e) in
  0 < q1 /\ q1 * (2 * (q * q)) = areal_rate k q e /\
  q1 * tau (2 * atan 0) = 0 /\
  (forall u, 0 < 1 + g * (u * u) -> derivable_pt_lim (fun u => q1 * tau (2 * atan u)) u (kern g u)).
Proof.
  intros Hk Hq He [T0 TD]. cbv zeta. set (q1 := k * sqrt ((1 + e) / q) / (2 * q)). set (g := (1 - e) / (1 + e)).
  assert (S0 : 0 < sqrt ((1 + e) / q)) by (apply sqrt_lt_R0, Rdiv_lt_0_compat; lra).
  assert (P1 : 0 < q1) by (unfold q1; apply Rdiv_lt_0_compat; [nra|lra]).
  assert (AR : q1 * (2 * (q * q)) = areal_rate k q e).
  { unfold areal_rate, q1. assert (E : sqrt (q * (1 + e)) = q * sqrt ((1 + e) / q)).
    { replace (q * (1 + e)) with ((q * q) * ((1 + e) / q)) by (field; lra).
      rewrite sqrt_mult_alt by nra. rewrite sqrt_square by lra. reflexivity. }
    rewrite E. field. lra. }
  split; [exact P1|]. split; [exact AR|]. split; [rewrite atan_0, Rmult_0_r, T0; ring|].
  intros u Hu. assert (U : 0 < 1 + u * u) by nra. pose proof (atan_bound u) as B.
  pose proof (one_e_cos e u ltac:(lra)) as OC. fold g in OC.
  assert (OP : 0 < 1 + e * cos (2 * atan u)).
  { rewrite OC. apply Rdiv_lt_0_compat; [nra|exact U]. }
  pose proof (TD (2 * atan u) ltac:(lra) OP) as D.
  apply (dlim_eq _ _ (q1 * (conic_radius q e (2 * atan u) * conic_radius q e (2 * atan u) / areal_rate k q e * (2 * (1 / (1 + u ^ 2)))))).
  - apply (derivable_pt_lim_scal (fun u => tau (2 * atan u))).
    apply (derivable_pt_lim_comp (fun u => 2 * atan u) tau); [|exact D].
    apply (derivable_pt_lim_scal atan). apply (dlim_eq _ _ (/ (1 + u ^ 2))); [apply derivable_pt_lim_atan|lra].
  - unfold conic_radius. rewrite OC, <- AR. unfold kern. simpl. field. repeat split; lra.
Qed.

Lemma parabolic_exact g w q2 s : g = 0 -> w 0 = 0 ->
  (forall u, 0 < 1 + g * (u * u) -> derivable_pt_lim w u (kern g u)) ->
  s * s * s + 3 * s = 3 * q2 -> w s = q2.
Proof.
  intros G0 W0 WD B. subst g.
  assert (H : Rabs (w s - ser 0 2 s) <= 15 * (Rabs 0) ^ 2 * ((s * s) ^ 2 * (s * s * Rabs s))).
  { apply rem_any; [lia|rewrite Rabs_R0; lra|rewrite Rabs_R0; lra|exact W0|]. intros u _. apply WD. lra. }
  rewrite Rabs_R0 in H. replace (15 * 0 ^ 2 * ((s * s) ^ 2 * (s * s * Rabs s))) with 0 in H by (simpl; ring).
  pose proof (Rabs_pos (w s - ser 0 2 s)) as P. assert (Z : Rabs (w s - ser 0 2 s) = 0) by lra.
  destruct (Req_dec (w s - ser 0 2 s) 0) as [E|E]; [|apply Rabs_no_R0 in E; contradiction].
  replace (ser 0 2 s) with (s + s * s * s / 3) in E by (unfold ser, zc; simpl; field). lra.
Qed.

Lemma NP_accurate N el jde v r tau : 0 < n_PDis el -> 1 / 2 <= n_Ecc el <= 2 ->
  passage_time K (n_PDis el) (n_Ecc el) tau -> NP_AnomalyDistance N el jde = Value (v, r) ->
  exists phi, - PI < phi < PI /\ same_angle v phi /\ 0 < 1 + n_Ecc el * cos phi /\ r = conic_radius (n_PDis el) (n_Ecc el) phi /\
    Rabs (tau phi - (jde - n_TimeP el)) <= 4 / 10000000 * (n_PDis el * r / areal_rate K (n_PDis el) (n_Ecc el)).
Proof.
  destruct el as [T q e]. cbn [n_PDis n_Ecc n_TimeP]. intros Hq He PT.
  destruct (passage_w K q e tau ltac:(unfold K; lra) Hq ltac:(lra) PT) as [P1 [AR [W0 WD]]]. cbv zeta in AR, W0, WD, P1.
  unfold NP_AnomalyDistance. cbn [n_PDis n_Ecc n_TimeP]. cbv zeta.
  set (q1 := K * sqrt ((1 + e) / q) / (2 * q)) in *. set (g := (1 - e) / (1 + e)) in *. pose proof PI_RGT_0 as HP.
  assert (PA : 0 < areal_rate K q e) by (rewrite <- AR; apply Rmult_lt_0_compat; [exact P1|nra]).
  destruct (Req_EM_T (jde - T) 0) as [E0|E0].
  - intros H. injection H as <- <-. exists 0. rewrite cos_0. destruct PT as [T0 _].
    split; [lra|]. split; [exists 0%Z; ring|]. split; [lra|]. split; [unfold conic_radius; rewrite cos_0; field; lra|].
    rewrite E0, T0, Rminus_0_r, Rabs_R0. apply Rmult_le_pos; [lra|]. apply Rlt_le, Rdiv_lt_0_compat; nra.
  - set (st := if Rlt_dec (jde - T) 0 then - NP_start (q1 * (jde - T)) else NP_start (q1 * (jde - T))).
    destruct (if Req_EM_T e 1 then Value st else NP_outer g (q1 * (jde - T)) st 0 N 51) as [s| |] eqn:EO; try discriminate.
    intros H. injection H as <- <-.
    assert (Hg : Rabs g <= 1 / 3).
    { unfold g. apply Rabs_le. split; apply Rmult_le_reg_r with (1 + e); try lra; unfold Rdiv at 2; try rewrite Rmult_assoc, Rinv_l, Rmult_1_r by lra; try lra.
      unfold Rdiv at 1. rewrite Rmult_assoc, Rinv_l by lra. lra. }
    assert (BOTH : Rabs g * (s * s) <= 71 / 100 /\ Rabs ((fun u => q1 * tau (2 * atan u)) s - q1 * (jde - T)) <= 1 / 10000000 * (1 + s * s)).
    { destruct (Req_EM_T e 1) as [E1|_].
      - injection EO as <-. assert (G0 : g = 0) by (unfold g; rewrite E1; field).
        assert (Q2 : q1 * (jde - T) <> 0) by (clear - P1 E0; apply Rmult_integral_contrapositive_currified; lra).
        rewrite (parabolic_exact g (fun u => q1 * tau (2 * atan u)) (q1 * (jde - T)) st G0 W0 WD).
        + rewrite G0, Rabs_R0, Rminus_diag_eq, Rabs_R0 by reflexivity. split; [lra|nra].
        + pose proof (NP_start_barker _ Q2) as BK. unfold st. clear - BK P1 E0. destruct Rlt_dec as [L|L].
          * rewrite (Rabs_left (q1 * (jde - T))) in BK by nra. lra.
          * rewrite (Rabs_right (q1 * (jde - T))) in BK by nra. lra.
      - exact (outer_accuracy g (q1 * (jde - T)) (fun u => q1 * tau (2 * atan u)) _ _ _ _ _ Hg W0 WD EO). }
    destruct BOTH as [GS AC]. cbv beta in AC.
    pose proof (atan_bound s) as B. destruct (kern_bound g s GS) as [KP _].
    pose proof (one_e_cos e s ltac:(lra)) as OC. fold g in OC. assert (U : 0 < 1 + s * s) by nra.
    assert (OP : 0 < 1 + e * cos (2 * atan s)) by (rewrite OC; apply Rdiv_lt_0_compat; [nra|exact U]).
    exists (2 * atan s). split; [lra|].
    split; [destruct (Rlt_dec (2 * atan s) 0); [exists 1%Z|exists 0%Z]; ring|].
    split; [exact OP|]. split; [reflexivity|].
    assert (G2 : 1 + g * (s * s) <= 171 / 100) by (pose proof (Rle_abs g); nra).
    rewrite OC. rewrite <- AR.
    replace (q * (q * (1 + e) / ((1 + e) * (1 + g * (s * s)) / (1 + s * s))) / (q1 * (2 * (q * q)))) with
      ((1 + s * s) / (1 + g * (s * s)) / (2 * q1)) by (field; repeat split; lra).
    apply Rmult_le_reg_l with q1; [exact P1|].
    rewrite <- (Rabs_right q1) at 1 by lra. rewrite <- Rabs_mult.
    replace (q1 * (tau (2 * atan s) - (jde - T))) with (q1 * tau (2 * atan s) - q1 * (jde - T)) by ring.
    apply Rle_trans with (1 := AC).
    replace (q1 * (4 / 10000000 * ((1 + s * s) / (1 + g * (s * s)) / (2 * q1)))) with (2 / 10000000 * ((1 + s * s) / (1 + g * (s * s)))) by (field; lra).
    apply Rmult_le_reg_r with (1 + g * (s * s)); [exact KP|].
    replace (2 / 10000000 * ((1 + s * s) / (1 + g * (s * s))) * (1 + g * (s * s))) with (2 / 10000000 * (1 + s * s)) by (field; lra).
    nra.
Qed.

(** ** The time of passage exists *)
Lemma kern_primitive g : exists w : R -> R, w 0 = 0 /\ forall u, 0 < 1 + g * (u * u) -> derivable_pt_lim w u (kern g u).
Proof.
  destruct (total_order_T g 0) as [[G|G]|G].
  - set (h := sqrt (- g)). assert (Ph : 0 < h) by (apply sqrt_lt_R0; lra).
    assert (HH : h * h = - g) by (apply sqrt_sqrt; lra). clearbody h.
    set (A := (1 + / (h * h)) / 2). set (B := (1 - / (h * h)) / (4 * h)).
    exists (fun u => A * (u / (1 - h * h * (u * u))) + B * (ln (1 + h * u) - ln (1 + - h * u))).
    split; [rewrite !Rmult_0_r, Rplus_0_r, ln_1; field|].
    intros u Hu. replace g with (- (h * h)) in Hu by lra.
    assert (P : 0 < (1 + h * u) * (1 + - h * u)) by (clear - Hu; nra).
    assert (P1 : 0 < 1 + h * u). { destruct (Rle_dec (1 + h * u) 0); [|lra]. exfalso. clear - P r. nra. }
    assert (P2 : 0 < 1 + - h * u). { clear - P P1. destruct (Rle_dec (1 + - h * u) 0); [|lra]. exfalso. nra. }
    assert (PD : 0 < 1 - h * h * (u * u)) by (clear - Hu; lra).
    apply (dlim_eq _ _ (A * ((1 * (1 - h * h * (u * u)) - (0 - h * h * (1 * u + u * 1)) * u) / Rsqr (1 - h * h * (u * u)))
      + B * (/ (1 + h * u) * (0 + h * 1) - / (1 + - h * u) * (0 + - h * 1)))).
    + apply (derivable_pt_lim_plus (fun u => A * (u / (1 - h * h * (u * u)))) (fun u => B * (ln (1 + h * u) - ln (1 + - h * u)))).
      * apply (derivable_pt_lim_scal (fun u => u / (1 - h * h * (u * u)))).
        apply (derivable_pt_lim_div (fun u => u) (fun u => 1 - h * h * (u * u))); [apply derivable_pt_lim_id| |lra].
        apply (derivable_pt_lim_minus (fun _ => 1) (fun u => h * h * (u * u))); [apply derivable_pt_lim_const|].
        apply (derivable_pt_lim_scal (fun u => u * u)). apply (derivable_pt_lim_mult (fun u => u) (fun u => u)); apply derivable_pt_lim_id.
      * apply (derivable_pt_lim_scal (fun u => ln (1 + h * u) - ln (1 + - h * u))).
        apply (derivable_pt_lim_minus (fun u => ln (1 + h * u)) (fun u => ln (1 + - h * u)));
        (apply (derivable_pt_lim_comp (fun u => 1 + _ * u) ln); [|apply derivable_pt_lim_ln; assumption]);
        (apply (derivable_pt_lim_plus (fun _ => 1) (fun u => _ * u)); [apply derivable_pt_lim_const|]);
        apply (derivable_pt_lim_scal (fun u => u)); apply derivable_pt_lim_id.
    + unfold kern, A, B, Rsqr. replace g with (- (h * h)) by lra. field. repeat split; try lra; intros X; nra.
  - subst g. exists (fun u => ser 0 1 u). split; [unfold ser; simpl; ring|].
    intros u _. apply (dlim_eq _ _ (dser 0 1 u)); [apply (ser_deriv 0 1)|]. unfold kern. simpl. field.
  - set (h := sqrt g). assert (Ph : 0 < h) by (apply sqrt_lt_R0; lra).
    assert (HH : h * h = g) by (apply sqrt_sqrt; lra). clearbody h.
    set (A := (1 - / (h * h)) / 2). set (B := (1 + / (h * h)) / (2 * h)).
    exists (fun u => A * (u / (1 + h * h * (u * u))) + B * atan (h * u)).
    split; [rewrite !Rmult_0_r, Rplus_0_r, atan_0; field|].
    intros u _. assert (PD : 0 < 1 + h * h * (u * u)) by nra.
    apply (dlim_eq _ _ (A * ((1 * (1 + h * h * (u * u)) - (0 + h * h * (1 * u + u * 1)) * u) / Rsqr (1 + h * h * (u * u)))
      + B * (/ (1 + (h * u) ^ 2) * (h * 1)))).
    + apply (derivable_pt_lim_plus (fun u => A * (u / (1 + h * h * (u * u)))) (fun u => B * atan (h * u))).
      * apply (derivable_pt_lim_scal (fun u => u / (1 + h * h * (u * u)))).
        apply (derivable_pt_lim_div (fun u => u) (fun u => 1 + h * h * (u * u))); [apply derivable_pt_lim_id| |lra].
        apply (derivable_pt_lim_plus (fun _ => 1) (fun u => h * h * (u * u))); [apply derivable_pt_lim_const|].
        apply (derivable_pt_lim_scal (fun u => u * u)). apply (derivable_pt_lim_mult (fun u => u) (fun u => u)); apply derivable_pt_lim_id.
      * apply (derivable_pt_lim_scal (fun u => atan (h * u))).
        apply (derivable_pt_lim_comp (fun u => h * u) atan); [|apply derivable_pt_lim_atan].
        apply (derivable_pt_lim_scal (fun u => u)). apply derivable_pt_lim_id.
    + unfold kern, A, B, Rsqr. rewrite <- HH. simpl. field. repeat split; try lra; intros X; nra.
Qed.

Lemma passage_exists k q e : 0 < k -> 0 < q -> 0 < 1 + e -> exists tau, passage_time k q e tau.
Proof.
  intros Hk Hq He. set (g := (1 - e) / (1 + e)). destruct (kern_primitive g) as [w [W0 WD]].
  assert (PA : 0 < areal_rate k q e) by (unfold areal_rate; apply Rmult_lt_0_compat; [lra|apply sqrt_lt_R0; nra]).
  exists (fun phi => 2 * (q * q) / areal_rate k q e * w (tan (/ 2 * phi))). split.
  { rewrite Rmult_0_r, tan_0, W0. ring. }
  intros phi Hp HO. assert (HC : 0 < cos (/ 2 * phi)) by (apply cos_gt_0; lra).
  set (u := tan (/ 2 * phi)). assert (AU : phi = 2 * atan u) by (unfold u; rewrite atan_tan by lra; field).
  pose proof (one_e_cos e u ltac:(lra)) as OC. fold g in OC. rewrite <- AU in OC. assert (U : 0 < 1 + u * u) by nra.
  assert (KP : 0 < 1 + g * (u * u)).
  { apply Rmult_lt_reg_l with ((1 + e) / (1 + u * u)); [apply Rdiv_lt_0_compat; lra|]. rewrite Rmult_0_r.
    replace ((1 + e) / (1 + u * u) * (1 + g * (u * u))) with (1 + e * cos phi) by (rewrite OC; field; lra). exact HO. }
  apply (dlim_eq _ _ (2 * (q * q) / areal_rate k q e * (kern g u * ((1 + u * u) * / 2)))).
  - apply (derivable_pt_lim_scal (fun phi => w (tan (/ 2 * phi)))).
    apply (derivable_pt_lim_comp (fun phi => tan (/ 2 * phi)) w); [|apply WD, KP].
    apply (derivable_pt_lim_comp (fun phi => / 2 * phi) tan).
    + apply (dlim_eq _ _ (/ 2 * 1)); [|ring]. apply (derivable_pt_lim_scal (fun x => x)). apply derivable_pt_lim_id.
    + apply (dlim_eq _ _ (1 + tan (/ 2 * phi) ^ 2)); [|fold u; ring]. assert (RG : - PI / 2 < / 2 * phi < PI / 2) by lra. apply (derive_pt_eq_1 _ _ _ (derivable_pt_tan _ RG)). apply derive_pt_tan.
  - unfold conic_radius, kern. rewrite OC. field. repeat split; lra.
Qed.

(** ** An orbit for which the function returns *)
Lemma series_one g y g1 q3 n : Rabs ((2 - 3 * g) / 5 * (- g1 * g * y)) <= 1 / 1000000000 ->
  NP_series g y 1 g1 q3 (S n) = Value (q3 + (2 - 3 * g) / 5 * (- g1 * g * y)).
Proof.
  intros H. cbn [NP_series]. cbv zeta. change (1 + 1)%Z with 2%Z. change (50 <? 2)%Z with false. cbn [orb].
  replace ((2 - (2 + 1) * g) / (2 * 2 + 1)) with ((2 - 3 * g) / 5) by field.
  destruct Rlt_dec; [lra|]. destruct Rle_dec; [reflexivity|lra].
Qed.

Lemma newton_one q3 s n : Rabs (NP_newton q3 s - s) <= 1 / 1000000000 -> NP_newton_loop q3 s (S n) = Value (NP_newton q3 s).
Proof. intros H. cbn [NP_newton_loop]. cbv zeta. destruct Rle_dec; [reflexivity|contradiction]. Qed.

Lemma outer_one g q2 s q3 r fN n :
  NP_series g (s * s) 1 (- (s * s) * s) (q2 + 2 * g * s * (s * s) / 3) 50 = Value q3 ->
  NP_newton_loop q3 s fN = Value r -> Rabs (r - s) <= 1 / 1000000000 -> NP_outer g q2 s 0 fN (S n) = Value r.
Proof.
  intros HS HN H. cbn [NP_outer]. cbv zeta. rewrite HS. change (50 <? 0 + 1)%Z with false. rewrite HN.
  destruct Rle_dec; [reflexivity|contradiction].
Qed.

Lemma NP_returns T : exists v r, 0 < v < PI / 2 /\ NP_AnomalyDistance 1 (mkNP T 1 (999 / 1000)) (T + 1) = Value (v, r).
Proof.
  unfold NP_AnomalyDistance. cbn [n_PDis n_Ecc n_TimeP]. cbv zeta.
  replace (T + 1 - T) with 1 by ring. replace ((1 + 999 / 1000) / 1) with (1999 / 1000) by field.
  assert (SQ : 0 < sqrt (1999 / 1000) <= 3 / 2).
  { split; [apply sqrt_lt_R0; lra|]. rewrite <- (sqrt_square (3 / 2)) by lra. apply sqrt_le_1; lra. }
  set (q2 := K * sqrt (1999 / 1000) / (2 * 1) * 1).
  assert (Q2 : 0 < q2 <= 13 / 1000) by (unfold q2, K; lra). clearbody q2.
  destruct (Req_EM_T 1 0); [lra|]. destruct (Req_EM_T (999 / 1000) 1); [lra|]. destruct (Rlt_dec 1 0); [lra|].
  pose proof (NP_start_barker q2 ltac:(lra)) as BK. rewrite (Rabs_right q2) in BK by lra. set (s := NP_start q2) in *. clearbody s.
  assert (S0 : 0 < s). { destruct (Rle_dec s 0); [exfalso; nra|lra]. }
  assert (S1 : s <= 13 / 1000) by nra.
  replace ((1 - 999 / 1000) / (1 + 999 / 1000)) with (1 / 1999) by field.
  assert (Y : 0 < s * s <= 169 / 1000000) by (split; nra).
  set (y := s * s) in *. assert (C : 0 < y * s <= 2197 / 1000000000) by (clear - Y S0 S1; split; nra).
  set (c := y * s) in *. assert (D : 0 < c * y <= 1 / 2000000000) by (clear - Y C; split; nra).
  assert (EF : (2 - 3 * (1 / 1999)) / 5 * (- (- y * s) * (1 / 1999) * y) = 3995 / (9995 * 1999) * (c * y)) by (unfold c; field).
  set (F := 3995 / (9995 * 1999) * (c * y)) in *.
  assert (BF : 0 < F <= 1 / 5000000000) by (unfold F; lra).
  assert (AF : Rabs F = F) by (apply Rabs_right; lra).
  set (q3 := q2 + 2 * (1 / 1999) * s * y / 3 + F).
  assert (HS : NP_series (1 / 1999) y 1 (- y * s) (q2 + 2 * (1 / 1999) * s * y / 3) 50 = Value q3).
  { unfold q3. rewrite <- EF. apply series_one. rewrite EF, AF. lra. }
  assert (N : 0 < NP_newton q3 s - s <= 1 / 1000000000).
  { assert (E : NP_newton q3 s - s = (2 / 5997 * c + F) / (y + 1)).
    { unfold NP_newton. clearbody F. unfold q3. replace q2 with ((c + 3 * s) / 3) by (clear - BK; lra). unfold c, y. field. nra. }
    rewrite E. split; [apply Rdiv_lt_0_compat; lra|].
    apply Rmult_le_reg_r with (y + 1); [lra|]. unfold Rdiv at 1. rewrite Rmult_assoc, Rinv_l by lra. lra. }
  assert (AN : Rabs (NP_newton q3 s - s) <= 1 / 1000000000) by (rewrite Rabs_right; lra).
  rewrite (outer_one (1 / 1999) q2 s q3 (NP_newton q3 s) 1 50 HS (newton_one q3 s 0 AN) AN).
  set (z := NP_newton q3 s) in *. assert (ZB : 0 < z < 1) by lra. clearbody z.
  assert (AB : 0 < atan z < PI / 4).
  { split; [rewrite <- atan_0; apply atan_increasing; lra|rewrite <- atan_1; apply atan_increasing; lra]. }
  destruct (Rlt_dec (2 * atan z) 0); [lra|].
  eexists. eexists. split; [|reflexivity]. lra.
Qed.
