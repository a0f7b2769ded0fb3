(** Bisection in binary64. *)
From Coq Require Import ZArith Bool Reals List Lra Lia.
From Flocq Require Import Core IEEE754.BinarySingleNaN.
From Verif Require Import GoInt GoFloat M_iterate S_base S_iterate S_float64 L_round.
Local Open Scope R_scope.

Lemma between_iff a b x : between a b x <-> (a <= x <= b \/ b <= x <= a).
Proof. unfold between, Rmin, Rmax. destruct (Rle_dec a b); lra. Qed.
Definition two64 : float64 := fconst (Flt := BFlt) 2 1.
Lemma two64_R : B2R two64 = 2.
Proof.
  rewrite <- SF2R_B2SF. replace (B2SF two64) with (SpecFloat.S754_finite false 4503599627370496 (-51)) by (vm_compute; reflexivity).
  unfold SF2R, F2R. cbn. lra.
Qed.
Lemma half_error (s : float64) : Rabs (R64 (B2R s / 2) - B2R s / 2) <= eta.
Proof.
  pose proof (generic_format_B2R 53 1024 s) as G. apply FLT_format_generic in G; [|typeclasses eauto]. destruct G as [[m e] E1 E2 E3]. cbn [Fnum Fexp] in *. unfold F2R in E1. cbn [Fnum Fexp] in E1. unfold SpecFloat.emin in E3.
  destruct (Z.eq_dec e (-1074)) as [->|N].
  - assert (SM : Rabs (B2R s / 2) < bpow radix2 (-1074 + 53)).
    { rewrite E1. unfold Rdiv. rewrite !Rabs_mult, (Rabs_pos_eq (/ 2)) by lra. rewrite (Rabs_pos_eq (bpow _ _)) by apply bpow_ge_0. rewrite bpow_plus, <- abs_IZR. pose proof (bpow_gt_0 radix2 (-1074)) as P.
      change (bpow radix2 53) with (IZR (2 ^ 53)). assert (IZR (Z.abs m) < IZR (2 ^ 53)) by now apply IZR_lt. assert (0 <= IZR (Z.abs m)) by (apply IZR_le; lia). nra. }
    pose proof (error_le_half_ulp radix2 (FLT_exp (-1074) 53) (fun z => negb (Z.even z)) (B2R s / 2)) as H. rewrite (ulp_FLT_small radix2 (-1074) 53 _ SM) in H. replace eta with (/ 2 * bpow radix2 (-1074)) by (unfold eta; change (/ 2) with (bpow radix2 (-1)); rewrite <- bpow_plus; reflexivity). exact H.
  - unfold R64. rewrite round_generic; [rewrite Rminus_diag_eq, Rabs_R0 by reflexivity; apply Rlt_le, eta_pos|typeclasses eauto|]. apply generic_format_FLT. exists (Float radix2 m (e - 1)); cbn [Fnum Fexp]; [|exact E2|].
    + rewrite E1. unfold F2R. cbn [Fnum Fexp]. unfold Z.sub. rewrite bpow_plus. change (bpow radix2 (-(1))) with (/ 2). field.
    + unfold SpecFloat.emin. lia.
Qed.
Definition mid64 (a b : float64) : float64 := Bdiv mode_NE (Bplus mode_NE a b) two64.
Lemma mid64_between (a b : float64) : is_finite a = true -> is_finite b = true -> Rabs (B2R a) <= bpow radix2 1022 -> Rabs (B2R b) <= bpow radix2 1022 ->
  let m := mid64 a b in is_finite m = true /\ between (B2R a) (B2R b) (B2R m) /\
  Rabs (B2R m - (B2R a + B2R b) / 2) <= u53 * Rmax (Rabs (B2R a)) (Rabs (B2R b)) + 2 * eta.
Proof.
  intros Fa Fb Ba Bb m. set (x := B2R a) in *. set (y := B2R b) in *. assert (P : bpow radix2 1023 = 2 * bpow radix2 1022) by (change 1023%Z with (1 + 1022)%Z; rewrite bpow_plus; reflexivity).
  assert (S0 : Rabs (x + y) <= bpow radix2 1023) by (rewrite P; eapply Rle_trans; [apply Rabs_triang|lra]).
  destruct (plus_ok a b Fa Fb S0) as [Fs Es]. fold x y in Es.
  assert (SB : Rabs (R64 (x + y)) <= bpow radix2 1023) by (apply R64_bound; [lia|exact S0]).
  assert (N2 : B2R two64 <> 0) by (rewrite two64_R; lra).
  assert (DB : Rabs (B2R (Bplus mode_NE a b) / B2R two64) <= bpow radix2 1023).
  { rewrite Es, two64_R. unfold Rdiv. rewrite Rabs_mult, (Rabs_pos_eq (/ 2)) by lra. pose proof (Rabs_pos (R64 (x + y))). lra. }
  destruct (div_ok (Bplus mode_NE a b) two64 Fs N2 DB) as [Fm Em]. rewrite Es, two64_R in Em. fold (mid64 a b) in Fm, Em. fold m in Fm, Em. split; [exact Fm|].
  split.
  - rewrite Em. apply between_iff. assert (K : forall p q : float64, B2R p <= B2R q -> B2R p <= R64 (R64 (B2R p + B2R q) / 2) <= B2R q).
    { intros p q H. assert (L1 : 2 * B2R p <= R64 (B2R p + B2R q)) by (rewrite <- R64_twice; apply R64_monotone; lra). assert (L2 : R64 (B2R p + B2R q) <= 2 * B2R q) by (rewrite <- R64_twice; apply R64_monotone; lra).
      split; [rewrite <- (R64_id p) at 1|rewrite <- (R64_id q) at 2]; apply R64_monotone; lra. }
    destruct (Rle_dec x y) as [H|H]; [left; now apply K|right]. rewrite (Rplus_comm x y). apply (K b a). fold x y. lra.
  - rewrite Em, <- Es. pose proof (half_error (Bplus mode_NE a b)) as HE. destruct (R64_err (x + y)) as (e & t & E1 & E2 & E3). rewrite Es in *. set (s := R64 (x + y)) in *.
    replace (R64 (s / 2) - (x + y) / 2) with ((R64 (s / 2) - s / 2) + ((x + y) * e + t) / 2) by (rewrite E3; field). eapply Rle_trans; [apply Rabs_triang|].
    assert (T : Rabs (((x + y) * e + t) / 2) <= u53 * Rmax (Rabs x) (Rabs y) + eta / 2).
    { unfold Rdiv at 1. rewrite Rabs_mult, (Rabs_pos_eq (/ 2)) by lra. pose proof (Rabs_triang ((x + y) * e) t) as T1. rewrite Rabs_mult in T1. pose proof (Rabs_triang x y) as T2. pose proof (Rmax_l (Rabs x) (Rabs y)) as M1. pose proof (Rmax_r (Rabs x) (Rabs y)) as M2.
      assert (T3 : Rabs (x + y) * Rabs e <= 2 * Rmax (Rabs x) (Rabs y) * u53) by (apply Rmult_le_compat; [apply Rabs_pos|apply Rabs_pos|lra|exact E1]). lra. }
    pose proof eta_pos. lra.
Qed.
Lemma loop64_step f (a b ya m0 : float64) n : BinaryRoot_loop (fl := BFlt) f a b ya m0 (S n) =
  let m := mid64 a b in if Beqb (f m) (fconst (Flt := BFlt) 0 1) then m else if Bool.eqb (Bsign ya) (Bsign (f m)) then BinaryRoot_loop (fl := BFlt) f m b (f m) m n else BinaryRoot_loop (fl := BFlt) f a m ya m n.
Proof. reflexivity. Qed.
Lemma between_abs x y z M : between x y z -> Rabs x <= M -> Rabs y <= M -> Rabs z <= M.
Proof. rewrite between_iff. intros [H|H] A B; apply Rabs_le; revert A B; unfold Rabs; destruct (Rcase_abs x), (Rcase_abs y); lra. Qed.
Lemma between_trans x y z w : between x y z -> between z y w -> between x y w. Proof. rewrite !between_iff. lra. Qed.
Lemma between_trans2 x y z w : between x y z -> between x z w -> between x y w. Proof. rewrite !between_iff. lra. Qed.
Lemma between_ends x y : between x y x /\ between x y y. Proof. rewrite !between_iff. lra. Qed.
Lemma width_mid x y m d : Rabs (m - (x + y) / 2) <= d -> Rabs (x - m) <= Rabs (y - x) / 2 + d /\ Rabs (y - m) <= Rabs (y - x) / 2 + d.
Proof.
  intros H. assert (E : Rabs ((y - x) / 2) = Rabs (y - x) / 2) by (unfold Rdiv; rewrite Rabs_mult, (Rabs_pos_eq (/ 2)); lra).
  split; [replace (x - m) with (- ((y - x) / 2) + - (m - (x + y) / 2)) by field|replace (y - m) with ((y - x) / 2 + - (m - (x + y) / 2)) by field]; (eapply Rle_trans; [apply Rabs_triang|]; rewrite ?Rabs_Ropp, E; lra).
Qed.
Lemma loop64_root (f : float64 -> float64) M : M <= bpow radix2 1022 -> let d := u53 * M + 2 * eta in forall n (a b m0 : float64),
  is_finite a = true -> is_finite b = true -> Rabs (B2R a) <= M -> Rabs (B2R b) <= M ->
  let r := BinaryRoot_loop (fl := BFlt) f a b (f a) m0 (S n) in
  is_finite r = true /\ between (B2R a) (B2R b) (B2R r) /\
  (Bsign (f a) <> Bsign (f b) -> zero_or_change f a b r (Rabs (B2R b - B2R a) / 2 ^ S n + 2 * d * (1 - / 2 ^ S n))).
Proof.
  intros HM d. assert (D0 : forall x y, Rabs x <= M -> Rabs y <= M -> u53 * Rmax (Rabs x) (Rabs y) + 2 * eta <= d).
  { intros x y A B. unfold d. apply Rplus_le_compat_r, Rmult_le_compat_l; [apply Rlt_le, u53_pos|now apply Rmax_lub]. }
  induction n as [|n IH]; intros a b m0 Fa Fb Ba Bb.
  - cbv zeta. rewrite loop64_step. cbv zeta. destruct (mid64_between a b Fa Fb ltac:(lra) ltac:(lra)) as (Fm & Bm & Em). set (m := mid64 a b) in *. specialize (D0 _ _ Ba Bb).
    cbn [BinaryRoot_loop]. assert (R0 : (if Beqb (f m) (fconst (Flt := BFlt) 0 1) then m else if Bool.eqb (Bsign (f a)) (Bsign (f m)) then m else m) = m) by (destruct (Beqb _ _); [reflexivity|]; destruct (Bool.eqb _ _); reflexivity).
    change (@F BFlt) with float64 in *. rewrite R0. split; [exact Fm|]. split; [exact Bm|]. intros SC. destruct (Beqb (f m) (fconst (Flt := BFlt) 0 1)) eqn:Z; [now left|]. right.
    destruct (width_mid (B2R a) (B2R b) (B2R m) d ltac:(lra)) as [W1 W2]. replace (Rabs (B2R b - B2R a) / 2 ^ 1 + 2 * d * (1 - / 2 ^ 1)) with (Rabs (B2R b - B2R a) / 2 + d) by (simpl; field).
    destruct (Bool.bool_dec (Bsign (f a)) (Bsign (f m))) as [E|E].
    + exists b. split; [exact Fb|]. split; [apply between_ends|]. split; [congruence|exact W2].
    + exists a. split; [exact Fa|]. split; [apply between_ends|]. split; [exact E|exact W1].
  - cbv zeta. rewrite loop64_step. cbv zeta. destruct (mid64_between a b Fa Fb ltac:(lra) ltac:(lra)) as (Fm & Bm & Em). set (m := mid64 a b) in *. specialize (D0 _ _ Ba Bb). pose proof (between_abs _ _ _ _ Bm Ba Bb) as BM.
    destruct (width_mid (B2R a) (B2R b) (B2R m) d ltac:(lra)) as [W1 W2].
    assert (P2 : 0 < / 2 ^ S n) by (apply Rinv_0_lt_compat, pow_lt; lra).
    assert (WW : forall w, w <= Rabs (B2R b - B2R a) / 2 + d -> w / 2 ^ S n + 2 * d * (1 - / 2 ^ S n) <= Rabs (B2R b - B2R a) / 2 ^ S (S n) + 2 * d * (1 - / 2 ^ S (S n))).
    { intros w Hw. apply Rle_trans with ((Rabs (B2R b - B2R a) / 2 + d) / 2 ^ S n + 2 * d * (1 - / 2 ^ S n)); [apply Rplus_le_compat_r; unfold Rdiv at 1 2; apply Rmult_le_compat_r; lra|]. apply Req_le. rewrite <- (tech_pow_Rmult 2 (S n)). assert (2 ^ S n <> 0) by (apply pow_nonzero; lra). field. assumption. }
    destruct (Beqb (f m) (fconst (Flt := BFlt) 0 1)) eqn:Z; [split; [exact Fm|]; split; [exact Bm|]; intros _; now left|].
    destruct (Bool.eqb (Bsign (f a)) (Bsign (f m))) eqn:E.
    + apply Bool.eqb_prop in E. destruct (IH m b m Fm Fb BM Bb) as (R1 & R2 & R3). split; [exact R1|]. split; [eapply between_trans; eassumption|]. intros SC. destruct R3 as [R3|(q & Q1 & Q2 & Q3 & Q4)]; [congruence|now left|right].
      exists q. split; [exact Q1|]. split; [eapply between_trans; eassumption|]. split; [exact Q3|]. eapply Rle_trans; [exact Q4|]. now apply WW.
    + apply Bool.eqb_false_iff in E. destruct (IH a m m Fa Fm Ba BM) as (R1 & R2 & R3). split; [exact R1|]. split; [eapply between_trans2; eassumption|]. intros SC. destruct R3 as [R3|(q & Q1 & Q2 & Q3 & Q4)]; [congruence|now left|right].
      exists q. split; [exact Q1|]. split; [eapply between_trans2; eassumption|]. split; [exact Q3|]. eapply Rle_trans; [exact Q4|]. apply WW. rewrite Rabs_minus_sym. exact W1.
Qed.
Lemma BinaryRoot64_loop (f : float64 -> float64) (a b : float64) M : M <= bpow radix2 1022 -> is_finite a = true -> is_finite b = true -> Rabs (B2R a) <= M -> Rabs (B2R b) <= M ->
  let r := BinaryRoot (fl := BFlt) f a b in
  is_finite r = true /\ between (B2R a) (B2R b) (B2R r) /\
  (Bsign (f a) <> Bsign (f b) -> zero_or_change f a b r (Rabs (B2R b - B2R a) / 2 ^ 52 + 2 * (u53 * M + 2 * eta) * (1 - / 2 ^ 52))).
Proof.
  intros HM Fa Fb Ba Bb. unfold BinaryRoot.
  match goal with |- context [BinaryRoot_loop _ _ _ _ _ 52] => exact (loop64_root f M HM 51 a b (fconst (Flt := BFlt) 0 1) Fa Fb Ba Bb) end.
Qed.
Lemma BinaryRoot64 (f : float64 -> float64) (lower upper : float64) : is_finite lower = true -> is_finite upper = true ->
  let M := Rmax (Rabs (B2R lower)) (Rabs (B2R upper)) in M <= 2 ^ 1022 ->
  let r := BinaryRoot (fl := BFlt) f lower upper in
  is_finite r = true /\ between (B2R lower) (B2R upper) (B2R r) /\
  (Bsign (f lower) <> Bsign (f upper) -> zero_or_change f lower upper r ((Rabs (B2R upper - B2R lower) + M) / 2 ^ 52 + / 2 ^ 1073)).
Proof.
  intros Fa Fb M HM r. assert (HM' : M <= bpow radix2 1022). { eapply Rle_trans; [exact HM|]. change 1022%Z with (Z.of_nat 1022). rewrite bpow_powerRZ, <- pow_powerRZ. change (IZR radix2) with 2. apply Rle_refl. }
  destruct (BinaryRoot64_loop f lower upper M HM' Fa Fb (Rmax_l _ _) (Rmax_r _ _)) as (R1 & R2 & R3).
  split; [exact R1|]. split; [exact R2|]. intros SC. destruct (R3 SC) as [Z|(q & Q1 & Q2 & Q3 & Q4)]; [now left|right]. exists q. split; [exact Q1|]. split; [exact Q2|]. split; [exact Q3|]. eapply Rle_trans; [exact Q4|].
  assert (M0 : 0 <= M) by (eapply Rle_trans; [apply Rabs_pos|apply Rmax_l]). set (W := Rabs (B2R upper - B2R lower)). pose proof eta_pos as E0. pose proof u53_pos as U0.
  assert (ET : / 2 ^ 1073 = 4 * eta). { unfold eta. change (-1075)%Z with (- (Z.of_nat (1073 + 2)))%Z. rewrite bpow_opp, bpow_powerRZ, <- pow_powerRZ, pow_add. change (IZR radix2) with 2. assert (Q : 2 ^ 1073 <> 0) by (apply pow_nonzero; lra). set (k := 2 ^ 1073) in *. clearbody k. field. assumption. }
  rewrite ET. assert (UU : u53 = / 2 ^ 52 / 2) by (unfold u53; simpl; field). rewrite UU. set (k := / 2 ^ 52) in *. assert (K0 : 0 < k < 1) by (unfold k; split; [apply Rinv_0_lt_compat, pow_lt; lra|rewrite <- Rinv_1; apply Rinv_lt_contravar; simpl; lra]).
  unfold Rdiv at 1 3. fold k. assert (KM : 0 <= k * M) by (apply Rmult_le_pos; lra). assert (0 <= (k * M + 4 * eta) * k) by (apply Rmult_le_pos; lra). lra.
Qed.
