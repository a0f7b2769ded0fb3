(** Lemmas for C80: the cells of L_refraction3 are correct. *)
From Coq Require Import ZArith Reals List Lra Lia Psatz Bool.
From Flocq Require Import Core.
From Verif Require Import GoMath S_solar M_refraction L_trig L_kepler L_precess L_solar L_refraction L_refraction2 L_refraction3 L_apparent2 L_taylor L_season2.
Local Open Scope R_scope.

Definition U32 : R := 4294967296.
Lemma SS_R : IZR SS = U32 * U32. Proof. unfold U32, SS. rewrite <- mult_IZR. reflexivity. Qed.
Lemma pt_U p : IZR (4096 * p) = pt p * U32. Proof. rewrite mult_IZR. unfold pt, U32. field. Qed.
Lemma f511_ok P : (0 < 100 * P + 511 * 4294967296)%Z -> IZR (f511 P) <= 1030 / 100 / (IZR P / U32 + 511 / 100) * U32 < IZR (f511 P) + 1.
Proof.
  intros H. pose proof (div_bounds (1030 * SS) _ H) as B. unfold f511. apply IZR_lt in H. rewrite plus_IZR, !mult_IZR in *. rewrite SS_R in B. replace (1030 / 100 / (IZR P / U32 + 511 / 100) * U32) with (1030 * (U32 * U32) / (100 * IZR P + 511 * 4294967296)); [exact B|].
  unfold U32 in *. field. lra.
Qed.
Lemma f440_ok P : (0 < 100 * P + 440 * 4294967296)%Z -> IZR (f440 P) <= 731 / 100 / (IZR P / U32 + 440 / 100) * U32 < IZR (f440 P) + 1.
Proof.
  intros H. pose proof (div_bounds (731 * SS) _ H) as B. unfold f440. apply IZR_lt in H. rewrite plus_IZR, !mult_IZR in *. rewrite SS_R in B. replace (731 / 100 / (IZR P / U32 + 440 / 100) * U32) with (731 * (U32 * U32) / (100 * IZR P + 440 * 4294967296)); [exact B|].
  unfold U32 in *. field. lra.
Qed.
Lemma tan_bounds dl dh d : (0 <= dl)%Z -> (dh <= 2147483648)%Z -> IZR dl <= d * U32 <= IZR dh ->
  let t := tan (d * PI / 180) in IZR (tan_lo dl) <= t * U32 <= IZR (tan_hi dh) /\ 0 <= IZR (tan_lo dl) /\ 0 < cos (d * PI / 180).
Proof.
  intros H0 H1 [D0 D1] t. unfold tan_lo, tan_hi. pose proof (div_bounds (dl * 3141278490735) 180000000000000 ltac:(lia)) as B0. pose proof (div_bounds (dh * 3141906819266) 180000000000000 ltac:(lia)) as B1.
  assert (Z0 : (0 <= dl * 3141278490735 / 180000000000000)%Z) by (apply Z.div_pos; lia). apply IZR_le in Z0, H0, H1. rewrite plus_IZR. rewrite !mult_IZR in B0, B1. pose proof PI_10 as HP. assert (HU : U32 = 4294967296) by reflexivity.
  assert (E0 : 0 <= d) by (apply Rmult_le_reg_r with U32; lra). assert (E1 : d <= 1 / 2) by (apply Rmult_le_reg_r with U32; lra). set (x := d * PI / 180) in *.
  assert (X0 : d * (314159265 / 100000000) / 180 <= x) by (unfold x; assert (d * (314159265 / 100000000) <= d * PI) by (apply Rmult_le_compat_l; lra); lra).
  assert (X1 : x <= d * (314159266 / 100000000) / 180) by (unfold x; assert (d * PI <= d * (314159266 / 100000000)) by (apply Rmult_le_compat_l; lra); lra).
  destruct (tan_small x ltac:(lra)) as [[T0 T1] C]. fold t in T0, T1. split; [|split; [exact Z0|exact C]]. clearbody t x. set (a := IZR (dl * 3141278490735 / 180000000000000)) in *. set (b := IZR (dh * 3141906819266 / 180000000000000)) in *. clearbody a b. split.
  - assert (9999 / 10000 * (d * (314159265 / 100000000) / 180) * U32 <= t * U32) by (apply Rmult_le_compat_r; lra). lra.
  - assert (t * U32 <= 10001 / 10000 * (d * (314159266 / 100000000) / 180) * U32) by (apply Rmult_le_compat_r; lra). lra.
Qed.
Ltac cond H := match type of H with (if (?a <=? ?b)%Z then _ else _) = true => let E := fresh "K" in destruct (a <=? b)%Z eqn:E; [apply Z.leb_le in E|discriminate H] | (if (?a <? ?b)%Z then _ else _) = true => let E := fresh "K" in destruct (a <? b)%Z eqn:E; [apply Z.ltb_lt in E|discriminate H] end.
Lemma cell1_ok p q : cell1 p q = true -> forall u, pt p <= u <= pt q -> Rabs (sae (u - ben u / 60) - ben u) <= 4 / 60.
Proof.
  unfold cell1. destruct (r_ok 731 440 p) eqn:O1; [|discriminate]. destruct (r_ok 731 440 q) eqn:O2; [|discriminate]. cbv zeta.
  pose proof (r_bounds 100 _ _ _ ltac:(lia) O1) as [_ R1]. pose proof (r_bounds 100 _ _ _ ltac:(lia) O2) as [R2 _]. fold (ben (pt p)) in R1. fold (ben (pt q)) in R2.
  set (cp := r_hi 100 731 440 p) in *. set (cq := r_lo 100 731 440 q) in *. clearbody cp cq. set (x1 := (cq / 60)%Z). set (x0 := (cp / 60 + 1)%Z). set (dh := (f511 (4096 * p - x1) - x1 + 1 - f440 (4096 * p))%Z). set (dl := (f511 (4096 * q - x0) - x0 - 1 - f440 (4096 * q))%Z).
  intros H u Hu. do 6 cond H. set (t1 := tan_hi dh) in *. set (t0 := tan_lo dl) in *. cond H. apply Z.leb_le in H.
  assert (HU : U32 = 4294967296) by reflexivity. change 4294967296 with U32 in R1, R2.
  assert (Ppos : 0 <= pt p) by (apply IZR_le in K; unfold pt; lra). assert (Qle : pt q <= 90) by (apply IZR_le in K0; unfold pt; lra).
  pose proof (ben_decr (pt p) u ltac:(lra) ltac:(lra) ltac:(lra)) as D1. pose proof (ben_decr u (pt q) ltac:(lra) ltac:(lra) ltac:(lra)) as D2. set (c := ben u) in *.
  assert (C1 : IZR cq <= c * U32) by (assert (ben (pt q) * U32 <= c * U32) by (apply Rmult_le_compat_r; lra); lra). assert (C0 : c * U32 <= IZR cp) by (assert (c * U32 <= ben (pt p) * U32) by (apply Rmult_le_compat_r; lra); lra).
  pose proof (div_bounds cq 60 ltac:(lia)) as B1. pose proof (div_bounds cp 60 ltac:(lia)) as B0. fold x1 in B1. assert (X0R : IZR x0 = IZR (cp / 60) + 1) by (unfold x0; apply plus_IZR).
  assert (X1 : IZR x1 / U32 <= c / 60) by (rewrite HU in *; lra). assert (X0 : c / 60 <= IZR x0 / U32) by (rewrite HU in *; lra).
  assert (X1p : (0 <= x1)%Z) by (unfold x1; apply Z.div_pos; lia). assert (Lx : (x1 <= x0)%Z) by (apply le_IZR; rewrite HU in *; lra).
  apply IZR_le in K1. assert (X1p' := X1p). apply IZR_le in X1p'. assert (K2' := K2). apply IZR_le in K2'.
  assert (G0 : 0 <= IZR x1 / U32) by (rewrite HU; lra). assert (G1 : IZR x0 / U32 <= 6 / 10) by (rewrite HU; lra).
  pose proof (h1_mono (pt p) u (IZR x1 / U32) (c / 60) Ppos ltac:(lra) G0 X1 ltac:(lra)) as M1. pose proof (h1_mono u (pt q) (c / 60) (IZR x0 / U32) ltac:(lra) ltac:(lra) ltac:(lra) X0 G1) as M0.
  assert (Ep : IZR (4096 * p) = pt p * U32) by apply pt_U. assert (Eq : IZR (4096 * q) = pt q * U32) by apply pt_U.
  assert (q0 : (0 <= q)%Z) by (apply le_IZR; unfold pt in *; lra).
  pose proof (f511_ok (4096 * p - x1) ltac:(lia)) as F1. pose proof (f440_ok (4096 * p) ltac:(lia)) as F2. pose proof (f511_ok (4096 * q - x0) ltac:(lia)) as F3. pose proof (f440_ok (4096 * q) ltac:(lia)) as F4. rewrite minus_IZR in F1, F3. rewrite Ep in F1, F2. rewrite Eq in F3, F4.
  assert (V1 : h1 (pt p) (IZR x1 / U32) * U32 <= IZR dh). { unfold dh. rewrite minus_IZR, plus_IZR, minus_IZR. unfold h1. replace ((pt p * U32 - IZR x1) / U32) with (pt p - IZR x1 / U32) in F1 by (rewrite HU; field). replace (pt p * U32 / U32) with (pt p) in F2 by (rewrite HU; field). rewrite Rmult_minus_distr_r, Rmult_plus_distr_r. replace (- (IZR x1 / U32) * U32) with (- IZR x1) by (rewrite HU; field). lra. }
  assert (V0 : IZR dl <= h1 (pt q) (IZR x0 / U32) * U32). { unfold dl. rewrite !minus_IZR. unfold h1. replace ((pt q * U32 - IZR x0) / U32) with (pt q - IZR x0 / U32) in F3 by (rewrite HU; field). replace (pt q * U32 / U32) with (pt q) in F4 by (rewrite HU; field). rewrite Rmult_minus_distr_r, Rmult_plus_distr_r. replace (- (IZR x0 / U32) * U32) with (- IZR x0) by (rewrite HU; field). lra. }
  set (d := h1 u (c / 60)) in *. assert (W : IZR dl <= d * U32 <= IZR dh).
  { split; [apply Rle_trans with (1 := V0)|apply Rle_trans with (2 := V1)]; apply Rmult_le_compat_r; try assumption; rewrite HU; lra. }
  destruct (tan_bounds dl dh d K3 K4 W) as [[T0 T1] [Tp Cd]]. fold t0 t1 in T0, T1, Tp. set (t := tan (d * PI / 180)) in *.
  apply IZR_le in K5, H. rewrite ?opp_IZR, ?plus_IZR, ?mult_IZR, ?minus_IZR, ?mult_IZR in K5. rewrite ?opp_IZR, ?plus_IZR, ?mult_IZR, ?minus_IZR, ?mult_IZR in H. rewrite SS_R in K5, H. change 4294967296 with U32 in K5, H.
  assert (Up : 0 < U32) by (rewrite HU; lra). assert (G2 : c / 60 <= 6 / 10) by lra. clear - K5 H C1 C0 T0 T1 Tp Cd K1 Up HU Ppos Qle Hu G2.
  set (c0 := IZR cp / U32). set (c1 := IZR cq / U32). set (s0 := IZR t0 / U32). set (s1 := IZR t1 / U32).
  assert (A0 : IZR cp = c0 * U32) by (unfold c0; field; lra). assert (A1 : IZR cq = c1 * U32) by (unfold c1; field; lra). assert (A2 : IZR t0 = s0 * U32) by (unfold s0; field; lra). assert (A3 : IZR t1 = s1 * U32) by (unfold s1; field; lra).
  rewrite A0, A1, A2, A3 in *. clearbody c0 c1 s0 s1. clear A0 A1 A2 A3.
  assert (P3 : 0 < U32 * U32 * U32) by (apply Rmult_lt_0_compat; [apply Rmult_lt_0_compat|]; lra).
  destruct (diff1 c c0 c1 t s0 s1) as [N G]; try (apply Rmult_le_reg_r with U32; lra).
  { apply Rmult_le_reg_r with (100 * (U32 * U32 * U32)); [lra|]. ring_simplify. ring_simplify in K5. lra. }
  { apply Rmult_le_reg_r with (100 * (U32 * U32 * U32)); [lra|]. ring_simplify. ring_simplify in H. lra. }
  unfold sae, r. unfold c in G at 1 2. replace (arg (1030 / 100) (511 / 100) (u - c / 60) * PI / 180) with (arg (731 / 100) (440 / 100) u * PI / 180 + d * PI / 180) by (unfold d, h1, arg; field; lra).
  assert (SB : sin (arg (731 / 100) (440 / 100) u * PI / 180) <> 0) by (apply arg_sin; lra).
  assert (CB : cot (arg (731 / 100) (440 / 100) u * PI / 180) = c) by (unfold c, ben, r; lra).
  rewrite cot_plus; rewrite ?CB; fold t; [exact G|exact SB|lra|lra].
Qed.
