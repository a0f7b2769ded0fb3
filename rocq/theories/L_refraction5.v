(** Lemmas for C80: the other direction, and the two results. *)
From Coq Require Import ZArith Reals List Lra Lia Psatz Bool.
From Flocq Require Import Core.
From Verif Require Import GoMath S_solar M_refraction L_trig L_kepler L_precess L_solar L_refraction L_refraction2 L_refraction3 L_refraction4.
Local Open Scope R_scope.

Definition sa (u : R) : R := r (100 / 100) (1030 / 100) (511 / 100) u.
Lemma sae_sa u : sae u = 102 / 100 * sa u. Proof. unfold sae, sa, r. field. Qed.
Lemma cell2_ok p q : cell2 p q = true -> forall u, pt p <= u <= pt q -> Rabs (ben (u + sae u / 60) - sae u) <= 4 / 60.
Proof.
  unfold cell2. destruct (r_ok 1030 511 p) eqn:O1; [|discriminate]. destruct (r_ok 1030 511 q) eqn:O2; [|discriminate]. cbv zeta.
  pose proof (r_bounds 100 _ _ _ ltac:(lia) O1) as [_ R1]. pose proof (r_bounds 100 _ _ _ ltac:(lia) O2) as [R2 _]. fold (sa (pt p)) in R1. fold (sa (pt q)) in R2.
  set (cp := r_hi 100 1030 511 p) in *. set (cq := r_lo 100 1030 511 q) in *. clearbody cp cq. set (y1 := (17 * cq / 1000)%Z). set (y0 := (17 * cp / 1000 + 1)%Z).
  set (dh := (f511 (4096 * p) - y1 + 1 - f440 (4096 * p + y1))%Z). set (dl := (f511 (4096 * q) - y0 - 1 - f440 (4096 * q + y0))%Z). set (s := (if (0 <=? cq)%Z then (cq * cq)%Z else 0%Z)).
  intros H u Hu. do 8 cond H. set (t1 := tan_hi dh) in *. set (t0 := tan_lo dl) in *. do 2 cond H. apply Z.leb_le in H.
  assert (HU : U32 = 4294967296) by reflexivity. change 4294967296 with U32 in R1, R2.
  assert (Ppos : -1 <= pt p) by (apply IZR_le in K; unfold pt; lra). assert (Qle : pt q <= 90) by (apply IZR_le in K0; unfold pt; lra).
  pose proof (sae_decr (pt p) u ltac:(lra) ltac:(lra) ltac:(lra)) as D1. pose proof (sae_decr u (pt q) ltac:(lra) ltac:(lra) ltac:(lra)) as D2. rewrite !sae_sa in *. set (c := sa u) in *.
  assert (C1 : IZR cq <= c * U32) by (assert (sa (pt q) * U32 <= c * U32) by (apply Rmult_le_compat_r; lra); lra). assert (C0 : c * U32 <= IZR cp) by (assert (c * U32 <= sa (pt p) * U32) by (apply Rmult_le_compat_r; lra); lra).
  pose proof (div_bounds (17 * cq) 1000 ltac:(lia)) as B1. pose proof (div_bounds (17 * cp) 1000 ltac:(lia)) as B0. fold y1 in B1. assert (Y0R : IZR y0 = IZR (17 * cp / 1000) + 1) by (unfold y0; apply plus_IZR). rewrite mult_IZR in B0, B1.
  set (y := 102 / 100 * c / 60) in *. assert (Y1 : IZR y1 / U32 <= y) by (unfold y; rewrite HU in *; lra). assert (Y0 : y <= IZR y0 / U32) by (unfold y; rewrite HU in *; lra).
  assert (Ep : IZR (4096 * p) = pt p * U32) by apply pt_U. assert (Eq : IZR (4096 * q) = pt q * U32) by apply pt_U.
  assert (L5 : 300 * 4294967296 <= 100 * (IZR (4096 * p) + IZR y1) + 440 * 4294967296) by (apply IZR_le in K5; rewrite plus_IZR, (mult_IZR 100), plus_IZR, (mult_IZR 300), (mult_IZR 440) in K5; exact K5).
  assert (L6 : 100 * (100 * IZR (4096 * p) + 511 * 4294967296) <= 118 * (100 * (IZR (4096 * p) + IZR y1) + 440 * 4294967296)) by (apply IZR_le in K6; rewrite (mult_IZR 100 (_ + _)), (mult_IZR 118), !plus_IZR, !(mult_IZR 100), (mult_IZR 511), (mult_IZR 440), plus_IZR in K6; exact K6).
  rewrite Ep in L5, L6.
  set (v1 := IZR y1 / U32) in *. assert (Ev1 : IZR y1 = v1 * U32) by (unfold v1; rewrite HU; field). set (v0 := IZR y0 / U32) in *. assert (Ev0 : IZR y0 = v0 * U32) by (unfold v0; rewrite HU; field).
  rewrite Ev1 in L5, L6. assert (Up : 0 < U32) by (rewrite HU; lra).
  assert (G3 : 3 <= pt p + v1 + 440 / 100) by (rewrite HU in *; lra). assert (G5 : pt p + 511 / 100 <= 118 / 100 * (pt p + v1 + 440 / 100)) by (rewrite HU in *; lra).
  pose proof (h2_mono (pt p) u v1 y ltac:(lra) ltac:(lra) Y1 G3 G5) as M1. pose proof (h2_mono u (pt q) y v0 ltac:(lra) ltac:(lra) Y0 ltac:(lra) ltac:(lra)) as M0.
  assert (pq : (p <= q)%Z) by (apply le_IZR; unfold pt in *; lra).
  assert (y01 : (y1 <= y0)%Z) by (apply le_IZR; rewrite Ev1, Ev0; apply Rmult_le_compat_r; lra).
  pose proof (f511_ok (4096 * p) ltac:(lia)) as F1. pose proof (f440_ok (4096 * p + y1) ltac:(lia)) as F2. pose proof (f511_ok (4096 * q) ltac:(lia)) as F3. pose proof (f440_ok (4096 * q + y0) ltac:(lia)) as F4. rewrite plus_IZR in F2, F4. rewrite Ep in F1, F2. rewrite Eq in F3, F4. rewrite Ev1 in F2. rewrite Ev0 in F4.
  replace ((pt p * U32 + v1 * U32) / U32) with (pt p + v1) in F2 by (field; lra). replace ((pt q * U32 + v0 * U32) / U32) with (pt q + v0) in F4 by (field; lra). replace (pt p * U32 / U32) with (pt p) in F1 by (field; lra). replace (pt q * U32 / U32) with (pt q) in F3 by (field; lra).
  assert (V1 : h2 (pt p) v1 * U32 <= IZR dh). { unfold dh. rewrite minus_IZR, plus_IZR, minus_IZR, Ev1. unfold h2. rewrite Rmult_plus_distr_r, Rmult_minus_distr_r. replace (- v1 * U32) with (- (v1 * U32)) by ring. lra. }
  assert (V0 : IZR dl <= h2 (pt q) v0 * U32). { unfold dl. rewrite !minus_IZR, Ev0. unfold h2. rewrite Rmult_plus_distr_r, Rmult_minus_distr_r. replace (- v0 * U32) with (- (v0 * U32)) by ring. lra. }
  set (d := h2 u y) in *. assert (W : IZR dl <= d * U32 <= IZR dh).
  { split; [apply Rle_trans with (1 := V0)|apply Rle_trans with (2 := V1)]; apply Rmult_le_compat_r; lra. }
  destruct (tan_bounds dl dh d K3 K4 W) as [[T0 T1] [Tp Cd]]. fold t0 t1 in T0, T1, Tp. set (t := tan (d * PI / 180)) in *.
  assert (S0 : 0 <= IZR s /\ IZR s <= c * U32 * (c * U32)).
  { unfold s. destruct (0 <=? cq)%Z eqn:Es; [|split; [lra|nra]]. apply Z.leb_le, IZR_le in Es. rewrite mult_IZR. split; [apply Rmult_le_pos; exact Es|apply Rmult_le_compat; lra]. }
  apply IZR_le in K1, K2, K8, H. apply IZR_lt in K7. rewrite opp_IZR in K1. rewrite ?opp_IZR, ?plus_IZR, ?mult_IZR, ?minus_IZR, ?plus_IZR, ?opp_IZR, ?mult_IZR in K8. rewrite ?opp_IZR, ?plus_IZR, ?mult_IZR, ?minus_IZR, ?plus_IZR, ?opp_IZR, ?mult_IZR in H. rewrite ?minus_IZR, ?mult_IZR in K7. rewrite SS_R in K7, K8, H. change 4294967296 with U32 in K7, K8, H.
  assert (Gy : 3 <= u + y + 440 / 100) by lra. clear - K7 K8 H C1 C0 T0 T1 Tp Cd K1 K2 Up HU Ppos Qle Hu Gy S0.
  set (c0 := IZR cp / U32). set (c1 := IZR cq / U32). set (s0 := IZR t0 / U32). set (s1 := IZR t1 / U32). set (sq := IZR s / (U32 * U32)).
  assert (A0 : IZR cp = c0 * U32) by (unfold c0; field; lra). assert (A1 : IZR cq = c1 * U32) by (unfold c1; field; lra). assert (A2 : IZR t0 = s0 * U32) by (unfold s0; field; lra). assert (A3 : IZR t1 = s1 * U32) by (unfold s1; field; lra). assert (A4 : IZR s = sq * (U32 * U32)) by (unfold sq; field; lra).
  rewrite A0, A1, A2, A3, A4 in *. clearbody c0 c1 s0 s1 sq. clear A0 A1 A2 A3 A4.
  assert (P2 : 0 < U32 * U32) by (apply Rmult_lt_0_compat; lra). assert (P3 : 0 < U32 * U32 * U32) by (apply Rmult_lt_0_compat; lra).
  destruct (diff2 c c0 c1 sq t s0 s1) as [N G]; try (apply Rmult_le_reg_r with U32; lra); try (apply Rmult_le_reg_r with (U32 * U32); lra).
  { apply Rmult_lt_reg_r with (100 * (U32 * U32 * U32)); [lra|]. ring_simplify. ring_simplify in K7. lra. }
  { apply Rmult_le_reg_r with (100 * (U32 * U32 * U32)); [lra|]. ring_simplify. ring_simplify in K8. lra. }
  { apply Rmult_le_reg_r with (100 * (U32 * U32 * U32)); [lra|]. ring_simplify. ring_simplify in H. lra. }
  unfold ben, r. replace (arg (731 / 100) (440 / 100) (u + y) * PI / 180) with (arg (1030 / 100) (511 / 100) u * PI / 180 + - (d * PI / 180)) by (unfold d, h2, arg; field; lra).
  assert (SB : sin (arg (1030 / 100) (511 / 100) u * PI / 180) <> 0) by (apply arg_sin; lra).
  assert (CB : cot (arg (1030 / 100) (511 / 100) u * PI / 180) = c) by (unfold c, sa, r; lra).
  rewrite cot_plus; rewrite ?CB, ?tan_neg, ?cos_neg; fold t; [|exact SB|lra|lra]. replace (c - - t) with (c + t) by ring. replace (1 + c * - t) with (1 - c * t) by ring. replace (100 / 100) with 1 by field. rewrite Rmult_1_l. exact G.
Qed.

Lemma Saem_Bennett h0 : 0 <= h0 <= degrees 89.9 -> Rabs (Saemundsson (h0 - Bennett h0) - Bennett h0) <= arcsec 4.
Proof.
  intros H. replace 0 with (degrees 0) in H by (unfold degrees; ring). apply to_deg in H. rewrite (in_deg h0). set (u := h0 * 180 / PI) in *. clearbody u. clear h0. assert (D : 89.9 = 899 / 10) by (decimals; field). rewrite D in H. clear D.
  pose proof (run_ok _ cell1 cell1_ok chain1 _ ltac:(discriminate) run1 u ltac:(change (last chain1 0%Z) with 94266983%Z; unfold pt; lra)) as G. rewrite (Bennett_ben u) by lra.
  assert (L : -1 <= u - ben u / 60). { pose proof (ben_order 0 u ltac:(lra) ltac:(lra) ltac:(lra)) as O. pose proof (ben_decr (-1 / 2) 0 ltac:(lra) ltac:(lra) ltac:(lra)).
    assert (B : r_ok 731 440 0 = true) by (vm_compute; reflexivity). pose proof (r_bounds 100 731 440 0 ltac:(reflexivity) B) as [_ B1]. assert (C : (r_hi 100 731 440 0 <=? 60 * 4294967296)%Z = true) by (vm_compute; reflexivity). apply Z.leb_le, IZR_le in C. rewrite mult_IZR in C. change (r (100 / 100) (731 / 100) (440 / 100) (pt 0)) with (ben (pt 0)) in B1. replace (pt 0) with 0 in B1 by (unfold pt; field). lra. }
  assert (U : 0 < ben u). { assert (D : degrees (-1) <= degrees u <= degrees 89.92) by (split; apply deg_le; [lra|decimals; lra]). pose proof (Bennett_pos (degrees u) D) as B. rewrite Bennett_ben in B by lra. unfold degrees in B. pose proof PI_RGT_0. apply Rmult_lt_reg_r with (PI / 10800); [lra|]. lra. }
  replace (degrees u - degrees (ben u / 60)) with (degrees (u - ben u / 60)) by (unfold degrees; ring). rewrite Saem_sae by lra. apply diff_min, G.
Qed.
Lemma sae_end p (H : r_ok 1030 511 p = true) : IZR (r_lo 102 1030 511 p) <= sae (pt p) * 4294967296 <= IZR (r_hi 102 1030 511 p).
Proof. exact (r_bounds 102 1030 511 p ltac:(reflexivity) H). Qed.
Lemma Bennett_Saem h : degrees (-0.6) <= h <= degrees 90 -> Rabs (Bennett (h + Saemundsson h) - Saemundsson h) <= arcsec 4.
Proof.
  intros H. apply to_deg in H. rewrite (in_deg h). set (u := h * 180 / PI) in *. clearbody u. clear h. assert (D : -0.6 = - (6 / 10)) by (decimals; field). rewrite D in H. clear D.
  pose proof (run_ok _ cell2 cell2_ok chain2 _ ltac:(discriminate) run2 u ltac:(change (last chain2 (-629146)%Z) with 94371840%Z; unfold pt; lra)) as G. rewrite (Saem_sae u) by lra.
  pose proof (sae_order u 90 ltac:(lra) ltac:(lra) ltac:(lra)) as O. pose proof (sae_order (pt (-629146)) u ltac:(unfold pt; lra) ltac:(unfold pt; lra) ltac:(lra)) as O1.
  assert (L : -1 <= u + sae u / 60). { assert (B : r_ok 1030 511 (-629146) = true) by (vm_compute; reflexivity). pose proof (sae_end _ B) as [B1 _]. assert (C : (0 <=? r_lo 102 1030 511 (-629146))%Z = true) by (vm_compute; reflexivity). apply Z.leb_le, IZR_le in C. unfold pt in O1 at 1. lra. }
  assert (U : u + sae u / 60 <= 90). { assert (B : r_ok 1030 511 94371840 = true) by (vm_compute; reflexivity). pose proof (sae_end _ B) as [_ B1]. assert (C : (r_hi 102 1030 511 94371840 <=? 0)%Z = true) by (vm_compute; reflexivity). apply Z.leb_le, IZR_le in C. replace (pt 94371840) with 90 in B1 by (unfold pt; field). lra. }
  replace (degrees u + degrees (sae u / 60)) with (degrees (u + sae u / 60)) by (unfold degrees; ring). rewrite Bennett_ben by lra. apply diff_min, G.
Qed.
