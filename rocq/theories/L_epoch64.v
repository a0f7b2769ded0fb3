(** Epoch conversions in binary64. *)
From Coq Require Import ZArith Bool Reals List Lra Lia.
From Flocq Require Import Core IEEE754.BinarySingleNaN.
From Verif Require Import GoInt GoFloat M_base S_float64 L_b64 L_julian_R L_round L_bisect64 L_interp64.
Import ListNotations.
Local Open Scope R_scope.

Definition big : R := 10 ^ 10.
Lemma big_ok z : Rabs z <= 4 * big -> Rabs z <= bpow radix2 1023.
Proof. intros H. eapply Rle_trans; [exact H|]. apply Rle_trans with (bpow radix2 60); [|apply bpow_le; lia]. unfold big. change (bpow radix2 60) with 1152921504606846976. simpl. lra. Qed.
Lemma step64 z x d s : Rabs (z - x) <= d -> Rabs x <= s -> Rabs (R64 z - x) <= d + (u53 * (s + d) + eta).
Proof.
  intros H S0. replace (R64 z - x) with ((R64 z - z) + (z - x)) by ring. eapply Rle_trans; [apply Rabs_triang|]. pose proof (R64_abs z) as K. pose proof u53_pos as U.
  assert (Rabs z <= s + d) by (replace z with ((z - x) + x) by ring; eapply Rle_trans; [apply Rabs_triang|lra]). assert (u53 * Rabs z <= u53 * (s + d)) by (apply Rmult_le_compat_l; lra). lra.
Qed.
Lemma abs_sum z x d s : Rabs (z - x) <= d -> Rabs x <= s -> Rabs z <= s + d.
Proof. intros H S0. replace z with ((z - x) + x) by ring. eapply Rle_trans; [apply Rabs_triang|lra]. Qed.
Lemma acc_plus v x d w y e s : close64 v x d -> close64 w y e -> Rabs (x + y) <= s -> s <= big -> d + e <= big -> close64 (Bplus mode_NE v w) (x + y) (d + e + (u53 * (s + (d + e)) + eta)).
Proof.
  intros [F1 E1] [F2 E2] S0 SB DB. assert (E : Rabs (B2R v + B2R w - (x + y)) <= d + e) by (replace (B2R v + B2R w - (x + y)) with ((B2R v - x) + (B2R w - y)) by ring; eapply Rle_trans; [apply Rabs_triang|lra]).
  pose proof (abs_sum _ _ _ _ E S0) as Q. assert (B0 : 0 < big) by (unfold big; apply pow_lt; lra). assert (QQ : Rabs (B2R v + B2R w) <= 4 * big) by lra. destruct (plus_ok v w F1 F2 (big_ok _ QQ)) as [G1 G2]. split; [exact G1|]. rewrite G2. now apply step64.
Qed.
Lemma acc_minus v x d w y e s : close64 v x d -> close64 w y e -> Rabs (x - y) <= s -> s <= big -> d + e <= big -> close64 (Bminus mode_NE v w) (x - y) (d + e + (u53 * (s + (d + e)) + eta)).
Proof.
  intros [F1 E1] [F2 E2] S0 SB DB. assert (E : Rabs (B2R v - B2R w - (x - y)) <= d + e) by (replace (B2R v - B2R w - (x - y)) with ((B2R v - x) - (B2R w - y)) by ring; eapply Rle_trans; [apply Rabs_triang|rewrite Rabs_Ropp; lra]).
  pose proof (abs_sum _ _ _ _ E S0) as Q. assert (B0 : 0 < big) by (unfold big; apply pow_lt; lra). assert (QQ : Rabs (B2R v - B2R w) <= 4 * big) by lra. destruct (minus_ok v w F1 F2 (big_ok _ QQ)) as [G1 G2]. split; [exact G1|]. rewrite G2. now apply step64.
Qed.
Lemma acc_mult v x d w y e a b s : close64 v x d -> close64 w y e -> Rabs x <= a -> Rabs y <= b -> Rabs (x * y) <= s -> s <= big -> a * e + b * d + d * e <= big ->
  close64 (Bmult mode_NE v w) (x * y) (a * e + b * d + d * e + (u53 * (s + (a * e + b * d + d * e)) + eta)).
Proof.
  intros [F1 E1] [F2 E2] A B S0 SB DB. assert (D0 : 0 <= d) by (eapply Rle_trans; [apply Rabs_pos|exact E1]). assert (E0 : 0 <= e) by (eapply Rle_trans; [apply Rabs_pos|exact E2]).
  assert (E : Rabs (B2R v * B2R w - x * y) <= a * e + b * d + d * e).
  { replace (B2R v * B2R w - x * y) with (x * (B2R w - y) + y * (B2R v - x) + (B2R v - x) * (B2R w - y)) by ring. eapply Rle_trans; [apply Rabs_triang|]. eapply Rle_trans; [apply Rplus_le_compat_r, Rabs_triang|]. rewrite !Rabs_mult.
    assert (Rabs x * Rabs (B2R w - y) <= a * e) by (apply Rmult_le_compat; auto using Rabs_pos). assert (Rabs y * Rabs (B2R v - x) <= b * d) by (apply Rmult_le_compat; auto using Rabs_pos). assert (Rabs (B2R v - x) * Rabs (B2R w - y) <= d * e) by (apply Rmult_le_compat; auto using Rabs_pos). lra. }
  pose proof (abs_sum _ _ _ _ E S0) as Q. assert (B0 : 0 < big) by (unfold big; apply pow_lt; lra). assert (QQ : Rabs (B2R v * B2R w) <= 4 * big) by lra. destruct (mult_ok v w F1 F2 (big_ok _ QQ)) as [G1 G2]. split; [exact G1|]. rewrite G2. now apply step64.
Qed.
(** Division by a number of at least 300. *)
Lemma acc_div v x d w y e s : close64 v x d -> close64 w y e -> 300 <= y -> e <= 1 -> Rabs (x / y) <= s -> s <= big -> d <= big ->
  close64 (Bdiv mode_NE v w) (x / y) (d / 299 + s * e / 299 + (u53 * (s + (d / 299 + s * e / 299)) + eta)).
Proof.
  intros [F1 E1] [F2 E2] Y E3 S0 SB DB. assert (D0 : 0 <= d) by (eapply Rle_trans; [apply Rabs_pos|exact E1]). assert (E0 : 0 <= e) by (eapply Rle_trans; [apply Rabs_pos|exact E2]). assert (S1 : 0 <= s) by (eapply Rle_trans; [apply Rabs_pos|exact S0]).
  assert (W : 299 <= B2R w) by (revert E2; unfold Rabs; destruct (Rcase_abs _); lra).
  assert (E : Rabs (B2R v / B2R w - x / y) <= d / 299 + s * e / 299).
  { replace (B2R v / B2R w - x / y) with ((B2R v - x) / B2R w - x / y * (B2R w - y) / B2R w) by (field; lra). eapply Rle_trans; [apply Rabs_triang|]. rewrite Rabs_Ropp. unfold Rdiv at 1 2 4 5. rewrite !Rabs_mult, (Rabs_pos_eq (/ B2R w)) by (apply Rlt_le, Rinv_0_lt_compat; lra).
    assert (I : / B2R w <= / 299) by (apply Rinv_le_contravar; lra). assert (I0 : 0 < / B2R w) by (apply Rinv_0_lt_compat; lra). rewrite <- Rabs_mult. change (x * / y) with (x / y).
    apply Rplus_le_compat; [apply Rmult_le_compat; auto using Rabs_pos; lra|]. change (s * e / 299) with (s * e * / 299). apply Rmult_le_compat; try lra; [apply Rabs_pos|rewrite Rabs_mult; apply Rmult_le_compat; auto using Rabs_pos]. }
  pose proof (abs_sum _ _ _ _ E S0) as Q. assert (B0 : 0 < big) by (unfold big; apply pow_lt; lra). assert (NZ : B2R w <> 0) by lra. assert (s * e <= s * 1) by (apply Rmult_le_compat_l; lra). assert (QQ : Rabs (B2R v / B2R w) <= 4 * big) by lra. destruct (div_ok v w F1 NZ (big_ok _ QQ)) as [G1 G2]. split; [exact G1|]. rewrite G2. now apply step64.
Qed.
Lemma acc_exact (v : float64) : is_finite v = true -> close64 v (B2R v) 0. Proof. intros F. split; [exact F|]. rewrite Rminus_diag_eq, Rabs_R0 by reflexivity. lra. Qed.
Lemma acc_Z z : (Z.abs z < 2 ^ 53)%Z -> close64 (fconst (Flt := BFlt) z 1) (IZR z) 0.
Proof. intros H. destruct (const64 z H) as [A B]. split; [exact A|]. rewrite B, Rminus_diag_eq, Rabs_R0 by reflexivity. lra. Qed.
Lemma acc_const n p : (Z.abs n < 2 ^ 53)%Z -> (Zpos p < 2 ^ 53)%Z -> close64 (fconst (Flt := BFlt) n p) (IZR n / IZR (Zpos p)) (u53 * Rabs (IZR n / IZR (Zpos p)) + eta).
Proof.
  intros H P. cbn [fconst BFlt]. destruct (isfx_ofZ n H) as [F1 E1]. destruct (isfx_ofZ (Zpos p) ltac:(lia)) as [F2 E2]. cbn [Z.opp bpow] in E1, E2. rewrite Rmult_1_r in E1, E2.
  assert (P1 : 1 <= IZR (Zpos p)) by (apply IZR_le; lia). assert (NZ : B2R (b64_ofZ (Zpos p)) <> 0) by lra.
  assert (K : Rabs (B2R (b64_ofZ n) / B2R (b64_ofZ (Zpos p))) <= bpow radix2 1023).
  { rewrite E1, E2. unfold Rdiv. rewrite Rabs_mult, Rabs_inv, <- abs_IZR, (Rabs_pos_eq (IZR (Zpos p))) by lra. apply Rle_trans with (IZR (2 ^ 53) * 1).
    - apply Rmult_le_compat; [apply IZR_le; lia|apply Rlt_le, Rinv_0_lt_compat; lra|apply IZR_le; lia|rewrite <- Rinv_1; apply Rinv_le_contravar; lra].
    - rewrite Rmult_1_r. change (IZR (2 ^ 53)) with (bpow radix2 53). apply bpow_le. lia. }
  destruct (div_ok _ _ F1 NZ K) as [G1 G2]. split; [exact G1|]. rewrite G2, E1, E2. apply R64_abs.
Qed.
Lemma acc_weak v x d d' : close64 v x d -> d <= d' -> close64 v x d'. Proof. intros [F E] H. split; [exact F|lra]. Qed.
Lemma u53_num : u53 <= 1.111e-16. Proof. unfold u53. apply Rle_trans with (/ 9007199254740992); [apply Req_le; simpl; lra|]. lra. Qed.
Lemma eta_num : eta <= 1e-25. Proof. apply Rle_trans with (bpow radix2 (-90)); [unfold eta; apply bpow_le; lia|]. change (bpow radix2 (-90)) with (/ 1237940039285380274899124224). lra. Qed.

(** ** Accuracy *)
Lemma abs_le' x a : - a <= x <= a -> Rabs x <= a. Proof. apply Rabs_le. Qed.
Ltac num := pose proof u53_num; pose proof u53_pos; pose proof eta_num; pose proof eta_pos; unfold big; try lra.
Lemma year64 : close64 (JulianYear (fl := BFlt)) 365.25 0.
Proof.
  split; [reflexivity|]. rewrite <- SF2R_B2SF. replace (B2SF (JulianYear (fl := BFlt))) with (SpecFloat.S754_finite false 6425545952722944 (-44)) by (vm_compute; reflexivity).
  unfold SF2R, F2R. cbn. apply Rabs_le. lra.
Qed.
Lemma abs_le2 x a : Rabs x <= a -> - a <= x <= a. Proof. unfold Rabs. destruct (Rcase_abs x); lra. Qed.
Lemma JulianYearToJDE64 (y : float64) : is_finite y = true -> Rabs (B2R y) <= 10000 -> close64 (JulianYearToJDE (fl := BFlt) y) (2451545 + 365.25 * (B2R y - 2000)) 2e-9.
Proof.
  intros Fy B. apply abs_le2 in B. unfold JulianYearToJDE. cbn [F BFlt fadd fsub fmul].
  pose proof (acc_minus _ _ _ _ _ _ 12000 (acc_exact y Fy) (acc_Z 2000 ltac:(lia)) ltac:(apply abs_le'; lra) ltac:(num) ltac:(num)) as A1.
  pose proof (acc_weak _ _ _ 1.4e-12 A1 ltac:(num)) as A2.
  pose proof (acc_mult _ _ _ _ _ _ 365.25 12000 4383000 year64 A2 ltac:(apply abs_le'; lra) ltac:(apply abs_le'; lra) ltac:(apply abs_le'; lra) ltac:(num) ltac:(num)) as A3.
  pose proof (acc_weak _ _ _ 1e-9 A3 ltac:(num)) as A4.
  pose proof (acc_plus _ _ _ _ _ _ 6834545 (acc_Z 2451545 ltac:(lia)) A4 ltac:(apply abs_le'; lra) ltac:(num) ltac:(num)) as A5.
  exact (acc_weak _ _ _ 2e-9 A5 ltac:(num)).
Qed.
Lemma JDEToJulianYear64 (j : float64) : is_finite j = true -> Rabs (B2R j) <= 7e6 -> close64 (JDEToJulianYear (fl := BFlt) j) (2000 + (B2R j - 2451545) / 365.25) 1e-11.
Proof.
  intros Fy B. apply abs_le2 in B. unfold JDEToJulianYear. cbn [F BFlt fadd fsub fmul fdiv].
  pose proof (acc_minus _ _ _ _ _ _ 9451545 (acc_exact j Fy) (acc_Z 2451545 ltac:(lia)) ltac:(apply abs_le'; lra) ltac:(num) ltac:(num)) as A1.
  pose proof (acc_weak _ _ _ 1.1e-9 A1 ltac:(num)) as A2.
  pose proof (acc_div _ _ _ _ _ _ 25900 A2 year64 ltac:(lra) ltac:(lra) ltac:(apply abs_le'; lra) ltac:(num) ltac:(num)) as A3.
  pose proof (acc_weak _ _ _ 6.6e-12 A3 ltac:(num)) as A4.
  pose proof (acc_plus _ _ _ _ _ _ 27900 (acc_Z 2000 ltac:(lia)) A4 ltac:(apply abs_le'; lra) ltac:(num) ltac:(num)) as A5.
  exact (acc_weak _ _ _ 1e-11 A5 ltac:(num)).
Qed.
Definition bconst : float64 := BesselianYear (fl := BFlt).
Lemma bess64 : close64 bconst 365.2421988 4.1e-14.
Proof. pose proof (acc_const 3652421988 10000000 ltac:(lia) ltac:(lia)) as C. replace (IZR 3652421988 / IZR (Zpos 10000000)) with 365.2421988 in C by lra. rewrite Rabs_pos_eq in C by lra. exact (acc_weak _ _ _ 4.1e-14 C ltac:(num)). Qed.
Lemma b1900_64 : close64 (B1900 (fl := BFlt)) 2415020.3135 2.7e-10.
Proof. pose proof (acc_const 24150203135 10000 ltac:(lia) ltac:(lia)) as C. replace (IZR 24150203135 / IZR (Zpos 10000)) with 2415020.3135 in C by lra. rewrite Rabs_pos_eq in C by lra. exact (acc_weak _ _ _ 2.7e-10 C ltac:(num)). Qed.
Lemma BesselianYearToJDE64 (y : float64) : is_finite y = true -> Rabs (B2R y) <= 10000 -> close64 (BesselianYearToJDE (fl := BFlt) y) (2415020.3135 + 365.2421988 * (B2R y - 1900)) 3e-9.
Proof.
  intros Fy B. apply abs_le2 in B. unfold BesselianYearToJDE. cbn [F BFlt fadd fsub fmul].
  pose proof (acc_minus _ _ _ _ _ _ 11900 (acc_exact y Fy) (acc_Z 1900 ltac:(lia)) ltac:(apply abs_le'; lra) ltac:(num) ltac:(num)) as A1.
  pose proof (acc_weak _ _ _ 1.4e-12 A1 ltac:(num)) as A2.
  pose proof (acc_mult _ _ _ _ _ _ 366 11900 4355400 bess64 A2 ltac:(apply abs_le'; lra) ltac:(apply abs_le'; lra) ltac:(apply abs_le'; lra) ltac:(num) ltac:(num)) as A3.
  pose proof (acc_weak _ _ _ 1.5e-9 A3 ltac:(num)) as A4.
  pose proof (acc_plus _ _ _ _ _ _ 6834545 b1900_64 A4 ltac:(apply abs_le'; lra) ltac:(num) ltac:(num)) as A5.
  exact (acc_weak _ _ _ 3e-9 A5 ltac:(num)).
Qed.
Lemma JDEToBesselianYear64 (j : float64) : is_finite j = true -> Rabs (B2R j) <= 7e6 -> close64 (JDEToBesselianYear (fl := BFlt) j) (1900 + (B2R j - 2415020.3135) / 365.2421988) 1.5e-11.
Proof.
  intros Fy B. apply abs_le2 in B. unfold JDEToBesselianYear. cbn [F BFlt fadd fsub fmul fdiv].
  pose proof (acc_minus _ _ _ _ _ _ 9415021 (acc_exact j Fy) b1900_64 ltac:(apply abs_le'; lra) ltac:(num) ltac:(num)) as A1.
  pose proof (acc_weak _ _ _ 1.4e-9 A1 ltac:(num)) as A2.
  pose proof (acc_div _ _ _ _ _ _ 25800 A2 bess64 ltac:(lra) ltac:(lra) ltac:(apply abs_le'; lra) ltac:(num) ltac:(num)) as A3.
  pose proof (acc_weak _ _ _ 1.15e-11 A3 ltac:(num)) as A4.
  pose proof (acc_plus _ _ _ _ _ _ 27900 (acc_Z 1900 ltac:(lia)) A4 ltac:(apply abs_le'; lra) ltac:(num) ltac:(num)) as A5.
  exact (acc_weak _ _ _ 1.5e-11 A5 ltac:(num)).
Qed.
Lemma julian_round_trip64 (y : float64) : is_finite y = true -> Rabs (B2R y) <= 10000 -> close64 (JDEToJulianYear (fl := BFlt) (JulianYearToJDE (fl := BFlt) y)) (B2R y) 1.6e-11.
Proof.
  intros Fy B. destruct (JulianYearToJDE64 y Fy B) as [F1 E1]. apply abs_le2 in B. apply abs_le2 in E1. destruct (JDEToJulianYear64 (JulianYearToJDE (fl := BFlt) y) F1 ltac:(apply abs_le'; lra)) as [F2 E2]. split; [exact F2|]. apply abs_le2 in E2. apply abs_le'. lra.
Qed.
Lemma besselian_round_trip64 (y : float64) : is_finite y = true -> Rabs (B2R y) <= 10000 -> close64 (JDEToBesselianYear (fl := BFlt) (BesselianYearToJDE (fl := BFlt) y)) (B2R y) 2.4e-11.
Proof.
  intros Fy B. destruct (BesselianYearToJDE64 y Fy B) as [F1 E1]. apply abs_le2 in B. apply abs_le2 in E1. destruct (JDEToBesselianYear64 (BesselianYearToJDE (fl := BFlt) y) F1 ltac:(apply abs_le'; lra)) as [F2 E2]. split; [exact F2|]. apply abs_le2 in E2. apply abs_le'. lra.
Qed.

(** ** Order *)
Lemma R64_crude z b : Rabs z <= b -> Rabs (R64 z) <= 2 * b + 1.
Proof. intros H. pose proof (R64_abs z) as K. pose proof u53_small as U. pose proof u53_pos as U0. pose proof eta_small as E. replace (R64 z) with ((R64 z - z) + z) by ring. eapply Rle_trans; [apply Rabs_triang|]. pose proof (Rabs_pos z). nra. Qed.
Lemma up64 (c1 c2 c3 x : float64) : is_finite c1 = true -> is_finite c2 = true -> is_finite c3 = true -> is_finite x = true ->
  Rabs (B2R c1) <= 3e6 -> Rabs (B2R c2) <= 366 -> Rabs (B2R c3) <= 3e6 -> Rabs (B2R x) <= 1e6 ->
  let r := Bplus mode_NE c1 (Bmult mode_NE c2 (Bminus mode_NE x c3)) in is_finite r = true /\ B2R r = R64 (B2R c1 + R64 (B2R c2 * R64 (B2R x - B2R c3))).
Proof.
  intros F1 F2 F3 Fx B1 B2 B3 Bx r.
  assert (Z1 : Rabs (B2R x - B2R c3) <= 4e6) by (eapply Rle_trans; [apply Rabs_triang|rewrite Rabs_Ropp; lra]). assert (Z1' : Rabs (B2R x - B2R c3) <= 4 * big) by num.
  destruct (minus_ok x c3 Fx F3 (big_ok _ Z1')) as [G1 H1]. pose proof (R64_crude _ _ Z1) as Y1. rewrite <- H1 in Y1. set (s := Bminus mode_NE x c3) in *.
  assert (Z2 : Rabs (B2R c2 * B2R s) <= 3e9) by (rewrite Rabs_mult; apply Rle_trans with (366 * (2 * 4e6 + 1)); [apply Rmult_le_compat; auto using Rabs_pos|lra]). assert (Z2' : Rabs (B2R c2 * B2R s) <= 4 * big) by num.
  destruct (mult_ok c2 s F2 G1 (big_ok _ Z2')) as [G2 H2]. pose proof (R64_crude _ _ Z2) as Y2. rewrite <- H2 in Y2. set (p := Bmult mode_NE c2 s) in *.
  assert (Z3 : Rabs (B2R c1 + B2R p) <= 4 * big) by (eapply Rle_trans; [apply Rabs_triang|num]).
  destruct (plus_ok c1 p F1 G2 (big_ok _ Z3)) as [G3 H3]. split; [exact G3|]. unfold r. rewrite H3, H2, H1. reflexivity.
Qed.
Lemma down64 (c1 c2 c3 x : float64) : is_finite c1 = true -> is_finite c3 = true -> is_finite x = true ->
  Rabs (B2R c1) <= 3e6 -> 365 <= B2R c2 -> Rabs (B2R c3) <= 3e6 -> Rabs (B2R x) <= 1e9 ->
  let r := Bplus mode_NE c1 (Bdiv mode_NE (Bminus mode_NE x c3) c2) in is_finite r = true /\ B2R r = R64 (B2R c1 + R64 (R64 (B2R x - B2R c3) / B2R c2)).
Proof.
  intros F1 F3 Fx B1 B2 B3 Bx r.
  assert (Z1 : Rabs (B2R x - B2R c3) <= 1003e6) by (eapply Rle_trans; [apply Rabs_triang|rewrite Rabs_Ropp; lra]). assert (Z1' : Rabs (B2R x - B2R c3) <= 4 * big) by num.
  destruct (minus_ok x c3 Fx F3 (big_ok _ Z1')) as [G1 H1]. pose proof (R64_crude _ _ Z1) as Y1. rewrite <- H1 in Y1. set (s := Bminus mode_NE x c3) in *.
  assert (I1 : 0 < / B2R c2 <= 1). { split; [apply Rinv_0_lt_compat; lra|]. rewrite <- Rinv_1. apply Rinv_le_contravar; lra. }
  assert (Z2 : Rabs (B2R s / B2R c2) <= 3e9) by (unfold Rdiv; rewrite Rabs_mult, (Rabs_pos_eq (/ B2R c2)) by lra; apply Rle_trans with ((2 * 1003e6 + 1) * 1); [apply Rmult_le_compat; try lra; apply Rabs_pos|lra]). assert (Z2' : Rabs (B2R s / B2R c2) <= 4 * big) by num.
  assert (NZ : B2R c2 <> 0) by lra. destruct (div_ok s c2 G1 NZ (big_ok _ Z2')) as [G2 H2]. pose proof (R64_crude _ _ Z2) as Y2. rewrite <- H2 in Y2. set (p := Bdiv mode_NE s c2) in *.
  assert (Z3 : Rabs (B2R c1 + B2R p) <= 4 * big) by (eapply Rle_trans; [apply Rabs_triang|num]).
  destruct (plus_ok c1 p F1 G2 (big_ok _ Z3)) as [G3 H3]. split; [exact G3|]. unfold r. rewrite H3, H2, H1. reflexivity.
Qed.
Lemma up_mono a b c x y : 0 <= b -> x <= y -> R64 (a + R64 (b * R64 (x - c))) <= R64 (a + R64 (b * R64 (y - c))).
Proof. intros B H. apply R64_monotone, Rplus_le_compat_l, R64_monotone, Rmult_le_compat_l; [exact B|]. apply R64_monotone. lra. Qed.
Lemma down_mono a b c x y : 0 < b -> x <= y -> R64 (a + R64 (R64 (x - c) / b)) <= R64 (a + R64 (R64 (y - c) / b)).
Proof. intros B H. apply R64_monotone, Rplus_le_compat_l, R64_monotone. apply Rmult_le_compat_r; [apply Rlt_le, Rinv_0_lt_compat, B|]. apply R64_monotone. lra. Qed.
Lemma acc_range v x d a : close64 v x d -> Rabs x + d <= a -> Rabs (B2R v) <= a.
Proof. intros [_ E] H. eapply Rle_trans; [apply (abs_sum _ _ _ _ E (Rle_refl _))|exact H]. Qed.
Lemma epochs_increasing64 : increasing64 (JulianYearToJDE (fl := BFlt)) 1e6 /\ increasing64 (BesselianYearToJDE (fl := BFlt)) 1e6 /\
  increasing64 (JDEToJulianYear (fl := BFlt)) 1e9 /\ increasing64 (JDEToBesselianYear (fl := BFlt)) 1e9.
Proof.
  pose proof (acc_Z 2451545 ltac:(lia)) as CJ. pose proof (acc_Z 2000 ltac:(lia)) as C2. pose proof (acc_Z 1900 ltac:(lia)) as C1. pose proof year64 as CY. pose proof bess64 as CB. pose proof b1900_64 as CZ.
  assert (NJ : Rabs (B2R (fconst (Flt := BFlt) 2451545 1)) <= 3e6) by (apply (acc_range _ _ _ _ CJ); rewrite Rabs_pos_eq; lra). assert (N2 : Rabs (B2R (fconst (Flt := BFlt) 2000 1)) <= 3e6) by (apply (acc_range _ _ _ _ C2); rewrite Rabs_pos_eq; lra).
  assert (N1 : Rabs (B2R (fconst (Flt := BFlt) 1900 1)) <= 3e6) by (apply (acc_range _ _ _ _ C1); rewrite Rabs_pos_eq; lra). assert (NZ : Rabs (B2R (B1900 (fl := BFlt))) <= 3e6) by (apply (acc_range _ _ _ _ CZ); rewrite Rabs_pos_eq; lra).
  assert (Y1 : 365 <= B2R (JulianYear (fl := BFlt)) <= 366) by (destruct CY as [_ E]; apply abs_le2 in E; lra). assert (Y2 : 365 <= B2R bconst <= 366) by (destruct CB as [_ E]; apply abs_le2 in E; lra).
  assert (Y1' : Rabs (B2R (JulianYear (fl := BFlt))) <= 366) by (apply abs_le'; lra). assert (Y2' : Rabs (B2R bconst) <= 366) by (apply abs_le'; lra).
  split; [|split; [|split]]; intros x y Fx Fy Bx By L.
  - destruct (up64 _ _ _ x (proj1 CJ) (proj1 CY) (proj1 C2) Fx NJ Y1' N2 Bx) as [A1 A2]. destruct (up64 _ _ _ y (proj1 CJ) (proj1 CY) (proj1 C2) Fy NJ Y1' N2 By) as [B1 B2]. split; [exact A1|]. split; [exact B1|]. unfold JulianYearToJDE, J2000. cbn [F BFlt fadd fsub fmul]. rewrite A2, B2. apply up_mono; lra.
  - destruct (up64 _ _ _ x (proj1 CZ) (proj1 CB) (proj1 C1) Fx NZ Y2' N1 Bx) as [A1 A2]. destruct (up64 _ _ _ y (proj1 CZ) (proj1 CB) (proj1 C1) Fy NZ Y2' N1 By) as [B1 B2]. split; [exact A1|]. split; [exact B1|]. unfold BesselianYearToJDE. cbn [F BFlt fadd fsub fmul]. fold bconst. rewrite A2, B2. apply up_mono; lra.
  - destruct (down64 _ _ _ x (proj1 C2) (proj1 CJ) Fx N2 (proj1 Y1) NJ Bx) as [A1 A2]. destruct (down64 _ _ _ y (proj1 C2) (proj1 CJ) Fy N2 (proj1 Y1) NJ By) as [B1 B2]. split; [exact A1|]. split; [exact B1|]. unfold JDEToJulianYear, J2000. cbn [F BFlt fadd fsub fdiv]. rewrite A2, B2. apply down_mono; lra.
  - destruct (down64 _ _ _ x (proj1 C1) (proj1 CZ) Fx N1 (proj1 Y2) NZ Bx) as [A1 A2]. destruct (down64 _ _ _ y (proj1 C1) (proj1 CZ) Fy N1 (proj1 Y2) NZ By) as [B1 B2]. split; [exact A1|]. split; [exact B1|]. unfold JDEToBesselianYear. cbn [F BFlt fadd fsub fdiv]. fold bconst. rewrite A2, B2. apply down_mono; lra.
Qed.
(** ** Centuries *)
Lemma J2000Century64 (j : float64) : is_finite j = true -> Rabs (B2R j) <= 1e9 ->
  let T := (B2R j - 2451545) / 36525 in close64 (J2000Century (fl := BFlt) j) T (3 * u53 * Rabs T + 2 * eta).
Proof.
  intros Fj Bj T. destruct (const64 2451545 ltac:(lia)) as [FJ EJ]. destruct (const64 36525 ltac:(lia)) as [FC EC]. unfold J2000Century, J2000, JulianCentury. cbn [F BFlt fsub fdiv].
  assert (Z1 : Rabs (B2R j - B2R (fconst (Flt := BFlt) 2451545 1)) <= 1003e6) by (rewrite EJ; eapply Rle_trans; [apply Rabs_triang|rewrite Rabs_Ropp, (Rabs_pos_eq 2451545) by lra; lra]). assert (Z1' : Rabs (B2R j - B2R (fconst (Flt := BFlt) 2451545 1)) <= 4 * big) by num.
  destruct (minus_ok j _ Fj FJ (big_ok _ Z1')) as [G1 H1]. pose proof (R64_crude _ _ Z1) as Y1. rewrite <- H1 in Y1. set (s := Bminus mode_NE j (fconst (Flt := BFlt) 2451545 1)) in *.
  assert (Z2 : Rabs (B2R s / B2R (fconst (Flt := BFlt) 36525 1)) <= 4 * big) by (rewrite EC; unfold Rdiv; rewrite Rabs_mult, (Rabs_pos_eq (/ 36525)) by lra; pose proof (Rabs_pos (B2R s)); num).
  assert (NZ : B2R (fconst (Flt := BFlt) 36525 1) <> 0) by (rewrite EC; lra). destruct (div_ok s _ G1 NZ (big_ok _ Z2)) as [G2 H2]. split; [exact G2|]. rewrite H2, H1, EJ, EC.
  destruct (R64_err (B2R j - 2451545)) as (e & t & A1 & A2 & ->). set (q := ((B2R j - 2451545) * (1 + e) + t) / 36525). destruct (R64_err q) as (e' & t' & A3 & A4 & ->).
  replace (q * (1 + e') + t' - T) with (T * (e + e' + e * e') + (t * (1 + e') / 36525 + t')) by (unfold q, T; field). eapply Rle_trans; [apply Rabs_triang|]. rewrite Rabs_mult. pose proof u53_small as US. pose proof u53_pos as U0. pose proof eta_pos as EP.
  assert (P1 : Rabs (e + e' + e * e') <= 3 * u53). { eapply Rle_trans; [apply Rabs_triang|]. eapply Rle_trans; [apply Rplus_le_compat_r, Rabs_triang|]. rewrite Rabs_mult. assert (Rabs e * Rabs e' <= u53 * 1) by (apply Rmult_le_compat; try apply Rabs_pos; lra). lra. }
  assert (P2 : Rabs (t * (1 + e') / 36525 + t') <= 2 * eta). { eapply Rle_trans; [apply Rabs_triang|]. unfold Rdiv. rewrite !Rabs_mult, (Rabs_pos_eq (/ 36525)) by lra. assert (Rabs (1 + e') <= 2) by (eapply Rle_trans; [apply Rabs_triang|rewrite Rabs_R1; lra]). assert (Rabs t * Rabs (1 + e') <= eta * 2) by (apply Rmult_le_compat; auto using Rabs_pos). lra. }
  assert (Rabs T * Rabs (e + e' + e * e') <= Rabs T * (3 * u53)) by (apply Rmult_le_compat_l; [apply Rabs_pos|exact P1]). lra.
Qed.
Lemma epoch_example : let y := fconst (Flt := BFlt) 19865 10 in is_finite y = true /\ B2R y = 1986.5 /\ Rabs (B2R y) <= 10000.
Proof.
  cbv zeta. destruct (isfx_const_half 3973 19865 10 ltac:(lia) ltac:(lia) ltac:(lia) ltac:(lia)) as [A B]. assert (E : B2R (fconst (Flt := BFlt) 19865 10) = 1986.5) by (rewrite B; change (bpow radix2 (Z.opp 1)) with (/ 2); lra).
  split; [exact A|]. split; [exact E|]. rewrite E, Rabs_pos_eq; lra.
Qed.
Lemma horner_example : let z n := fconst (Flt := BFlt) n 1 in exists r, Horner (fl := BFlt) (z 2%Z) [z 1%Z; z 2%Z; z 3%Z] = Some r /\ is_finite r = true.
Proof. cbv zeta. eexists. split; reflexivity. Qed.
