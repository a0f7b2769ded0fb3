(** Three-point interpolation in binary64. *)
From Coq Require Import ZArith Bool Reals List Lra Lia.
From Flocq Require Import Core IEEE754.BinarySingleNaN.
From Verif Require Import GoInt GoFloat M_interp S_base S_interp S_float64 L_b64 L_interp L_julian_R L_round L_bisect64.
Import ListNotations.
Local Open Scope R_scope.

(** ** Accuracy.  Errors are counted in units of [unit64 M]. *)
Definition apx (M k A : R) (v : float64) (x : R) : Prop := is_finite v = true /\ Rabs (B2R v - x) <= k * unit64 M /\ Rabs x <= A * M.
Lemma R64_abs x : Rabs (R64 x - x) <= u53 * Rabs x + eta.
Proof.
  destruct (R64_err x) as (e & t & A & B & ->). replace (x * (1 + e) + t - x) with (x * e + t) by ring. eapply Rle_trans; [apply Rabs_triang|]. rewrite Rabs_mult. pose proof (Rabs_pos x). nra.
Qed.
Lemma u53_small : u53 <= / 1000000. Proof. unfold u53. apply Rinv_le_contravar; [lra|]. simpl. lra. Qed.
Lemma eta_small : eta <= / 2. Proof. unfold eta. change (/ 2) with (bpow radix2 (-1)). apply bpow_le. lia. Qed.
Lemma unit64_pos M : 0 <= M -> 0 < unit64 M. Proof. intros H. unfold unit64; fold u53 eta. pose proof u53_pos. pose proof eta_pos. nra. Qed.
Section Acc.
Variable M : R.
Hypothesis M0 : 0 <= M.
Hypothesis M1 : M <= bpow radix2 1000.
Lemma range_ok z k A x : Rabs (z - x) <= k * unit64 M -> Rabs x <= A * M -> 0 <= k <= 100 -> 0 <= A <= 100 -> Rabs z <= bpow radix2 1023.
Proof.
  intros H1 H2 K A1. assert (Z : Rabs z <= k * unit64 M + A * M). { replace z with ((z - x) + x) by ring. eapply Rle_trans; [apply Rabs_triang|lra]. }
  eapply Rle_trans; [exact Z|]. change 1023%Z with (23 + 1000)%Z. rewrite bpow_plus. change (bpow radix2 23) with 8388608. unfold unit64; fold u53 eta. pose proof u53_small as US. pose proof u53_pos as UP. pose proof eta_small as ES. pose proof eta_pos as EP.
  assert (B1 : 1 <= bpow radix2 1000) by (change 1 with (bpow radix2 0); apply bpow_le; lia). assert (u53 * M <= M) by nra. assert (A * M <= 100 * M) by (apply Rmult_le_compat_r; lra).
  assert (k * (u53 * M + eta) <= 100 * (M + 1)). { apply Rmult_le_compat; try lra. nra. } lra.
Qed.
Lemma rounding z k A x : Rabs (z - x) <= k * unit64 M -> Rabs x <= A * M -> 0 <= k <= 100 -> 0 <= A <= 100 -> Rabs (R64 z - x) <= (k + A + 1 + / 1000) * unit64 M.
Proof.
  intros H1 H2 K A1. replace (R64 z - x) with ((R64 z - z) + (z - x)) by ring. eapply Rle_trans; [apply Rabs_triang|]. pose proof (R64_abs z) as H3. pose proof (unit64_pos M M0) as UP.
  assert (Z : Rabs z <= k * unit64 M + A * M). { replace z with ((z - x) + x) by ring. eapply Rle_trans; [apply Rabs_triang|lra]. }
  pose proof u53_pos as U0. pose proof u53_small as U1. assert (E : u53 * Rabs z <= u53 * (k * unit64 M + A * M)) by (apply Rmult_le_compat_l; lra).
  assert (E1 : u53 * (k * unit64 M) <= / 1000 * unit64 M). { rewrite <- Rmult_assoc. apply Rmult_le_compat_r; [lra|]. nra. }
  assert (E2 : u53 * (A * M) + eta <= (A + 1) * unit64 M). { unfold unit64; fold u53 eta. pose proof eta_pos. assert (0 <= u53 * M) by (apply Rmult_le_pos; lra). nra. } lra.
Qed.
Lemma apx_plus k A v x l B w y : apx M k A v x -> apx M l B w y -> 0 <= k -> 0 <= l -> 0 <= A -> 0 <= B -> k + l <= 100 -> A + B <= 100 -> apx M (k + l + (A + B) + 1 + / 1000) (A + B) (Bplus mode_NE v w) (x + y).
Proof.
  intros (F1 & E1 & N1) (F2 & E2 & N2) K L A0 B0 KL AB. assert (E : Rabs (B2R v + B2R w - (x + y)) <= (k + l) * unit64 M) by (replace (B2R v + B2R w - (x + y)) with ((B2R v - x) + (B2R w - y)) by ring; eapply Rle_trans; [apply Rabs_triang|lra]).
  assert (N : Rabs (x + y) <= (A + B) * M) by (eapply Rle_trans; [apply Rabs_triang|lra]). destruct (plus_ok v w F1 F2 (range_ok _ _ _ _ E N ltac:(lra) ltac:(lra))) as [G1 G2]. split; [exact G1|]. split; [|exact N]. rewrite G2. apply rounding; try assumption; lra.
Qed.
Lemma apx_minus k A v x l B w y : apx M k A v x -> apx M l B w y -> 0 <= k -> 0 <= l -> 0 <= A -> 0 <= B -> k + l <= 100 -> A + B <= 100 -> apx M (k + l + (A + B) + 1 + / 1000) (A + B) (Bminus mode_NE v w) (x - y).
Proof.
  intros (F1 & E1 & N1) (F2 & E2 & N2) K L A0 B0 KL AB. assert (E : Rabs (B2R v - B2R w - (x - y)) <= (k + l) * unit64 M) by (replace (B2R v - B2R w - (x - y)) with ((B2R v - x) - (B2R w - y)) by ring; eapply Rle_trans; [apply Rabs_triang|rewrite Rabs_Ropp; lra]).
  assert (N : Rabs (x - y) <= (A + B) * M) by (eapply Rle_trans; [apply Rabs_triang|rewrite Rabs_Ropp; lra]). destruct (minus_ok v w F1 F2 (range_ok _ _ _ _ E N ltac:(lra) ltac:(lra))) as [G1 G2]. split; [exact G1|]. split; [|exact N]. rewrite G2. apply rounding; try assumption; lra.
Qed.
(** A tighter bound known for the exact value. *)
Lemma apx_tight k A A' v x : apx M k A v x -> Rabs x <= A' * M -> apx M k A' v x. Proof. intros (F & E & _) N. split; [exact F|]. split; assumption. Qed.
Lemma apx_weak k k' A v x : apx M k A v x -> k <= k' -> apx M k' A v x. Proof. intros (F & E & N) K. split; [exact F|]. split; [|exact N]. eapply Rle_trans; [exact E|]. apply Rmult_le_compat_r; [|exact K]. apply Rlt_le, unit64_pos, M0. Qed.
Lemma apx_scale k A v x (n : float64) q : apx M k A v x -> is_finite n = true -> Rabs (B2R n) <= q -> 0 <= k -> 0 <= A -> 0 <= q -> k * q <= 100 -> A * q <= 100 -> apx M (k * q + A * q + 1 + / 1000) (A * q) (Bmult mode_NE n v) (B2R n * x).
Proof.
  intros (F1 & E1 & N1) F2 Q K A0 Q0 KQ AQ. assert (E : Rabs (B2R n * B2R v - B2R n * x) <= (k * q) * unit64 M). { rewrite <- Rmult_minus_distr_l, Rabs_mult. replace (k * q * unit64 M) with (q * (k * unit64 M)) by ring. apply Rmult_le_compat; auto using Rabs_pos. }
  assert (N : Rabs (B2R n * x) <= (A * q) * M). { rewrite Rabs_mult. replace (A * q * M) with (q * (A * M)) by ring. apply Rmult_le_compat; auto using Rabs_pos. }
  assert (0 <= k * q) by (apply Rmult_le_pos; lra). assert (0 <= A * q) by (apply Rmult_le_pos; lra).
  destruct (mult_ok n v F2 F1 (range_ok _ _ _ _ E N ltac:(lra) ltac:(lra))) as [G1 G2]. split; [exact G1|]. split; [|exact N]. rewrite G2. apply rounding; try assumption; lra.
Qed.
Lemma apx_exact (v : float64) : is_finite v = true -> Rabs (B2R v) <= M -> apx M 0 1 v (B2R v).
Proof. intros F H. split; [exact F|]. split; [|lra]. rewrite Rminus_diag_eq, Rabs_R0 by reflexivity. lra. Qed.
End Acc.
Definition half64 : float64 := fconst (Flt := BFlt) 5 10.
Lemma half64_R : is_finite half64 = true /\ B2R half64 = / 2.
Proof. destruct (isfx_const_half 1 5 10 ltac:(lia) ltac:(lia) ltac:(lia) ltac:(lia)) as [A B]. split; [exact A|]. unfold half64. rewrite B. change (bpow radix2 (Z.opp 1)) with (/ 2). lra. Qed.

(** The parabola through three rows, in the normalised argument. *)
Lemma Len3_InterpolateN64 (x1 x3 y0 y1 y2 : float64) d (n : float64) M :
  NewLen3 (fl := BFlt) x1 x3 [y0; y1; y2] = Ok d -> is_finite y0 = true -> is_finite y1 = true -> is_finite y2 = true ->
  Rabs (B2R y0) <= M -> Rabs (B2R y1) <= M -> Rabs (B2R y2) <= M -> M <= bpow radix2 1000 -> is_finite n = true -> Rabs (B2R n) <= 1 ->
  let v := Len3_InterpolateN (fl := BFlt) d n in
  let t := B2R n in
  is_finite v = true /\ Rabs (B2R v - (B2R y1 + t * / 2 * ((B2R y2 - B2R y0) + t * (B2R y2 - 2 * B2R y1 + B2R y0)))) <= 27 * unit64 M.
Proof.
  intros H F0 F1 F2 B0 B1 B2 HM Fn Bn. assert (M0 : 0 <= M) by (eapply Rle_trans; [apply Rabs_pos|exact B0]).
  unfold NewLen3 in H. destruct (feq (Flt := BFlt) x3 x1); [discriminate|]. injection H as <-. unfold Len3_InterpolateN. cbn [l3_y1 l3_abSum l3_c F BFlt fadd fsub fmul]. cbv zeta. set (t := B2R n) in *.
  pose proof (apx_exact M y0 F0 B0) as A0. pose proof (apx_exact M y1 F1 B1) as A1. pose proof (apx_exact M y2 F2 B2) as A2.
  pose proof (apx_minus M M0 HM _ _ _ _ _ _ _ _ A1 A0 ltac:(lra) ltac:(lra) ltac:(lra) ltac:(lra) ltac:(lra) ltac:(lra)) as Da.
  pose proof (apx_minus M M0 HM _ _ _ _ _ _ _ _ A2 A1 ltac:(lra) ltac:(lra) ltac:(lra) ltac:(lra) ltac:(lra) ltac:(lra)) as Db.
  pose proof (apx_minus M M0 HM _ _ _ _ _ _ _ _ Db Da ltac:(lra) ltac:(lra) ltac:(lra) ltac:(lra) ltac:(lra) ltac:(lra)) as Dc.
  pose proof (apx_plus M M0 HM _ _ _ _ _ _ _ _ Da Db ltac:(lra) ltac:(lra) ltac:(lra) ltac:(lra) ltac:(lra) ltac:(lra)) as Ds.
  apply (apx_tight M _ _ 2) in Ds. 2: { replace (B2R y1 - B2R y0 + (B2R y2 - B2R y1)) with (B2R y2 - B2R y0) by ring. eapply Rle_trans; [apply Rabs_triang|]. rewrite Rabs_Ropp. lra. }
  pose proof (apx_scale M M0 HM _ _ _ _ n 1 Dc Fn Bn ltac:(lra) ltac:(lra) ltac:(lra) ltac:(lra) ltac:(lra)) as Dn. fold t in Dn.
  pose proof (apx_plus M M0 HM _ _ _ _ _ _ _ _ Ds Dn ltac:(lra) ltac:(lra) ltac:(lra) ltac:(lra) ltac:(lra) ltac:(lra)) as Dp.
  destruct half64_R as [HF HR].
  assert (NB : Rabs (B2R n * B2R half64) <= bpow radix2 1023). { rewrite HR, Rabs_mult, (Rabs_pos_eq (/ 2)) by lra. fold t. assert (1 <= bpow radix2 1023) by (change 1 with (bpow radix2 0); apply bpow_le; lia). pose proof (Rabs_pos t). lra. }
  destruct (mult_ok n half64 Fn HF NB) as [G1 G2]. rewrite HR in G2. change (B2R n * / 2) with (B2R n / 2) in G2. pose proof (half_error n) as HE. rewrite <- G2 in HE. fold t in HE.
  set (h := Bmult mode_NE n half64) in *. change (fconst (Flt := BFlt) 5 10) with half64. fold h. pose proof eta_small as ES. pose proof eta_pos as EP.
  assert (EL : eta <= / 1000 * u53). { apply Rle_trans with (bpow radix2 (-63)); [unfold eta; apply bpow_le; lia|]. rewrite u53_bpow. change (-63)%Z with ((-10) + (-53))%Z. rewrite bpow_plus. change (- 53 + 1)%Z with (1 + -53)%Z. rewrite bpow_plus. change (bpow radix2 (-10)) with (/ 1024). change (bpow radix2 1) with 2. pose proof (bpow_gt_0 radix2 (-53)). lra. }
  pose proof u53_small as US. assert (BH : Rabs (B2R h) <= 51 / 100). { replace (B2R h) with ((B2R h - t / 2) + t / 2) by ring. eapply Rle_trans; [apply Rabs_triang|]. unfold Rdiv at 2. rewrite Rabs_mult, (Rabs_pos_eq (/ 2)) by lra. lra. }
  pose proof (apx_scale M M0 HM _ _ _ _ h (51 / 100) Dp G1 BH ltac:(lra) ltac:(lra) ltac:(lra) ltac:(lra) ltac:(lra)) as Dh.
  assert (PB : Rabs (B2R y1 - B2R y0 + (B2R y2 - B2R y1) + t * (B2R y2 - B2R y1 - (B2R y1 - B2R y0))) <= 6 * M) by (destruct Dp as (_ & _ & K); lra).
  assert (Dh' : apx M (21 + / 2) (3 + 6 / 100) (Bmult mode_NE h (Bplus mode_NE (Bplus mode_NE (Bminus mode_NE y1 y0) (Bminus mode_NE y2 y1)) (Bmult mode_NE n (Bminus mode_NE (Bminus mode_NE y2 y1) (Bminus mode_NE y1 y0)))))
    (t / 2 * (B2R y1 - B2R y0 + (B2R y2 - B2R y1) + t * (B2R y2 - B2R y1 - (B2R y1 - B2R y0))))).
  { destruct Dh as (K1 & K2 & K3). set (p := B2R y1 - B2R y0 + (B2R y2 - B2R y1) + t * (B2R y2 - B2R y1 - (B2R y1 - B2R y0))) in *. clearbody p. split; [exact K1|]. split.
    - replace (B2R (Bmult mode_NE h _) - t / 2 * p) with ((B2R (Bmult mode_NE h (Bplus mode_NE (Bplus mode_NE (Bminus mode_NE y1 y0) (Bminus mode_NE y2 y1)) (Bmult mode_NE n (Bminus mode_NE (Bminus mode_NE y2 y1) (Bminus mode_NE y1 y0))))) - B2R h * p) + (B2R h - t / 2) * p) by ring.
      eapply Rle_trans; [apply Rabs_triang|]. rewrite (Rabs_mult (B2R h - t / 2)). assert (L : Rabs (B2R h - t / 2) * Rabs p <= / 100 * unit64 M).
      { apply Rle_trans with (/ 1000 * u53 * (6 * M)); [apply Rmult_le_compat; try apply Rabs_pos; lra|]. unfold unit64; fold u53 eta. assert (0 <= u53 * M) by (apply Rmult_le_pos; [apply Rlt_le, u53_pos|exact M0]). lra. }
      pose proof (unit64_pos M M0). lra.
    - rewrite Rabs_mult. unfold Rdiv. rewrite Rabs_mult, (Rabs_pos_eq (/ 2)) by lra. pose proof (Rabs_pos p). pose proof (Rabs_pos t). apply Rle_trans with (/ 2 * (6 * M)); [|lra]. apply Rmult_le_compat; lra. }
  pose proof (apx_plus M M0 HM _ _ _ _ _ _ _ _ A1 Dh' ltac:(lra) ltac:(lra) ltac:(lra) ltac:(lra) ltac:(lra) ltac:(lra)) as Dv. destruct Dv as (V1 & V2 & _). split; [exact V1|].
  replace (B2R y1 + t * / 2 * (B2R y2 - B2R y0 + t * (B2R y2 - 2 * B2R y1 + B2R y0))) with (B2R y1 + t / 2 * (B2R y1 - B2R y0 + (B2R y2 - B2R y1) + t * (B2R y2 - B2R y1 - (B2R y1 - B2R y0)))) by (unfold Rdiv; ring).
  eapply Rle_trans; [exact V2|]. apply Rmult_le_compat_r; [apply Rlt_le, unit64_pos, M0|lra].
Qed.

(** ** The strict functions *)
Lemma const64 z : (Z.abs z < 2 ^ 53)%Z -> is_finite (fconst (Flt := BFlt) z 1) = true /\ B2R (fconst (Flt := BFlt) z 1) = IZR z.
Proof.
  intros H. cbn [fconst BFlt]. destruct (isfx_ofZ z H) as [F1 E1]. destruct (isfx_ofZ 1 ltac:(lia)) as [F2 E2]. cbn [Z.opp bpow] in E1, E2. rewrite Rmult_1_r in E1, E2.
  assert (NZ : B2R (b64_ofZ 1) <> 0) by (rewrite E2; lra). assert (Q : B2R (b64_ofZ z) / B2R (b64_ofZ 1) = IZR z * bpow radix2 (Z.opp 0)) by (rewrite E1, E2; cbn; field).
  pose proof (Bdiv_correct 53 1024 _ _ mode_NE (b64_ofZ z) (b64_ofZ 1) NZ) as K. rewrite Q, (round_fx 0 z) in K by (lia || assumption). rewrite Rlt_bool_true in K by (apply bound_fx; [lia|assumption]).
  destruct K as (K1 & K2 & _). split; [congruence|]. rewrite K1. cbn. ring.
Qed.
Lemma lt64 (a b : float64) : is_finite a = true -> is_finite b = true -> flt (Flt := BFlt) a b = Rlt_bool (B2R a) (B2R b).
Proof. intros A B. exact (Bltb_correct 53 1024 a b A B). Qed.
Lemma eq64 (a b : float64) : is_finite a = true -> is_finite b = true -> feq (Flt := BFlt) a b = Req_bool (B2R a) (B2R b).
Proof. intros A B. exact (Beqb_correct 53 1024 a b A B). Qed.
Lemma isfx_twice e x k : (0 <= e <= 1000)%Z -> (Z.abs k <= 2 ^ 51)%Z -> isfx e x k -> isfx e (Bmult mode_NE (fconst (Flt := BFlt) 2 1) x) (2 * k).
Proof.
  intros He Hk [F E]. destruct (const64 2 ltac:(lia)) as [F2 E2]. assert (E3 : B2R (fconst (Flt := BFlt) 2 1) * B2R x = IZR (2 * k) * bpow radix2 (- e)) by (rewrite E2, E, mult_IZR; ring).
  assert (K : Rabs (B2R (fconst (Flt := BFlt) 2 1) * B2R x) <= bpow radix2 1023).
  { rewrite E3, Rabs_mult, (Rabs_pos_eq (bpow _ _)) by apply bpow_ge_0. rewrite <- abs_IZR. apply Rle_trans with (bpow radix2 53 * bpow radix2 0); [|rewrite <- bpow_plus; apply bpow_le; lia].
    apply Rmult_le_compat; try apply bpow_ge_0; [apply IZR_le; lia|change (bpow radix2 53) with (IZR (2 ^ 53)); apply IZR_le; lia|apply bpow_le; lia]. }
  destruct (mult_ok _ _ F2 F K) as [G1 G2]. split; [exact G1|]. rewrite G2, E3. apply round_fx; lia.
Qed.
Lemma R64_1 : R64 1 = 1. Proof. replace 1 with (IZR 1 * bpow radix2 (Z.opp 0)) at 1 by (cbn; ring). unfold R64. rewrite round_fx by lia. cbn. ring. Qed.
Lemma R64_opp x : R64 (- x) = - R64 x. Proof. apply round_NE_opp. Qed.
Lemma quotient_le p w : (0 < w <= 2 ^ 52)%Z -> (R64 (IZR p / IZR w) <= 1 <-> (p <= w)%Z).
Proof.
  intros W. assert (W0 : 0 < IZR w) by (apply IZR_lt; lia). split; intros H.
  - destruct (Z_le_gt_dec p w) as [L|G]; [exact L|exfalso]. assert (S0 : 1 + / 2 ^ 52 <= IZR p / IZR w).
    { apply Rle_trans with (1 + / IZR w).
      - apply Rplus_le_compat_l, Rinv_le_contravar; [exact W0|]. replace (2 ^ 52) with (IZR (2 ^ 52)) by (simpl; lra). apply IZR_le. lia.
      - assert (K : IZR w + 1 <= IZR p) by (rewrite <- plus_IZR; apply IZR_le; lia). apply Rmult_le_reg_r with (IZR w); [exact W0|]. replace ((1 + / IZR w) * IZR w) with (IZR w + 1) by (field; lra). replace (IZR p / IZR w * IZR w) with (IZR p) by (field; lra). exact K. }
    apply R64_monotone in S0. assert (R1 : R64 (1 + / 2 ^ 52) = 1 + / 2 ^ 52).
    { replace (1 + / 2 ^ 52) with (IZR 4503599627370497 * bpow radix2 (Z.opp 52)) by (change (bpow radix2 (Z.opp 52)) with (/ 4503599627370496); simpl; lra). apply round_fx; lia. }
    rewrite R1 in S0. assert (0 < / 2 ^ 52) by (apply Rinv_0_lt_compat, pow_lt; lra). lra.
  - rewrite <- R64_1. apply R64_monotone. apply Rmult_le_reg_r with (IZR w); [exact W0|]. replace (IZR p / IZR w * IZR w) with (IZR p) by (field; lra). rewrite Rmult_1_l. now apply IZR_le.
Qed.
Lemma quotient_abs p w : (w <> 0)%Z -> (Z.abs w <= 2 ^ 52)%Z -> (-1 <= R64 (IZR p / IZR w) <= 1 <-> (Z.abs p <= Z.abs w)%Z).
Proof.
  intros W0 W. assert (K : forall q v, (0 < v <= 2 ^ 52)%Z -> (-1 <= R64 (IZR q / IZR v) <= 1 <-> (Z.abs q <= v)%Z)).
  { intros q v V. assert (V0 : IZR v <> 0) by (apply not_0_IZR; lia). pose proof (quotient_le q v V) as A. pose proof (quotient_le (- q) v V) as B. rewrite opp_IZR in B. replace (- IZR q / IZR v) with (- (IZR q / IZR v)) in B by (field; exact V0). rewrite R64_opp in B.
    split; intros H; [assert (q <= v)%Z by (apply A; lra); assert (- q <= v)%Z by (apply B; lra); lia|]. assert (R64 (IZR q / IZR v) <= 1) by (apply A; lia). assert (- R64 (IZR q / IZR v) <= 1) by (apply B; lia). lra. }
  destruct (Z_lt_le_dec 0 w) as [P|N].
  - rewrite (Z.abs_eq w) by lia. apply K. lia.
  - rewrite (Z.abs_neq w) by lia. replace (IZR p / IZR w) with (IZR (- p) / IZR (- w)) by (rewrite !opp_IZR; field; apply not_0_IZR; lia). rewrite <- (Z.abs_opp p). apply K. lia.
Qed.
Lemma between_fx e k1 k3 k : between (IZR k1 * bpow radix2 (- e)) (IZR k3 * bpow radix2 (- e)) (IZR k * bpow radix2 (- e)) <-> (Z.abs (2 * k - (k3 + k1)) <= Z.abs (k3 - k1))%Z.
Proof.
  rewrite between_iff. pose proof (bpow_gt_0 radix2 (- e)) as B. assert (K : forall a b, IZR a * bpow radix2 (- e) <= IZR b * bpow radix2 (- e) <-> (a <= b)%Z).
  { intros a b. split; intros H; [apply le_IZR; now apply Rmult_le_reg_r with (bpow radix2 (- e))|apply Rmult_le_compat_r; [lra|now apply IZR_le]]. }
  rewrite !K. clear. split; intros H; [destruct H; lia|]. destruct (Z_le_gt_dec k1 k3); [left|right]; lia.
Qed.
Lemma Len3_XStrict64 e (x1 x3 x : float64) k1 k3 k (y : list float64) d : (0 <= e <= 1000)%Z -> isfx e x1 k1 -> isfx e x3 k3 -> isfx e x k ->
  (Z.abs k1 <= 2 ^ 50)%Z -> (Z.abs k3 <= 2 ^ 50)%Z -> (Z.abs k <= 2 ^ 50)%Z ->
  NewLen3 (fl := BFlt) x1 x3 y = Ok d ->
  (between (B2R x1) (B2R x3) (B2R x) -> Len3_InterpolateXStrict (fl := BFlt) d x = Ok (Len3_InterpolateX (fl := BFlt) d x)) /\
  (~ between (B2R x1) (B2R x3) (B2R x) -> Len3_InterpolateXStrict (fl := BFlt) d x = Err ErrorXOutOfRange).
Proof.
  intros He I1 I3 Ix B1 B3 B H. unfold NewLen3 in H. destruct y as [|y0 [|y1 [|y2 [|? ?]]]]; try discriminate.
  rewrite (eq64 x3 x1 (proj1 I3) (proj1 I1)) in H. revert H. case Req_bool_spec; intros NE H; [discriminate|]. injection H as <-.
  unfold Len3_InterpolateXStrict, Len3_InterpolateX. cbv zeta. cbn [l3_xSum l3_xDiff F BFlt fadd fsub fmul fdiv].
  pose proof (isfx_sub e _ _ _ _ He (isfx_twice e x k He ltac:(lia) Ix) (isfx_add e _ _ _ _ He I3 I1 ltac:(lia)) ltac:(lia)) as [Fp Ep]. pose proof (isfx_sub e _ _ _ _ He I3 I1 ltac:(lia)) as [Fw Ew].
  pose proof (bpow_gt_0 radix2 (- e)) as BP. assert (W0 : (k3 - k1 <> 0)%Z). { intros K. apply NE. rewrite (proj2 I3), (proj2 I1). do 2 f_equal. lia. }
  assert (WR : B2R (Bminus mode_NE x3 x1) <> 0). { rewrite Ew. apply Rmult_integral_contrapositive_currified; [now apply not_0_IZR|lra]. }
  assert (QE : forall s : float64, B2R s = IZR (2 * k - (k3 + k1)) * bpow radix2 (- e) -> B2R s / B2R (Bminus mode_NE x3 x1) = IZR (2 * k - (k3 + k1)) / IZR (k3 - k1)) by (intros s ->; rewrite Ew; assert (IZR (k3 - k1) <> 0) by (now apply not_0_IZR); field; split; lra).
  set (p := Bminus mode_NE (Bmult mode_NE (fconst (Flt := BFlt) 2 1) x) (Bplus mode_NE x3 x1)) in *. specialize (QE p Ep).
  assert (QB : Rabs (B2R p / B2R (Bminus mode_NE x3 x1)) <= bpow radix2 1023).
  { rewrite QE. unfold Rdiv. rewrite Rabs_mult, Rabs_inv, <- !abs_IZR. assert (1 <= IZR (Z.abs (k3 - k1))) by (apply IZR_le; lia). apply Rle_trans with (IZR (2 ^ 53) * 1).
    - apply Rmult_le_compat; [apply IZR_le; lia|apply Rlt_le, Rinv_0_lt_compat; lra|apply IZR_le; lia|rewrite <- Rinv_1; apply Rinv_le_contravar; lra].
    - rewrite Rmult_1_r. change (IZR (2 ^ 53)) with (bpow radix2 53). apply bpow_le. lia. }
  destruct (div_ok p (Bminus mode_NE x3 x1) Fp WR QB) as [Fn En]. rewrite QE in En. set (n := Bdiv mode_NE p (Bminus mode_NE x3 x1)) in *.
  rewrite (proj2 I1), (proj2 I3), (proj2 Ix), between_fx. rewrite <- (quotient_abs (2 * k - (k3 + k1)) (k3 - k1) W0 ltac:(lia)). rewrite <- En.
  unfold Len3_InterpolateNStrict. destruct (const64 (-1) ltac:(lia)) as [Fm Em]. destruct (const64 1 ltac:(lia)) as [F1 E1].
  rewrite (lt64 n _ Fn Fm), (lt64 _ n F1 Fn), Em, E1. split; intros K.
  - rewrite !Rlt_bool_false by lra. reflexivity.
  - case Rlt_bool_spec; intros K1; [reflexivity|]. rewrite Rlt_bool_true by lra. reflexivity.
Qed.
(** A table from 0.1 to 0.2 rejects its own first abscissa. *)
Lemma Len3_strict_tenth : let x1 := fconst (Flt := BFlt) 1 10 in let x3 := fconst (Flt := BFlt) 2 10 in forall y0 y1 y2 : float64,
  exists d, NewLen3 (fl := BFlt) x1 x3 [y0; y1; y2] = Ok d /\ Len3_InterpolateXStrict (fl := BFlt) d x1 = Err ErrorXOutOfRange.
Proof. intros x1 x3 y0 y1 y2. eexists. split; reflexivity. Qed.
(** ** The abscissa *)
Lemma Len3_n64 e (x1 x3 x : float64) k1 k3 k (y : list float64) d : (0 <= e <= 1000)%Z -> isfx e x1 k1 -> isfx e x3 k3 -> isfx e x k ->
  (Z.abs k1 <= 2 ^ 50)%Z -> (Z.abs k3 <= 2 ^ 50)%Z -> (Z.abs k <= 2 ^ 50)%Z -> NewLen3 (fl := BFlt) x1 x3 y = Ok d ->
  B2R x3 <> B2R x1 /\ exists n : float64, Len3_InterpolateX (fl := BFlt) d x = Len3_InterpolateN (fl := BFlt) d n /\ is_finite n = true /\ B2R n = R64 ((2 * B2R x - (B2R x3 + B2R x1)) / (B2R x3 - B2R x1)).
Proof.
  intros He I1 I3 Ix B1 B3 B H. unfold NewLen3 in H. destruct y as [|y0 [|y1 [|y2 [|? ?]]]]; try discriminate.
  rewrite (eq64 x3 x1 (proj1 I3) (proj1 I1)) in H. revert H. case Req_bool_spec; intros NE H; [discriminate|]. injection H as <-. split; [exact NE|].
  unfold Len3_InterpolateX. cbv zeta. cbn [l3_xSum l3_xDiff F BFlt fadd fsub fmul fdiv]. eexists. split; [reflexivity|].
  pose proof (isfx_sub e _ _ _ _ He (isfx_twice e x k He ltac:(lia) Ix) (isfx_add e _ _ _ _ He I3 I1 ltac:(lia)) ltac:(lia)) as [Fp Ep]. pose proof (isfx_sub e _ _ _ _ He I3 I1 ltac:(lia)) as [Fw Ew].
  pose proof (bpow_gt_0 radix2 (- e)) as BP. assert (W0 : (k3 - k1 <> 0)%Z). { intros K. apply NE. rewrite (proj2 I3), (proj2 I1). do 2 f_equal. lia. }
  assert (WR : B2R (Bminus mode_NE x3 x1) <> 0). { rewrite Ew. apply Rmult_integral_contrapositive_currified; [now apply not_0_IZR|lra]. }
  assert (QE : forall s : float64, B2R s = IZR (2 * k - (k3 + k1)) * bpow radix2 (- e) -> B2R s / B2R (Bminus mode_NE x3 x1) = IZR (2 * k - (k3 + k1)) / IZR (k3 - k1)) by (intros s ->; rewrite Ew; assert (IZR (k3 - k1) <> 0) by (now apply not_0_IZR); field; split; lra).
  set (p := Bminus mode_NE (Bmult mode_NE (fconst (Flt := BFlt) 2 1) x) (Bplus mode_NE x3 x1)) in *. specialize (QE p Ep).
  assert (QB : Rabs (B2R p / B2R (Bminus mode_NE x3 x1)) <= bpow radix2 1023).
  { rewrite QE. unfold Rdiv. rewrite Rabs_mult, Rabs_inv, <- !abs_IZR. assert (1 <= IZR (Z.abs (k3 - k1))) by (apply IZR_le; lia). apply Rle_trans with (IZR (2 ^ 53) * 1).
    - apply Rmult_le_compat; [apply IZR_le; lia|apply Rlt_le, Rinv_0_lt_compat; lra|apply IZR_le; lia|rewrite <- Rinv_1; apply Rinv_le_contravar; lra].
    - rewrite Rmult_1_r. change (IZR (2 ^ 53)) with (bpow radix2 53). apply bpow_le. lia. }
  destruct (div_ok p (Bminus mode_NE x3 x1) Fp WR QB) as [Fn En]. split; [exact Fn|]. rewrite En, Ep, Ew, (proj2 I1), (proj2 I3), (proj2 Ix). f_equal. rewrite !minus_IZR, plus_IZR, mult_IZR. apply not_0_IZR in W0. rewrite minus_IZR in W0. set (b := bpow radix2 (- e)) in *. assert (b <> 0) by lra. assert (N2 : IZR k3 * b - IZR k1 * b <> 0) by (rewrite <- Rmult_minus_distr_r; apply Rmult_integral_contrapositive_currified; assumption). field. repeat split; assumption.
Qed.
Lemma quad_step y0 y1 y2 M t t' q : Rabs y0 <= M -> Rabs y1 <= M -> Rabs y2 <= M -> Rabs t <= 1 -> Rabs t' <= 1 -> Rabs (t' - t) <= q ->
  Rabs ((y1 + t' * / 2 * ((y2 - y0) + t' * (y2 - 2 * y1 + y0))) - (y1 + t * / 2 * ((y2 - y0) + t * (y2 - 2 * y1 + y0)))) <= 5 * M * q.
Proof.
  intros A B C T T' Q. replace ((y1 + t' * / 2 * ((y2 - y0) + t' * (y2 - 2 * y1 + y0))) - (y1 + t * / 2 * ((y2 - y0) + t * (y2 - 2 * y1 + y0)))) with ((/ 2 * (y2 - y0) + / 2 * (t' + t) * (y2 - 2 * y1 + y0)) * (t' - t)) by field.
  rewrite Rabs_mult. apply Rmult_le_compat; try apply Rabs_pos; [|exact Q]. eapply Rle_trans; [apply Rabs_triang|]. rewrite !Rabs_mult, (Rabs_pos_eq (/ 2)) by lra.
  assert (P1 : Rabs (y2 - y0) <= 2 * M) by (eapply Rle_trans; [apply Rabs_triang|rewrite Rabs_Ropp; lra]). assert (P2 : Rabs (t' + t) <= 2) by (eapply Rle_trans; [apply Rabs_triang|lra]).
  assert (P3 : Rabs (y2 - 2 * y1 + y0) <= 4 * M). { eapply Rle_trans; [apply Rabs_triang|]. eapply Rle_trans; [apply Rplus_le_compat_r, Rabs_triang|]. rewrite Rabs_Ropp, Rabs_mult, (Rabs_pos_eq 2) by lra. lra. }
  assert (P4 : Rabs (t' + t) * Rabs (y2 - 2 * y1 + y0) <= 2 * (4 * M)) by (apply Rmult_le_compat; auto using Rabs_pos). lra.
Qed.
Lemma Len3_InterpolateX64 e (x1 x3 x y0 y1 y2 : float64) k1 k3 k d M (f : R -> R) : (0 <= e <= 1000)%Z -> isfx e x1 k1 -> isfx e x3 k3 -> isfx e x k ->
  (Z.abs k1 <= 2 ^ 50)%Z -> (Z.abs k3 <= 2 ^ 50)%Z -> (Z.abs k <= 2 ^ 50)%Z ->
  is_finite y0 = true -> is_finite y1 = true -> is_finite y2 = true -> Rabs (B2R y0) <= M -> Rabs (B2R y1) <= M -> Rabs (B2R y2) <= M -> M <= 2 ^ 1000 ->
  poly_degree_le 2 f -> tabulates f (B2R x1) (B2R x3) [B2R y0; B2R y1; B2R y2] ->
  NewLen3 (fl := BFlt) x1 x3 [y0; y1; y2] = Ok d -> between (B2R x1) (B2R x3) (B2R x) ->
  close64 (Len3_InterpolateX (fl := BFlt) d x) (f (B2R x)) (33 * unit64 M).
Proof.
  intros He I1 I3 Ix B1 B3 B F0 F1 F2 Y0 Y1 Y2 HM Hf Tf H Hx. destruct (Len3_n64 e x1 x3 x k1 k3 k _ d He I1 I3 Ix B1 B3 B H) as (NE & n & E & Fn & En).
  set (t := (2 * B2R x - (B2R x3 + B2R x1)) / (B2R x3 - B2R x1)) in *. assert (T : -1 <= t <= 1).
  { rewrite between_iff in Hx. unfold t. destruct Hx as [Hx|Hx].
    - split; [apply Rmult_le_reg_r with (B2R x3 - B2R x1)|apply Rmult_le_reg_r with (B2R x3 - B2R x1)]; try lra; unfold Rdiv; rewrite Rmult_assoc, Rinv_l by lra; lra.
    - replace ((2 * B2R x - (B2R x3 + B2R x1)) / (B2R x3 - B2R x1)) with ((B2R x3 + B2R x1 - 2 * B2R x) / (B2R x1 - B2R x3)) by (field; lra).
      split; [apply Rmult_le_reg_r with (B2R x1 - B2R x3)|apply Rmult_le_reg_r with (B2R x1 - B2R x3)]; try lra; unfold Rdiv; rewrite Rmult_assoc, Rinv_l by lra; lra. }
  assert (T' : -1 <= B2R n <= 1). { rewrite En. pose proof (R64_monotone t 1 (proj2 T)) as U. pose proof (R64_monotone (-1) t (proj1 T)) as L. rewrite R64_1 in U. replace (-1) with (- (1)) in L by lra. rewrite R64_opp, R64_1 in L. lra. }
  assert (A' : Rabs (B2R n) <= 1) by (apply Rabs_le; exact T'). assert (A : Rabs t <= 1) by (apply Rabs_le; exact T).
  assert (HM' : M <= bpow radix2 1000) by (eapply Rle_trans; [exact HM|]; rewrite bpow_powerRZ; right; reflexivity).
  rewrite E. destruct (Len3_InterpolateN64 x1 x3 y0 y1 y2 d n M H F0 F1 F2 Y0 Y1 Y2 HM' Fn A') as [G1 G2]. split; [exact G1|].
  assert (V : f (B2R x) = B2R y1 + t * / 2 * ((B2R y2 - B2R y0) + t * (B2R y2 - 2 * B2R y1 + B2R y0))).
  { destruct (NewLen3 (fl := RFlt) (B2R x1) (B2R x3) [B2R y0; B2R y1; B2R y2]) as [dr|er] eqn:ED.
    - rewrite <- (Len3_exact _ _ _ _ ED f Hf Tf). unfold NewLen3 in ED. cbn [RFlt feq F] in ED. destruct (Req_bool (B2R x3) (B2R x1)) in ED; [discriminate|]. injection ED as <-. unfold Len3_InterpolateX, Len3_InterpolateN. cbn. fold t. try unfold t. field. lra.
    - exfalso. unfold NewLen3 in ED. cbn [RFlt feq F] in ED. revert ED. case Req_bool_spec; [intros K; contradiction|discriminate]. }
  rewrite V. pose proof (R64_abs t) as RA. rewrite <- En in RA. assert (Q : Rabs (B2R n - t) <= u53 + eta) by (pose proof u53_pos; nra).
  pose proof (quad_step _ _ _ M t (B2R n) _ Y0 Y1 Y2 A A' Q) as S0. set (v := B2R (Len3_InterpolateN d n)) in *. clearbody v.
  assert (EU : eta <= / 1000 * u53). { replace u53 with (bpow radix2 (-53)) by (unfold u53; change (bpow radix2 (-53)) with (/ 9007199254740992); f_equal; simpl; lra). unfold eta. apply Rle_trans with (bpow radix2 (-10) * bpow radix2 (-53)); [rewrite <- bpow_plus; apply bpow_le; lia|]. apply Rmult_le_compat_r; [apply bpow_ge_0|]. change (bpow radix2 (-10)) with (/ 1024). lra. }
  assert (M0 : 0 <= M) by (eapply Rle_trans; [apply Rabs_pos|exact Y0]). assert (5 * M * (u53 + eta) <= 6 * (u53 * M)) by (assert (M * eta <= M * (/ 1000 * u53)) by (apply Rmult_le_compat_l; assumption); pose proof u53_pos; nra).
  match goal with |- Rabs (v - ?w) <= _ => replace (v - w) with ((v - (B2R y1 + B2R n * / 2 * ((B2R y2 - B2R y0) + B2R n * (B2R y2 - 2 * B2R y1 + B2R y0)))) + ((B2R y1 + B2R n * / 2 * ((B2R y2 - B2R y0) + B2R n * (B2R y2 - 2 * B2R y1 + B2R y0))) - w)) by ring end.
  eapply Rle_trans; [apply Rabs_triang|]. unfold unit64 in *. fold u53 eta in *. pose proof eta_pos. lra.
Qed.
Lemma Len3_strict_grid e (x1 x3 x : float64) (y : list float64) d : (0 <= e <= 1000)%Z -> on_grid e x1 -> on_grid e x3 -> on_grid e x -> NewLen3 (fl := BFlt) x1 x3 y = Ok d ->
  (between (B2R x1) (B2R x3) (B2R x) -> Len3_InterpolateXStrict (fl := BFlt) d x = Ok (Len3_InterpolateX (fl := BFlt) d x)) /\
  (~ between (B2R x1) (B2R x3) (B2R x) -> Len3_InterpolateXStrict (fl := BFlt) d x = Err ErrorXOutOfRange).
Proof. intros He [F1 [k1 [B1 E1]]] [F3 [k3 [B3 E3]]] [F [k [B E]]] H. apply (Len3_XStrict64 e x1 x3 x k1 k3 k y d He); try split; assumption. Qed.
Lemma Len3_value_grid e (x1 x3 x y0 y1 y2 : float64) d M (f : R -> R) : (0 <= e <= 1000)%Z -> on_grid e x1 -> on_grid e x3 -> on_grid e x ->
  is_finite y0 = true -> is_finite y1 = true -> is_finite y2 = true -> Rabs (B2R y0) <= M -> Rabs (B2R y1) <= M -> Rabs (B2R y2) <= M -> M <= 2 ^ 1000 ->
  poly_degree_le 2 f -> tabulates f (B2R x1) (B2R x3) [B2R y0; B2R y1; B2R y2] ->
  NewLen3 (fl := BFlt) x1 x3 [y0; y1; y2] = Ok d -> between (B2R x1) (B2R x3) (B2R x) ->
  close64 (Len3_InterpolateX (fl := BFlt) d x) (f (B2R x)) (33 * unit64 M).
Proof. intros He [F1 [k1 [B1 E1]]] [F3 [k3 [B3 E3]]] [F [k [B E]]]. apply (Len3_InterpolateX64 e x1 x3 x y0 y1 y2 k1 k3 k d M f He); try split; assumption. Qed.
Lemma Len3_grid_example : let z n := fconst (Flt := BFlt) n 1 in on_grid 0 (z 10%Z) /\ on_grid 0 (z 20%Z) /\ on_grid 0 (z 13%Z) /\ between (B2R (z 10%Z)) (B2R (z 20%Z)) (B2R (z 13%Z)) /\
  poly_degree_le 2 (fun x => x * x) /\ tabulates (fun x => x * x) (B2R (z 10%Z)) (B2R (z 20%Z)) [B2R (z 100%Z); B2R (z 225%Z); B2R (z 400%Z)].
Proof.
  assert (Z0 : forall n, (Z.abs n < 2 ^ 50)%Z -> on_grid 0 (fconst (Flt := BFlt) n 1)). { intros n Hn. destruct (const64 n ltac:(lia)) as [F1 E]. split; [exact F1|]. exists n. split; [lia|]. rewrite E. cbn. ring. }
  assert (V : forall n, (Z.abs n < 2 ^ 50)%Z -> B2R (fconst (Flt := BFlt) n 1) = IZR n) by (intros n Hn; apply (const64 n ltac:(lia))).
  cbv zeta. do 3 (split; [apply Z0; lia|]). rewrite !V by lia. split; [apply between_iff; lra|]. split; [exists [0; 0; 1]; split; [cbn; lia|intros x; unfold poly; cbn; ring]|].
  intros k Hk. cbn in Hk. destruct k as [|[|[|k]]]; [| | |exfalso; lia]; unfold abscissa; cbn; field.
Qed.
Lemma bisect_example : let z n := fconst (Flt := BFlt) n 1 in let f x := fsub (Flt := BFlt) x (z 3%Z) in
  is_finite (z 2%Z) = true /\ is_finite (z 10%Z) = true /\ Bsign (f (z 2%Z)) <> Bsign (f (z 10%Z)) /\ Rmax (Rabs (B2R (z 2%Z))) (Rabs (B2R (z 10%Z))) <= 2 ^ 1022.
Proof.
  cbv zeta. split; [reflexivity|]. split; [reflexivity|]. split; [discriminate|]. assert (A : B2R (fconst (Flt := BFlt) 2 1) = 2) by (apply const64; lia). assert (B : B2R (fconst (Flt := BFlt) 10 1) = 10) by (apply const64; lia). rewrite A, B, !Rabs_pos_eq, Rmax_right by lra.
  apply Rle_trans with (2 ^ 4); [simpl; lra|]. apply Rle_pow; [lra|lia].
Qed.
