(** Lemmas on the snapping of event indices, bounds of the periodic terms. *)
From Coq Require Import ZArith Reals List Lra Lia Bool.
From Flocq Require Import Core.
From Verif Require Import GoFloat GoMath M_base M_precess M_interp M_lunar M_planetary S_interp S_event L_trig L_kepler L_precess.
Import ListNotations.
Local Open Scope R_scope.

(** ** Nearest index *)
Lemma snap_nearest q x : nearest_index q x (Floor (x - q + 0.5) + q).
Proof.
  unfold Floor. set (u := x - q + 0.5). pose proof (Zfloor_lb u) as L. pose proof (Zfloor_ub u) as U.
  split. { exists (Zfloor u). ring. }
  intros n. assert (B : Rabs (IZR (Zfloor u) + q - x) <= 1 / 2). { apply Rabs_le. unfold u in *. lra. }
  destruct (Z.eq_dec n (Zfloor u)) as [->|N]. { rewrite (Rplus_comm q). lra. }
  assert (1 / 2 <= Rabs (q + IZR n - x)); [|lra].
  assert (C : (n <= Zfloor u - 1 \/ Zfloor u + 1 <= n)%Z) by lia.
  destruct C as [C|C]; apply IZR_le in C; [rewrite minus_IZR in C|rewrite plus_IZR in C].
  - rewrite Rabs_left1; unfold u in *; lra.
  - rewrite Rabs_right; unfold u in *; lra.
Qed.
Lemma snap_near q x : Rabs (Floor (x - q + 0.5) + q - x) <= 1 / 2.
Proof. unfold Floor. set (u := x - q + 0.5). pose proof (Zfloor_lb u). pose proof (Zfloor_ub u). apply Rabs_le. unfold u in *. lra. Qed.

(** ** Bounds of trigonometric sums *)
Lemma bn_add x y a b : Rabs x <= a -> Rabs y <= b -> Rabs (x + y) <= a + b.
Proof. intros. pose proof (Rabs_triang x y). lra. Qed.
Lemma bn_sub x y a b : Rabs x <= a -> Rabs y <= b -> Rabs (x - y) <= a + b.
Proof. intros. pose proof (Rabs_triang x (- y)). rewrite Rabs_Ropp in *. unfold Rminus. lra. Qed.
Lemma bn_mul x y a b : Rabs x <= a -> Rabs y <= b -> Rabs (x * y) <= a * b.
Proof. intros. rewrite Rabs_mult. apply Rmult_le_compat; auto; apply Rabs_pos. Qed.
Lemma bn_sin x : Rabs (sin x) <= 1. Proof. apply Rabs_le. pose proof (SIN_bound x). lra. Qed.
Lemma bn_cos x : Rabs (cos x) <= 1. Proof. apply Rabs_le. pose proof (COS_bound x). lra. Qed.
Lemma bn_opp x a : Rabs x <= a -> Rabs (- x) <= a. Proof. now rewrite Rabs_Ropp. Qed.
Lemma bn_const x : 0 <= x -> Rabs x <= x. Proof. intros. rewrite Rabs_right; lra. Qed.
Lemma bn_constn x : x <= 0 -> Rabs x <= - x. Proof. intros. rewrite Rabs_left1; lra. Qed.
Ltac bnd :=
  lazymatch goal with
  | H : Rabs ?x <= _ |- Rabs ?x <= _ => exact H
  | |- Rabs (_ + _) <= _ => eapply bn_add; bnd
  | |- Rabs (_ - _) <= _ => eapply bn_sub; bnd
  | |- Rabs (_ * _) <= _ => eapply bn_mul; bnd
  | |- Rabs (- _) <= _ => eapply bn_opp; bnd
  | |- Rabs (sin _) <= _ => apply bn_sin
  | |- Rabs (cos _) <= _ => apply bn_cos
  | |- _ => first [ apply bn_const; decimals; lra | apply bn_constn; decimals; lra ]
  end.
Ltac bound := eapply Rle_trans; [bnd|decimals; lra].

Lemma Hor3 x a b c : HornerR x [a; b; c] = a + x * (b + x * c).
Proof. apply HornerR3. Qed.
Lemma Hor2 x a b : HornerR x [a; b] = a + x * b.
Proof. unfold HornerR, Horner. cbn [rev List.app horner_loop]. cbn [fadd fmul RFlt]. ring. Qed.
Lemma Hor4 x a b c d : HornerR x [a; b; c; d] = a + x * (b + x * (c + x * d)).
Proof. unfold HornerR, Horner. cbn [rev List.app horner_loop]. cbn [fadd fmul RFlt]. ring. Qed.
Lemma Hor5 x a b c d e : HornerR x [a; b; c; d; e] = a + x * (b + x * (c + x * (d + x * e))).
Proof. unfold HornerR, Horner. cbn [rev List.app horner_loop]. cbn [fadd fmul RFlt]. ring. Qed.

Definition E_ (T : R) : R := 1 - 0.002516 * T - 0.0000074 * T * T.
Lemma E_bound T : Rabs T <= 10 -> Rabs (E_ T) <= 1.026.
Proof. intros H. apply Rabs_le_inv in H. unfold E_. apply Rabs_le. decimals. nra. Qed.
Lemma mp_E_eq T : mp_E T = E_ T. Proof. unfold mp_E. rewrite Hor3. unfold E_. decimals. field. Qed.
Lemma no_E_eq T : no_E T = E_ T. Proof. unfold no_E. rewrite Hor3. unfold E_. decimals. field. Qed.
Lemma md_E_eq T : md_E T = E_ T. Proof. unfold md_E. rewrite Hor3. unfold E_. decimals. field. Qed.

Lemma nfc_bound_new E M M1 F Om : Rabs E <= 1.026 -> Rabs (nfc mp_nc E M M1 F Om) <= 0.636.
Proof. intros HE. unfold nfc, mp_nc. cbn [nth]. bound. Qed.
Lemma nfc_bound_full E M M1 F Om : Rabs E <= 1.026 -> Rabs (nfc mp_fc E M M1 F Om) <= 0.636.
Proof. intros HE. unfold nfc, mp_fc. cbn [nth]. bound. Qed.
Lemma flc_bound E M M1 F Om : Rabs E <= 1.026 -> Rabs (flc E M M1 F Om) <= 0.848.
Proof. intros HE. unfold flc. bound. Qed.
Lemma mp_w_bound E M M1 F : Rabs E <= 1.026 -> Rabs (mp_w E M M1 F) <= 0.0038.
Proof. intros HE. unfold mp_w. bound. Qed.
Lemma mp_a_bound k T : Rabs (mp_a k T) <= 0.0013.
Proof. unfold mp_a, mp_ac, mp_A. cbn [combine fold_left fst snd]. bound. Qed.
Lemma ap_pc_bound T D M F : Rabs T <= 10 -> Rabs (ap_pc T D M F) <= 2.9.
Proof. intros HT. unfold ap_pc. bound. Qed.
Lemma ap_ac_bound T D M F : Rabs T <= 10 -> Rabs (ap_ac T D M F) <= 0.75.
Proof. intros HT. unfold ap_ac. bound. Qed.
Lemma no_corr_bound E D M M1 Om V P : Rabs E <= 1.026 -> Rabs (no_corr E D M M1 Om V P) <= 0.79.
Proof. intros HE. unfold no_corr. bound. Qed.
Lemma md_corr_north E D M M1 F : Rabs E <= 1.026 -> Rabs (md_corr (mctc md_north) E D M M1 F) <= 2.1.
Proof. intros HE. unfold md_corr, md_north. cbn [mctc nth]. bound. Qed.
Lemma md_corr_south E D M M1 F : Rabs E <= 1.026 -> Rabs (md_corr (mctc md_south) E D M M1 F) <= 2.1.
Proof. intros HE. unfold md_corr, md_south. cbn [mctc nth]. bound. Qed.

(** ** Elementary bounds *)
Lemma cos_lower d : 1 - d * d / 2 <= cos d.
Proof.
  replace d with (2 * (d / 2)) at 3 by field. rewrite cos_2a_sin. pose proof (sin_abs_le (d / 2)) as H.
  assert (sin (d / 2) * sin (d / 2) <= d / 2 * (d / 2)); [|lra].
  rewrite <- (Rabs_right (sin (d / 2) * sin (d / 2))), <- (Rabs_right (d / 2 * (d / 2))), !Rabs_mult by nra.
  apply Rmult_le_compat; auto; apply Rabs_pos.
Qed.
Lemma sin_deg_hi x (n : Z) : 1 - (x - 90 - 360 * IZR n) * (x - 90 - 360 * IZR n) / 6400 <= sin (x * p_).
Proof.
  set (d := x - 90 - 360 * IZR n). replace (x * p_) with (PI / 2 + d * p_ + IZR n * (2 * PI)) by (unfold d, p_; field).
  rewrite sin_Z, sin_plus, sin_PI2, cos_PI2. pose proof (cos_lower (d * p_)).
  assert (d * p_ * (d * p_) / 2 <= d * d / 6400); [|lra].
  replace (d * p_ * (d * p_) / 2) with (d * d * (p_ * p_ / 2)) by field. unfold Rdiv at 2. apply Rmult_le_compat_l; [nra|].
  unfold p_. pose proof PI_bounds. nra.
Qed.
Lemma sin_deg_lo x (n : Z) : sin (x * p_) <= - (1 - (x - 270 - 360 * IZR n) * (x - 270 - 360 * IZR n) / 6400).
Proof.
  pose proof (sin_deg_hi (x - 180) n) as H. replace ((x - 180) * p_) with (x * p_ - PI) in H by (unfold p_; field).
  rewrite sin_minus, sin_PI, cos_PI in H. replace (x - 180 - 90 - 360 * IZR n) with (x - 270 - 360 * IZR n) in H by ring. lra.
Qed.

(** ** Mean phases *)
Lemma mp_mean_poly T : mp_mean T = 2451550.09766 + 29.530588861 * 1236.85 * T + 0.00015437 * T * T - 0.00000015 * T * T * T + 0.00000000073 * T * T * T * T.
Proof. unfold mp_mean. rewrite Hor5. unfold mp_ck. decimals. field. Qed.
Lemma mp_mean_lin T : Rabs T <= 10 -> Rabs (mp_mean T - (2451550.09766 + 29.530588861 * (1236.85 * T))) <= 0.0157.
Proof.
  intros HT. rewrite mp_mean_poly.
  replace (2451550.09766 + 29.530588861 * 1236.85 * T + 0.00015437 * T * T - 0.00000015 * T * T * T + 0.00000000073 * T * T * T * T -
    (2451550.09766 + 29.530588861 * (1236.85 * T))) with (0.00015437 * T * T - 0.00000015 * T * T * T + 0.00000000073 * T * T * T * T) by ring.
  bound.
Qed.
Lemma mp_T k : Rabs k <= 12368 -> Rabs (k * mp_ck) <= 10 /\ 1236.85 * (k * mp_ck) = k.
Proof.
  intros H. split; [|unfold mp_ck; decimals; field].
  rewrite Rabs_mult, (Rabs_right mp_ck) by (unfold mp_ck; decimals; lra). unfold mp_ck. decimals. lra.
Qed.
Lemma mp_mean_index k : Rabs k <= 12368 -> Rabs (mp_mean (k * mp_ck) - (2451550.09766 + 29.530588861 * k)) <= 0.0157.
Proof. intros H. destruct (mp_T k H) as [HT E]. pose proof (mp_mean_lin _ HT) as L. now rewrite E in L. Qed.

(** Index of the year, and distance of the mean phase from the date. *)
Lemma mp_snap_range y q : 1000 <= y <= 3000 -> 0 <= q <= 1 -> Rabs (mp_snap y q) <= 12369.5.
Proof.
  intros H Q. unfold mp_snap. cbv zeta. pose proof (snap_near q ((y - 2000) * 12.3685)) as N. apply Rabs_le_inv in N.
  apply Rabs_le. revert N. decimals. intros [? ?]. lra.
Qed.
Lemma mp_date y q : 1001 <= y <= 2999 -> Rabs (mp_mean (mp_snap y q * mp_ck) - yearJDE y) <= 21.
Proof.
  intros H. unfold mp_snap. cbv zeta. pose proof (snap_near q ((y - 2000) * 12.3685)) as N.
  set (k := Floor _ + q) in *. apply Rabs_le_inv in N.
  assert (K : Rabs k <= 12368). { apply Rabs_le. revert N. decimals. intros [? ?]. lra. }
  pose proof (mp_mean_index k K) as M. apply Rabs_le_inv in M. apply Rabs_le. unfold yearJDE. revert N M. decimals. intros [? ?] [? ?]. lra.
Qed.

(** The index may be the wrong one: the phase formula starts 5.1 days after 2000.0. *)
Lemma MeanNew_not_nearest : let y := 2000 + 1600 / 36525 in
  MeanNew y = mp_mean (1 * mp_ck) /\ yearJDE y = 2451561 /\
  Rabs (mp_mean (0 * mp_ck) - 2451561) < 11 /\ 18 < Rabs (MeanNew y - 2451561).
Proof.
  intros y.
  assert (S : mp_snap y 0 = 1).
  { unfold mp_snap, Floor. cbv zeta. rewrite (Zfloor_imp 1); [lra|]. unfold y. decimals. change (1 + 1)%Z with 2%Z. lra. }
  assert (E : MeanNew y = mp_mean (1 * mp_ck)) by (unfold MeanNew; now rewrite S).
  pose proof (mp_mean_index 1 ltac:(rewrite Rabs_right; lra)) as M1. pose proof (mp_mean_index 0 ltac:(rewrite Rabs_right; lra)) as M0.
  apply Rabs_le_inv in M1, M0.
  split; [exact E|]. split. { unfold yearJDE, y. decimals. field. }
  rewrite E. revert M0 M1. set (a := mp_mean (0 * mp_ck)). set (b := mp_mean (1 * mp_ck)). clearbody a b. decimals. intros [? ?] [? ?].
  split; [apply Rabs_lt; lra|]. rewrite Rabs_right; lra.
Qed.

(** ** True phases against mean phases *)
Section Phase.
Variable y : R.
Hypothesis Hy : 1001 <= y <= 2999.
Lemma snap_T q : 0 <= q <= 1 -> Rabs (mp_snap y q * mp_ck) <= 10.
Proof.
  intros Q. apply mp_T. unfold mp_snap. cbv zeta. pose proof (snap_near q ((y - 2000) * 12.3685)) as N. apply Rabs_le_inv in N.
  apply Rabs_le. revert N. decimals. intros [? ?]. lra.
Qed.
Ltac phase q nb := 
  pose proof (snap_T q ltac:(decimals; lra)) as HT; set (T := mp_snap y q * mp_ck) in *; rewrite mp_E_eq;
  pose proof (E_bound T HT) as HE; pose proof (mp_a_bound (mp_snap y q) T) as A;
  pose proof (nb (E_ T) (mp_M T) (mp_M1 T) (mp_F T) (mp_Om T) HE) as C; pose proof (mp_w_bound (E_ T) (mp_M T) (mp_M1 T) (mp_F T) HE) as W.
Lemma New_mean : Rabs (mpNew y - MeanNew y) <= 0.638.
Proof.
  unfold mpNew, MeanNew. cbv zeta. phase 0 nfc_bound_new.
  match goal with |- Rabs (?m + ?c + ?a - ?m) <= _ => replace (m + c + a - m) with (c + a) by ring end. bound.
Qed.
Lemma Full_mean : Rabs (mpFull y - MeanFull y) <= 0.638.
Proof.
  unfold mpFull, MeanFull. cbv zeta. phase 0.5 nfc_bound_full.
  match goal with |- Rabs (?m + ?c + ?a - ?m) <= _ => replace (m + c + a - m) with (c + a) by ring end. bound.
Qed.
Lemma First_mean : Rabs (mpFirst y - MeanFirst y) <= 0.854.
Proof.
  unfold mpFirst, MeanFirst. cbv zeta. phase 0.25 flc_bound.
  match goal with |- Rabs (?m + ?c + ?w + ?a - ?m) <= _ => replace (m + c + w + a - m) with (c + w + a) by ring end. bound.
Qed.
Lemma Last_mean : Rabs (mpLast y - MeanLast y) <= 0.854.
Proof.
  unfold mpLast, MeanLast. cbv zeta. phase 0.75 flc_bound.
  match goal with |- Rabs (?m + ?c - ?w + ?a - ?m) <= _ => replace (m + c - w + a - m) with (c - w + a) by ring end. bound.
Qed.
End Phase.

(** The documented half day is exceeded. *)
Lemma New_half_day : let y := 2009.2 in 0.52 < mpNew y - MeanNew y.
Proof.
  intros y.
  assert (S : mp_snap y 0 = 114).
  { unfold mp_snap, Floor. cbv zeta. rewrite (Zfloor_imp 114); [lra|]. unfold y. decimals. change (114 + 1)%Z with 115%Z. lra. }
  unfold mpNew, MeanNew. cbv zeta. rewrite S. clear S y.
  assert (ET : 114 * mp_ck = 11400 / 123685) by (unfold mp_ck; decimals; field). rewrite ET.
  set (T := 11400 / 123685). assert (HT : Rabs T <= 10) by (unfold T; rewrite Rabs_right; lra).
  pose proof (mp_a_bound 114 T) as A. rewrite mp_E_eq. pose proof (E_bound T HT) as HE.
  assert (E1 : 0.999 <= E_ T). { unfold E_, T. decimals. lra. }
  assert (S1 : sin (mp_M1 T) <= - 0.99).
  { replace (mp_M1 T) with ((201.5643 + 385.81693528 * 114 + 0.0107582 * T * T + 0.00001238 * T * T * T - 0.000000058 * T * T * T * T) * p_)
      by (unfold mp_M1; rewrite Hor5; unfold T, mp_ck; decimals; field).
    eapply Rle_trans; [apply (sin_deg_lo _ 122)|]. unfold T. decimals. lra. }
  assert (S2 : 0.98 <= sin (mp_M T)).
  { replace (mp_M T) with ((2.5534 + 29.1053567 * 114 - 0.0000014 * T * T - 0.00000011 * T * T * T) * p_)
      by (unfold mp_M; rewrite Hor4; unfold T, mp_ck; decimals; field).
    eapply Rle_trans; [|apply (sin_deg_hi _ 9)]. unfold T. decimals. lra. }
  set (M1 := mp_M1 T) in *. set (M := mp_M T) in *. set (F := mp_F T). set (Om := mp_Om T). set (E := E_ T) in *.
  set (a := mp_a 114 T) in *. clearbody M1 M F Om E a.
  unfold nfc, mp_nc. cbn [nth].
  match goal with |- _ < ?m + (?x + ?z + ?s2 + ?s3 + ?s4 + ?s5 + ?s6 + ?s7 + ?s8 + ?s9 + ?s10 + ?s11 + ?s12 + ?s13 + ?s14 + ?s15 + ?s16 + ?s17 + ?s18 + ?s19 + ?s20 + ?s21 + ?s22 + ?s23 + ?s24) + ?a - ?m =>
    set (r := s2 + s3 + s4 + s5 + s6 + s7 + s8 + s9 + s10 + s11 + s12 + s13 + s14 + s15 + s16 + s17 + s18 + s19 + s20 + s21 + s22 + s23 + s24);
    assert (HR : Rabs r <= 0.049) by (unfold r; bound);
    replace (m + (x + z + s2 + s3 + s4 + s5 + s6 + s7 + s8 + s9 + s10 + s11 + s12 + s13 + s14 + s15 + s16 + s17 + s18 + s19 + s20 + s21 + s22 + s23 + s24) + a - m) with (x + z + r + a) by (unfold r; ring) end.
  clearbody r. apply Rabs_le_inv in HR. apply Rabs_le_inv in A. apply Rabs_le_inv in HE.
  assert (X : 0.97902 <= sin M * E) by (revert E1 S2; decimals; intros; nra).
  revert S1 X HR A. rewrite (Rmult_assoc _ (sin M) E).
  generalize (sin M1) (sin M * E). intros u v. decimals. intros ? ? [? ?] [? ?]. lra.
Qed.
Lemma First_half_day : let y := 2002.2 in 0.7 < mpFirst y - MeanFirst y.
Proof.
  intros y.
  assert (S : mp_snap y 0.25 = 27.25).
  { unfold mp_snap, Floor. cbv zeta. rewrite (Zfloor_imp 27); [decimals; lra|]. unfold y. decimals. change (27 + 1)%Z with 28%Z. lra. }
  unfold mpFirst, MeanFirst. cbv zeta. rewrite S. clear S y.
  assert (ET : 27.25 * mp_ck = 2725 / 123685) by (unfold mp_ck; decimals; field). rewrite ET.
  set (T := 2725 / 123685). assert (HT : Rabs T <= 10) by (unfold T; rewrite Rabs_right; lra).
  pose proof (mp_a_bound 27.25 T) as A. rewrite mp_E_eq. pose proof (E_bound T HT) as HE.
  pose proof (mp_w_bound (E_ T) (mp_M T) (mp_M1 T) (mp_F T) HE) as W.
  assert (E1 : 0.999 <= E_ T). { unfold E_, T. decimals. lra. }
  assert (S1 : sin (mp_M1 T) <= - 0.99).
  { replace (mp_M1 T) with ((201.5643 + 385.81693528 * 27.25 + 0.0107582 * T * T + 0.00001238 * T * T * T - 0.000000058 * T * T * T * T) * p_)
      by (unfold mp_M1; rewrite Hor5; unfold T, mp_ck; decimals; field).
    eapply Rle_trans; [apply (sin_deg_lo _ 29)|]. unfold T. decimals. lra. }
  assert (S2 : 0.96 <= sin (mp_M T)).
  { replace (mp_M T) with ((2.5534 + 29.1053567 * 27.25 - 0.0000014 * T * T - 0.00000011 * T * T * T) * p_)
      by (unfold mp_M; rewrite Hor4; unfold T, mp_ck; decimals; field).
    eapply Rle_trans; [|apply (sin_deg_hi _ 2)]. unfold T. decimals. lra. }
  set (w := mp_w _ _ _ _) in *.
  set (M1 := mp_M1 T) in *. set (M := mp_M T) in *. set (F := mp_F T). set (Om := mp_Om T). set (E := E_ T) in *.
  set (a := mp_a 27.25 T) in *. clearbody w M1 M F Om E a.
  unfold flc.
  match goal with |- _ < ?m + (?x + ?z + ?s2 + ?s3 + ?s4 + ?s5 + ?s6 + ?s7 + ?s8 + ?s9 + ?s10 + ?s11 + ?s12 + ?s13 + ?s14 + ?s15 + ?s16 + ?s17 + ?s18 + ?s19 + ?s20 + ?s21 + ?s22 + ?s23 + ?s24) + ?w + ?a - ?m =>
    set (r := s2 + s3 + s4 + s5 + s6 + s7 + s8 + s9 + s10 + s11 + s12 + s13 + s14 + s15 + s16 + s17 + s18 + s19 + s20 + s21 + s22 + s23 + s24);
    assert (HR : Rabs r <= 0.049) by (unfold r; bound);
    replace (m + (x + z + s2 + s3 + s4 + s5 + s6 + s7 + s8 + s9 + s10 + s11 + s12 + s13 + s14 + s15 + s16 + s17 + s18 + s19 + s20 + s21 + s22 + s23 + s24) + w + a - m) with (x + z + r + w + a) by (unfold r; ring) end.
  clearbody r. apply Rabs_le_inv in HR. apply Rabs_le_inv in A. apply Rabs_le_inv in HE. apply Rabs_le_inv in W.
  assert (X : 0.95904 <= sin M * E) by (revert E1 S2; decimals; intros; nra).
  revert S1 X HR A W. rewrite (Rmult_assoc _ (sin M) E).
  generalize (sin M1) (sin M * E). intros u v. decimals. intros ? ? [? ?] [? ?] [? ?]. lra.
Qed.

(** ** Phases follow each other *)
Lemma Floor_half (n : Z) : Floor (IZR n + 0.5) = IZR n.
Proof. unfold Floor. f_equal. apply Zfloor_imp. rewrite plus_IZR. decimals. lra. Qed.
Lemma mp_snap_year (n : Z) q : mp_snap (lunation_year (IZR n + q)) q = IZR n + q.
Proof.
  unfold mp_snap, lunation_year. cbv zeta.
  replace ((2000 + (IZR n + q) / 12.3685 - 2000) * 12.3685 - q + 0.5) with (IZR n + 0.5) by (decimals; field). now rewrite Floor_half.
Qed.
Lemma lunation_range k : Rabs k <= 12355 -> 1001 <= lunation_year k <= 2999.
Proof. intros H. apply Rabs_le_inv in H. unfold lunation_year. replace (k / 12.3685) with (k * (10000 / 123685)) by (decimals; field). lra. Qed.
Lemma phases_follow (n : Z) : (Z.abs n <= 12350)%Z ->
  let d q := lunation_year (IZR n + q) in
  5.8 < mpFirst (d 0.25) - mpNew (d 0) < 8.91 /\ 5.8 < mpFull (d 0.5) - mpFirst (d 0.25) < 8.91 /\
  5.8 < mpLast (d 0.75) - mpFull (d 0.5) < 8.91 /\ 5.8 < mpNew (lunation_year (IZR (n + 1))) - mpLast (d 0.75) < 8.91.
Proof.
  intros H d. assert (H1 : (-12350 <= n)%Z) by lia. assert (H2 : (n <= 12350)%Z) by lia. apply IZR_le in H1, H2.
  assert (HK : forall q, 0 <= q <= 1 -> Rabs (IZR n + q) <= 12355) by (intros q Q; apply Rabs_le; lra).
  assert (HK' : forall q, 0 <= q <= 1 -> Rabs (IZR n + q) <= 12368) by (intros q Q; apply Rabs_le; lra).
  assert (Q0 : 0 <= 0 <= 1) by lra. assert (Q1 : 0 <= 0.25 <= 1) by (decimals; lra). assert (Q2 : 0 <= 0.5 <= 1) by (decimals; lra).
  assert (Q3 : 0 <= 0.75 <= 1) by (decimals; lra). assert (Q4 : 0 <= 1 <= 1) by lra.
  pose proof (New_mean (d 0) (lunation_range _ (HK 0 Q0))) as N0. pose proof (First_mean (d 0.25) (lunation_range _ (HK 0.25 Q1))) as N1.
  pose proof (Full_mean (d 0.5) (lunation_range _ (HK 0.5 Q2))) as N2. pose proof (Last_mean (d 0.75) (lunation_range _ (HK 0.75 Q3))) as N3.
  rewrite plus_IZR. pose proof (New_mean _ (lunation_range _ (HK 1 Q4))) as N4.
  unfold MeanNew in N0, N4. unfold MeanFirst in N1. unfold MeanFull in N2. unfold MeanLast in N3.
  replace (IZR n + 1) with (IZR (n + 1) + 0) in N4 by (rewrite plus_IZR; ring). rewrite (mp_snap_year (n + 1) 0) in N4.
  replace (IZR (n + 1) + 0) with (IZR n + 1) in N4 by (rewrite plus_IZR; ring).
  unfold d in *. rewrite mp_snap_year in N0, N1, N2, N3.
  pose proof (mp_mean_index _ (HK' 0 Q0)) as M0. pose proof (mp_mean_index _ (HK' 0.25 Q1)) as M1.
  pose proof (mp_mean_index _ (HK' 0.5 Q2)) as M2. pose proof (mp_mean_index _ (HK' 0.75 Q3)) as M3. pose proof (mp_mean_index _ (HK' 1 Q4)) as M4.
  apply Rabs_le_inv in N0, N1, N2, N3, N4, M0, M1, M2, M3, M4.
  revert N0 N1 N2 N3 N4 M0 M1 M2 M3 M4.
  generalize (mpNew (lunation_year (IZR n + 0))) (mpFirst (lunation_year (IZR n + 0.25))) (mpFull (lunation_year (IZR n + 0.5)))
    (mpLast (lunation_year (IZR n + 0.75))) (mpNew (lunation_year (IZR n + 1)))
    (mp_mean ((IZR n + 0) * mp_ck)) (mp_mean ((IZR n + 0.25) * mp_ck)) (mp_mean ((IZR n + 0.5) * mp_ck)) (mp_mean ((IZR n + 0.75) * mp_ck)) (mp_mean ((IZR n + 1) * mp_ck)).
  decimals. intros. lra.
Qed.
