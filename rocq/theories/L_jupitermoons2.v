(** Lemmas for package jupitermoons: theory E5. *)
From Coq Require Import ZArith Reals List Lra Lia Psatz Nsatz.
From Flocq Require Import Core.
From Verif Require Import GoFloat GoMath S_Sphere S_precess S_physical S_solar S_moon S_saturnmoons S_jupitermoons M_base M_coord M_precess M_vsop M_solar M_physical M_planetelements M_jupitermoons
  L_trig L_angle L_vec L_coord L_precess L_elements L_light L_solar L_refraction L_physical L_physical2 L_physical3 L_moon L_moon3 L_planetelements L_pluto L_saturnmoons L_jupitermoons.
From Verif Require Import S_moon S_solar.
Import ListNotations.
Local Open Scope R_scope.

(** ** Sums *)
Definition wabs (l : list (Z * R)) : Z := fold_right (fun ca s => (Z.abs (fst ca) + s)%Z) 0%Z l.
Lemma e5_fold k f l s : fold_left (fun s (ca : Z * R) => let '(c, a) := ca in s + IZR c / k * f a) l s = s + e5_sum k f l.
Proof.
  unfold e5_sum. revert s. induction l as [|[c a] l IH]; intros s; cbn [fold_left]; [ring|]. rewrite IH, (IH (0 + _)). ring.
Qed.
Lemma e5_cons k f c a l : e5_sum k f ((c, a) :: l) = IZR c / k * f a + e5_sum k f l.
Proof. unfold e5_sum at 1. cbn [fold_left]. rewrite e5_fold. ring. Qed.
Lemma e5_bound k f l : 0 < k -> (forall x, -1 <= f x <= 1) -> Rabs (e5_sum k f l) <= IZR (wabs l) / k.
Proof.
  intros Hk Hf. induction l as [|[c a] l IH]; [unfold e5_sum; cbn; rewrite Rabs_R0; unfold Rdiv; lra|]. rewrite e5_cons. cbn [wabs fold_right fst]. fold (wabs l). rewrite plus_IZR, abs_IZR. eapply Rle_trans; [apply Rabs_triang|].
  unfold Rdiv in *. rewrite Rmult_plus_distr_r. apply Rplus_le_compat; [|exact IH]. rewrite !Rabs_mult. assert (0 < / k) by (apply Rinv_0_lt_compat; exact Hk). rewrite (Rabs_pos_eq (/ k)) by lra. assert (Rabs (f a) <= 1) by (apply Rabs_le, Hf). pose proof (Rabs_pos (f a)). pose proof (Rabs_pos (IZR c)).
  assert (0 <= Rabs (IZR c) * / k) by (apply Rmult_le_pos; lra). nra.
Qed.

Ltac wsum := lazy; discriminate.
(** ** Bounds of the four places *)
Lemma moon_bound q l S0 B0 a R0 ws wb wr : 0 < a -> (wabs S0 <= ws)%Z -> (forall L S, wabs (B0 q L S) <= wb)%Z -> (wabs R0 <= wr)%Z ->
  let '(L, B, r) := e5_moon q l S0 B0 a R0 in Rabs (L - l) <= degrees (IZR ws / 100000) /\ - (PI / 2) < B < PI / 2 /\ Rabs (tan B) <= IZR wb / 10000000 /\ a * (1 - IZR wr / 10000000) <= r <= a * (1 + IZR wr / 10000000).
Proof.
  intros Ha HS HB HR. unfold e5_moon. cbv zeta. set (Sg := e5_sum 100000 sin S0 * (PI / 180)). pose proof PI_fine as P.
  pose proof (e5_bound 100000 sin S0 ltac:(lra) SIN_bound) as A. pose proof (e5_bound 10000000 sin (B0 q (l + Sg) Sg) ltac:(lra) SIN_bound) as B. pose proof (e5_bound 10000000 cos R0 ltac:(lra) COS_bound) as C.
  apply IZR_le in HS. specialize (HB (l + Sg) Sg). apply IZR_le in HB. apply IZR_le in HR. split; [|split; [|split]].
  - replace (l + Sg - l) with Sg by ring. unfold Sg, degrees. rewrite Rabs_mult, (Rabs_pos_eq (PI / 180)) by lra. unfold Rdiv. apply Rle_trans with (IZR ws * / 100000 * (PI * / 180)); [|right; field]. apply Rmult_le_compat_r; [lra|]. unfold Rdiv in A. lra.
  - pose proof (atan_bound (e5_sum 10000000 sin (B0 q (l + Sg) Sg))). lra.
  - rewrite tan_atan. unfold Rdiv in *. lra.
  - apply Rabs_le_inv in C. split; apply Rmult_le_compat_l; unfold Rdiv in *; lra.
Qed.
Lemma e5_ranges q : exists L1 B1 r1 L2 B2 r2 L3 B3 r3 L4 B4 r4, e5_moons q = [(L1, B1, r1); (L2, B2, r2); (L3, B3, r3); (L4, B4, r4)] /\
  (Rabs (L1 - e_l1 q) <= degrees 0.57214 /\ Rabs (L2 - e_l2 q) <= degrees 1.30761 /\ Rabs (L3 - e_l3 q) <= degrees 0.44997 /\ Rabs (L4 - e_l4 q) <= degrees 1.01417) /\
  (- (PI / 2) < B1 < PI / 2 /\ - (PI / 2) < B2 < PI / 2 /\ - (PI / 2) < B3 < PI / 2 /\ - (PI / 2) < B4 < PI / 2) /\
  (Rabs (tan B1) <= 0.0009072 /\ Rabs (tan B2) <= 0.0090582 /\ Rabs (tan B3) <= 0.0059507 /\ Rabs (tan B4) <= 0.012693) /\
  (5.88 <= r1 /\ r1 <= 5.931 /\ 9.3 <= r2 /\ r2 <= 9.493 /\ 14.94 <= r3 /\ r3 <= 15.036 /\ 26.156 <= r4 /\ r4 <= 26.57).
Proof.
  unfold e5_moons.
  pose proof (moon_bound q (e_l1 q) (e5_S1 q) e5_B1 5.90569 (e5_R1 q) 57214 9072 42413 ltac:(decimals; lra) ltac:(unfold e5_S1; wsum) ltac:(intros; unfold e5_B1; wsum) ltac:(unfold e5_R1; wsum)) as H1.
  pose proof (moon_bound q (e_l2 q) (e5_S2 q) e5_B2 9.39657 (e5_R2 q) 130761 90582 101980 ltac:(decimals; lra) ltac:(unfold e5_S2; wsum) ltac:(intros; unfold e5_B2; wsum) ltac:(unfold e5_R2; wsum)) as H2.
  pose proof (moon_bound q (e_l3 q) (e5_S3 q) e5_B3 14.98832 (e5_R3 q) 44997 59507 31288 ltac:(decimals; lra) ltac:(unfold e5_S3; wsum) ltac:(intros; unfold e5_B3; wsum) ltac:(unfold e5_R3; wsum)) as H3.
  pose proof (moon_bound q (e_l4 q) (e5_S4 q) e5_B4 26.36273 (e5_R4 q) 101417 126930 78341 ltac:(decimals; lra) ltac:(unfold e5_S4; wsum) ltac:(intros; unfold e5_B4; wsum) ltac:(unfold e5_R4; wsum)) as H4.
  destruct (e5_moon q (e_l1 q) _ _ _ _) as [[L1 B1] r1]. destruct (e5_moon q (e_l2 q) _ _ _ _) as [[L2 B2] r2]. destruct (e5_moon q (e_l3 q) _ _ _ _) as [[L3 B3] r3]. destruct (e5_moon q (e_l4 q) _ _ _ _) as [[L4 B4] r4].
  destruct H1 as (A1 & A2 & A3 & A4). destruct H2 as (C1 & C2 & C3 & C4). destruct H3 as (D1 & D2 & D3 & D4). destruct H4 as (E1 & E2 & E3 & E4).
  do 12 eexists. split; [reflexivity|]. decimals_in A4. decimals_in C4. decimals_in D4. decimals_in E4. decimals. split; [repeat split; eassumption|]. split; [tauto|]. split; [repeat split; lra|]. repeat split; lra.
Qed.
(** ** The Laplace relation *)
Lemma e5_laplace t : Rabs t <= 1000000 -> let q := e5_args t in near_turns (e_l1 q - 3 * e_l2 q + 2 * e_l3 q - PI) (degrees 0.0011).
Proof.
  intros H. cbv zeta. unfold e5_args. cbv zeta. cbn [e_l1 e_l2 e_l3]. apply Rabs_le_inv in H. pose proof PI_fine. exists (-1)%Z.
  match goal with |- Rabs ?x <= _ => replace x with ((0.00002 - 0.000000001 * t) * (PI / 180)) by (decimals; field) end. unfold degrees. decimals. apply Rabs_le. split; nra.
Qed.
Lemma e5_laplace_true t : Rabs t <= 1000000 -> exists L1 B1 r1 L2 B2 r2 L3 B3 r3 L4 B4 r4, e5_moons (e5_args t) = [(L1, B1, r1); (L2, B2, r2); (L3, B3, r3); (L4, B4, r4)] /\
  near_turns (L1 - 3 * L2 + 2 * L3 - PI) (degrees 5.4).
Proof.
  intros H. pose proof (e5_laplace t H) as L. cbv zeta in L. set (q := e5_args t) in *. destruct (e5_ranges q) as (L1 & B1 & r1 & L2 & B2 & r2 & L3 & B3 & r3 & L4 & B4 & r4 & E & (A & B & C & _) & _). do 12 eexists. split; [exact E|].
  replace (L1 - 3 * L2 + 2 * L3 - PI) with (e_l1 q - 3 * e_l2 q + 2 * e_l3 q - PI + ((L1 - e_l1 q) - 3 * (L2 - e_l2 q) + 2 * (L3 - e_l3 q))) by ring. replace (degrees 5.4) with (degrees 0.0011 + degrees 5.3989) by (unfold degrees; decimals; field). apply near_add; [exact L|].
  unfold degrees in *. decimals_in A. decimals_in B. decimals_in C. decimals. apply Rabs_le_inv in A. apply Rabs_le_inv in B. apply Rabs_le_inv in C. pose proof PI_fine. apply Rabs_le. lra.
Qed.
(** ** Independence of the origin of longitudes *)
Definition e5_shift (x : R) (q : e5) : e5 :=
  mke5 (e_l1 q + x) (e_l2 q + x) (e_l3 q + x) (e_l4 q + x) (e_p1 q + x) (e_p2 q + x) (e_p3 q + x) (e_p4 q + x) (e_w1 q + x) (e_w2 q + x) (e_w3 q + x) (e_w4 q + x) (e_Phi q) (e_psi q + x) (e_G q) (e_Gp q) (e_Pi q + x).
Ltac same_args := cbn [e5_shift e_l1 e_l2 e_l3 e_l4 e_p1 e_p2 e_p3 e_p4 e_w1 e_w2 e_w3 e_w4 e_Phi e_psi e_G e_Gp e_Pi]; repeat (apply f_equal2; [apply f_equal2; [reflexivity|ring]|]); reflexivity.
Lemma moon_shift q q' l S0 B0 a R0 S1 R1 x : S1 = S0 -> R1 = R0 -> (forall L S, B0 q' (L + x) S = B0 q L S) -> let '(L, B, r) := e5_moon q l S0 B0 a R0 in e5_moon q' (l + x) S1 B0 a R1 = (L + x, B, r).
Proof.
  intros -> -> HB. unfold e5_moon. cbv zeta. set (Sg := e5_sum 100000 sin S0 * (PI / 180)). replace (l + x + Sg) with (l + Sg + x) by ring. rewrite HB. reflexivity.
Qed.
Lemma e5_moons_shift q x : e5_moons (e5_shift x q) = map (fun m => let '(L, B, r) := m in (L + x, B, r)) (e5_moons q).
Proof.
  unfold e5_moons. cbn [map].
  assert (H1 := moon_shift q (e5_shift x q) (e_l1 q) (e5_S1 q) e5_B1 5.90569 (e5_R1 q) (e5_S1 (e5_shift x q)) (e5_R1 (e5_shift x q)) x ltac:(unfold e5_S1; same_args) ltac:(unfold e5_R1; same_args) ltac:(intros; unfold e5_B1; same_args)).
  assert (H2 := moon_shift q (e5_shift x q) (e_l2 q) (e5_S2 q) e5_B2 9.39657 (e5_R2 q) (e5_S2 (e5_shift x q)) (e5_R2 (e5_shift x q)) x ltac:(unfold e5_S2; same_args) ltac:(unfold e5_R2; same_args) ltac:(intros; unfold e5_B2; same_args)).
  assert (H3 := moon_shift q (e5_shift x q) (e_l3 q) (e5_S3 q) e5_B3 14.98832 (e5_R3 q) (e5_S3 (e5_shift x q)) (e5_R3 (e5_shift x q)) x ltac:(unfold e5_S3; same_args) ltac:(unfold e5_R3; same_args) ltac:(intros; unfold e5_B3; same_args)).
  assert (H4 := moon_shift q (e5_shift x q) (e_l4 q) (e5_S4 q) e5_B4 26.36273 (e5_R4 q) (e5_S4 (e5_shift x q)) (e5_R4 (e5_shift x q)) x ltac:(unfold e5_S4; same_args) ltac:(unfold e5_R4; same_args) ltac:(intros; unfold e5_B4; same_args)).
  destruct (e5_moon q (e_l1 q) _ _ _ _) as [[L1 B1] r1]. destruct (e5_moon q (e_l2 q) _ _ _ _) as [[L2 B2] r2]. destruct (e5_moon q (e_l3 q) _ _ _ _) as [[L3 B3] r3]. destruct (e5_moon q (e_l4 q) _ _ _ _) as [[L4 B4] r4].
  rewrite <- H1, <- H2, <- H3, <- H4. reflexivity.
Qed.
