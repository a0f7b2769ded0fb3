(** Taylor models: polynomials with integer coefficients (in units of 2^-70) and an error, enclosing a function of x in [-1, 1]. *)
From Coq Require Import ZArith Reals List Lra Lia Psatz Bool.
From Verif Require Import GoFloat GoMath S_Sphere L_trig L_vec L_coord L_kepler L_precess L_apparent L_apparent2 L_apparent3.
Import ListNotations.
Local Open Scope R_scope.

Definition SC : Z := (2 ^ 70)%Z.
Lemma SC_pos : 0 < IZR SC. Proof. apply IZR_lt. reflexivity. Qed.
Fixpoint zeval (p : list Z) (x : R) : R := match p with [] => 0 | c :: q => IZR c + x * zeval q x end.
Fixpoint znorm (p : list Z) : Z := match p with [] => 0%Z | c :: q => (Z.abs c + znorm q)%Z end.
Lemma znorm_pos p : (0 <= znorm p)%Z.
Proof. induction p as [|c q IH]; cbn; lia. Qed.
Lemma zeval_bound p x : Rabs x <= 1 -> Rabs (zeval p x) <= IZR (znorm p).
Proof.
  intros H. induction p as [|c q IH]; cbn [zeval znorm]. { rewrite Rabs_R0. lra. }
  rewrite plus_IZR, abs_IZR. eapply Rle_trans; [apply Rabs_triang|]. rewrite Rabs_mult. pose proof (Rabs_pos x). pose proof (Rabs_pos (zeval q x)). nra.
Qed.
Fixpoint padd (p q : list Z) : list Z := match p, q with [], _ => q | _, [] => p | a :: p', b :: q' => (a + b)%Z :: padd p' q' end.
Lemma padd_eval p q x : zeval (padd p q) x = zeval p x + zeval q x.
Proof.
  revert q. induction p as [|a p IH]; intros [|b q]; cbn [padd zeval]; try ring. rewrite IH, plus_IZR. ring.
Qed.
Definition pscale (k : Z) (p : list Z) : list Z := map (Z.mul k) p.
Lemma pscale_eval k p x : zeval (pscale k p) x = IZR k * zeval p x.
Proof. unfold pscale. induction p as [|a p IH]; cbn [map zeval]; [ring|]. rewrite IH, mult_IZR. ring. Qed.
Fixpoint pmul (p q : list Z) : list Z := match p with [] => [] | a :: p' => padd (pscale a q) (0%Z :: pmul p' q) end.
Lemma pmul_eval p q x : zeval (pmul p q) x = zeval p x * zeval q x.
Proof. induction p as [|a p IH]; cbn [pmul zeval]; [ring|]. rewrite padd_eval, pscale_eval. cbn [zeval]. rewrite IH. ring. Qed.
Definition pdiv (k : Z) (p : list Z) : list Z := map (fun c => (c / k)%Z) p.
Lemma zdiv_R c k : (0 < k)%Z -> Rabs (IZR c - IZR k * IZR (c / k)) <= IZR k.
Proof.
  intros K. pose proof (Z.div_mod c k ltac:(lia)) as E. pose proof (Z.mod_pos_bound c k K) as B. assert (IZR c = IZR k * IZR (c / k) + IZR (c mod k)) as -> by (rewrite <- mult_IZR, <- plus_IZR, <- E; reflexivity).
  destruct B as [B1 B2]. apply IZR_le in B1. apply IZR_lt in B2. apply Rabs_le. lra.
Qed.
Lemma pdiv_eval k p x : (0 < k)%Z -> Rabs x <= 1 -> Rabs (zeval p x - IZR k * zeval (pdiv k p) x) <= IZR k * IZR (Z.of_nat (length p)).
Proof.
  intros K H. unfold pdiv. induction p as [|c p IH]; cbn [map zeval length]. { rewrite Rmult_0_r, Rminus_0_r, Rabs_R0, Rmult_0_r. lra. }
  rewrite Nat2Z.inj_succ, succ_IZR. pose proof (zdiv_R c k K) as D.
  replace (IZR c + x * zeval p x - IZR k * (IZR (c / k) + x * zeval (map (fun c0 => (c0 / k)%Z) p) x)) with ((IZR c - IZR k * IZR (c / k)) + x * (zeval p x - IZR k * zeval (map (fun c0 => (c0 / k)%Z) p) x)) by ring.
  eapply Rle_trans; [apply Rabs_triang|]. rewrite Rabs_mult. set (d := zeval p x - _) in *. pose proof (Rabs_pos d). pose proof (Rabs_pos x). nra.
Qed.
Lemma ptrunc_eval n p x : Rabs x <= 1 -> Rabs (zeval p x - zeval (firstn n p) x) <= IZR (znorm (skipn n p)).
Proof.
  intros H. revert p. induction n as [|n IH]; intros p; cbn [firstn skipn].
  - cbn [zeval]. rewrite Rminus_0_r. apply zeval_bound, H.
  - destruct p as [|c p]; cbn [zeval]. { rewrite Rminus_0_r, Rabs_R0. cbn. lra. }
    replace (IZR c + x * zeval p x - (IZR c + x * zeval (firstn n p) x)) with (x * (zeval p x - zeval (firstn n p) x)) by ring. rewrite Rabs_mult. specialize (IH p). pose proof (Rabs_pos (zeval p x - zeval (firstn n p) x)). pose proof (Rabs_pos x). nra.
Qed.

(** ** Models *)
Definition tm := (list Z * Z)%type.
Definition tm_ok (f : R -> R) (m : tm) : Prop := forall x, Rabs x <= 1 -> Rabs (f x * IZR SC - zeval (fst m) x) <= IZR (snd m).
Lemma tm_err f m : tm_ok f m -> 0 <= IZR (snd m).
Proof. intros H. specialize (H 0 ltac:(rewrite Rabs_R0; lra)). pose proof (Rabs_pos (f 0 * IZR SC - zeval (fst m) 0)). lra. Qed.
Lemma tm_ext f g m : (forall x, Rabs x <= 1 -> f x = g x) -> tm_ok f m -> tm_ok g m.
Proof. intros E H x Hx. rewrite <- E by exact Hx. apply H, Hx. Qed.
Definition tm_abs (m : tm) : Z := (znorm (fst m) + snd m)%Z.
Lemma tm_abs_ok f m : tm_ok f m -> forall x, Rabs x <= 1 -> Rabs (f x) * IZR SC <= IZR (tm_abs m).
Proof.
  intros H x Hx. specialize (H x Hx). pose proof (zeval_bound (fst m) x Hx) as Z. unfold tm_abs. rewrite plus_IZR. rewrite <- (Rabs_pos_eq (IZR SC)) by (pose proof SC_pos; lra). rewrite <- Rabs_mult.
  replace (f x * IZR SC) with ((f x * IZR SC - zeval (fst m) x) + zeval (fst m) x) by ring. eapply Rle_trans; [apply Rabs_triang|]. lra.
Qed.
Definition tm_add (a b : tm) : tm := (padd (fst a) (fst b), (snd a + snd b)%Z).
Lemma tm_add_ok f g a b : tm_ok f a -> tm_ok g b -> tm_ok (fun x => f x + g x) (tm_add a b).
Proof.
  intros A B x Hx. specialize (A x Hx). specialize (B x Hx). unfold tm_add. cbn [fst snd]. rewrite padd_eval, plus_IZR.
  replace ((f x + g x) * IZR SC - (zeval (fst a) x + zeval (fst b) x)) with ((f x * IZR SC - zeval (fst a) x) + (g x * IZR SC - zeval (fst b) x)) by ring. eapply Rle_trans; [apply Rabs_triang|]. lra.
Qed.
Definition tm_opp (a : tm) : tm := (pscale (-1) (fst a), snd a).
Lemma tm_opp_ok f a : tm_ok f a -> tm_ok (fun x => - f x) (tm_opp a).
Proof. intros A x Hx. specialize (A x Hx). unfold tm_opp. cbn [fst snd]. rewrite pscale_eval. replace (- f x * IZR SC - -1 * zeval (fst a) x) with (- (f x * IZR SC - zeval (fst a) x)) by ring. rewrite Rabs_Ropp. exact A. Qed.
Definition tm_sub (a b : tm) : tm := tm_add a (tm_opp b).
Lemma tm_sub_ok f g a b : tm_ok f a -> tm_ok g b -> tm_ok (fun x => f x - g x) (tm_sub a b).
Proof. intros A B. exact (tm_add_ok _ _ _ _ A (tm_opp_ok _ _ B)). Qed.
Definition DEG : nat := 20.
Definition tm_mul (a b : tm) : tm :=
  let p := pmul (fst a) (fst b) in let q := firstn DEG p in
  (pdiv SC q, ((znorm (skipn DEG p) + snd a * (znorm (fst b) + snd b) + znorm (fst a) * snd b) / SC + 1 + Z.of_nat (length q))%Z).
Lemma tm_mul_ok f g a b : tm_ok f a -> tm_ok g b -> tm_ok (fun x => f x * g x) (tm_mul a b).
Proof.
  intros A B x Hx. pose proof (tm_err _ _ A) as EA. pose proof (tm_err _ _ B) as EB. specialize (A x Hx). specialize (B x Hx). unfold tm_mul. cbn [fst snd]. pose proof SC_pos as S.
  set (p := pmul (fst a) (fst b)). pose proof (ptrunc_eval DEG p x Hx) as T. pose proof (pdiv_eval SC (firstn DEG p) x ltac:(reflexivity) Hx) as D. set (q := firstn DEG p) in *.
  pose proof (zeval_bound (fst a) x Hx) as NA. pose proof (zeval_bound (fst b) x Hx) as NB. unfold p in T at 1. rewrite pmul_eval in T.
  set (e := (znorm (skipn DEG p) + snd a * (znorm (fst b) + snd b) + znorm (fst a) * snd b)%Z) in *.
  assert (E : IZR e <= IZR SC * (IZR (e / SC) + 1)). { pose proof (zdiv_R e SC ltac:(reflexivity)) as Z. pose proof (Rle_abs (IZR e - IZR SC * IZR (e / SC))). lra. }
  assert (EE : IZR e = IZR (znorm (skipn DEG p)) + IZR (snd a) * (IZR (znorm (fst b)) + IZR (snd b)) + IZR (znorm (fst a)) * IZR (snd b)) by (unfold e; rewrite !plus_IZR, !mult_IZR, plus_IZR; reflexivity).
  rewrite !plus_IZR. set (P := zeval (fst a) x) in *. set (Q := zeval (fst b) x) in *. set (F := f x * IZR SC) in *. set (G := g x * IZR SC) in *. set (y := zeval q x) in *. set (z := zeval (pdiv SC q) x) in *.
  assert (M : Rabs (F * G - P * Q) <= IZR (snd a) * (IZR (znorm (fst b)) + IZR (snd b)) + IZR (znorm (fst a)) * IZR (snd b)).
  { replace (F * G - P * Q) with ((F - P) * (Q + (G - Q)) + P * (G - Q)) by ring. eapply Rle_trans; [apply Rabs_triang|]. apply Rplus_le_compat; rewrite Rabs_mult; (apply Rmult_le_compat; try apply Rabs_pos; try assumption).
    eapply Rle_trans; [apply Rabs_triang|]. lra. }
  apply Rmult_le_reg_l with (IZR SC); [exact S|]. rewrite <- (Rabs_pos_eq (IZR SC)) at 1 by lra. rewrite <- Rabs_mult.
  replace (IZR SC * (f x * g x * IZR SC - z)) with ((F * G - P * Q) + (P * Q - y) + (y - IZR SC * z)) by (unfold F, G; ring).
  eapply Rle_trans; [apply Rabs_triang|]. eapply Rle_trans; [apply Rplus_le_compat_r, Rabs_triang|]. lra.
Qed.
Definition tm_divz (k : Z) (a : tm) : tm := (pdiv k (fst a), (snd a / k + 1 + Z.of_nat (length (fst a)))%Z).
Lemma tm_divz_ok k f a : (0 < k)%Z -> tm_ok f a -> tm_ok (fun x => f x / IZR k) (tm_divz k a).
Proof.
  intros K A x Hx. specialize (A x Hx). unfold tm_divz. cbn [fst snd]. pose proof (pdiv_eval k (fst a) x K Hx) as D. assert (K' := K). apply IZR_lt in K'. pose proof (zdiv_R (snd a) k K) as Z. pose proof (Rle_abs (IZR (snd a) - IZR k * IZR (snd a / k))).
  rewrite !plus_IZR. apply Rmult_le_reg_l with (IZR k); [exact K'|]. rewrite <- (Rabs_pos_eq (IZR k)) at 1 by lra. rewrite <- Rabs_mult.
  replace (IZR k * (f x / IZR k * IZR SC - zeval (pdiv k (fst a)) x)) with ((f x * IZR SC - zeval (fst a) x) + (zeval (fst a) x - IZR k * zeval (pdiv k (fst a)) x)) by (field; lra).
  eapply Rle_trans; [apply Rabs_triang|]. lra.
Qed.
Definition tm_const (z e : Z) : tm := ([z], e).
Lemma tm_const_ok c z e : Rabs (c * IZR SC - IZR z) <= IZR e -> tm_ok (fun _ => c) (tm_const z e).
Proof. intros H x Hx. unfold tm_const. cbn [fst snd zeval]. rewrite Rmult_0_r, Rplus_0_r. exact H. Qed.
Definition tm_one : tm := tm_const SC 0.
Lemma tm_one_ok : tm_ok (fun _ => 1) tm_one.
Proof. apply tm_const_ok. rewrite Rmult_1_l, Rminus_eq_0, Rabs_R0. lra. Qed.
Definition tm_zero : tm := ([], 0%Z).
Lemma tm_zero_ok : tm_ok (fun _ => 0) tm_zero.
Proof. intros x _. cbn. rewrite Rmult_0_l, Rminus_eq_0, Rabs_R0. lra. Qed.

(** ** Sine and cosine of small angles *)
Lemma facts : INR (fact 0) = 1 /\ INR (fact 1) = 1 /\ INR (fact 2) = 2 /\ INR (fact 3) = 6 /\ INR (fact 4) = 24 /\ INR (fact 5) = 120 /\ INR (fact 6) = 720 /\ INR (fact 7) = 5040 /\
  INR (fact 8) = 40320 /\ INR (fact 9) = 362880 /\ INR (fact 10) = 3628800.
Proof. rewrite (fact_simpl 9), (fact_simpl 8), (fact_simpl 7), (fact_simpl 6), (fact_simpl 5), !mult_INR. cbn [fact INR Nat.mul Nat.add]. repeat split; lra. Qed.
Lemma sin9_pos u : 0 <= u <= 1 -> Rabs (sin u - (u - u ^ 3 / 6 + u ^ 5 / 120 - u ^ 7 / 5040)) <= u ^ 9 / 362880.
Proof.
  intros H. pose proof PI_10 as P. destruct (sin_bound u 1) as [A B]; [lra|lra|]. unfold sin_approx, sin_term in A, B. cbn [sum_f_R0 Nat.mul Nat.add] in A, B.
  destruct facts as (F0 & F1 & F2 & F3 & F4 & F5 & F6 & F7 & F8 & F9 & F10). rewrite F1, F3, F5, F7 in A. rewrite F1, F3, F5, F7, F9 in B. cbn [pow] in A, B |- *. apply Rabs_le. lra.
Qed.
Lemma sin9 u : Rabs u <= 1 -> Rabs (sin u - (u - u ^ 3 / 6 + u ^ 5 / 120 - u ^ 7 / 5040)) <= Rabs u ^ 9 / 362880.
Proof.
  intros H. destruct (Rle_dec 0 u) as [L|L]. { rewrite (Rabs_pos_eq u) in * by lra. apply sin9_pos. lra. }
  rewrite (Rabs_left u) in * by lra. pose proof (sin9_pos (- u) ltac:(lra)) as S. rewrite sin_neg in S. rewrite <- Rabs_Ropp. match type of S with Rabs ?y <= _ => match goal with |- Rabs ?x <= _ => replace x with y by (simpl; field) end end. exact S.
Qed.
Lemma cos10 u : Rabs u <= 1 -> Rabs (cos u - (1 - u ^ 2 / 2 + u ^ 4 / 24 - u ^ 6 / 720 + u ^ 8 / 40320)) <= Rabs u ^ 10 / 3628800.
Proof.
  intros H. pose proof PI_10 as P. apply abs_le_inv in H. destruct (cos_bound u 2) as [A _]; [lra|lra|]. destruct (cos_bound u 1) as [_ B]; [lra|lra|]. unfold cos_approx, cos_term in A, B. cbn [sum_f_R0 Nat.mul Nat.add] in A, B.
  destruct facts as (F0 & F1 & F2 & F3 & F4 & F5 & F6 & F7 & F8 & F9 & F10). rewrite F0, F2, F4, F6, F8, F10 in A. rewrite F0, F2, F4, F6, F8 in B. cbn [pow] in A, B.
  rewrite (RPow_abs u 10). assert (u ^ 10 = (u ^ 5) ^ 2) as -> by ring. rewrite (Rabs_pos_eq ((u ^ 5) ^ 2)) by apply pow2_ge_0. apply Rabs_le. pose proof (pow2_ge_0 (u ^ 5)) as Q. cbn [pow] in Q |- *. lra.
Qed.
Fixpoint zpow (a : Z) (n : nat) : Z := match n with O => SC | S k => (zpow a k * a / SC + 1)%Z end.
Lemma zpow_ok a n y : 0 <= y -> y * IZR SC <= IZR a -> y ^ n * IZR SC <= IZR (zpow a n).
Proof.
  intros Hy H. pose proof SC_pos as S. induction n as [|n IH]; cbn [zpow pow]; [lra|]. set (b := zpow a n) in *. rewrite plus_IZR.
  assert (D : IZR (b * a) <= IZR SC * (IZR (b * a / SC) + 1)). { pose proof (zdiv_R (b * a) SC ltac:(reflexivity)) as Z. pose proof (Rle_abs (IZR (b * a) - IZR SC * IZR (b * a / SC))). lra. }
  rewrite mult_IZR in D. assert (0 <= y ^ n) by (apply pow_le, Hy). apply Rmult_le_reg_r with (IZR SC); [exact S|]. assert ((y ^ n * IZR SC) * (y * IZR SC) <= IZR b * IZR a) by (apply Rmult_le_compat; nra). lra.
Qed.
Definition tm_sin (m : tm) : tm :=
  let q := tm_mul m m in
  let r := tm_mul m (tm_sub tm_one (tm_divz 6 (tm_mul q (tm_sub tm_one (tm_divz 20 (tm_mul q (tm_sub tm_one (tm_divz 42 q)))))))) in
  (fst r, (snd r + zpow (tm_abs m) 9 / 362880 + 1)%Z).
Definition tm_cos (m : tm) : tm :=
  let q := tm_mul m m in
  let r := tm_sub tm_one (tm_divz 2 (tm_mul q (tm_sub tm_one (tm_divz 12 (tm_mul q (tm_sub tm_one (tm_divz 30 (tm_mul q (tm_sub tm_one (tm_divz 56 q)))))))))) in
  (fst r, (snd r + zpow (tm_abs m) 10 / 3628800 + 1)%Z).
Lemma small_abs f m x : tm_ok f m -> (tm_abs m <=? SC)%Z = true -> Rabs x <= 1 -> Rabs (f x) <= 1.
Proof. intros F H Hx. apply Z.leb_le, IZR_le in H. pose proof (tm_abs_ok f m F x Hx). pose proof SC_pos. apply Rmult_le_reg_r with (IZR SC); [lra|]. lra. Qed.
Lemma tm_widen f g r e : tm_ok f r -> (forall x, Rabs x <= 1 -> Rabs (g x - f x) * IZR SC <= IZR e) -> tm_ok g (fst r, (snd r + e)%Z).
Proof.
  intros F H x Hx. specialize (F x Hx). specialize (H x Hx). cbn [fst snd]. rewrite plus_IZR. pose proof SC_pos. rewrite <- (Rabs_pos_eq (IZR SC)) in H at 1 by lra. rewrite <- Rabs_mult in H.
  replace (g x * IZR SC - zeval (fst r) x) with ((f x * IZR SC - zeval (fst r) x) + (g x - f x) * IZR SC) by ring. eapply Rle_trans; [apply Rabs_triang|]. lra.
Qed.
Lemma zdiv_up a k : (0 < k)%Z -> IZR a / IZR k <= IZR (a / k + 1).
Proof. intros K. assert (K' := K). apply IZR_lt in K'. pose proof (zdiv_R a k K) as Z. pose proof (Rle_abs (IZR a - IZR k * IZR (a / k))). rewrite plus_IZR. apply Rmult_le_reg_l with (IZR k); [exact K'|]. replace (IZR k * (IZR a / IZR k)) with (IZR a) by (field; lra). lra. Qed.
Lemma tm_sin_ok f m : tm_ok f m -> (tm_abs m <=? SC)%Z = true -> tm_ok (fun x => sin (f x)) (tm_sin m).
Proof.
  intros F H. unfold tm_sin. cbv zeta. set (q := tm_mul m m). set (r := tm_mul m _).
  assert (Q : tm_ok (fun x => f x * f x) q) by (apply tm_mul_ok; assumption).
  assert (Rk : tm_ok (fun x => f x * (1 - (f x * f x) * (1 - (f x * f x) * (1 - (f x * f x) / 42) / 20) / 6)) r).
  { unfold r. apply tm_mul_ok; [exact F|]. apply (tm_sub_ok (fun _ => 1)); [apply tm_one_ok|]. apply tm_divz_ok; [reflexivity|]. apply (tm_mul_ok (fun x => f x * f x)); [exact Q|].
    apply (tm_sub_ok (fun _ => 1)); [apply tm_one_ok|]. apply tm_divz_ok; [reflexivity|]. apply (tm_mul_ok (fun x => f x * f x)); [exact Q|].
    apply (tm_sub_ok (fun _ => 1)); [apply tm_one_ok|]. apply tm_divz_ok; [reflexivity|]. exact Q. }
  clearbody r q. rewrite <- Z.add_assoc. apply (tm_widen _ _ _ _ Rk). intros x Hx. pose proof (small_abs f m x F H Hx) as B. pose proof (sin9 (f x) B) as S9. pose proof (tm_abs_ok f m F x Hx) as A.
  pose proof (zpow_ok (tm_abs m) 9 (Rabs (f x)) (Rabs_pos _) A) as Z. pose proof SC_pos. eapply Rle_trans; [|apply (zdiv_up _ 362880); reflexivity].
  match goal with |- Rabs ?a * _ <= _ => replace a with (sin (f x) - (f x - f x ^ 3 / 6 + f x ^ 5 / 120 - f x ^ 7 / 5040)) by (simpl; field) end.
  apply Rle_trans with (Rabs (f x) ^ 9 / 362880 * IZR SC); [apply Rmult_le_compat_r; lra|]. lra.
Qed.
Lemma tm_cos_ok f m : tm_ok f m -> (tm_abs m <=? SC)%Z = true -> tm_ok (fun x => cos (f x)) (tm_cos m).
Proof.
  intros F H. unfold tm_cos. cbv zeta. set (q := tm_mul m m). set (r := tm_sub tm_one _).
  assert (Q : tm_ok (fun x => f x * f x) q) by (apply tm_mul_ok; assumption).
  assert (Rk : tm_ok (fun x => 1 - (f x * f x) * (1 - (f x * f x) * (1 - (f x * f x) * (1 - (f x * f x) / 56) / 30) / 12) / 2) r).
  { unfold r. apply (tm_sub_ok (fun _ => 1)); [apply tm_one_ok|]. apply tm_divz_ok; [reflexivity|]. apply (tm_mul_ok (fun x => f x * f x)); [exact Q|].
    apply (tm_sub_ok (fun _ => 1)); [apply tm_one_ok|]. apply tm_divz_ok; [reflexivity|]. apply (tm_mul_ok (fun x => f x * f x)); [exact Q|].
    apply (tm_sub_ok (fun _ => 1)); [apply tm_one_ok|]. apply tm_divz_ok; [reflexivity|]. apply (tm_mul_ok (fun x => f x * f x)); [exact Q|].
    apply (tm_sub_ok (fun _ => 1)); [apply tm_one_ok|]. apply tm_divz_ok; [reflexivity|]. exact Q. }
  clearbody r q. rewrite <- Z.add_assoc. apply (tm_widen _ _ _ _ Rk). intros x Hx. pose proof (small_abs f m x F H Hx) as B. pose proof (cos10 (f x) B) as S9. pose proof (tm_abs_ok f m F x Hx) as A.
  pose proof (zpow_ok (tm_abs m) 10 (Rabs (f x)) (Rabs_pos _) A) as Z. pose proof SC_pos. eapply Rle_trans; [|apply (zdiv_up _ 3628800); reflexivity].
  match goal with |- Rabs ?a * _ <= _ => replace a with (cos (f x) - (1 - f x ^ 2 / 2 + f x ^ 4 / 24 - f x ^ 6 / 720 + f x ^ 8 / 40320)) by (simpl; field) end.
  apply Rle_trans with (Rabs (f x) ^ 10 / 3628800 * IZR SC); [apply Rmult_le_compat_r; lra|]. lra.
Qed.

(** ** Angles and vectors *)
Definition ang_ok (t : R -> R) (a : tm * tm) : Prop := tm_ok (fun x => sin (t x)) (fst a) /\ tm_ok (fun x => cos (t x)) (snd a).
Definition ang_small (m : tm) : tm * tm := (tm_sin m, tm_cos m).
Lemma ang_small_ok t m : tm_ok t m -> (tm_abs m <=? SC)%Z = true -> ang_ok t (ang_small m).
Proof. intros T H. split; [apply tm_sin_ok|apply tm_cos_ok]; assumption. Qed.
Definition ang_add (a b : tm * tm) : tm * tm :=
  (tm_add (tm_mul (fst a) (snd b)) (tm_mul (snd a) (fst b)), tm_sub (tm_mul (snd a) (snd b)) (tm_mul (fst a) (fst b))).
Lemma ang_add_ok s t a b : ang_ok s a -> ang_ok t b -> ang_ok (fun x => s x + t x) (ang_add a b).
Proof.
  intros [A1 A2] [B1 B2]. split.
  - apply tm_ext with (fun x => sin (s x) * cos (t x) + cos (s x) * sin (t x)); [intros; rewrite sin_plus; reflexivity|]. apply (tm_add_ok (fun x => sin (s x) * cos (t x)) (fun x => cos (s x) * sin (t x))); apply tm_mul_ok; assumption.
  - apply tm_ext with (fun x => cos (s x) * cos (t x) - sin (s x) * sin (t x)); [intros; rewrite cos_plus; reflexivity|]. apply (tm_sub_ok (fun x => cos (s x) * cos (t x)) (fun x => sin (s x) * sin (t x))); apply tm_mul_ok; assumption.
Qed.
Definition ang_opp (a : tm * tm) : tm * tm := (tm_opp (fst a), snd a).
Lemma ang_opp_ok t a : ang_ok t a -> ang_ok (fun x => - t x) (ang_opp a).
Proof.
  intros [A1 A2]. split.
  - apply tm_ext with (fun x => - sin (t x)); [intros; rewrite sin_neg; reflexivity|]. apply tm_opp_ok, A1.
  - apply tm_ext with (fun x => cos (t x)); [intros; rewrite cos_neg; reflexivity|]. exact A2.
Qed.
Lemma ang_ext s t a : (forall x, Rabs x <= 1 -> s x = t x) -> ang_ok s a -> ang_ok t a.
Proof. intros E [A B]. split; [apply (tm_ext _ _ _ (fun x Hx => f_equal sin (E x Hx)) A)|apply (tm_ext _ _ _ (fun x Hx => f_equal cos (E x Hx)) B)]. Qed.
Definition tv := (tm * tm * tm)%type.
Definition tv_ok (f : R -> vec) (m : tv) : Prop := tm_ok (fun x => vx (f x)) (fst (fst m)) /\ tm_ok (fun x => vy (f x)) (snd (fst m)) /\ tm_ok (fun x => vz (f x)) (snd m).
Definition tv_rot_x (a : tm * tm) (m : tv) : tv :=
  let '(x, y, z) := m in let '(s, c) := a in (x, tm_add (tm_mul c y) (tm_mul s z), tm_sub (tm_mul c z) (tm_mul s y)).
Definition tv_rot_y (a : tm * tm) (m : tv) : tv :=
  let '(x, y, z) := m in let '(s, c) := a in (tm_sub (tm_mul c x) (tm_mul s z), y, tm_add (tm_mul s x) (tm_mul c z)).
Definition tv_rot_z (a : tm * tm) (m : tv) : tv :=
  let '(x, y, z) := m in let '(s, c) := a in (tm_add (tm_mul c x) (tm_mul s y), tm_sub (tm_mul c y) (tm_mul s x), z).
Lemma tm_add2 f g h k a b c d : tm_ok f a -> tm_ok g b -> tm_ok h c -> tm_ok k d -> tm_ok (fun x => f x * g x + h x * k x) (tm_add (tm_mul a b) (tm_mul c d)).
Proof. intros. apply (tm_add_ok (fun x => f x * g x) (fun x => h x * k x)); apply tm_mul_ok; assumption. Qed.
Lemma tm_sub2 f g h k a b c d : tm_ok f a -> tm_ok g b -> tm_ok h c -> tm_ok k d -> tm_ok (fun x => f x * g x - h x * k x) (tm_sub (tm_mul a b) (tm_mul c d)).
Proof. intros. apply (tm_sub_ok (fun x => f x * g x) (fun x => h x * k x)); apply tm_mul_ok; assumption. Qed.
Ltac tv_rot := intros [A1 A2] (X & Y & Z); unfold tv_rot_x, tv_rot_y, tv_rot_z; cbn [fst snd] in *; repeat split; cbn [fst snd]; unfold app, rot_x, rot_y, rot_z, dot; cbn [r1 r2 r3 vx vy vz].
Lemma tv_rot_x_ok t a f m : ang_ok t a -> tv_ok f m -> tv_ok (fun x => app (rot_x (t x)) (f x)) (tv_rot_x a m).
Proof.
  destruct a as [s c], m as [[u v] w]. tv_rot.
  - eapply tm_ext; [|exact X]. intros x _. cbv beta. ring.
  - eapply tm_ext; [|exact (tm_add2 _ _ _ _ _ _ _ _ A2 Y A1 Z)]. intros x _. cbv beta. ring.
  - eapply tm_ext; [|exact (tm_sub2 _ _ _ _ _ _ _ _ A2 Z A1 Y)]. intros x _. cbv beta. ring.
Qed.
Lemma tv_rot_y_ok t a f m : ang_ok t a -> tv_ok f m -> tv_ok (fun x => app (rot_y (t x)) (f x)) (tv_rot_y a m).
Proof.
  destruct a as [s c], m as [[u v] w]. tv_rot.
  - eapply tm_ext; [|exact (tm_sub2 _ _ _ _ _ _ _ _ A2 X A1 Z)]. intros x _. cbv beta. ring.
  - eapply tm_ext; [|exact Y]. intros x _. cbv beta. ring.
  - eapply tm_ext; [|exact (tm_add2 _ _ _ _ _ _ _ _ A1 X A2 Z)]. intros x _. cbv beta. ring.
Qed.
Lemma tv_rot_z_ok t a f m : ang_ok t a -> tv_ok f m -> tv_ok (fun x => app (rot_z (t x)) (f x)) (tv_rot_z a m).
Proof.
  destruct a as [s c], m as [[u v] w]. tv_rot.
  - eapply tm_ext; [|exact (tm_add2 _ _ _ _ _ _ _ _ A2 X A1 Y)]. intros x _. cbv beta. ring.
  - eapply tm_ext; [|exact (tm_sub2 _ _ _ _ _ _ _ _ A2 Y A1 X)]. intros x _. cbv beta. ring.
  - eapply tm_ext; [|exact Z]. intros x _. cbv beta. ring.
Qed.
Definition tv_sub (a b : tv) : tv := let '(x, y, z) := a in let '(x', y', z') := b in (tm_sub x x', tm_sub y y', tm_sub z z').
Lemma tv_sub_ok f g a b : tv_ok f a -> tv_ok g b -> tv_ok (fun x => vsub (f x) (g x)) (tv_sub a b).
Proof.
  destruct a as [[x y] z], b as [[x' y'] z']. intros (X & Y & Z) (X' & Y' & Z'). cbn [fst snd] in *. unfold tv_sub. repeat split; cbn [fst snd]; unfold vsub, vadd, scale; cbn [vx vy vz].
  - eapply tm_ext; [|exact (tm_sub_ok _ _ _ _ X X')]. intros; cbv beta; ring.
  - eapply tm_ext; [|exact (tm_sub_ok _ _ _ _ Y Y')]. intros; cbv beta; ring.
  - eapply tm_ext; [|exact (tm_sub_ok _ _ _ _ Z Z')]. intros; cbv beta; ring.
Qed.
Definition e1 : vec := mkvec 1 0 0. Definition e2 : vec := mkvec 0 1 0. Definition e3 : vec := mkvec 0 0 1.
Lemma tv_e1 : tv_ok (fun _ => e1) (tm_one, tm_zero, tm_zero). Proof. repeat split; cbn; (apply tm_one_ok || apply tm_zero_ok). Qed.
Lemma tv_e2 : tv_ok (fun _ => e2) (tm_zero, tm_one, tm_zero). Proof. repeat split; cbn; (apply tm_one_ok || apply tm_zero_ok). Qed.
Lemma tv_e3 : tv_ok (fun _ => e3) (tm_zero, tm_zero, tm_one). Proof. repeat split; cbn; (apply tm_one_ok || apply tm_zero_ok). Qed.
Definition tv_sq (m : tv) : Z := let '(x, y, z) := m in (tm_abs x * tm_abs x + tm_abs y * tm_abs y + tm_abs z * tm_abs z)%Z.
Lemma tv_sq_ok f m x : tv_ok f m -> Rabs x <= 1 -> dot (f x) (f x) * (IZR SC * IZR SC) <= IZR (tv_sq m).
Proof.
  destruct m as [[a b] c]. intros (X & Y & Z) Hx. cbn [fst snd] in *. apply tm_abs_ok with (x := x) in X, Y, Z; try exact Hx. unfold tv_sq. rewrite !plus_IZR, !mult_IZR. pose proof SC_pos as S.
  assert (Q : forall u k, Rabs u * IZR SC <= k -> u * u * (IZR SC * IZR SC) <= k * k).
  { intros u k H. assert (u * u = Rabs u * Rabs u) as -> by (rewrite <- Rabs_mult, Rabs_pos_eq; [reflexivity|apply Rle_0_sqr]). pose proof (Rabs_pos u). replace (Rabs u * Rabs u * (IZR SC * IZR SC)) with ((Rabs u * IZR SC) * (Rabs u * IZR SC)) by ring. apply Rmult_le_compat; try assumption; apply Rmult_le_pos; lra. }
  apply Q in X, Y, Z. unfold dot. lra.
Qed.
(** A linear map whose columns are short is small. *)
Lemma columns f v : (forall u w, f (vadd u w) = vadd (f u) (f w)) -> (forall k u, f (scale k u) = scale k (f u)) ->
  norm (f v) * norm (f v) <= (dot (f e1) (f e1) + dot (f e2) (f e2) + dot (f e3) (f e3)) * (norm v * norm v).
Proof.
  intros A K. assert (E : v = vadd (scale (vx v) e1) (vadd (scale (vy v) e2) (scale (vz v) e3))).
  { destruct v as [x y z]. unfold vadd, scale, e1, e2, e3. cbn [vx vy vz]. apply mkvec_eq; ring. }
  rewrite E at 1 2. rewrite !A, !K, !norm2. destruct v as [x y z]. cbn [vx vy vz]. destruct (f e1) as [a1 a2 a3], (f e2) as [b1 b2 b3], (f e3) as [c1 c2 c3]. unfold dot, vadd, scale. cbn [vx vy vz].
  assert (C : forall p q r, (x * p + (y * q + z * r)) * (x * p + (y * q + z * r)) <= (p * p + q * q + r * r) * (x * x + y * y + z * z)).
  { intros. pose proof (Rle_0_sqr (x * q - y * p)). pose proof (Rle_0_sqr (x * r - z * p)). pose proof (Rle_0_sqr (y * r - z * q)). unfold Rsqr in *. nra. }
  pose proof (C a1 b1 c1). pose proof (C a2 b2 c2). pose proof (C a3 b3 c3). lra.
Qed.

(** ** Polynomials in seconds of arc *)
Fixpoint qp (cs : list (Z * positive)) (x : R) : R := match cs with [] => 0 | (n, d) :: q => IZR n / IZR (Zpos d) + x * qp q x end.
Definition tm_qp (cs : list (Z * positive)) : tm := (map (fun c => (fst c * SC / Zpos (snd c))%Z) cs, Z.of_nat (length cs)).
Lemma tm_qp_ok cs : tm_ok (qp cs) (tm_qp cs).
Proof.
  intros x Hx. unfold tm_qp. cbn [fst snd]. induction cs as [|[n d] cs IH]; cbn [qp map length zeval]. { rewrite Rmult_0_l, Rminus_eq_0, Rabs_R0. cbn. lra. }
  rewrite Nat2Z.inj_succ, succ_IZR. cbn [fst snd]. pose proof (zdiv_R (n * SC) (Zpos d) ltac:(reflexivity)) as D. assert (P : 0 < IZR (Zpos d)) by (apply IZR_lt; reflexivity).
  assert (D1 : Rabs (IZR n / IZR (Zpos d) * IZR SC - IZR (n * SC / Zpos d)) <= 1).
  { apply Rmult_le_reg_l with (IZR (Zpos d)); [exact P|]. rewrite <- (Rabs_pos_eq (IZR (Zpos d))) at 1 by lra. rewrite <- Rabs_mult. rewrite mult_IZR in D.
    replace (IZR (Zpos d) * (IZR n / IZR (Zpos d) * IZR SC - IZR (n * SC / Zpos d))) with (IZR n * IZR SC - IZR (Zpos d) * IZR (n * SC / Zpos d)) by (field; lra). lra. }
  set (w := zeval _ x) in *. set (k := IZR (n * SC / Zpos d)) in *.
  replace ((IZR n / IZR (Zpos d) + x * qp cs x) * IZR SC - (k + x * w)) with ((IZR n / IZR (Zpos d) * IZR SC - k) + x * (qp cs x * IZR SC - w)) by ring.
  eapply Rle_trans; [apply Rabs_triang|]. rewrite (Rabs_mult x). pose proof (Rabs_pos x). pose proof (Rabs_pos (qp cs x * IZR SC - w)). nra.
Qed.
Definition tm_sec : tm := tm_const (31415926535 * SC / (10000000000 * 648000)) (SC / (9999999999 * 648000) + 2).
Lemma tm_sec_ok : tm_ok (fun _ => PI / 180 / 3600) tm_sec.
Proof.
  apply tm_const_ok. pose proof PI_10 as P. set (z := (31415926535 * SC / (10000000000 * 648000))%Z). set (e := (SC / (9999999999 * 648000) + 2)%Z). vm_compute in z. vm_compute in e. unfold z, e, SC. change (2 ^ 70)%Z with 1180591620717411303424%Z. apply Rabs_le. lra.
Qed.
Definition tm_arc (cs : list (Z * positive)) : tm := tm_mul (tm_qp cs) tm_sec.
Lemma tm_arc_ok cs : tm_ok (fun x => AngleFromSec (qp cs x)) (tm_arc cs).
Proof. unfold AngleFromSec. apply (tm_mul_ok (qp cs) (fun _ => PI / 180 / 3600)); [apply tm_qp_ok|apply tm_sec_ok]. Qed.
