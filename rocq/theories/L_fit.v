(** Lemmas for package fit. *)
From Coq Require Import ZArith Bool List Reals Lra Lia.
From Flocq Require Import Core.
From Verif Require Import GoInt GoFloat M_fit S_fit.
Import ListNotations.
Local Open Scope R_scope.

Fixpoint rs (t : R -> R -> R) (p : list (R * R)) : R :=
  match p with [] => 0 | (x, y) :: p => t x y + rs t p end.

Lemma sum_rs (t : R -> R -> R) (p : list (R * R)) : sum (fl := RFlt) t p = rs t p.
Proof.
  unfold sum. cbn -[IZR fold_left].
  assert (G : forall p (a : R), fold_left (fun (s : R) '(x, y) => (s + t x y)%R) p a = a + rs t p).
  { intros q. induction q as [|[x y] q IH]; intros a; cbn [fold_left rs]; [ring|]. rewrite IH. ring. }
  etransitivity; [exact (G p _)|]. lra.
Qed.

Lemma count_rs (p : list (R * R)) : count (fl := RFlt) p = rs (fun _ _ => 1) p.
Proof.
  assert (G : forall q : list (R * R), IZR (Z.of_nat (length q)) = rs (fun _ _ => 1) q).
  { intros q. induction q as [|[x y] q IH]; [reflexivity|]. cbn [length rs].
    rewrite Nat2Z.inj_succ, succ_IZR, IH. ring. }
  exact (G p).
Qed.

Lemma form_pos p h : 0 <= rs (fun x y => h x * h x) p.
Proof. induction p as [|[x y] q IH]; cbn [rs]; [lra|]. pose proof (Rle_0_sqr (h x)). unfold Rsqr in *. lra. Qed.

Lemma form_zero p h : rs (fun x y => h x * h x) p = 0 -> forall x y, In (x, y) p -> h x = 0.
Proof.
  induction p as [|[x y] q IH]; cbn [rs In]; intros E x' y' I; [tauto|].
  pose proof (Rle_0_sqr (h x)) as A. unfold Rsqr in A. pose proof (form_pos q h) as B.
  destruct I as [I|I].
  - injection I as <- <-. apply Rsqr_0_uniq. unfold Rsqr. lra.
  - apply IH with y'; [lra|exact I].
Qed.

Section Generic.
Variable p : list (R * R).
Variables g0 g1 g2 : R -> R.
Notation M := (rs (fun x y => g0 x * g0 x) p).
Notation P := (rs (fun x y => g0 x * g1 x) p).
Notation Q := (rs (fun x y => g0 x * g2 x) p).
Notation R_ := (rs (fun x y => g1 x * g1 x) p).
Notation S_ := (rs (fun x y => g1 x * g2 x) p).
Notation T := (rs (fun x y => g2 x * g2 x) p).
Notation U := (rs (fun x y => y * g0 x) p).
Notation V := (rs (fun x y => y * g1 x) p).
Notation W := (rs (fun x y => y * g2 x) p).
Notation Y2 := (rs (fun x y => y * y) p).

Lemma ss_expand a b c : squared_residuals (fun x => a * g0 x + b * g1 x + c * g2 x) p =
  Y2 - 2 * (a * U + b * V + c * W) + a * a * M + b * b * R_ + c * c * T +
  2 * (a * b * P) + 2 * (a * c * Q) + 2 * (b * c * S_).
Proof. induction p as [|[x y] q IH]; cbn [squared_residuals rs]; [ring|]. rewrite IH. ring. Qed.

Lemma form_expand u v w : rs (fun x y => (u * g0 x + v * g1 x + w * g2 x) * (u * g0 x + v * g1 x + w * g2 x)) p =
  u * u * M + v * v * R_ + w * w * T + 2 * (u * v * P) + 2 * (u * w * Q) + 2 * (v * w * S_).
Proof. induction p as [|[x y] q IH]; cbn [rs]; [ring|]. rewrite IH. ring. Qed.

Lemma optimal a b c : a * M + b * P + c * Q = U -> a * P + b * R_ + c * S_ = V -> a * Q + b * S_ + c * T = W ->
  forall a' b' c', squared_residuals (fun x => a' * g0 x + b' * g1 x + c' * g2 x) p =
    squared_residuals (fun x => a * g0 x + b * g1 x + c * g2 x) p +
    rs (fun x y => ((a' - a) * g0 x + (b' - b) * g1 x + (c' - c) * g2 x) * ((a' - a) * g0 x + (b' - b) * g1 x + (c' - c) * g2 x)) p.
Proof.
  intros E1 E2 E3 a' b' c'. rewrite !ss_expand, form_expand. rewrite <- E1, <- E2, <- E3. ring.
Qed.

Lemma optimal_le a b c : a * M + b * P + c * Q = U -> a * P + b * R_ + c * S_ = V -> a * Q + b * S_ + c * T = W ->
  forall a' b' c', squared_residuals (fun x => a * g0 x + b * g1 x + c * g2 x) p <=
    squared_residuals (fun x => a' * g0 x + b' * g1 x + c' * g2 x) p.
Proof.
  intros E1 E2 E3 a' b' c'. rewrite (optimal a b c E1 E2 E3 a' b' c').
  pose proof (form_pos p (fun x => (a' - a) * g0 x + (b' - b) * g1 x + (c' - c) * g2 x)) as G. cbn beta in G. lra.
Qed.

Lemma form_zero_comb u v w : u * u * M + v * v * R_ + w * w * T + 2 * (u * v * P) + 2 * (u * w * Q) + 2 * (v * w * S_) = 0 ->
  forall x y, In (x, y) p -> u * g0 x + v * g1 x + w * g2 x = 0.
Proof.
  intros E. rewrite <- form_expand in E. exact (form_zero p (fun x => u * g0 x + v * g1 x + w * g2 x) E).
Qed.

Notation D := (M * R_ * T + 2 * P * Q * S_ - M * S_ * S_ - R_ * Q * Q - T * P * P).

Lemma D_nonzero : independent_on p g0 g1 g2 -> D <> 0.
Proof.
  intros I E.
  assert (K : forall u v w, u * u * M + v * v * R_ + w * w * T + 2 * (u * v * P) + 2 * (u * w * Q) + 2 * (v * w * S_) = 0 ->
    u = 0 /\ v = 0 /\ w = 0).
  { intros u v w H. apply I. apply form_zero_comb. exact H. }
  destruct (K (P * S_ - R_ * Q) (P * Q - M * S_) (M * R_ - P * P)) as [_ [_ K3]].
  { transitivity (D * (M * R_ - P * P)); [ring|]. rewrite E. ring. }
  destruct (K P (- M) 0) as [_ [KM _]].
  { transitivity (M * (M * R_ - P * P)); [ring|]. rewrite K3. ring. }
  destruct (K 1 0 0) as [KK _]; [|lra].
  assert (M = 0) by lra. rewrite H. ring.
Qed.

Lemma optimal_unique a b c : independent_on p g0 g1 g2 ->
  a * M + b * P + c * Q = U -> a * P + b * R_ + c * S_ = V -> a * Q + b * S_ + c * T = W ->
  forall a' b' c', squared_residuals (fun x => a' * g0 x + b' * g1 x + c' * g2 x) p <=
    squared_residuals (fun x => a * g0 x + b * g1 x + c * g2 x) p -> a' = a /\ b' = b /\ c' = c.
Proof.
  intros I E1 E2 E3 a' b' c' L. rewrite (optimal a b c E1 E2 E3 a' b' c') in L.
  pose proof (form_pos p (fun x => (a' - a) * g0 x + (b' - b) * g1 x + (c' - c) * g2 x)) as G. cbn beta in G.
  destruct (I (a' - a) (b' - b) (c' - c)) as [A [B C]]; [|lra].
  apply (form_zero p (fun x => (a' - a) * g0 x + (b' - b) * g1 x + (c' - c) * g2 x)). lra.
Qed.

End Generic.

Lemma ss_ext g h p : (forall x, g x = h x) -> squared_residuals g p = squared_residuals h p.
Proof. intros E. induction p as [|[x y] p IH]; cbn [squared_residuals]; [reflexivity|]. rewrite IH, E. reflexivity. Qed.
Lemma rs_ext t u p : (forall x y, t x y = u x y) -> rs t p = rs u p.
Proof. intros E. induction p as [|[x y] p IH]; cbn [rs]; [reflexivity|]. rewrite IH, E. reflexivity. Qed.
Lemma rs_zero p : rs (fun _ _ => 0) p = 0.
Proof. induction p as [|[x y] p IH]; cbn [rs]; [reflexivity|]. rewrite IH. ring. Qed.

(** ** Func3 *)
Lemma Func3_normal (p : list (R * R)) (g0 g1 g2 : R -> R) (a b c : R) :
  independent_on p g0 g1 g2 -> Func3 (fl := RFlt) p g0 g1 g2 = (a, b, c) ->
  a * rs (fun x y => g0 x * g0 x) p + b * rs (fun x y => g0 x * g1 x) p + c * rs (fun x y => g0 x * g2 x) p = rs (fun x y => y * g0 x) p /\
  a * rs (fun x y => g0 x * g1 x) p + b * rs (fun x y => g1 x * g1 x) p + c * rs (fun x y => g1 x * g2 x) p = rs (fun x y => y * g1 x) p /\
  a * rs (fun x y => g0 x * g2 x) p + b * rs (fun x y => g1 x * g2 x) p + c * rs (fun x y => g2 x * g2 x) p = rs (fun x y => y * g2 x) p.
Proof.
  intros I. pose proof (D_nonzero p g0 g1 g2 I) as Dn. unfold Func3, Func3_D. cbv zeta.
  intros H. injection H as Ea Eb Ec. cbn [fadd fmul fsub fdiv fconst RFlt] in Ea, Eb, Ec.
  rewrite !sum_rs in Ea, Eb, Ec. subst a b c.
  set (M := rs (fun x y => g0 x * g0 x) p) in *. set (P := rs (fun x y => g0 x * g1 x) p) in *.
  set (Q := rs (fun x y => g0 x * g2 x) p) in *. set (R_ := rs (fun x y => g1 x * g1 x) p) in *.
  set (S_ := rs (fun x y => g1 x * g2 x) p) in *. set (T := rs (fun x y => g2 x * g2 x) p) in *.
  set (U := rs (fun x y => y * g0 x) p). set (V := rs (fun x y => y * g1 x) p). set (W := rs (fun x y => y * g2 x) p).
  clearbody M P Q R_ S_ T U V W. replace (2 / 1) with 2 by field.
  repeat split; field; exact Dn.
Qed.

Lemma Func3_optimal (p : list (R * R)) (g0 g1 g2 : R -> R) (a b c : R) :
  independent_on p g0 g1 g2 -> Func3 (fl := RFlt) p g0 g1 g2 = (a, b, c) -> forall a' b' c',
  squared_residuals (fun x => a * g0 x + b * g1 x + c * g2 x) p <=
    squared_residuals (fun x => a' * g0 x + b' * g1 x + c' * g2 x) p /\
  (squared_residuals (fun x => a' * g0 x + b' * g1 x + c' * g2 x) p <=
    squared_residuals (fun x => a * g0 x + b * g1 x + c * g2 x) p -> a' = a /\ b' = b /\ c' = c).
Proof.
  intros I H a' b' c'. destruct (Func3_normal p g0 g1 g2 a b c I H) as [E1 [E2 E3]]. split.
  - apply optimal_le; assumption.
  - apply optimal_unique; assumption.
Qed.

(** ** Quadratic *)
Lemma quadratic_independent p : three_x p -> independent_on p (fun x => x * x) (fun x => x) (fun _ => 1).
Proof.
  intros (x1 & y1 & x2 & y2 & x3 & y3 & I1 & I2 & I3 & N12 & N13 & N23) u v w H.
  pose proof (H _ _ I1) as H1. pose proof (H _ _ I2) as H2. pose proof (H _ _ I3) as H3.
  cbn beta in *.
  assert (A : u * (x1 + x2) + v = 0).
  { apply Rmult_eq_reg_l with (x1 - x2); [|lra]. lra. }
  assert (B : u * (x1 + x3) + v = 0).
  { apply Rmult_eq_reg_l with (x1 - x3); [|lra]. lra. }
  assert (C : u = 0). { apply Rmult_eq_reg_l with (x2 - x3); [|lra]. lra. }
  subst u. assert (v = 0) by lra. subst v. lra.
Qed.

Lemma Quadratic_Func3 (p : list (R * R)) :
  Quadratic (fl := RFlt) p = Func3 (fl := RFlt) p (fun x => x * x)%R (fun x => x) (fun _ => 1%R).
Proof.
  unfold Quadratic, Func3, Quadratic_D, Func3_D. cbv zeta. cbn [fadd fmul fsub fdiv fconst RFlt].
  rewrite !sum_rs, !count_rs.
  rewrite (rs_ext (fun x y : R => (x * x * x)%R) (fun x y => (x * (x * x))%R)) by (intros; ring).
  rewrite (rs_ext (fun x y : R => (x * x * 1)%R) (fun x y => (x * x)%R)) by (intros; ring).
  rewrite (rs_ext (fun x y : R => (x * 1)%R) (fun x y => x)) by (intros; ring).
  rewrite (rs_ext (fun x y : R => (1 * 1)%R) (fun x y => 1%R)) by (intros; ring).
  rewrite (rs_ext (fun x y : R => (x * y)%R) (fun x y => (y * x)%R)) by (intros; ring).
  rewrite (rs_ext (fun x y : R => (x * x * y)%R) (fun x y => (y * (x * x))%R)) by (intros; ring).
  rewrite (rs_ext (fun x y : R => (y * 1)%R) (fun x y => y)) by (intros; ring).
  replace (2 / 1) with 2 by field.
  change (@F RFlt) with R.
  repeat match goal with |- context [rs ?t p] => let s := fresh "s" in set (s := rs t p); clearbody s end.
  apply f_equal2; [apply f_equal2|]; match goal with |- @eq _ ?a ?b => change (@eq R a b) end;
    unfold Rdiv; (apply f_equal2; [|apply f_equal]); ring.
Qed.

Lemma Quadratic_optimal (p : list (R * R)) (a b c : R) : three_x p -> Quadratic (fl := RFlt) p = (a, b, c) -> forall a' b' c',
  squared_residuals (fun x => a * (x * x) + b * x + c) p <= squared_residuals (fun x => a' * (x * x) + b' * x + c') p /\
  (squared_residuals (fun x => a' * (x * x) + b' * x + c') p <= squared_residuals (fun x => a * (x * x) + b * x + c) p ->
   a' = a /\ b' = b /\ c' = c).
Proof.
  intros T H a' b' c'. rewrite Quadratic_Func3 in H.
  pose proof (Func3_optimal p _ _ _ a b c (quadratic_independent p T) H a' b' c') as G. cbn beta in G.
  rewrite (ss_ext (fun x => a * (x * x) + b * x + c) (fun x => a * (x * x) + b * x + c * 1)) by (intros; ring).
  rewrite (ss_ext (fun x => a' * (x * x) + b' * x + c') (fun x => a' * (x * x) + b' * x + c' * 1)) by (intros; ring).
  exact G.
Qed.

(** ** Linear *)
Lemma Linear_d (p : list (R * R)) : two_x p ->
  0 < rs (fun _ _ => 1) p * rs (fun x _ => x * x) p - rs (fun x _ => x) p * rs (fun x _ => x) p /\ 0 < rs (fun _ _ => 1) p.
Proof.
  intros (x1 & y1 & x2 & y2 & I1 & I2 & N).
  assert (Pn : 0 < rs (fun _ _ => 1) p).
  { destruct p as [|[x y] q]; [destruct I1|]. cbn [rs].
    pose proof (form_pos q (fun _ => 1)) as G.
    rewrite (rs_ext (fun _ _ => 1 * 1) (fun _ _ => 1)) in G by (intros; ring). lra. }
  split; [|exact Pn].
  pose proof (form_pos p (fun x => rs (fun _ _ => 1) p * x + (- rs (fun x _ => x) p) * 1 + 0 * 0)) as G.
  cbn beta in G.
  rewrite (form_expand p (fun x => x) (fun _ => 1) (fun _ => 0)) in G.
  pose proof (form_zero_comb p (fun x => x) (fun _ => 1) (fun _ => 0) (rs (fun _ _ => 1) p) (- rs (fun x _ => x) p) 0) as Z.
  cbn beta in Z.
  rewrite (rs_ext (fun x y : R => (x * 1)%R) (fun x y => x)) in G, Z by (intros; ring).
  rewrite (rs_ext (fun x y : R => (1 * 1)%R) (fun x y => 1%R)) in G, Z by (intros; ring).
  set (n := rs (fun _ _ => 1) p) in *. set (sx := rs (fun x _ => x) p) in *. set (sx2 := rs (fun x _ => x * x) p) in *.
  assert (G' : 0 <= n * (n * sx2 - sx * sx)) by (eapply Rle_trans; [exact G|]; apply Req_le; ring).
  destruct (Rtotal_order 0 (n * sx2 - sx * sx)) as [H|[H|H]]; [exact H| |].
  - exfalso. apply N.
    assert (Z' := Z ltac:(transitivity (n * (n * sx2 - sx * sx)); [ring|rewrite <- H; ring])).
    pose proof (Z' _ _ I1). pose proof (Z' _ _ I2). apply Rmult_eq_reg_l with n; [|lra]. lra.
  - exfalso. assert (n * (n * sx2 - sx * sx) < n * 0) by (apply Rmult_lt_compat_l; lra). lra.
Qed.

Lemma Linear_optimal (p : list (R * R)) (a b : R) : two_x p -> Linear (fl := RFlt) p = (a, b) -> forall a' b',
  squared_residuals (fun x => a * x + b) p <= squared_residuals (fun x => a' * x + b') p /\
  (squared_residuals (fun x => a' * x + b') p <= squared_residuals (fun x => a * x + b) p -> a' = a /\ b' = b).
Proof.
  intros T H a' b'. destruct (Linear_d p T) as [Hd Hn].
  unfold Linear in H. cbv zeta in H. cbn [fadd fmul fsub fdiv fconst RFlt] in H.
  rewrite !sum_rs, !count_rs in H. injection H as Ea Eb.
  rewrite (ss_ext (fun x => a * x + b) (fun x => a * x + b * 1 + 0 * 0)) by (intros; ring).
  rewrite (ss_ext (fun x => a' * x + b') (fun x => a' * x + b' * 1 + 0 * 0)) by (intros; ring).
  pose proof (optimal p (fun x => x) (fun _ => 1) (fun _ => 0) a b 0) as O. cbn beta in O.
  rewrite (rs_ext (fun x y : R => (x * 1)%R) (fun x y => x)) in O by (intros; ring).
  rewrite (rs_ext (fun x y : R => (1 * 1)%R) (fun x y => 1%R)) in O by (intros; ring).
  rewrite (rs_ext (fun x y : R => (x * 0)%R) (fun x y => 0)) in O by (intros; ring).
  rewrite (rs_ext (fun x y : R => (1 * 0)%R) (fun x y => 0)) in O by (intros; ring).
  rewrite (rs_ext (fun x y : R => (0 * 0)%R) (fun x y => 0)) in O by (intros; ring).
  rewrite (rs_ext (fun x y : R => (y * 0)%R) (fun x y => 0)) in O by (intros; ring).
  rewrite (rs_ext (fun x y : R => (y * 1)%R) (fun x y => y)) in O by (intros; ring).
  rewrite (rs_ext (fun x y : R => (y * x)%R) (fun x y => x * y)) in O by (intros; ring).
  rewrite !rs_zero in O.
  set (n := rs (fun _ _ => 1) p) in *. set (sx := rs (fun x _ => x) p) in *. set (sx2 := rs (fun x _ => x * x) p) in *.
  set (sy := rs (fun _ y => y) p) in *. set (sxy := rs (fun x y => x * y) p) in *.
  assert (O' := O ltac:(subst a b; field; lra) ltac:(subst a b; field; lra) ltac:(ring) a' b' 0).
  rewrite O'. clear O O'.
  pose proof (form_pos p (fun x => ((a' - a) * x + (b' - b) * 1 + (0 - 0) * 0))) as G. cbn beta in G.
  split; [lra|]. intros L.
  match type of G with 0 <= ?r => assert (Z0 : r = 0) by lra end.
  assert (Z := form_zero p (fun x => ((a' - a) * x + (b' - b) * 1 + (0 - 0) * 0)) Z0). cbn beta in Z.
  destruct T as (x1 & y1 & x2 & y2 & I1 & I2 & N).
  pose proof (Z _ _ I1) as Z1. pose proof (Z _ _ I2) as Z2.
  assert (a' - a = 0). { apply Rmult_eq_reg_l with (x1 - x2); [|lra]. lra. }
  split; [lra|]. rewrite H in Z1. lra.
Qed.

(** ** Func1 *)
Lemma Func1_optimal (p : list (R * R)) (f : R -> R) : (exists x y, In (x, y) p /\ f x <> 0) -> forall a',
  let a := Func1 (fl := RFlt) p f in
  squared_residuals (fun x => a * f x) p <= squared_residuals (fun x => a' * f x) p /\
  (squared_residuals (fun x => a' * f x) p <= squared_residuals (fun x => a * f x) p -> a' = a).
Proof.
  intros (x0 & y0 & I0 & N0) a' a0. pose (a := (a0 : R)). change a0 with a.
  assert (Ea : a = rs (fun x y => y * f x) p / rs (fun x y => f x * f x) p).
  { unfold a, a0, Func1. cbn [fadd fmul fsub fdiv fconst RFlt]. rewrite !sum_rs. reflexivity. }
  clearbody a. clear a0.
  assert (Dn : rs (fun x y => f x * f x) p <> 0). { intros E. exact (N0 (form_zero p f E _ _ I0)). }
  rewrite (ss_ext (fun x => a * f x) (fun x => a * f x + 0 * 0 + 0 * 0)) by (intros; ring).
  rewrite (ss_ext (fun x => a' * f x) (fun x => a' * f x + 0 * 0 + 0 * 0)) by (intros; ring).
  pose proof (optimal p f (fun _ => 0) (fun _ => 0) a 0 0) as O. cbn beta in O.
  rewrite (rs_ext (fun x y : R => (f x * 0)%R) (fun x y => 0)) in O by (intros; ring).
  rewrite (rs_ext (fun x y : R => (0 * 0)%R) (fun x y => 0)) in O by (intros; ring).
  rewrite (rs_ext (fun x y : R => (y * 0)%R) (fun x y => 0)) in O by (intros; ring).
  rewrite !rs_zero in O.
  assert (O' := O ltac:(subst a; field; exact Dn) ltac:(ring) ltac:(ring) a' 0 0).
  rewrite O'. clear O O'.
  pose proof (form_pos p (fun x => ((a' - a) * f x + (0 - 0) * 0 + (0 - 0) * 0))) as G. cbn beta in G.
  split; [lra|]. intros L.
  match type of G with 0 <= ?r => assert (Z0 : r = 0) by lra end.
  assert (Z := form_zero p (fun x => ((a' - a) * f x + (0 - 0) * 0 + (0 - 0) * 0)) Z0 _ _ I0). cbn beta in Z.
  apply Rmult_eq_reg_r with (f x0); [lra|exact N0].
Qed.

(** ** Correlation *)
Lemma rs_swap t p : rs t (map (fun q => (snd q, fst q)) p) = rs (fun x y => t y x) p.
Proof. induction p as [|[x y] p IH]; cbn [map rs fst snd]; [reflexivity|]. rewrite IH. reflexivity. Qed.
Lemma two_swap p : two_y p -> two_x (map (fun q => (snd q, fst q)) p).
Proof.
  intros (x1 & y1 & x2 & y2 & I1 & I2 & N). exists y1, x1, y2, x2.
  split; [exact (in_map (fun q => (snd q, fst q)) p _ I1)|].
  split; [exact (in_map (fun q => (snd q, fst q)) p _ I2)|exact N].
Qed.

Section Corr.
Variable p : list (R * R).
Notation n := (rs (fun _ _ => 1) p).
Notation sx := (rs (fun x _ => x) p).
Notation sy := (rs (fun _ y => y) p).
Notation sx2 := (rs (fun x _ => x * x) p).
Notation sy2 := (rs (fun _ y => y * y) p).
Notation sxy := (rs (fun x y => x * y) p).
Notation A := (n * sx2 - sx * sx).
Notation B := (n * sy2 - sy * sy).
Notation C := (n * sxy - sx * sy).

Lemma corr_eq : CorrelationCoefficient (fl := RFlt) p = C / (sqrt A * sqrt B).
Proof.
  unfold CorrelationCoefficient. cbv zeta. cbn [fadd fmul fsub fdiv fsqrt fconst RFlt].
  rewrite !sum_rs, count_rs. reflexivity.
Qed.

Lemma xy_expand u v w : rs (fun x y => (u * x + v * y + w) * (u * x + v * y + w)) p =
  u * u * sx2 + v * v * sy2 + w * w * n + 2 * (u * v * sxy) + 2 * (u * w * sx) + 2 * (v * w * sy).
Proof. induction p as [|[x y] q IH]; cbn [rs]; [ring|]. rewrite IH. ring. Qed.
Lemma xy_pos (h : R -> R -> R) : 0 <= rs (fun x y => h x y * h x y) p /\
  (rs (fun x y => h x y * h x y) p = 0 -> forall x y, In (x, y) p -> h x y = 0).
Proof.
  induction p as [|[x y] q IH]; cbn [rs In]; [split; [lra|tauto]|].
  pose proof (Rle_0_sqr (h x y)) as K. unfold Rsqr in K. destruct IH as [I1 I2].
  split; [lra|]. intros E x' y' [I|I].
  - injection I as <- <-. apply Rsqr_0_uniq. unfold Rsqr. lra.
  - apply I2; [lra|exact I].
Qed.

Hypothesis Hx : two_x p.
Hypothesis Hy : two_y p.

Lemma A_pos : 0 < A. Proof. exact (proj1 (Linear_d p Hx)). Qed.
Lemma n_pos : 0 < n. Proof. exact (proj2 (Linear_d p Hx)). Qed.
Lemma B_pos : 0 < B.
Proof.
  pose proof (proj1 (Linear_d _ (two_swap p Hy))) as H. rewrite !rs_swap in H. exact H.
Qed.

Lemma CS : 0 <= A * B - C * C /\ (A * B - C * C = 0 -> exists m q, m <> 0 /\ forall x y, In (x, y) p -> y = m * x + q).
Proof.
  pose proof A_pos as HA. pose proof n_pos as Hn. pose proof B_pos as HB.
  set (w := - (C * sx + - A * sy) / n).
  pose proof (xy_pos (fun x y => C * x + - A * y + w)) as G. cbn beta in G. rewrite xy_expand in G.
  assert (K : n * (C * C * sx2 + - A * - A * sy2 + w * w * n + 2 * (C * - A * sxy) + 2 * (C * w * sx) + 2 * (- A * w * sy)) = A * (A * B - C * C)).
  { unfold w. field. lra. }
  destruct G as [G1 G2].
  set (E := C * C * sx2 + - A * - A * sy2 + w * w * n + 2 * (C * - A * sxy) + 2 * (C * w * sx) + 2 * (- A * w * sy)) in *.
  assert (K1 : A * B - C * C = n * E / A). { rewrite K. field. lra. }
  split.
  - rewrite K1. apply Rmult_le_pos; [apply Rmult_le_pos; lra|]. apply Rlt_le, Rinv_0_lt_compat. exact HA.
  - intros Z. assert (EZ : E = 0).
    { apply Rmult_eq_reg_l with n; [|lra]. rewrite K, Z. ring. }
    specialize (G2 EZ). exists (C / A), (w / A). split.
    + intros H0. assert (C = 0). { apply Rmult_eq_reg_r with (/ A); [unfold Rdiv in H0; lra|]. apply Rinv_neq_0_compat. lra. }
      rewrite H in Z. assert (0 < A * B) by (apply Rmult_lt_0_compat; lra). lra.
    + intros x y I. pose proof (G2 _ _ I) as G3. apply Rmult_eq_reg_l with A; [|lra]. field_simplify; [|lra]. lra.
Qed.

Lemma corr_sqr : CorrelationCoefficient (fl := RFlt) p * CorrelationCoefficient (fl := RFlt) p = C * C / (A * B).
Proof.
  rewrite corr_eq. pose proof A_pos as HA. pose proof B_pos as HB.
  transitivity (C * C / ((sqrt A * sqrt A) * (sqrt B * sqrt B))); [|rewrite !sqrt_sqrt by lra; reflexivity].
  pose proof (sqrt_lt_R0 _ HA). pose proof (sqrt_lt_R0 _ HB).
  set (a := sqrt A) in *. set (b := sqrt B) in *. clearbody a b. field. lra.
Qed.
End Corr.

Lemma corr_range (p : list (R * R)) : two_x p -> two_y p -> -1 <= CorrelationCoefficient (fl := RFlt) p <= 1.
Proof.
  intros Hx Hy. pose proof (corr_sqr p Hx Hy) as S. pose proof (A_pos p Hx) as HA. pose proof (B_pos p Hy) as HB.
  destruct (CS p Hx Hy) as [C1 _].
  set (r' := CorrelationCoefficient (fl := RFlt) p) in *. change R in (type of r'). clearbody r'. cbn [F RFlt] in r'.
  assert (L : r' * r' <= 1).
  { rewrite S. apply Rmult_le_reg_r with ((rs (fun _ _ => 1) p * rs (fun x _ => x * x) p - rs (fun x _ => x) p * rs (fun x _ => x) p) * (rs (fun _ _ => 1) p * rs (fun _ y => y * y) p - rs (fun _ y => y) p * rs (fun _ y => y) p)).
    - apply Rmult_lt_0_compat; lra.
    - unfold Rdiv. rewrite Rmult_assoc, Rinv_l; [lra|]. apply Rmult_integral_contrapositive. lra. }
  split.
  - destruct (Rle_dec (-1) r'); [assumption|]. exfalso. assert (1 * 1 < (- r') * (- r')) by (apply Rmult_gt_0_lt_compat; lra). lra.
  - destruct (Rle_dec r' 1); [assumption|]. exfalso. assert (1 * 1 < r' * r') by (apply Rmult_gt_0_lt_compat; lra). lra.
Qed.

Lemma corr_linear (p : list (R * R)) m q : two_x p -> (forall x y, In (x, y) p -> y = m * x + q) ->
  (0 < m -> CorrelationCoefficient (fl := RFlt) p = 1%R) /\ (m < 0 -> CorrelationCoefficient (fl := RFlt) p = (-1)%R).
Proof.
  intros Hx L. rewrite corr_eq. pose proof (A_pos p Hx) as HA.
  assert (E1 : rs (fun _ y => y) p = m * rs (fun x _ => x) p + q * rs (fun _ _ => 1) p).
  { clear -L. induction p as [|[x y] p IH]; cbn [rs]; [ring|]. rewrite IH, (L x y) by (intros; try apply L; cbn; auto). ring. }
  assert (E2 : rs (fun x y => x * y) p = m * rs (fun x _ => x * x) p + q * rs (fun x _ => x) p).
  { clear -L. induction p as [|[x y] p IH]; cbn [rs]; [ring|]. rewrite IH, (L x y) by (intros; try apply L; cbn; auto). ring. }
  assert (E3 : rs (fun _ y => y * y) p = m * m * rs (fun x _ => x * x) p + 2 * (m * q * rs (fun x _ => x) p) + q * q * rs (fun _ _ => 1) p).
  { clear -L. induction p as [|[x y] p IH]; cbn [rs]; [ring|]. rewrite IH, (L x y) by (intros; try apply L; cbn; auto). ring. }
  rewrite E1, E2, E3.
  set (n := rs (fun _ _ => 1) p) in *. set (sx := rs (fun x _ => x) p) in *. set (sx2 := rs (fun x _ => x * x) p) in *.
  match goal with |- context [sqrt ?a * sqrt ?b] => replace b with ((m * m) * a) by ring; replace (sqrt a * sqrt ((m * m) * a)) with (Rabs m * a) end.
  2:{ rewrite sqrt_mult by (try apply Rle_0_sqr; lra). fold (Rsqr m). rewrite sqrt_Rsqr_abs.
      rewrite <- (sqrt_sqrt (n * sx2 - sx * sx)) at 1 by lra. ring. }
  match goal with |- context [?c / (_ * ?a)] => replace c with (m * a) by ring; set (a' := a) in * end.
  split; intros Hm.
  - rewrite Rabs_pos_eq by lra. cbn [F RFlt]. field. lra.
  - rewrite Rabs_left by lra. cbn [F RFlt]. field. lra.
Qed.

Lemma corr_one_linear (p : list (R * R)) : two_x p -> two_y p -> Rabs (CorrelationCoefficient (fl := RFlt) p) = 1 ->
  exists m q, m <> 0 /\ forall x y, In (x, y) p -> y = m * x + q.
Proof.
  intros Hx Hy E. apply (proj2 (CS p Hx Hy)).
  pose proof (corr_sqr p Hx Hy) as S. pose proof (A_pos p Hx) as HA. pose proof (B_pos p Hy) as HB.
  assert (S1 : CorrelationCoefficient (fl := RFlt) p * CorrelationCoefficient (fl := RFlt) p = 1).
  { pose (r := (CorrelationCoefficient (fl := RFlt) p : R)). change (Rabs r = 1) in E. change (r * r = 1).
    rewrite <- (Rabs_pos_eq (r * r)) by apply Rle_0_sqr. rewrite Rabs_mult, E. ring. }
  rewrite S in S1.
  match type of S1 with ?a / ?b = 1 => assert (b <> 0) by (apply Rmult_integral_contrapositive; lra); assert (a = b) end.
  { match goal with |- ?a = ?b => replace a with (a / b * b) by (field; lra) end. rewrite S1. ring. }
  lra.
Qed.

Lemma corr_swap (p : list (R * R)) :
  CorrelationCoefficient (fl := RFlt) (map (fun q => (snd q, fst q)) p) = CorrelationCoefficient (fl := RFlt) p.
Proof.
  etransitivity; [apply corr_eq|]. etransitivity; [|symmetry; apply corr_eq].
  rewrite !rs_swap. rewrite (rs_ext (fun x y => y * x) (fun x y => x * y)) by (intros; ring).
  rewrite (Rmult_comm (sqrt _) (sqrt _)). rewrite (Rmult_comm (rs (fun _ y => y) p) (rs (fun x _ => x) p)). reflexivity.
Qed.

Lemma corr_affine (p : list (R * R)) (a b c d : R) : two_x p -> two_y p -> 0 < a -> 0 < c ->
  CorrelationCoefficient (fl := RFlt) (map (fun q => (a * fst q + b, c * snd q + d)%R) p) = CorrelationCoefficient (fl := RFlt) p.
Proof.
  intros Hx Hy Ha Hc. etransitivity; [apply corr_eq|]. etransitivity; [|symmetry; apply corr_eq].
  pose proof (A_pos p Hx) as HA. pose proof (B_pos p Hy) as HB.
  set (p' := map _ p).
  assert (E0 : rs (fun _ _ => 1) p' = rs (fun _ _ => 1) p).
  { unfold p'. clear. induction p as [|[x y] p IH]; cbn [rs map fst snd]; [ring|]. rewrite IH. ring. }
  assert (E1 : rs (fun x _ => x) p' = a * rs (fun x _ => x) p + b * rs (fun _ _ => 1) p).
  { unfold p'. clear. induction p as [|[x y] p IH]; cbn [rs map fst snd]; [ring|]. rewrite IH. ring. }
  assert (E2 : rs (fun _ y => y) p' = c * rs (fun _ y => y) p + d * rs (fun _ _ => 1) p).
  { unfold p'. clear. induction p as [|[x y] p IH]; cbn [rs map fst snd]; [ring|]. rewrite IH. ring. }
  assert (E3 : rs (fun x _ => x * x) p' = a * a * rs (fun x _ => x * x) p + 2 * (a * b * rs (fun x _ => x) p) + b * b * rs (fun _ _ => 1) p).
  { unfold p'. clear. induction p as [|[x y] p IH]; cbn [rs map fst snd]; [ring|]. rewrite IH. ring. }
  assert (E4 : rs (fun _ y => y * y) p' = c * c * rs (fun _ y => y * y) p + 2 * (c * d * rs (fun _ y => y) p) + d * d * rs (fun _ _ => 1) p).
  { unfold p'. clear. induction p as [|[x y] p IH]; cbn [rs map fst snd]; [ring|]. rewrite IH. ring. }
  assert (E5 : rs (fun x y => x * y) p' = a * c * rs (fun x y => x * y) p + a * d * rs (fun x _ => x) p + b * c * rs (fun _ y => y) p + b * d * rs (fun _ _ => 1) p).
  { unfold p'. clear. induction p as [|[x y] p IH]; cbn [rs map fst snd]; [ring|]. rewrite IH. ring. }
  rewrite E0, E1, E2, E3, E4, E5. clear E0 E1 E2 E3 E4 E5. clearbody p'.
  set (n := rs (fun _ _ => 1) p) in *. set (sx := rs (fun x _ => x) p) in *. set (sx2 := rs (fun x _ => x * x) p) in *.
  set (sy := rs (fun _ y => y) p) in *. set (sy2 := rs (fun _ y => y * y) p) in *. set (sxy := rs (fun x y => x * y) p).
  match goal with |- ?u / (sqrt ?v * sqrt ?w) = _ => replace u with (a * c * (n * sxy - sx * sy)) by ring;
    replace v with ((a * a) * (n * sx2 - sx * sx)) by ring; replace w with ((c * c) * (n * sy2 - sy * sy)) by ring end.
  rewrite (sqrt_mult (a * a)), (sqrt_mult (c * c)) by (try apply Rle_0_sqr; lra). rewrite !sqrt_square by lra.
  pose proof (sqrt_lt_R0 _ HA). pose proof (sqrt_lt_R0 _ HB).
  set (s1 := sqrt _) in *. set (s2 := sqrt _) in *. clearbody s1 s2. cbn [F RFlt]. field. lra.
Qed.
