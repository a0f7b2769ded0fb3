(** Lemmas for package interp: Len3, Len5, Len4Half. *)
From Coq Require Import ZArith Bool List Reals Lra Lia.
From Flocq Require Import Core.
From Verif Require Import GoInt GoFloat M_base M_interp S_base S_interp L_base.
Import ListNotations.
Local Open Scope R_scope.

Ltac rcbn := cbn -[IZR Rabs Rlt_bool Rle_bool Req_bool poly abscissa between].

(** Equations at type [F] of [RFlt] are equations between reals. *)
Ltac toR := match goal with |- @eq _ ?a ?b => change (@eq R a b) end.

Lemma list3 {A} (y : list A) : length y = 3%nat -> exists a b c, y = [a; b; c].
Proof. destruct y as [|a [|b [|c [|? ?]]]]; cbn; intros H; try discriminate. eauto. Qed.
Lemma list4 {A} (y : list A) : length y = 4%nat -> exists a b c d, y = [a; b; c; d].
Proof. destruct y as [|a [|b [|c [|d [|? ?]]]]]; cbn; intros H; try discriminate. eauto. Qed.
Lemma list5 {A} (y : list A) : length y = 5%nat -> exists a b c d e, y = [a; b; c; d; e].
Proof. destruct y as [|a [|b [|c [|d [|e [|? ?]]]]]]; cbn; intros H; try discriminate. eauto 10. Qed.

(** ** Len3 *)

Lemma NewLen3_Ok (x1 x3 : R) (y : list R) d : NewLen3 (fl := RFlt) x1 x3 y = Ok d ->
  x1 <> x3 /\ exists y0 y1 y2 : R, y = [y0; y1; y2] /\
  d = mkLen3 (fl := RFlt) x1 x3 y0 y1 y2 (y1 - y0) (y2 - y1) (y2 - y1 - (y1 - y0))
        (y1 - y0 + (y2 - y1)) (x3 + x1) (x3 - x1).
Proof.
  unfold NewLen3. destruct y as [|y0 [|y1 [|y2 [|? ?]]]]; try discriminate.
  rcbn. case Req_bool_spec; intros E; [discriminate|].
  intros H. injection H as <-. split; [congruence|]. eauto 10.
Qed.

Lemma NewLen3_total (x1 x3 : R) (y : list R) :
  (length y <> 3%nat -> NewLen3 (fl := RFlt) x1 x3 y = Err ErrorNot3) /\
  (length y = 3%nat -> x1 = x3 -> NewLen3 (fl := RFlt) x1 x3 y = Err ErrorNoXRange) /\
  (length y = 3%nat -> x1 <> x3 -> exists d, NewLen3 (fl := RFlt) x1 x3 y = Ok d).
Proof.
  unfold NewLen3. repeat split.
  - destruct y as [|y0 [|y1 [|y2 [|? ?]]]]; cbn; congruence.
  - intros H E. destruct (list3 y H) as [a [b [c ->]]]. rcbn. rewrite Req_bool_true by congruence. reflexivity.
  - intros H E. destruct (list3 y H) as [a [b [c ->]]]. rcbn. rewrite Req_bool_false by congruence. eauto.
Qed.

Lemma poly3 c x : (length c <= 3)%nat -> poly c x = nth 0 c 0 + nth 1 c 0 * x + nth 2 c 0 * x * x.
Proof.
  destruct c as [|a [|b [|d [|? ?]]]]; cbn [length]; intros H; try lia;
  rewrite ?poly_cons, poly_nil; cbn [nth]; ring.
Qed.
Lemma poly4 c x : (length c <= 4)%nat ->
  poly c x = nth 0 c 0 + nth 1 c 0 * x + nth 2 c 0 * x * x + nth 3 c 0 * x * x * x.
Proof.
  destruct c as [|a [|b [|d [|e [|? ?]]]]]; cbn [length]; intros H; try lia;
  rewrite ?poly_cons, poly_nil; cbn [nth]; ring.
Qed.
Lemma poly5 c x : (length c <= 5)%nat ->
  poly c x = nth 0 c 0 + nth 1 c 0 * x + nth 2 c 0 * x * x + nth 3 c 0 * x * x * x + nth 4 c 0 * x * x * x * x.
Proof.
  destruct c as [|a [|b [|d [|e [|f [|? ?]]]]]]; cbn [length]; intros H; try lia;
  rewrite ?poly_cons, poly_nil; cbn [nth]; ring.
Qed.

Section L3.
Variables (x1 x3 : R) (y : list R) (d : Len3 (fl := RFlt)).
Hypothesis (Hd : NewLen3 (fl := RFlt) x1 x3 y = Ok d).

Lemma Len3_reproduces : tabulates (Len3_InterpolateX (fl := RFlt) d) x1 x3 y.
Proof.
  destruct (NewLen3_Ok _ _ _ _ Hd) as [Hx [y0 [y1 [y2 [-> ->]]]]].
  intros k Hk. cbn [length] in *. unfold abscissa, Len3_InterpolateX, Len3_InterpolateN. rcbn.
  destruct k as [|[|[|k]]]; [| | |lia]; cbn [nth]; cbn -[IZR]; toR; field; lra.
Qed.

Lemma Len3_exact (f : R -> R) : poly_degree_le 2 f -> tabulates f x1 x3 y ->
  forall x, Len3_InterpolateX (fl := RFlt) d x = f x.
Proof.
  intros [c [Hc Hf]] Ht x.
  destruct (NewLen3_Ok _ _ _ _ Hd) as [Hx [y0 [y1 [y2 [-> ->]]]]].
  pose proof (Ht 0%nat ltac:(cbn; lia)) as E0. pose proof (Ht 1%nat ltac:(cbn; lia)) as E1.
  pose proof (Ht 2%nat ltac:(cbn; lia)) as E2.
  rewrite Hf, (poly3 _ _ Hc) in E0. rewrite Hf, (poly3 _ _ Hc) in E1. rewrite Hf, (poly3 _ _ Hc) in E2.
  rewrite Hf, (poly3 _ _ Hc). clear Ht. unfold abscissa in *. cbn [nth] in E0, E1, E2. cbn -[IZR] in E0, E1, E2.
  subst y0 y1 y2. unfold Len3_InterpolateX, Len3_InterpolateN. rcbn. toR. field. lra.
Qed.

Lemma Len3_N_X (n : R) : Len3_InterpolateN (fl := RFlt) d n = Len3_InterpolateX (fl := RFlt) d ((x1 + x3) / 2 + n * (x3 - x1) / 2)%R.
Proof.
  destruct (NewLen3_Ok _ _ _ _ Hd) as [Hx [y0 [y1 [y2 [-> ->]]]]].
  unfold Len3_InterpolateX. rcbn.
  replace ((2 / 1 * ((x1 + x3) / 2 + n * (x3 - x1) / 2) - (x3 + x1)) / (x3 - x1)) with n; [reflexivity|].
  field. lra.
Qed.

Lemma Len3_degree : poly_degree_le 2 (Len3_InterpolateX (fl := RFlt) d).
Proof.
  destruct (NewLen3_Ok _ _ _ _ Hd) as [Hx [y0 [y1 [y2 [-> ->]]]]].
  set (s := - (x3 + x1) / (x3 - x1)). set (t := 2 / (x3 - x1)).
  exists [y1 + s / 2 * (y2 - y0 + s * (y2 - y1 - (y1 - y0)));
          t / 2 * (y2 - y0) + t * s * (y2 - y1 - (y1 - y0));
          t * t / 2 * (y2 - y1 - (y1 - y0))].
  split; [cbn; lia|]. intros x. rewrite !poly_cons, poly_nil.
  unfold Len3_InterpolateX, Len3_InterpolateN, s, t. rcbn. toR. field. lra.
Qed.

Lemma Len3_NStrict (n : R) :
  (-1 <= n <= 1 -> Len3_InterpolateNStrict (fl := RFlt) d n = Ok (Len3_InterpolateN (fl := RFlt) d n)) /\
  (~ -1 <= n <= 1 -> Len3_InterpolateNStrict (fl := RFlt) d n = Err ErrorNOutOfRange).
Proof.
  unfold Len3_InterpolateNStrict. rcbn.
  case Rlt_bool_spec; case Rlt_bool_spec; intros; split; intros; cbn; try reflexivity; lra.
Qed.

Lemma between_n x : between x1 x3 x <-> -1 <= (2 * x - (x3 + x1)) / (x3 - x1) <= 1.
Proof.
  destruct (NewLen3_Ok _ _ _ _ Hd) as [Hx _].
  set (n := (2 * x - (x3 + x1)) / (x3 - x1)).
  assert (E : x = (x1 + x3) / 2 + n * (x3 - x1) / 2) by (unfold n; field; lra).
  clearbody n. subst x. unfold between, Rmin, Rmax. destruct (Rle_dec x1 x3).
  - assert (0 < x3 - x1) by lra. split; intros; nra.
  - assert (0 < x1 - x3) by lra. split; intros; nra.
Qed.

Lemma Len3_XStrict (x : R) :
  (between x1 x3 x -> Len3_InterpolateXStrict (fl := RFlt) d x = Ok (Len3_InterpolateX (fl := RFlt) d x)) /\
  (~ between x1 x3 x -> Len3_InterpolateXStrict (fl := RFlt) d x = Err ErrorXOutOfRange).
Proof.
  rewrite (between_n x). unfold Len3_InterpolateXStrict, Len3_InterpolateX.
  destruct (NewLen3_Ok _ _ _ _ Hd) as [Hx [y0 [y1 [y2 [-> ->]]]]].
  cbn [l3_xSum l3_xDiff]. cbn [fdiv fsub fmul RFlt]. change (fconst 2 1) with (2 / 1)%R.
  replace (2 / 1) with 2 by field.
  unfold Len3_InterpolateNStrict. rcbn.
  case Rlt_bool_spec; case Rlt_bool_spec; intros; split; intros; cbn; try reflexivity; lra.
Qed.

Lemma Len3_curve (x : R) : Len3_InterpolateX (fl := RFlt) d x =
  let n := (2 * x - (x3 + x1)) / (x3 - x1) in
  nth 1 y 0 + n / 2 * (nth 2 y 0 - nth 0 y 0) + n * n / 2 * (nth 2 y 0 - 2 * nth 1 y 0 + nth 0 y 0).
Proof.
  destruct (NewLen3_Ok _ _ _ _ Hd) as [Hx [y0 [y1 [y2 [-> ->]]]]].
  unfold Len3_InterpolateX, Len3_InterpolateN. rcbn. toR. field. lra.
Qed.
End L3.

(** Derivative of a quadratic. *)
Lemma quad_deriv A B C x : derivable_pt_lim (fun x => A + B * x + C * x * x) x (B + 2 * C * x).
Proof.
  intros eps He. exists (mkposreal (eps / (Rabs C + 1)) ltac:(apply Rdiv_lt_0_compat; [lra|pose proof (Rabs_pos C); lra])).
  intros h Hh Hd. cbn in Hd.
  replace ((A + B * (x + h) + C * (x + h) * (x + h) - (A + B * x + C * x * x)) / h - (B + 2 * C * x)) with (C * h) by (field; auto).
  rewrite Rabs_mult. pose proof (Rabs_pos C). pose proof (Rabs_pos h).
  apply Rle_lt_trans with ((Rabs C) * (eps / (Rabs C + 1))).
  - apply Rmult_le_compat_l; lra.
  - apply Rmult_lt_reg_r with (Rabs C + 1); [lra|].
    replace (Rabs C * (eps / (Rabs C + 1)) * (Rabs C + 1)) with (Rabs C * eps) by (field; lra). nra.
Qed.

Lemma derivable_ext f g x l : (forall x, f x = g x) -> derivable_pt_lim f x l -> derivable_pt_lim g x l.
Proof.
  intros E H eps He. destruct (H eps He) as [dl Hdl]. exists dl. intros h Hh Hd. rewrite <- !E. auto.
Qed.

Section L3E.
Variables (x1 x3 : R) (y : list R) (d : Len3 (fl := RFlt)).
Hypothesis (Hd : NewLen3 (fl := RFlt) x1 x3 y = Ok d).

Let f := Len3_InterpolateX (fl := RFlt) d.
Let c := nth 2 y 0 - 2 * nth 1 y 0 + nth 0 y 0.
Let s := nth 2 y 0 - nth 0 y 0.

Lemma Len3_deriv x : derivable_pt_lim f x ((s + 2 * c * ((2 * x - (x3 + x1)) / (x3 - x1))) / (x3 - x1)).
Proof.
  destruct (NewLen3_Ok _ _ _ _ Hd) as [Hx _].
  set (n0 := - (x3 + x1) / (x3 - x1)). set (t := 2 / (x3 - x1)).
  apply derivable_ext with (fun x => (nth 1 y 0 + n0 / 2 * s + n0 * n0 / 2 * c) + (t / 2 * s + n0 * t * c) * x + (t * t / 2 * c) * x * x).
  - intros x'. unfold f. rewrite (Len3_curve _ _ _ _ Hd). cbv zeta. fold c s. unfold n0, t. field. lra.
  - replace ((s + 2 * c * ((2 * x - (x3 + x1)) / (x3 - x1))) / (x3 - x1)) with
      ((t / 2 * s + n0 * t * c) + 2 * (t * t / 2 * c) * x) by (unfold n0, t; field; lra).
    apply quad_deriv.
Qed.

Lemma Len3_stationary x : stationary f x <-> s + 2 * c * ((2 * x - (x3 + x1)) / (x3 - x1)) = 0.
Proof.
  destruct (NewLen3_Ok _ _ _ _ Hd) as [Hx _]. unfold stationary.
  pose proof (Len3_deriv x) as H. split; intros E.
  - pose proof (uniqueness_limite _ _ _ _ H E) as U.
    apply Rmult_eq_reg_r with (/ (x3 - x1)); [|apply Rinv_neq_0_compat; lra].
    unfold Rdiv at 2 in U. rewrite Rmult_0_l. exact U.
  - rewrite E in H. replace (0 / (x3 - x1)) with 0 in H by (field; lra). exact H.
Qed.

Lemma Len3_Extremum_ok (x v : R) : Len3_Extremum (fl := RFlt) d = Ok (x, v) ->
  between x1 x3 x /\ v = f x /\ stationary f x /\ (is_maximum f x \/ is_minimum f x).
Proof.
  intros H.
  assert (E : c <> 0 /\ -1 <= s / (-2 * c) <= 1 /\ x = (x1 + x3) / 2 + s / (-2 * c) * (x3 - x1) / 2 /\
    v = nth 1 y 0 - s * s / (8 * c)).
  { revert H. unfold Len3_Extremum, c, s.
    destruct (NewLen3_Ok _ _ _ _ Hd) as [Hx [y0 [y1 [y2 [-> ->]]]]]. rcbn.
    replace (y2 - y1 - (y1 - y0)) with (y2 - 2 * y1 + y0) by ring.
    replace (y1 - y0 + (y2 - y1)) with (y2 - y0) by ring.
    replace (0 / 1) with 0 by field. replace (-2 / 1) with (-2) by field. replace (-1 / 1) with (-1) by field.
    replace (1 / 1) with 1 by field. replace (8 / 1) with 8 by field.
    case Req_bool_spec; [discriminate|]. intros C.
    case Rlt_bool_spec; [discriminate|]; case Rlt_bool_spec; [discriminate|]; intros N1 N2.
    cbn [orb]. intros H. injection H as <- <-. repeat split; try lra. }
  destruct E as [C [N [-> ->]]]. set (n := s / (-2 * c)) in *.
  destruct (NewLen3_Ok _ _ _ _ Hd) as [Hx _].
  set (x := (x1 + x3) / 2 + n * (x3 - x1) / 2).
  assert (En : (2 * x - (x3 + x1)) / (x3 - x1) = n) by (unfold x; field; lra).
  assert (Sn : s = -2 * c * n) by (unfold n; field; lra).
  repeat split.
  - apply (between_n _ _ _ _ Hd). rewrite En. exact N.
  - apply (between_n _ _ _ _ Hd). rewrite En. exact N.
  - unfold f. rewrite (Len3_curve _ _ _ _ Hd). cbv zeta. rewrite En. fold c s. rewrite Sn. field. lra.
  - apply Len3_stationary. rewrite En, Sn. ring.
  - destruct (Rle_dec 0 c) as [P|P].
    + right. intros x'. unfold f. rewrite !(Len3_curve _ _ _ _ Hd). cbv zeta. rewrite En. fold c s. rewrite Sn.
      set (m := (2 * x' - (x3 + x1)) / (x3 - x1)). pose proof (Rle_0_sqr (m - n)). unfold Rsqr in H0. nra.
    + left. intros x'. unfold f. rewrite !(Len3_curve _ _ _ _ Hd). cbv zeta. rewrite En. fold c s. rewrite Sn.
      set (m := (2 * x' - (x3 + x1)) / (x3 - x1)). pose proof (Rle_0_sqr (m - n)). unfold Rsqr in H0. nra.
Qed.

Lemma Len3_Extremum_err :
  (Len3_Extremum (fl := RFlt) d = Err ErrorNoExtremum <-> c = 0) /\
  (Len3_Extremum (fl := RFlt) d = Err ErrorExtremumOutside <->
     c <> 0 /\ forall x, stationary f x -> ~ between x1 x3 x).
Proof.
  assert (G : c <> 0 -> ((forall x, stationary f x -> ~ between x1 x3 x) <-> ~ -1 <= s / (-2 * c) <= 1)).
  { intros C. destruct (NewLen3_Ok _ _ _ _ Hd) as [Hx _].
    set (n := s / (-2 * c)). assert (Sn : s = -2 * c * n) by (unfold n; field; lra).
    set (x := (x1 + x3) / 2 + n * (x3 - x1) / 2).
    assert (En : (2 * x - (x3 + x1)) / (x3 - x1) = n) by (unfold x; field; lra). split.
    - intros H N. apply (H x).
      + apply Len3_stationary. rewrite En, Sn. ring.
      + apply (between_n _ _ _ _ Hd). rewrite En. exact N.
    - intros N x' Sx B. apply N. apply Len3_stationary in Sx. apply (between_n _ _ _ _ Hd) in B.
      set (m := (2 * x' - (x3 + x1)) / (x3 - x1)) in *.
      assert (m = n) by (apply Rmult_eq_reg_l with (2 * c); lra). congruence. }
  assert (E : Len3_Extremum (fl := RFlt) d =
    if Req_bool c 0 then Err ErrorNoExtremum
    else if Rlt_bool (s / (-2 * c)) (-1) || Rlt_bool 1 (s / (-2 * c)) then Err ErrorExtremumOutside
    else Ok ((5 / 10 * (x3 + x1 + (x3 - x1) * (s / (-2 * c))))%R, (nth 1 y 0 - s * s / (8 * c))%R)).
  { unfold Len3_Extremum, c, s.
    destruct (NewLen3_Ok _ _ _ _ Hd) as [Hx [y0 [y1 [y2 [-> ->]]]]]. rcbn.
    replace (y2 - y1 - (y1 - y0)) with (y2 - 2 * y1 + y0) by ring.
    replace (y1 - y0 + (y2 - y1)) with (y2 - y0) by ring.
    replace (0 / 1) with 0 by field. replace (-2 / 1) with (-2) by field. replace (-1 / 1) with (-1) by field.
    replace (1 / 1) with 1 by field. replace (8 / 1) with 8 by field. reflexivity. }
  rewrite E. case Req_bool_spec; intros C.
  - split; split; try congruence. intros [H _]. contradiction.
  - split; split; try (destruct (_ || _); congruence); try contradiction.
    + intros H. split; [exact C|]. apply (G C). revert H.
      case Rlt_bool_spec; case Rlt_bool_spec; cbn; try discriminate; intros; lra.
    + intros [_ H]. apply (G C) in H. case Rlt_bool_spec; case Rlt_bool_spec; cbn; try reflexivity; intros; lra.
Qed.
End L3E.

(** ** Len4Half *)
Lemma Len4Half_exact (f : R -> R) (x0 h : R) (y : list R) : poly_degree_le 3 f -> length y = 4%nat ->
  (forall k, (k < 4)%nat -> nth k y 0 = f (x0 + INR k * h)) ->
  Len4Half (fl := RFlt) y = Ok (f (x0 + 3 / 2 * h)).
Proof.
  intros [c [Hc Hf]] Hl Ht. destruct (list4 y Hl) as [y0 [y1 [y2 [y3 ->]]]].
  pose proof (Ht 0%nat ltac:(lia)) as E0. pose proof (Ht 1%nat ltac:(lia)) as E1.
  pose proof (Ht 2%nat ltac:(lia)) as E2. pose proof (Ht 3%nat ltac:(lia)) as E3.
  rewrite Hf, (poly4 _ _ Hc) in E0. rewrite Hf, (poly4 _ _ Hc) in E1. rewrite Hf, (poly4 _ _ Hc) in E2. rewrite Hf, (poly4 _ _ Hc) in E3.
  rewrite Hf, (poly4 _ _ Hc). cbn [nth] in E0, E1, E2, E3. cbn [INR] in *. subst.
  unfold Len4Half. rcbn. f_equal. toR. field.
Qed.
Lemma Len4Half_err (y : list R) : length y <> 4%nat <-> Len4Half (fl := RFlt) y = Err ErrorNot4.
Proof. destruct y as [|a [|b [|c [|d [|? ?]]]]]; cbn; split; congruence. Qed.

(** ** Len5 *)
Lemma NewLen5_total (x1 x5 : R) (y : list R) :
  (length y <> 5%nat -> NewLen5 (fl := RFlt) x1 x5 y = Err ErrorNot5) /\
  (length y = 5%nat -> x1 = x5 -> NewLen5 (fl := RFlt) x1 x5 y = Err ErrorNoXRange) /\
  (length y = 5%nat -> x1 <> x5 -> exists d, NewLen5 (fl := RFlt) x1 x5 y = Ok d).
Proof.
  unfold NewLen5. repeat split.
  - destruct y as [|y0 [|y1 [|y2 [|y3 [|y4 [|? ?]]]]]]; cbn; congruence.
  - intros H E. destruct (list5 y H) as [a [b [c [e [f ->]]]]]. rcbn. rewrite Req_bool_true by congruence. reflexivity.
  - intros H E. destruct (list5 y H) as [a [b [c [e [f ->]]]]]. rcbn. rewrite Req_bool_false by congruence. eauto.
Qed.

(** The coefficients of the quartic in n through the five values. *)
Definition q1 (y0 y1 y2 y3 y4 : R) := (y0 - 8 * y1 + 8 * y3 - y4) / 12.
Definition q2 (y0 y1 y2 y3 y4 : R) := (- y0 + 16 * y1 - 30 * y2 + 16 * y3 - y4) / 24.
Definition q3 (y0 y1 y2 y3 y4 : R) := (- y0 + 2 * y1 - 2 * y3 + y4) / 12.
Definition q4 (y0 y1 y2 y3 y4 : R) := (y0 - 4 * y1 + 6 * y2 - 4 * y3 + y4) / 24.

Lemma NewLen5_Ok (x1 x5 : R) (y : list R) d : NewLen5 (fl := RFlt) x1 x5 y = Ok d ->
  x1 <> x5 /\ exists y0 y1 y2 y3 y4 : R, y = [y0; y1; y2; y3; y4] /\
  (forall n : R, Len5_InterpolateN (fl := RFlt) d n =
     y2 + n * (q1 y0 y1 y2 y3 y4 + n * (q2 y0 y1 y2 y3 y4 + n * (q3 y0 y1 y2 y3 y4 + n * q4 y0 y1 y2 y3 y4)))) /\
  l5_xSum d = (x5 + x1)%R /\ l5_xDiff d = (x5 - x1)%R.
Proof.
  unfold NewLen5. destruct y as [|y0 [|y1 [|y2 [|y3 [|y4 [|? ?]]]]]]; try discriminate.
  rcbn. case Req_bool_spec; intros E; [discriminate|].
  intros H. injection H as <-. split; [congruence|]. exists y0, y1, y2, y3, y4.
  split; [reflexivity|]. split; [|split; reflexivity].
  intros n. unfold Len5_InterpolateN, horner, Horner. rcbn. unfold q1, q2, q3, q4. toR. field.
Qed.

Section L5.
Variables (x1 x5 : R) (y : list R) (d : Len5 (fl := RFlt)).
Hypothesis (Hd : NewLen5 (fl := RFlt) x1 x5 y = Ok d).

Lemma Len5_X_N (x : R) : Len5_InterpolateX (fl := RFlt) d x = Len5_InterpolateN (fl := RFlt) d ((4 * x - 2 * (x5 + x1)) / (x5 - x1))%R.
Proof.
  destruct (NewLen5_Ok _ _ _ _ Hd) as [Hx [y0 [y1 [y2 [y3 [y4 [Hy [HN [Hs Hdf]]]]]]]]].
  unfold Len5_InterpolateX. cbv zeta. rewrite Hs, Hdf. f_equal. rcbn. toR. field. lra.
Qed.

Lemma Len5_N_X (n : R) : Len5_InterpolateN (fl := RFlt) d n = Len5_InterpolateX (fl := RFlt) d ((x1 + x5) / 2 + n * (x5 - x1) / 4)%R.
Proof.
  rewrite Len5_X_N. f_equal. destruct (NewLen5_Ok _ _ _ _ Hd) as [Hx _]. toR. field. lra.
Qed.

Lemma Len5_reproduces : tabulates (Len5_InterpolateX (fl := RFlt) d) x1 x5 y.
Proof.
  intros k Hk. rewrite Len5_X_N.
  destruct (NewLen5_Ok _ _ _ _ Hd) as [Hx [y0 [y1 [y2 [y3 [y4 [-> [HN _]]]]]]]].
  rewrite HN. cbn [length] in *. unfold abscissa, q1, q2, q3, q4.
  destruct k as [|[|[|[|[|k]]]]]; [| | | | |lia]; cbn [nth]; cbn -[IZR]; toR; field; lra.
Qed.

Lemma Len5_exact (f : R -> R) : poly_degree_le 4 f -> tabulates f x1 x5 y ->
  forall x, Len5_InterpolateX (fl := RFlt) d x = f x.
Proof.
  intros [c [Hc Hf]] Ht x. rewrite Len5_X_N.
  destruct (NewLen5_Ok _ _ _ _ Hd) as [Hx [y0 [y1 [y2 [y3 [y4 [-> [HN _]]]]]]]]. rewrite HN.
  pose proof (Ht 0%nat ltac:(cbn; lia)) as E0. pose proof (Ht 1%nat ltac:(cbn; lia)) as E1.
  pose proof (Ht 2%nat ltac:(cbn; lia)) as E2. pose proof (Ht 3%nat ltac:(cbn; lia)) as E3.
  pose proof (Ht 4%nat ltac:(cbn; lia)) as E4.
  rewrite Hf, (poly5 _ _ Hc) in E0. rewrite Hf, (poly5 _ _ Hc) in E1. rewrite Hf, (poly5 _ _ Hc) in E2. rewrite Hf, (poly5 _ _ Hc) in E3. rewrite Hf, (poly5 _ _ Hc) in E4.
  rewrite Hf, (poly5 _ _ Hc). clear Ht. unfold abscissa in *.
  cbn [nth] in E0, E1, E2, E3, E4. cbn -[IZR] in E0, E1, E2, E3, E4.
  subst y0 y1 y2 y3 y4. unfold q1, q2, q3, q4. toR. field. lra.
Qed.

Lemma Len5_degree : poly_degree_le 4 (Len5_InterpolateX (fl := RFlt) d).
Proof.
  destruct (NewLen5_Ok _ _ _ _ Hd) as [Hx [y0 [y1 [y2 [y3 [y4 [Hy [HN _]]]]]]]].
  set (a := q1 y0 y1 y2 y3 y4) in *. set (b := q2 y0 y1 y2 y3 y4) in *.
  set (c := q3 y0 y1 y2 y3 y4) in *. set (e := q4 y0 y1 y2 y3 y4) in *.
  set (s := - 2 * (x5 + x1) / (x5 - x1)). set (t := 4 / (x5 - x1)).
  exists [y2 + a * s + b * s ^ 2 + c * s ^ 3 + e * s ^ 4;
          t * (a + 2 * b * s + 3 * c * s ^ 2 + 4 * e * s ^ 3);
          t ^ 2 * (b + 3 * c * s + 6 * e * s ^ 2);
          t ^ 3 * (c + 4 * e * s); t ^ 4 * e].
  split; [cbn; lia|]. intros x. rewrite !poly_cons, poly_nil, Len5_X_N, HN.
  replace ((4 * x - 2 * (x5 + x1)) / (x5 - x1)) with (s + t * x) by (unfold s, t; field; lra).
  ring.
Qed.

Lemma Len5_NStrict (n : R) :
  (-1 <= n <= 1 -> Len5_InterpolateNStrict (fl := RFlt) d n = Ok (Len5_InterpolateN (fl := RFlt) d n)) /\
  (~ -1 <= n <= 1 -> Len5_InterpolateNStrict (fl := RFlt) d n = Err ErrorNOutOfRange).
Proof.
  unfold Len5_InterpolateNStrict, Len5_InterpolateN. rcbn.
  case Rlt_bool_spec; case Rlt_bool_spec; intros; split; intros; cbn; try reflexivity; lra.
Qed.

Lemma between_n5 x :
  between ((3 * x1 + x5) / 4) ((x1 + 3 * x5) / 4) x <-> -1 <= (4 * x - 2 * (x5 + x1)) / (x5 - x1) <= 1.
Proof.
  destruct (NewLen5_Ok _ _ _ _ Hd) as [Hx _].
  set (n := (4 * x - 2 * (x5 + x1)) / (x5 - x1)).
  assert (E : x = (x1 + x5) / 2 + n * (x5 - x1) / 4) by (unfold n; field; lra).
  clearbody n. subst x. unfold between, Rmin, Rmax. destruct (Rle_dec _ _).
  - assert (0 < x5 - x1) by lra. split; intros; nra.
  - assert (0 < x1 - x5) by lra. split; intros; nra.
Qed.

Lemma Len5_XStrict (x : R) :
  (between ((3 * x1 + x5) / 4) ((x1 + 3 * x5) / 4) x ->
     Len5_InterpolateXStrict (fl := RFlt) d x = Ok (Len5_InterpolateX (fl := RFlt) d x)) /\
  (~ between ((3 * x1 + x5) / 4) ((x1 + 3 * x5) / 4) x ->
     Len5_InterpolateXStrict (fl := RFlt) d x = Err ErrorXOutOfRange).
Proof.
  rewrite (between_n5 x). unfold Len5_InterpolateXStrict. rewrite Len5_X_N. cbv zeta.
  destruct (NewLen5_Ok _ _ _ _ Hd) as [Hx [y0 [y1 [y2 [y3 [y4 [Hy [HN [-> ->]]]]]]]]].
  change (fconst 4 1) with (4 / 1)%R. change (fconst 2 1) with (2 / 1)%R.
  cbn [fdiv fsub fmul RFlt].
  replace (4 / 1) with 4 by field. replace (2 / 1) with 2 by field.
  set (n := (4 * x - 2 * (x5 + x1)) / (x5 - x1)).
  destruct (Len5_NStrict n) as [A B]. split; intros H; [rewrite A by exact H | rewrite B by exact H]; reflexivity.
Qed.
End L5.

Lemma Len5_XStrict_ends (x1 x5 : R) (y : list R) d : NewLen5 (fl := RFlt) x1 x5 y = Ok d ->
  between x1 x5 x1 /\ Len5_InterpolateXStrict (fl := RFlt) d x1 = Err ErrorXOutOfRange /\
  between x1 x5 x5 /\ Len5_InterpolateXStrict (fl := RFlt) d x5 = Err ErrorXOutOfRange.
Proof.
  intros Hd. destruct (NewLen5_Ok _ _ _ _ Hd) as [Hx _].
  assert (A : between x1 x5 x1 /\ between x1 x5 x5).
  { unfold between, Rmin, Rmax. destruct (Rle_dec x1 x5); lra. }
  split; [tauto|]. split; [|split; [tauto|]]; apply (Len5_XStrict x1 x5 y d Hd);
    rewrite (between_n5 x1 x5 y d Hd).
  - replace ((4 * x1 - 2 * (x5 + x1)) / (x5 - x1)) with (-2) by (field; lra). lra.
  - replace ((4 * x5 - 2 * (x5 + x1)) / (x5 - x1)) with 2 by (field; lra). lra.
Qed.
