(** Lemmas for interp.Len3ForInterpolateX. *)
From Coq Require Import ZArith Bool List Reals Lra Lia ZifyBool ZifyNat.
From Flocq Require Import Core.
From Verif Require Import GoInt GoFloat M_base M_interp S_base S_interp L_base L_interp.
Import ListNotations.
Local Open Scope R_scope.

Lemma three_rows {A} (d : A) : forall (y : list A) k, (k + 2 < length y)%nat ->
  firstn 3 (skipn k y) = [nth k y d; nth (k + 1) y d; nth (k + 2) y d].
Proof.
  intros y k. revert y. induction k as [|k IH]; intros y H.
  - destruct y as [|a [|b [|c t]]]; cbn in *; try lia. reflexivity.
  - destruct y as [|a y]; cbn [length] in H; [lia|]. cbn [skipn Nat.add nth].
    rewrite IH by lia. reflexivity.
Qed.

Lemma clamp_nearest t n m k j : 0 <= t <= IZR (n - 1) -> (3 <= n)%Z ->
  m = Ztrunc (t + 5 / 10) ->
  k = (if m <? 1 then 1 else if n - 2 <? m then n - 2 else m)%Z -> (1 <= j <= n - 2)%Z ->
  Rabs (t - IZR k) <= Rabs (t - IZR j).
Proof.
  intros Ht Hn Hm Hk Hj.
  assert (Em : m = Zfloor (t + 5 / 10)) by (rewrite Hm; apply Ztrunc_floor; lra).
  pose proof (Zfloor_lb (t + 5 / 10)) as L. pose proof (Zfloor_ub (t + 5 / 10)) as U. rewrite <- Em in L, U. clear Hm Em.
  rewrite minus_IZR in Ht.
  destruct (Z.ltb_spec m 1).
  - subst k. assert (Hm : IZR m <= 0) by (apply IZR_le; lia). assert (1 <= IZR j) by (apply IZR_le; lia).
    rewrite (Rabs_left1 (t - 1)), (Rabs_left1 (t - IZR j)) by lra. lra.
  - destruct (Z.ltb_spec (n - 2) m).
    + assert (Hm : IZR (n - 1) <= IZR m) by (apply IZR_le; lia). assert (Hj' : IZR j <= IZR (n - 2)) by (apply IZR_le; lia).
      subst k. rewrite !minus_IZR in *. rewrite (Rabs_right (t - (IZR n - 2))), (Rabs_right (t - IZR j)) by lra. lra.
    + subst k. destruct (Z.lt_trichotomy j m) as [Q|[->|Q]]; [|lra|].
      * assert (IZR j <= IZR m - 1) by (rewrite <- minus_IZR; apply IZR_le; lia).
        rewrite (Rabs_right (t - IZR j)) by lra. apply Rabs_le. lra.
      * assert (IZR m + 1 <= IZR j) by (rewrite <- plus_IZR; apply IZR_le; lia).
        rewrite (Rabs_left1 (t - IZR j)) by lra. apply Rabs_le. lra.
Qed.

Lemma in64_fits (z : Z) : (0 <= z < 4611686018427387904)%Z -> in64b z = true.
Proof. unfold in64b, two63. lia. Qed.

Lemma Len3For_spec unspec (x x1 xn : R) (y : list R) :
  (3 <= length y)%nat -> (Z.of_nat (length y) < 4611686018427387904)%Z -> x1 <> xn ->
  let n := Z.of_nat (length y) in
  exists k d, (1 <= k)%nat /\ (k + 2 <= length y)%nat /\
    Len3ForInterpolateX (fl := RFlt) unspec x x1 xn y = Ok d /\
    NewLen3 (fl := RFlt) (abscissa x1 xn n (Z.of_nat k - 1)) (abscissa x1 xn n (Z.of_nat k + 1))
      [nth (k - 1) y 0; nth k y 0; nth (k + 1) y 0] = Ok d /\
    (between x1 xn x -> forall j, (1 <= j)%nat -> (j + 2 <= length y)%nat ->
      Rabs (x - abscissa x1 xn n (Z.of_nat k)) <= Rabs (x - abscissa x1 xn n (Z.of_nat j))).
Proof.
  intros H3 Hbig Hx n. unfold Len3ForInterpolateX. change (@length (@F RFlt) y) with (@length R y). fold n.
  destruct (Z.ltb_spec 3 n) as [L|L].
  - assert (Hn : 0 < IZR (n - 1)) by (apply IZR_lt; unfold n; lia).
    assert (Ei : (xn - x1) / IZR (n - 1) <> 0).
    { intros E. apply Rmult_integral in E. destruct E as [E|E]; [lra|]. revert E. apply Rinv_neq_0_compat. lra. }
    cbn -[IZR Z.ltb firstn skipn Req_bool Rint64 abscissa NewLen3].
    replace (0 / 1) with 0 by field. rewrite Req_bool_false by exact Ei.
    set (v := (x - x1) / ((xn - x1) / IZR (n - 1)) + 5 / 10).
    set (m := match Rint64 v with Some k => k | None => unspec v end).
    remember (if m <? 1 then 1 else if n - 2 <? m then n - 2 else m)%Z as k eqn:Ek.
    assert (Hk : (1 <= k <= n - 2)%Z).
    { subst k. destruct (Z.ltb_spec m 1); [lia|]. destruct (Z.ltb_spec (n - 2) m); lia. }
    exists (Z.to_nat k).
    assert (Hkn : (Z.to_nat k + 2 <= length y)%nat) by (unfold n in *; lia).
    rewrite (three_rows (0 : R) y) by lia.
    replace (Z.to_nat (k - 1) + 1)%nat with (Z.to_nat k) by lia.
    replace (Z.to_nat (k - 1) + 2)%nat with (Z.to_nat k + 1)%nat by lia.
    replace (Z.to_nat (k - 1)) with (Z.to_nat k - 1)%nat by lia.
    rewrite Z2Nat.id by lia.
    assert (EX : forall i, abscissa x1 xn n i = x1 + IZR i * ((xn - x1) / IZR (n - 1))).
    { intros i. unfold abscissa. field. lra. }
    rewrite !EX.
    destruct (NewLen3_total (x1 + IZR (k - 1) * ((xn - x1) / IZR (n - 1))) (x1 + IZR (k + 1) * ((xn - x1) / IZR (n - 1)))
       [nth (Z.to_nat k - 1) y 0; nth (Z.to_nat k) y 0; nth (Z.to_nat k + 1) y 0]) as [_ [_ T]].
    destruct T as [d Hd]; [reflexivity| |].
    { rewrite minus_IZR, plus_IZR. intros E. apply Ei. lra. }
    exists d. split; [lia|]. split; [lia|]. split; [exact Hd|]. split; [exact Hd|].
    intros B j Hj1 Hj2. rewrite EX.
    set (t := (x - x1) / ((xn - x1) / IZR (n - 1))).
    assert (Ht : 0 <= t <= IZR (n - 1)).
    { assert (Et : t = (x - x1) / (xn - x1) * IZR (n - 1)) by (unfold t; field; lra).
      assert (0 <= (x - x1) / (xn - x1) <= 1); [|rewrite Et; nra].
      set (s := (x - x1) / (xn - x1)). assert (Es : x = x1 + s * (xn - x1)) by (unfold s; field; lra).
      clearbody s. revert B. subst x. unfold between, Rmin, Rmax. destruct (Rle_dec x1 xn); intros B; nra. }
    assert (Em : m = Ztrunc (t + 5 / 10)).
    { unfold m. fold t in v. unfold Rint64. unfold v. rewrite in64_fits; [reflexivity|].
      rewrite Ztrunc_floor by lra. split.
      - apply Zfloor_lub. cbn. lra.
      - apply Z.le_lt_trans with n; [|exact Hbig].
        apply le_IZR. eapply Rle_trans; [apply Zfloor_lb|]. rewrite minus_IZR in Ht. lra. }
    assert (Exx : x = x1 + t * ((xn - x1) / IZR (n - 1))) by (unfold t; field; split; lra).
    rewrite Exx at 1 2.
    replace (x1 + t * ((xn - x1) / IZR (n - 1)) - (x1 + IZR k * ((xn - x1) / IZR (n - 1)))) with ((t - IZR k) * ((xn - x1) / IZR (n - 1))) by ring.
    replace (x1 + t * ((xn - x1) / IZR (n - 1)) - (x1 + IZR (Z.of_nat j) * ((xn - x1) / IZR (n - 1)))) with ((t - IZR (Z.of_nat j)) * ((xn - x1) / IZR (n - 1))) by ring.
    rewrite !Rabs_mult. apply Rmult_le_compat_r; [apply Rabs_pos|].
    apply (clamp_nearest t n m k); auto; unfold n in *; lia.
  - assert (E3 : length y = 3%nat) by (unfold n in L; lia).
    exists 1%nat. destruct (list3 y E3) as [a [b [c ->]]]. cbn [length] in *.
    destruct (NewLen3_total x1 xn [a; b; c]) as [_ [_ T]]. destruct (T eq_refl Hx) as [d Hd].
    exists d. split; [lia|]. split; [lia|]. split; [exact Hd|]. split.
    + rewrite <- Hd. cbn [nth Nat.sub Nat.add]. f_equal; unfold abscissa, n; cbn -[IZR]; toR; field.
    + intros _ j H1 H2. replace j with 1%nat by lia. lra.
Qed.

Lemma Len3For_errors unspec (x x1 xn : R) (y : list R) :
  ((length y < 3)%nat -> Len3ForInterpolateX (fl := RFlt) unspec x x1 xn y = Err ErrorNot3) /\
  ((3 <= length y)%nat -> x1 = xn -> Len3ForInterpolateX (fl := RFlt) unspec x x1 xn y = Err ErrorNoXRange).
Proof.
  unfold Len3ForInterpolateX. change (@length (@F RFlt) y) with (@length R y). split.
  - intros H. destruct (Z.ltb_spec 3 (Z.of_nat (length y))); [lia|].
    apply (proj1 (NewLen3_total x1 xn y)). lia.
  - intros H ->. destruct (Z.ltb_spec 3 (Z.of_nat (length y))).
    + cbn -[IZR Z.ltb firstn skipn Req_bool Rint64 abscissa NewLen3].
      rewrite Req_bool_true; [reflexivity|]. unfold Rdiv. ring.
    + apply (proj1 (proj2 (NewLen3_total xn xn y))); [lia|reflexivity].
Qed.

(** Table abscissae reproduce table values. *)
Lemma Len3For_reproduces unspec (x1 xn : R) (y : list R) i d :
  (3 <= length y)%nat -> (Z.of_nat (length y) < 4611686018427387904)%Z -> x1 <> xn -> (i < length y)%nat ->
  let x := abscissa x1 xn (Z.of_nat (length y)) (Z.of_nat i) in
  Len3ForInterpolateX (fl := RFlt) unspec x x1 xn y = Ok d ->
  Len3_InterpolateX (fl := RFlt) d x = nth i y 0.
Proof.
  intros H3 Hbig Hx Hi x Hd.
  destruct (Len3For_spec unspec x x1 xn y H3 Hbig Hx) as [k [d' [K1 [K2 [E1 [E2 Hn]]]]]].
  assert (d' = d) by congruence. subst d'. clear E1.
  set (n := Z.of_nat (length y)) in *.
  assert (Hn1 : 0 < IZR (n - 1)) by (apply IZR_lt; unfold n; lia).
  assert (B : between x1 xn x).
  { unfold x, abscissa. set (s := IZR (Z.of_nat i) / IZR (n - 1)).
    assert (0 <= s <= 1).
    { split.
      - apply Rmult_le_pos; [apply IZR_le; lia|]. left. apply Rinv_0_lt_compat. lra.
      - apply Rmult_le_reg_r with (IZR (n - 1)); [lra|]. unfold s.
        replace (IZR (Z.of_nat i) / IZR (n - 1) * IZR (n - 1)) with (IZR (Z.of_nat i)) by (field; lra).
        rewrite Rmult_1_l. apply IZR_le. unfold n. lia. }
    replace (x1 + IZR (Z.of_nat i) * (xn - x1) / IZR (n - 1)) with (x1 + s * (xn - x1)) by (unfold s; field; lra).
    unfold between, Rmin, Rmax. destruct (Rle_dec x1 xn); nra. }
  specialize (Hn B).
  pose proof (Len3_reproduces _ _ _ _ E2) as Rep.
  assert (Ab : forall p q, abscissa (abscissa x1 xn n (Z.of_nat k - 1)) (abscissa x1 xn n (Z.of_nat k + 1)) 3 p = abscissa x1 xn n q <-> (q = Z.of_nat k - 1 + p)%Z).
  { intros p q. unfold abscissa. cbn -[IZR Z.sub Z.add]. change (IZR (3 - 1)) with 2.
    rewrite (minus_IZR (Z.of_nat k) 1), (plus_IZR (Z.of_nat k) 1). split.
    - intros E. apply eq_IZR. rewrite plus_IZR, minus_IZR.
      assert (E' : (IZR q - (IZR (Z.of_nat k) - 1 + IZR p)) * ((xn - x1) / IZR (n - 1)) = 0).
      { apply Rminus_diag_eq in E.
        match type of E with ?l - ?r = 0 => transitivity (- (l - r)); [field; lra | rewrite E; ring] end. }
      apply Rmult_integral in E'. destruct E' as [E'|E']; [lra|].
      exfalso. apply Rmult_integral in E'. destruct E' as [E'|E']; [lra|]. revert E'. apply Rinv_neq_0_compat. lra.
    - intros ->. rewrite plus_IZR, (minus_IZR (Z.of_nat k) 1). field. lra. }
  assert (Hin : i = k \/ (i = 0%nat /\ k = 1%nat) \/ (i = (length y - 1)%nat /\ k = (length y - 2)%nat)).
  { assert (Near : forall j, (1 <= j)%nat -> (j + 2 <= length y)%nat ->
       (Z.abs (Z.of_nat i - Z.of_nat k) <= Z.abs (Z.of_nat i - Z.of_nat j))%Z).
    { intros j J1 J2. specialize (Hn j J1 J2). unfold x, abscissa in Hn.
      set (h := (xn - x1) / IZR (n - 1)).
      assert (Hh : 0 < Rabs h).
      { apply Rabs_pos_lt. intros E. apply Rmult_integral in E. destruct E as [E|E]; [lra|]. revert E. apply Rinv_neq_0_compat. lra. }
      replace (x1 + IZR (Z.of_nat i) * (xn - x1) / IZR (n - 1) - (x1 + IZR (Z.of_nat k) * (xn - x1) / IZR (n - 1)))
        with ((IZR (Z.of_nat i) - IZR (Z.of_nat k)) * h) in Hn by (unfold h; field; lra).
      replace (x1 + IZR (Z.of_nat i) * (xn - x1) / IZR (n - 1) - (x1 + IZR (Z.of_nat j) * (xn - x1) / IZR (n - 1)))
        with ((IZR (Z.of_nat i) - IZR (Z.of_nat j)) * h) in Hn by (unfold h; field; lra).
      rewrite !Rabs_mult in Hn. apply Rmult_le_reg_r in Hn; [|exact Hh].
      rewrite <- !minus_IZR, <- !abs_IZR in Hn. apply le_IZR. exact Hn. }
    destruct (Nat.eq_dec i 0) as [->|I0].
    - right. left. split; [reflexivity|]. specialize (Near 1%nat ltac:(lia) ltac:(lia)). lia.
    - destruct (Nat.eq_dec i (length y - 1)) as [Ei|I1].
      + right. right. split; [exact Ei|]. specialize (Near (length y - 2)%nat ltac:(lia) ltac:(lia)). lia.
      + left. specialize (Near i ltac:(lia) ltac:(lia)). lia. }
  assert (R3 : forall p, (p < 3)%nat -> (Z.of_nat i = Z.of_nat k - 1 + Z.of_nat p)%Z ->
     Len3_InterpolateX (fl := RFlt) d x = nth p [nth (k - 1) y 0; nth k y 0; nth (k + 1) y 0] 0).
  { intros p Hp E. rewrite (Rep p Hp). cbn [length]. change (Z.of_nat 3) with 3%Z.
    f_equal. symmetry. apply Ab. exact E. }
  destruct Hin as [->|[[-> ->]|[Ei Ek]]].
  - rewrite (R3 1%nat); [reflexivity|lia|lia].
  - rewrite (R3 0%nat); [reflexivity|lia|lia].
  - rewrite (R3 2%nat); [|lia|lia]. cbn [nth]. f_equal. lia.
Qed.
