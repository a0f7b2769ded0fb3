(** Arithmetic tactics and lemmas about [wrap64] and floor division. *)
From Coq Require Import ZArith Bool Lia ZifyBool ZifyNat ZifyN.
From Verif Require Import GoInt M_base.
Local Open Scope Z_scope.
Local Open Scope go_scope.

Ltac Zify.zify_post_hook ::= Z.div_mod_to_equations.

Lemma wrap64_id z : - 9223372036854775808 <= z < 9223372036854775808 -> wrap64 z = z.
Proof. unfold wrap64, two63, two64. intros H. rewrite Z.mod_small by lia. lia. Qed.

Lemma wrap64_range z : - 9223372036854775808 <= wrap64 z < 9223372036854775808.
Proof. unfold wrap64, two63, two64.
  pose proof (Z.mod_pos_bound (z + 9223372036854775808) 18446744073709551616). lia. Qed.

Lemma quot_pos_div a b : 0 <= a -> 0 < b -> Z.quot a b = a / b.
Proof. intros. apply Z.quot_div_nonneg; lia. Qed.

Lemma rem_pos_mod a b : 0 <= a -> 0 < b -> Z.rem a b = a mod b.
Proof. intros. apply Z.rem_mod_nonneg; lia. Qed.

(** The code's floor division is [Z.div] whenever the quotient fits. *)
Lemma floordiv_spec x y :
  y <> 0 -> in64 x -> in64 y -> ~ (x = - two63 /\ y = -1) -> floordiv x y = x / y.
Proof.
  unfold floordiv, in64, two63. intros Hy Hx Hy' Hov.
  assert (Hq : - 9223372036854775808 <= Z.quot x y < 9223372036854775808).
  { pose proof (Z.quot_rem' x y).
    pose proof (Z.rem_bound_abs x y Hy).
    assert (Z.abs (Z.quot x y) <= Z.abs x).
    { rewrite <- Z.quot_abs by lia. apply Z.quot_le_upper_bound; nia. }
    destruct (Z.eq_dec (Z.quot x y) 9223372036854775808); [|lia].
    assert (Z.abs x = 9223372036854775808) by lia.
    assert (x = -9223372036854775808) by lia. subst x.
    assert (Z.abs y = 1).
    { destruct (Z.eq_dec (Z.abs y) 1); [assumption|].
      assert (2 <= Z.abs y) by lia.
      assert (Z.abs (y * Z.quot (-9223372036854775808) y) <= 9223372036854775808).
      { pose proof (Z.mul_quot_le (9223372036854775808) (Z.abs y)).
        rewrite Z.abs_mul, <- Z.quot_abs by lia. change (Z.abs (-9223372036854775808)) with 9223372036854775808 . lia. }
      rewrite Z.abs_mul in *. nia. }
    assert (y = 1 \/ y = -1) as [-> | ->] by lia; [|tauto].
    rewrite Z.quot_1_r in *. lia. }
  rewrite (wrap64_id _ Hq).
  pose proof (Z.quot_rem' x y) as HQR. pose proof (Z.div_mod x y Hy) as HDM.
  destruct (xorb (x <? 0) (y <? 0) && negb (Z.rem x y =? 0)) eqn:E.
  - apply andb_prop in E as [E1 E2].
    assert (Hr : Z.rem x y <> 0) by lia.
    assert (Hs : Z.quot x y - 1 = x / y).
    { destruct (Z.ltb_spec x 0), (Z.ltb_spec y 0); cbn in E1; try discriminate.
      - pose proof (Z.rem_bound_pos_neg x y ltac:(lia) ltac:(lia)).
        apply (Z.div_unique x y _ (Z.rem x y + y)); [lia|]. rewrite HQR at 1. ring.
      - pose proof (Z.rem_bound_neg_pos x y ltac:(lia) ltac:(lia)).
        apply (Z.div_unique x y _ (Z.rem x y + y)); [lia|]. rewrite HQR at 1. ring. }
    rewrite wrap64_id; [exact Hs|].
    rewrite Hs. split; [|].
    + destruct (Z.ltb_spec x 0), (Z.ltb_spec y 0); cbn in E1; try discriminate.
      * assert (x <= x / y) by (apply Z.div_le_lower_bound; nia). lia.
      * rewrite <- Z.div_opp_opp by lia.
        assert (- x <= (- x) / (- y)) by (apply Z.div_le_lower_bound; nia). lia.
    + lia.
  - destruct (Z.eq_dec (Z.rem x y) 0) as [Hr|Hr].
    + rewrite Hr in HQR. apply (Z.div_unique x y _ 0); lia.
    + assert (Hx2 : xorb (x <? 0) (y <? 0) = false).
      { destruct (xorb (x <? 0) (y <? 0)); [|reflexivity]. cbn in E. lia. }
      destruct (Z.ltb_spec x 0), (Z.ltb_spec y 0); cbn in Hx2; try discriminate.
      * pose proof (Z.rem_bound_neg_neg x y ltac:(lia) ltac:(lia)).
        apply (Z.div_unique x y _ (Z.rem x y)); lia.
      * pose proof (Z.rem_bound_pos_pos x y ltac:(lia) ltac:(lia)).
        apply (Z.div_unique x y _ (Z.rem x y)); lia.
Qed.

Lemma floordiv_pos x y :
  0 < y -> - 9223372036854775808 <= x < 9223372036854775808 ->
  y < 9223372036854775808 -> floordiv x y = x / y.
Proof. intros. apply floordiv_spec; unfold in64, two63; lia. Qed.

(** Removes [wrap64] and [floordiv] from the goal, innermost first. *)
Ltac unwrap1 :=
  match goal with
  | |- context [wrap64 ?z] =>
      lazymatch z with
      | context [wrap64 _] => fail
      | context [floordiv _ _] => fail
      | _ => rewrite (wrap64_id z) by lia
      end
  | |- context [floordiv ?x ?y] =>
      lazymatch x with
      | context [wrap64 _] => fail
      | context [floordiv _ _] => fail
      | _ => rewrite (floordiv_pos x y) by lia
      end
  end.
Ltac unwrap := repeat unwrap1.

(** Exhaustive check of a boolean predicate on an integer interval. *)
Fixpoint zall (f : Z -> bool) (n : nat) (z : Z) : bool :=
  match n with
  | O => true
  | S n' => f z && zall f n' (z + 1)
  end.

Lemma zall_correct f n : forall z, zall f n z = true ->
  forall x, z <= x < z + Z.of_nat n -> f x = true.
Proof.
  induction n as [|n IH]; cbn [zall]; intros z H x Hx; [lia|].
  apply andb_prop in H as [H1 H2].
  destruct (Z.eq_dec x z) as [->|Hne]; [exact H1|].
  apply (IH (z + 1) H2). lia.
Qed.

Lemma zall_range f lo hi : lo <= hi -> zall f (Z.to_nat (hi - lo)) lo = true ->
  forall x, lo <= x < hi -> f x = true.
Proof. intros Hl H x Hx. apply (zall_correct f _ _ H). lia. Qed.
