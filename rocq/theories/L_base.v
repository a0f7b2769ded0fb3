(** Proofs about package base. *)
From Coq Require Import ZArith Bool List Reals Lra Lia ZifyBool.
From Flocq Require Import Core IEEE754.BinarySingleNaN.
From Verif Require Import GoInt GoFloat M_base S_base L_tac.
Import ListNotations.

Lemma div_is_floor x y : y <> 0%Z -> is_floor (x / y) x y.
Proof.
  intros Hy. unfold is_floor, le_quot.
  pose proof (Z.div_mod x y Hy) as E.
  destruct (Z_lt_le_dec 0 y) as [P|P].
  - pose proof (Z.mod_pos_bound x y P). split; [split; intros; nia|].
    intros n [H1 _]. specialize (H1 P). nia.
  - assert (N : (y < 0)%Z) by lia. pose proof (Z.mod_neg_bound x y N). split; [split; intros; nia|].
    intros n [_ H1]. specialize (H1 N). nia.
Qed.

Lemma FloorDiv_correct x y : in64 x -> in64 y -> y <> 0%Z -> ~ (x = - two63 /\ y = -1)%Z ->
  exists q, FloorDiv x y = Some q /\ in64 q /\ is_floor q x y.
Proof.
  intros Hx Hy Hnz Hov. unfold FloorDiv. exists (floordiv x y).
  destruct (Z.eqb_spec y 0); [contradiction|]. split; [reflexivity|].
  rewrite floordiv_spec by assumption. split; [|apply div_is_floor; assumption].
  pose proof (wrap64_range (x / y)) as W.
  pose proof (floordiv_spec x y Hnz Hx Hy Hov) as E. unfold floordiv in E.
  rewrite <- E. unfold in64, two63. destruct (_ && _); apply wrap64_range.
Qed.

Lemma FloorDiv_panics x y : FloorDiv x y = None <-> y = 0%Z.
Proof. unfold FloorDiv. destruct (Z.eqb_spec y 0); split; congruence. Qed.

Lemma FloorDiv_overflow : FloorDiv (- two63) (-1) = Some (- two63)%Z.
Proof. reflexivity. Qed.

(** Horner *)
Local Open Scope R_scope.

Lemma poly_from_scale k c x : poly_from k c x = x ^ k * poly c x.
Proof.
  unfold poly. revert k. induction c as [|c0 c IH]; intros k; cbn [poly_from].
  - ring.
  - rewrite (IH (S k)), (IH 1%nat). cbn [pow]. ring.
Qed.

Lemma poly_cons c0 c x : poly (c0 :: c) x = c0 + x * poly c x.
Proof. unfold poly at 1. cbn [poly_from pow]. rewrite poly_from_scale. cbn [pow]. ring. Qed.

Lemma poly_nil x : poly [] x = 0. Proof. reflexivity. Qed.

Lemma horner_loop_poly x rc : forall y tl, horner_loop (fl := RFlt) x y rc + 0 =
   poly (rev rc) x + x ^ (length rc) * y + 0 * tl.
Proof.
  induction rc as [|ci rc IH]; intros y tl; cbn [horner_loop rev length].
  - rewrite poly_nil. cbn [pow]. ring.
  - rewrite (IH _ 0). cbn [fadd fmul RFlt].
    assert (E : forall l a, poly (l ++ [a]) x = poly l x + x ^ (length l) * a).
    { induction l as [|l0 l IHl]; intros a; cbn [app length].
      - rewrite poly_cons, !poly_nil. cbn [pow]. ring.
      - rewrite !poly_cons, IHl. cbn [pow]. ring. }
    rewrite E, rev_length. cbn [pow]. ring.
Qed.

Lemma poly_app l : forall a x, poly (l ++ [a]) x = poly l x + x ^ (length l) * a.
Proof.
  induction l as [|l0 l IHl]; intros a x; cbn [app length].
  - rewrite poly_cons, !poly_nil. cbn [pow]. ring.
  - rewrite !poly_cons, IHl. cbn [pow]. ring.
Qed.

Lemma Horner_poly x c : c <> [] -> Horner (fl := RFlt) x c = Some (poly c x).
Proof.
  intros Hc. unfold Horner. destruct (rev c) as [|y rest] eqn:E.
  - exfalso. apply Hc. rewrite <- (rev_involutive c), E. reflexivity.
  - f_equal. pose proof (horner_loop_poly x rest y 0) as H.
    rewrite <- (rev_involutive c), E. cbn [rev].
    rewrite poly_app, rev_length. cbn [F RFlt] in *. lra.
Qed.

Lemma Horner_panics (fl : Flt) x c : Horner x c = None <-> c = [].
Proof.
  unfold Horner. destruct (rev c) as [|y rest] eqn:E; split; intros H; try congruence.
  - rewrite <- (rev_involutive c), E. reflexivity.
  - subst c. discriminate.
Qed.

(** epochs *)
Ltac ep := unfold JulianYearToJDE, JDEToJulianYear, BesselianYearToJDE, JDEToBesselianYear, J2000Century,
  J2000, JulianYear, JulianCentury, B1900, BesselianYear; cbn [fconst fadd fsub fmul fdiv RFlt F].

Lemma julian_year_inv y : JDEToJulianYear (fl := RFlt) (JulianYearToJDE (fl := RFlt) y) = y.
Proof. ep. field. Qed.
Lemma julian_year_inv' j : JulianYearToJDE (fl := RFlt) (JDEToJulianYear (fl := RFlt) j) = j.
Proof. ep. field. Qed.
Lemma besselian_year_inv y : JDEToBesselianYear (fl := RFlt) (BesselianYearToJDE (fl := RFlt) y) = y.
Proof. ep. field. Qed.
Lemma besselian_year_inv' j : BesselianYearToJDE (fl := RFlt) (JDEToBesselianYear (fl := RFlt) j) = j.
Proof. ep. field. Qed.
Lemma julian_year_mono : strictly_increasing (JulianYearToJDE (fl := RFlt)).
Proof. intros x y H. ep. lra. Qed.
Lemma besselian_year_mono : strictly_increasing (BesselianYearToJDE (fl := RFlt)).
Proof. intros x y H. ep. lra. Qed.
Lemma julian_year_mono' : strictly_increasing (JDEToJulianYear (fl := RFlt)).
Proof. intros x y H. ep. lra. Qed.
Lemma besselian_year_mono' : strictly_increasing (JDEToBesselianYear (fl := RFlt)).
Proof. intros x y H. ep. lra. Qed.
Lemma epoch_anchors : JulianYearToJDE (fl := RFlt) 2000 = 2451545 /\
  JulianYearToJDE (fl := RFlt) 2001 = 2451545 + 365.25 /\
  BesselianYearToJDE (fl := RFlt) 1900 = 2415020.3135 /\
  Rabs (BesselianYearToJDE (fl := RFlt) 1950 - B1950 (fl := RFlt)) < 1 / 1000.
Proof.
  repeat split; unfold B1950; ep; try lra. apply Rabs_lt. lra.
Qed.
Lemma J2000Century_affine j : J2000Century (fl := RFlt) j = (j - 2451545) / 36525.
Proof. ep. field. Qed.

Lemma Cmp_R a b : Cmp (fl := RFlt) a b = Z.opp (match Rcompare b a with Lt => -1 | Eq => 0 | Gt => 1 end)%Z.
Proof.
  unfold Cmp. cbn [flt RFlt].
  destruct (Rlt_bool_spec a b), (Rlt_bool_spec b a); try lra.
  - rewrite Rcompare_Gt by lra. reflexivity.
  - rewrite Rcompare_Lt by lra. reflexivity.
  - rewrite Rcompare_Eq by lra. reflexivity.
Qed.

Lemma Cmp_R_order a b :
  (Cmp (fl := RFlt) a b = (-1)%Z <-> a < b) /\ (Cmp (fl := RFlt) a b = 0%Z <-> a = b) /\
  (Cmp (fl := RFlt) a b = 1%Z <-> b < a).
Proof.
  unfold Cmp. cbn [flt RFlt].
  destruct (Rlt_bool_spec a b), (Rlt_bool_spec b a); repeat split; intros; try lra; try congruence; try lia.
Qed.

(** Cmp on float64: finite operands are ordered by value; any NaN gives 0. *)
Lemma Cmp_b64_finite (a b : float64) : is_finite a = true -> is_finite b = true ->
  Cmp (fl := BFlt) a b = Cmp (fl := RFlt) (B2R a) (B2R b).
Proof.
  intros Ha Hb. unfold Cmp. cbn [flt RFlt BFlt].
  rewrite !Bltb_correct by assumption. reflexivity.
Qed.
