(** jm.JulianToMoslem. *)
From Coq Require Import ZArith Bool Reals Lra Lia ZifyBool.
From Flocq Require Import Core IEEE754.BinarySingleNaN.
From Verif Require Import GoInt GoFloat M_base M_julian M_jm S_Calendar S_julian S_Moslem L_tac L_julian_int L_julian_inv L_jm.
Local Open Scope Z_scope.
Local Open Scope go_scope.
Ltac Zify.zify_post_hook ::= Z.div_mod_to_equations.

Definition c2val (c : Z) : Z := match c with 0 => 0 | 1 => 365 | 2 => 731 | _ => 1096 end.

(** The rounding closure gives the same integers in exact and in binary64 arithmetic. *)
Definition C2_ok (fl : Flt) : Prop := forall A, 0 <= A -> C2 (fl := fl) A = Some (c2val (A mod 4)).

Lemma C2_R : C2_ok RFlt.
Proof.
  intros A HA. unfold C2. cbv zeta. rewrite rem_pos_mod by lia.
  assert (H : 0 <= A mod 4 < 4) by lia. generalize dependent (A mod 4). intros c Hc.
  cbn [fconst fmul fofZ ffloor flt fsub fint64 RFlt].
  assert (F : Zfloor (IZR 36525001 / IZR 100000 * IZR c) = match c with 0 => 0 | 1 => 365 | 2 => 730 | _ => 1095 end).
  { apply Zfloor_imp.
    assert (c = 0 \/ c = 1 \/ c = 2 \/ c = 3) as [-> | [-> | [-> | -> ]]] by lia; rewrite plus_IZR; split; lra. }
  rewrite F.
  assert (c = 0 \/ c = 1 \/ c = 2 \/ c = 3) as [-> | [-> | [-> | -> ]]] by lia;
    unfold Rint64; rewrite ?Ztrunc_IZR; cbn [c2val];
    match goal with |- context [Rlt_bool ?a ?b] => destruct (Rlt_bool_spec a b) end; try lra; reflexivity.
Qed.

Lemma C2_B : C2_ok BFlt.
Proof.
  intros A HA. unfold C2. cbv zeta. rewrite rem_pos_mod by lia.
  assert (H : 0 <= A mod 4 < 4) by lia. generalize dependent (A mod 4). intros c Hc.
  assert (c = 0 \/ c = 1 \/ c = 2 \/ c = 3) as [-> | [-> | [-> | -> ]]] by lia; vm_compute; reflexivity.
Qed.

(** Ordinal to month and day. *)
Definition split_ord (n : Z) : Z * Z :=
  if n =? 355 then (12, 30) else let S := ((n - 1) * 10) / 295 in (1 + S, (10 * n - 295 * S) / 10).

Lemma split_ord_spec y m d : m_valid (mkdate y m d) = true -> split_ord (m_ord y m d) = (m, d).
Proof.
  intros Hv. pose proof (m_ord_range _ _ _ Hv) as R. apply m_valid_inv in Hv as [Hm Hd].
  cbn [d_y d_m d_d] in *. unfold split_ord, m_ord in *. cbv zeta.
  assert (B : 1 <= d <= 30 /\ (m < 12 -> d <= 29 + m mod 2)).
  { unfold m_month_length in Hd. split; [destruct (_ || _); lia|]. intros Hk.
    rewrite Zodd_mod in Hd. assert (E12 : m =? 12 = false) by lia. rewrite E12 in Hd.
    rewrite andb_false_r, orb_false_r in Hd.
    assert (m mod 2 = 0 \/ m mod 2 = 1) as [E | E] by lia; rewrite E in *; cbn in Hd; lia. }
  clear Hd R.
  destruct (Z.eqb_spec (29 * (m - 1) + m / 2 + d) 355).
  - assert (m = 12 /\ d = 30) as [-> -> ]; [lia|reflexivity].
  - assert (S : (29 * (m - 1) + m / 2 + d - 1) * 10 / 295 = m - 1) by lia.
    rewrite S. f_equal; lia.
Qed.

Lemma julian_ord x : valid_date Julian x = true ->
  let W := if d_y x %! 4 =? 0 then 1 else 2 in
  ((floordiv (275 *! d_m x) 9 -! W *! floordiv (d_m x +! 9) 12) +! d_d x) -! 30 =
  jdn Julian x - jdn Julian (mkdate (d_y x) 1 1) + 1.
Proof.
  intros Hv W. pose proof (doy_jdn x Hv) as D. pose proof (doy_range x Hv) as DR.
  pose proof (valid_date_inv _ _ Hv) as [Hm Hd].
  assert (Hd' : 1 <= d_d x <= 31).
  { revert Hd. destruct (leap_spec Julian (d_y x)); month_split Hm; cbn [month_length]; lia. }
  rewrite <- D. clear D DR.
  unfold DayOfYearJulian. rewrite DayOfYear_spec by lia. unfold LeapYearJulian.
  subst W. destruct (d_y x %! 4 =? 0).
  - revert Hm Hd'. generalize (d_m x), (d_d x). clear; intros m d Hm Hd.
    assert (E : floordiv (275 *! m) 9 -! 1 *! floordiv (m +! 9) 12 = days_before_month true m + 30)
      by (month_split Hm; reflexivity).
    rewrite E. assert (0 <= days_before_month true m <= 335) by (month_split Hm; cbn [days_before_month]; lia).
    rewrite (wrap64_id (_ + d)) by lia. rewrite wrap64_id by lia. lia.
  - revert Hm Hd'. generalize (d_m x), (d_d x). clear; intros m d Hm Hd.
    assert (E : floordiv (275 *! m) 9 -! 2 *! floordiv (m +! 9) 12 = days_before_month false m + 30)
      by (month_split Hm; reflexivity).
    rewrite E. assert (0 <= days_before_month false m <= 335) by (month_split Hm; cbn [days_before_month]; lia).
    rewrite (wrap64_id (_ + d)) by lia. rewrite wrap64_id by lia. lia.
Qed.

Lemma split_ord_inj n n' : 1 <= n <= 355 -> 1 <= n' <= 355 -> split_ord n = split_ord n' -> n = n'.
Proof.
  intros H H'. unfold split_ord. cbv zeta.
  set (S := (n - 1) * 10 / 295). set (S' := (n' - 1) * 10 / 295).
  destruct (Z.eqb_spec n 355), (Z.eqb_spec n' 355); intros E; try apply pair_equal_spec in E as [E1 E2].
  - lia.
  - assert (F : S' = 11) by lia. rewrite F in *. lia.
  - assert (F : S = 11) by lia. rewrite F in *. lia.
  - assert (F : S = S') by lia. rewrite <- F in *. clearbody S S'. lia.
Qed.
