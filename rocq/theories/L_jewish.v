(** jm.JewishCalendar against the molad rules. *)
From Coq Require Import ZArith Bool Reals Lra Lia ZifyBool.
From Flocq Require Import Core.
From Verif Require Import GoInt GoFloat M_base M_julian M_jm S_Calendar S_Jewish L_tac L_julian_int L_julian_inv L_jm.
Local Open Scope Z_scope.
Local Open Scope go_scope.
Ltac Zify.zify_post_hook ::= Z.div_mod_to_equations.

Ltac evalr H := match type of H with _ = ?r => let v := eval vm_compute in r in change r with v in H end.

Lemma h_leap_arith A : h_leap A = ((7 * A + 1) mod 19 <? 7).
Proof.
  unfold h_leap.
  assert (E : (7 * A + 1) mod 19 = (7 * (A mod 19) + 1) mod 19).
  { assert (A = 19 * (A / 19) + A mod 19) by lia.
    rewrite H at 1. replace (7 * (19 * (A / 19) + A mod 19) + 1) with (7 * (A mod 19) + 1 + (7 * (A / 19)) * 19) by ring.
    apply Z.mod_add. lia. }
  rewrite E. assert (H : 0 <= A mod 19 < 19) by lia. revert H. generalize (A mod 19). intros r Hr.
  assert (C : zall (fun r => Bool.eqb
     match r with 0 | 3 | 6 | 8 | 11 | 14 | 17 => true | _ => false end ((7 * r + 1) mod 19 <? 7)) (Z.to_nat (19 - 0)) 0 = true)
    by (vm_compute; reflexivity).
  pose proof (zall_range _ 0 19 ltac:(lia) C r ltac:(lia)) as B. apply eqb_prop in B. exact B.
Qed.

(** The closed form of the number of elapsed months. *)
Lemma h_elapsed_step A : h_elapsed (A + 1) = h_elapsed A + h_months A.
Proof.
  unfold h_elapsed, h_months. rewrite h_leap_arith.
  destruct (Z.ltb_spec ((7 * A + 1) mod 19) 7); lia.
Qed.

(** The new year with the molad shifted by six hours: the form used by the code. *)
Definition ny' (A : Z) : Z :=
  let N := 12084 + 765433 * h_elapsed A in
  let d := N / 25920 in let t := N mod 25920 in
  if (d mod 7 =? 2) || (d mod 7 =? 4) || (d mod 7 =? 6) then d + 1
  else if (d mod 7 =? 1) && negb (h_leap A) && (16404 <=? t) then d + 2
  else if (d mod 7 =? 0) && h_leap (A - 1) && (23269 <=? t) then d + 1
  else d.

Lemma ny'_spec A : h_new_year A = ny' A.
Proof.
  unfold h_new_year, ny', molad, h_weekday.
  change (hours 5 204) with 5604. change mean_month with 765433. change day_parts with 25920.
  change (hours 18 0) with 19440. change (hours 9 204) with 9924. change (hours 15 589) with 16789.
  cbv zeta.
  set (p := 5604 + 765433 * h_elapsed A).
  replace (12084 + 765433 * h_elapsed A) with (p + 6480) by (subst p; ring).
  clearbody p. set (d := p / 25920). set (t := p mod 25920).
  assert (Ht : p = 25920 * d + t /\ 0 <= t < 25920) by (subst d t; lia).
  clearbody d t.
  destruct (Z.leb_spec 19440 t) as [Z1|Z1].
  - assert (E1 : (p + 6480) / 25920 = d + 1) by lia.
    assert (E2 : (p + 6480) mod 25920 = t - 19440) by lia.
    rewrite E1, E2. cbn [orb].
    assert (16404 <=? t - 19440 = false) as -> by lia. assert (23269 <=? t - 19440 = false) as -> by lia.
    rewrite !andb_false_r.
    destruct (((d + 1) mod 7 =? 2) || ((d + 1) mod 7 =? 4) || ((d + 1) mod 7 =? 6)) eqn:E;
    destruct (((d + 1 + 1) mod 7 =? 0) || ((d + 1 + 1) mod 7 =? 3) || ((d + 1 + 1) mod 7 =? 5)) eqn:E'; lia.
  - assert (E1 : (p + 6480) / 25920 = d) by lia.
    assert (E2 : (p + 6480) mod 25920 = t + 6480) by lia.
    rewrite E1, E2. cbn [orb].
    replace (16404 <=? t + 6480) with (9924 <=? t) by lia.
    replace (23269 <=? t + 6480) with (16789 <=? t) by lia.
    generalize (9924 <=? t), (16789 <=? t), (h_leap A), (h_leap (A - 1)). clear.
    intros b1 b2 l1 l2.
    assert (D1 : (d + 1) mod 7 = (d mod 7 + 1) mod 7) by (rewrite Z.add_mod_idemp_l by lia; reflexivity).
    assert (D2 : (d + 1 + 1) mod 7 = (d mod 7 + 2) mod 7)
      by (rewrite Z.add_mod_idemp_l by lia; f_equal; ring).
    assert (d mod 7 = 0 \/ d mod 7 = 1 \/ d mod 7 = 2 \/ d mod 7 = 3 \/ d mod 7 = 4 \/ d mod 7 = 5 \/ d mod 7 = 6)
      as [D|[D|[D|[D|[D|[D|D]]]]]] by lia; rewrite D in *; evalr D1; evalr D2;
    rewrite ?D1; cbn [Z.eqb Pos.eqb orb andb];
    destruct b1, b2, l1, l2; cbn [orb andb negb]; rewrite ?D1, ?D2; cbn [Z.eqb Pos.eqb orb andb]; ring.
Qed.

(** Years have a legal length. *)
Definition delta (w t : Z) (l lp : bool) : Z :=
  if (w =? 2) || (w =? 4) || (w =? 6) then 1
  else if (w =? 1) && negb l && (16404 <=? t) then 2
  else if (w =? 0) && lp && (23269 <=? t) then 1
  else 0.

Lemma ny'_delta A : ny' A =
  let N := 12084 + 765433 * h_elapsed A in
  N / 25920 + delta ((N / 25920) mod 7) (N mod 25920) (h_leap A) (h_leap (A - 1)).
Proof.
  unfold ny', delta. cbv zeta.
  destruct (_ || _); [ring|]. destruct (_ && _); [ring|]. destruct (_ && _); ring.
Qed.

Lemma week7 w : 0 <= w < 7 -> w = 0 \/ w = 1 \/ w = 2 \/ w = 3 \/ w = 4 \/ w = 5 \/ w = 6.
Proof. lia. Qed.

Lemma legal_common w t w2 t2 l lp : 0 <= w < 7 -> 0 <= t < 25920 ->
  (w2 = (w + 354) mod 7 /\ t2 = t + 9516 /\ t2 < 25920 ->
   353 <= 354 + delta w2 t2 l false - delta w t false lp <= 355) /\
  (w2 = (w + 355) mod 7 /\ t2 = t + 9516 - 25920 /\ 0 <= t2 ->
   353 <= 355 + delta w2 t2 l false - delta w t false lp <= 355).
Proof.
  intros Hw Ht. split; intros (-> & -> & H).
  - apply week7 in Hw as [-> | [-> | [-> | [-> | [-> | [-> | ->]]]]]];
      match goal with |- context [?a mod 7] => let v := eval vm_compute in (a mod 7) in change (a mod 7) with v end;
      unfold delta; cbn [Z.eqb Pos.eqb orb andb negb];
      destruct l, lp; cbn [negb andb];
      repeat match goal with |- context [?a <=? ?b] => destruct (Z.leb_spec a b) end; lia.
  - apply week7 in Hw as [-> | [-> | [-> | [-> | [-> | [-> | ->]]]]]];
      match goal with |- context [?a mod 7] => let v := eval vm_compute in (a mod 7) in change (a mod 7) with v end;
      unfold delta; cbn [Z.eqb Pos.eqb orb andb negb];
      destruct l, lp; cbn [negb andb];
      repeat match goal with |- context [?a <=? ?b] => destruct (Z.leb_spec a b) end; lia.
Qed.

Lemma legal_leap w t w2 t2 : 0 <= w < 7 -> 0 <= t < 25920 ->
  (w2 = (w + 383) mod 7 /\ t2 = t + 23269 /\ t2 < 25920 ->
   383 <= 383 + delta w2 t2 false true - delta w t true false <= 385) /\
  (w2 = (w + 384) mod 7 /\ t2 = t + 23269 - 25920 /\ 0 <= t2 ->
   383 <= 384 + delta w2 t2 false true - delta w t true false <= 385).
Proof.
  intros Hw Ht. split; intros (-> & -> & H).
  - apply week7 in Hw as [-> | [-> | [-> | [-> | [-> | [-> | ->]]]]]];
      match goal with |- context [?a mod 7] => let v := eval vm_compute in (a mod 7) in change (a mod 7) with v end;
      unfold delta; cbn [Z.eqb Pos.eqb orb andb negb];
      repeat match goal with |- context [?a <=? ?b] => destruct (Z.leb_spec a b) end; lia.
  - apply week7 in Hw as [-> | [-> | [-> | [-> | [-> | [-> | ->]]]]]];
      match goal with |- context [?a mod 7] => let v := eval vm_compute in (a mod 7) in change (a mod 7) with v end;
      unfold delta; cbn [Z.eqb Pos.eqb orb andb negb];
      repeat match goal with |- context [?a <=? ?b] => destruct (Z.leb_spec a b) end; lia.
Qed.

Lemma h_year_legal A : legal_year (h_months A) (h_year_days A) = true.
Proof.
  unfold h_year_days. rewrite !ny'_spec, !ny'_delta. cbv zeta.
  replace (A + 1 - 1) with A by ring.
  rewrite h_elapsed_step. unfold h_months.
  assert (L1 : h_leap A = true -> h_leap (A - 1) = false /\ h_leap (A + 1) = false).
  { rewrite !h_leap_arith. intros H. lia. }
  set (N := 12084 + 765433 * h_elapsed A).
  set (d := N / 25920). set (t := N mod 25920).
  assert (HN : N = 25920 * d + t /\ 0 <= t < 25920) by (subst d t; lia).
  assert (HN' : N = 12084 + 765433 * h_elapsed A) by reflexivity.
  clearbody N d t.
  destruct (h_leap A) eqn:LA.
  - destruct (L1 eq_refl) as [-> ->].
    replace (12084 + 765433 * (h_elapsed A + 13)) with (N + 9950629) by lia.
    set (N2 := N + 9950629). set (d2 := N2 / 25920). set (t2 := N2 mod 25920).
    assert (H2 : 25920 * d2 + t2 = 25920 * d + t + 9950629 /\ 0 <= t2 < 25920) by (subst d2 t2 N2; lia).
    clearbody d2 t2. clear N2 HN' L1.
    destruct (legal_leap (d mod 7) t (d2 mod 7) t2 ltac:(lia) ltac:(lia)) as [C1 C2].
    unfold legal_year. cbn [Z.eqb Pos.eqb andb orb].
    assert (D2 : d2 = d + 383 /\ t2 = t + 23269 \/ d2 = d + 384 /\ t2 = t + 23269 - 25920) by lia.
    destruct D2 as [[D2 T2]|[D2 T2]].
    + specialize (C1 ltac:(subst; rewrite Z.add_mod_idemp_l by lia; lia)). lia.
    + specialize (C2 ltac:(subst; rewrite Z.add_mod_idemp_l by lia; lia)). lia.
  - replace (12084 + 765433 * (h_elapsed A + 12)) with (N + 9185196) by lia.
    set (N2 := N + 9185196). set (d2 := N2 / 25920). set (t2 := N2 mod 25920).
    assert (H2 : 25920 * d2 + t2 = 25920 * d + t + 9185196 /\ 0 <= t2 < 25920) by (subst d2 t2 N2; lia).
    clearbody d2 t2. clear N2 HN' L1.
    destruct (legal_common (d mod 7) t (d2 mod 7) t2 (h_leap (A + 1)) (h_leap (A - 1)) ltac:(lia) ltac:(lia)) as [C1 C2].
    unfold legal_year. cbn [Z.eqb Pos.eqb andb orb].
    assert (D2 : d2 = d + 354 /\ t2 = t + 9516 \/ d2 = d + 355 /\ t2 = t + 9516 - 25920) by lia.
    destruct D2 as [[D2 T2]|[D2 T2]].
    + specialize (C1 ltac:(subst; rewrite Z.add_mod_idemp_l by lia; lia)). lia.
    + specialize (C2 ltac:(subst; rewrite Z.add_mod_idemp_l by lia; lia)). lia.
Qed.

(** ** The code *)

Definition h_yearmax : Z := 400000000.

Lemma elapsed_eq y : 0 <= y ->
  19 * h_elapsed (y + 3761) = 235 * (y + 3761) - 234 - (18 - (12 * y + 12) mod 19).
Proof. intros H. unfold h_elapsed. lia. Qed.

Lemma a_common y : 0 <= y -> negb (h_leap (y + 3761)) = (6 <? (12 * y + 12) mod 19).
Proof. intros H. rewrite h_leap_arith. destruct (Z.ltb_spec ((7 * (y + 3761) + 1) mod 19) 7), (Z.ltb_spec 6 ((12 * y + 12) mod 19)); cbn [negb]; lia. Qed.

Lemma a_after_leap y : 0 <= y -> h_leap (y + 3761 - 1) = (11 <? (12 * y + 12) mod 19).
Proof. intros H. rewrite h_leap_arith. destruct (Z.ltb_spec ((7 * (y + 3761 - 1) + 1) mod 19) 7), (Z.ltb_spec 11 ((12 * y + 12) mod 19)); lia. Qed.

Definition Sof (y : Z) : Z := if 1583 <=? y then (3 * (y / 100) - 5) / 4 else 0.

(** The decimal expression of the code is the exact date in parts, plus an
    excess smaller than one part. *)
Lemma Q_excess y : 0 <= y <= h_yearmax ->
  let a := (12 * y + 12) mod 19 in
  let N := 12084 + 765433 * h_elapsed (y + 3761) in
  let Q := (IZR (-1904412361576) / IZR 1000000000000 + IZR 1554241796621 / IZR 1000000000000 * IZR a
            + IZR 25 / IZR 100 * IZR (y mod 4) - IZR 3177794022 / IZR 1000000000000 * IZR y + IZR (Sof y))%R in
  let Qx := (IZR N / 25920 - IZR (365 * y + y / 4 + 1373304 - Sof y))%R in
  (Qx < Q < Qx + (1 - 2 / 100000) / 25920)%R.
Proof.
  intros Hy a N Q Qx. unfold h_yearmax in Hy.
  pose proof (elapsed_eq y ltac:(lia)) as HE. fold a in HE.
  assert (Ha : 0 <= a < 19) by (subst a; lia).
  assert (Hb : y = 4 * (y / 4) + y mod 4) by lia.
  set (k := y / 4) in *. set (b := y mod 4) in *. clearbody k b a.
  assert (R1 : (19 * IZR (h_elapsed (y + 3761)) = 235 * (IZR y + 3761) - 234 - (18 - IZR a))%R).
  { apply (f_equal IZR) in HE. rewrite ?minus_IZR, ?mult_IZR, ?plus_IZR, ?minus_IZR in HE. exact HE. }
  assert (R2 : IZR y = (4 * IZR k + IZR b)%R) by (apply (f_equal IZR) in Hb; rewrite plus_IZR, mult_IZR in Hb; exact Hb).
  assert (R3 : (0 <= IZR y <= 400000000)%R) by (split; apply IZR_le; lia).
  assert (R4 : (0 <= IZR a <= 18)%R) by (split; apply IZR_le; lia).
  subst N Q Qx. rewrite ?minus_IZR, ?plus_IZR, ?mult_IZR.
  set (m := IZR (h_elapsed (y + 3761))) in *. clearbody m.
  set (s := IZR (Sof y)). clearbody s.
  assert (R5 : m = ((235 * (IZR y + 3761) - 234 - (18 - IZR a)) / 19)%R) by lra.
  rewrite R5. clear R1 R5 HE Hb. split; lra.
Qed.

Lemma floor_parts N Q k (e : R) : (0 < e < (1 - 2 / 100000) / 25920)%R ->
  Q = (IZR N / 25920 - IZR k + e)%R ->
  Zfloor Q = N / 25920 - k /\
  (Q - IZR (Zfloor Q) = IZR (N mod 25920) / 25920 + e)%R.
Proof.
  intros He HQ.
  assert (E : N = 25920 * (N / 25920) + N mod 25920 /\ 0 <= N mod 25920 <= 25919) by lia.
  destruct E as [E Ht].
  assert (R0 : IZR N = (25920 * IZR (N / 25920) + IZR (N mod 25920))%R).
  { apply (f_equal IZR) in E. rewrite plus_IZR, mult_IZR in E. exact E. }
  assert (Ht' : (0 <= IZR (N mod 25920) <= 25919)%R) by (split; apply IZR_le; lia).
  assert (F : Zfloor Q = N / 25920 - k).
  { apply Zfloor_imp. rewrite plus_IZR, minus_IZR. rewrite HQ, R0. split; lra. }
  split; [exact F|]. rewrite F, HQ, minus_IZR, R0. lra.
Qed.

Lemma Sof_code y : 0 <= y <= h_yearmax + 1 ->
  (if 1583 <=? y then floordiv (3 *! floordiv y 100 -! 5) 4 else 0) = Sof y.
Proof.
  unfold h_yearmax. intros H. unfold Sof. destruct (Z.leb_spec 1583 y); [|reflexivity].
  rewrite (floordiv_pos y) by lia. rewrite (wrap64_id (3 * _)) by lia. rewrite wrap64_id by lia.
  rewrite floordiv_pos by lia. reflexivity.
Qed.

Lemma Sof_range y : 0 <= y <= h_yearmax + 1 -> 0 <= Sof y <= y.
Proof. unfold h_yearmax, Sof. intros H. destruct (Z.leb_spec 1583 y); lia. Qed.

Lemma elapsed_bounds y : 0 <= y <= h_yearmax ->
  235 * (y + 3761) - 252 <= 19 * h_elapsed (y + 3761) <= 235 * (y + 3761) - 234.
Proof. intros H. pose proof (elapsed_eq y). lia. Qed.

(** The function bigD of the code is the day of Pesach counted from March 0. *)
Lemma bigD_R y : 0 <= y <= h_yearmax ->
  bigD (fl := RFlt) y = Some (h_new_year (y + 3761) - 365 * y - y / 4 - 1373304 + Sof y + 22).
Proof.
  intros Hy. rewrite ny'_delta || idtac.
  pose proof (Q_excess y Hy) as HQ. cbv zeta in HQ.
  pose proof (elapsed_bounds y Hy) as HB.
  pose proof (Sof_range y ltac:(lia)) as HS.
  unfold bigD. cbv zeta.
  rewrite Sof_code by lia.
  unfold h_yearmax in Hy.
  rewrite (wrap64_id (12 * y)) by lia. rewrite (wrap64_id (12 * y + 12)) by lia.
  rewrite (rem_pos_mod (12 * y + 12)) by lia. rewrite (rem_pos_mod y) by lia.
  cbn [fconst fmul fofZ ffloor fle fsub fadd fint64 RFlt].
  set (N := 12084 + 765433 * h_elapsed (y + 3761)) in *.
  set (Q := (IZR (-1904412361576) / IZR 1000000000000 + IZR 1554241796621 / IZR 1000000000000 * IZR ((12 * y + 12) mod 19)
            + IZR 25 / IZR 100 * IZR (y mod 4) - IZR 3177794022 / IZR 1000000000000 * IZR y + IZR (Sof y))%R) in *.
  set (k := 365 * y + y / 4 + 1373304 - Sof y) in *.
  destruct (floor_parts N Q k (Q - (IZR N / 25920 - IZR k))%R ltac:(lra) ltac:(ring)) as [F FR].
  set (e := (Q - (IZR N / 25920 - IZR k))%R) in *.
  assert (He : (0 < e < (1 - 2 / 100000) / 25920)%R) by (subst e; lra).
  clearbody e. rewrite FR, F.
  assert (HN : N = 12084 + 765433 * h_elapsed (y + 3761)) by reflexivity.
  clearbody Q. clear HQ F FR Q.
  set (d := N / 25920). set (t := N mod 25920).
  assert (Hd : N = 25920 * d + t /\ 0 <= t < 25920) by (subst d t; lia).
  assert (HA : h_new_year (y + 3761) = d + delta (d mod 7) t (h_leap (y + 3761)) (h_leap (y + 3761 - 1))).
  { rewrite ny'_spec, ny'_delta. reflexivity. }
  rewrite HA. clear HA. unfold delta. rewrite a_common, a_after_leap by lia.
  set (a := (12 * y + 12) mod 19) in *. clearbody d t N.
  assert (Hk : k = 365 * y + y / 4 + 1373304 - Sof y) by reflexivity. clearbody k.
  assert (Hdb : 0 <= d - 362 * y - y / 4 - 1373302 <= 10000000000) by lia.
  unfold Rint64. rewrite Ztrunc_IZR.
  assert (in64b (d - k) = true) as -> by (unfold in64b, two63; lia).
  rewrite (wrap64_id (3 * y)) by lia. rewrite (wrap64_id (5 * _)) by lia.
  rewrite (wrap64_id (d - k + 3 * y)) by lia. rewrite (wrap64_id (d - k + 3 * y + _)) by lia.
  rewrite (wrap64_id (_ + 2)) by lia. rewrite (wrap64_id (_ - Sof y)) by lia.
  assert (EJ : Z.rem (d - k + 3 * y + 5 * (y mod 4) + 2 - Sof y) 7 = d mod 7).
  { rewrite rem_pos_mod by lia. rewrite Hk.
    replace (d - (365 * y + y / 4 + 1373304 - Sof y) + 3 * y + 5 * (y mod 4) + 2 - Sof y)
      with (d + (- (196186 + 207 * (y / 4) + 51 * (y mod 4))) * 7 ) by lia.
    apply Z.mod_add. lia. }
  rewrite EJ.
  assert (T1 : Rle_bool (IZR 63287037 / IZR 100000000) (IZR t / 25920 + e) = (16404 <=? t)).
  { destruct (Z.leb_spec 16404 t) as [G|G].
    - apply Rle_bool_true. assert (16404 <= IZR t)%R by (apply IZR_le; lia). lra.
    - apply Rle_bool_false. assert (IZR t <= 16403)%R by (apply IZR_le; lia). lra. }
  assert (T2 : Rle_bool (IZR 897723765 / IZR 1000000000) (IZR t / 25920 + e) = (23269 <=? t)).
  { destruct (Z.leb_spec 23269 t) as [G|G].
    - apply Rle_bool_true. assert (23269 <= IZR t)%R by (apply IZR_le; lia). lra.
    - apply Rle_bool_false. assert (IZR t <= 23268)%R by (apply IZR_le; lia). lra. }
  rewrite T1, T2.
  rewrite (wrap64_id (d - k + 23)) by lia. rewrite (wrap64_id (d - k + 24)) by lia. rewrite (wrap64_id (d - k + 22)) by lia.
  f_equal. destruct (_ || _); [lia|]. destruct (_ && _); [lia|]. destruct (_ && _); lia.
Qed.

Definition Dof (y : Z) : Z := h_new_year (y + 3761) - 365 * y - y / 4 - 1373304 + Sof y + 22.

Lemma Dof_rd y : 0 <= y ->
  rata_die (user_calendar y) (mkdate y 3 (Dof y)) = pesach_rd (y + 3760).
Proof.
  intros Hy. unfold pesach_rd, new_year_rd, Dof, Sof, user_calendar. change h_epoch with (-1373427).
  replace (y + 3760 + 1) with (y + 3761) by ring. generalize (h_new_year (y + 3761)). intros n.
  assert (J : forall c d, rata_die c (mkdate y 3 d) = jdn c (mkdate y 3 d) - 1721425) by (intros; unfold jdn; lia).
  rewrite J. destruct (Z.leb_spec 1583 y).
  - rewrite jdn_march_greg, jdn_march_jul by lia. unfold myear.
    cbn [moff Z.leb Z.compare Pos.compare Pos.compare_cont]. lia.
  - rewrite jdn_march_jul by lia. unfold myear.
    cbn [moff Z.leb Z.compare Pos.compare Pos.compare_cont]. lia.
Qed.

Lemma rd_month c y m d k : rata_die c (mkdate y m (d + k)) = rata_die c (mkdate y m d) + k.
Proof. unfold rata_die. cbn [d_y d_m d_d]. lia. Qed.

Lemma rd_march_april c y d : rata_die c (mkdate y 4 d) = rata_die c (mkdate y 3 (d + 31)).
Proof. unfold rata_die. cbn [d_y d_m d_d]. destruct (leap_spec c y); cbn [days_before_month]; lia. Qed.
Lemma rd_march_sep c y d : rata_die c (mkdate y 9 d) = rata_die c (mkdate y 3 (d + 184)).
Proof. unfold rata_die. cbn [d_y d_m d_d]. destruct (leap_spec c y); cbn [days_before_month]; lia. Qed.
Lemma rd_march_oct c y d : rata_die c (mkdate y 10 d) = rata_die c (mkdate y 3 (d + 214)).
Proof. unfold rata_die. cbn [d_y d_m d_d]. destruct (leap_spec c y); cbn [days_before_month]; lia. Qed.

Lemma h_new_year_bounds A : 765433 * h_elapsed A - 25920 <= 25920 * h_new_year A <= 765433 * h_elapsed A + 80000.
Proof.
  rewrite ny'_spec, ny'_delta. cbv zeta.
  set (N := 12084 + 765433 * h_elapsed A).
  assert (0 <= delta ((N / 25920) mod 7) (N mod 25920) (h_leap A) (h_leap (A - 1)) <= 2)
    by (unfold delta; destruct (_ || _); [lia|]; destruct (_ && _); [lia|]; destruct (_ && _); lia).
  lia.
Qed.

Lemma Dof_bound y : 0 <= y <= h_yearmax -> - 10000000 <= Dof y <= 10000000.
Proof.
  intros Hy. pose proof (h_new_year_bounds (y + 3761)). pose proof (elapsed_bounds y Hy).
  unfold Dof, Sof, h_yearmax in *. destruct (Z.leb_spec 1583 y); lia.
Qed.

Lemma JewishCalendar_R y : 0 <= y < h_yearmax ->
  exists r, JewishCalendar (fl := RFlt) y = Some r /\
    jc_A r = y + 3760 /\
    rata_die (user_calendar y) (mkdate y (jc_mP r) (jc_dP r)) = pesach_rd (y + 3760) /\
    rata_die (user_calendar y) (mkdate y (jc_mNY r) (jc_dNY r)) = new_year_rd (y + 3761) /\
    jc_months r = h_months (y + 3760) /\
    (y <> 1582 -> jc_days r = h_year_days (y + 3761)).
Proof.
  intros Hy. unfold JewishCalendar. cbv zeta.
  assert (Hy' : 0 <= y <= 400000000) by (unfold h_yearmax in Hy; lia).
  rewrite (wrap64_id (y + 1)) by lia.
  rewrite (bigD_R y) by (unfold h_yearmax in *; lia). rewrite (bigD_R (y + 1)) by (unfold h_yearmax in *; lia).
  fold (Dof y). fold (Dof (y + 1)).
  pose proof (Dof_bound y ltac:(unfold h_yearmax in *; lia)) as B.
  pose proof (Dof_bound (y + 1) ltac:(unfold h_yearmax in *; lia)) as B1.
  pose proof (Dof_rd y ltac:(lia)) as P.
  eexists. split; [reflexivity|]. cbn [jc_A jc_mP jc_dP jc_mNY jc_dNY jc_months jc_days].
  split; [apply wrap64_id; lia|]. split; [|split; [|split]].
  - destruct (Z.ltb_spec 31 (Dof y)).
    + rewrite wrap64_id by lia. rewrite rd_march_april. rewrite <- P. f_equal. f_equal. lia.
    + exact P.
  - assert (NY : new_year_rd (y + 3761) = pesach_rd (y + 3760) + 163).
    { unfold pesach_rd. replace (y + 3760 + 1) with (y + 3761) by ring. lia. }
    rewrite NY, <- P, <- rd_month. rewrite (wrap64_id (Dof y - 21)) by lia.
    destruct (Z.ltb_spec 30 (Dof y - 21)).
    + rewrite wrap64_id by lia. rewrite rd_march_oct. f_equal. f_equal. lia.
    + rewrite rd_march_sep. f_equal. f_equal. lia.
  - rewrite (wrap64_id (y + 3760)) by lia. rewrite rem_pos_mod by lia.
    unfold h_months, h_leap. assert (R : 0 <= (y + 3760) mod 19 < 19) by lia.
    revert R. generalize ((y + 3760) mod 19). intros r R.
    assert (C : zall (fun k => (if (k =? 0) || (k =? 3) || (k =? 6) || (k =? 8) || (k =? 11) || (k =? 14) || (k =? 17) then 13 else 12) =?
      (if match k with 0 | 3 | 6 | 8 | 11 | 14 | 17 => true | _ => false end then 13 else 12)) (Z.to_nat (19 - 0)) 0 = true)
      by (vm_compute; reflexivity).
    pose proof (zall_range _ 0 19 ltac:(lia) C r ltac:(lia)) as E. cbv beta in E. apply Z.eqb_eq in E. exact E.
  - intros N. rewrite (wrap64_id (Dof (y + 1) - Dof y)) by lia.
    unfold h_year_days. replace (y + 3761 + 1) with (y + 1 + 3761) by ring.
    assert (L : (if (if y + 1 <? 1583 then LeapYearJulian (y + 1) else LeapYearGregorian (y + 1)) then 366 else 365)
      = 365 + ((y + 1) / 4 - y / 4) - (Sof (y + 1) - Sof y)).
    { rewrite LeapYearJulian_spec, LeapYearGregorian_spec. unfold Sof.
      destruct (Z.ltb_spec (y + 1) 1583), (Z.leb_spec 1583 (y + 1)), (Z.leb_spec 1583 y); try lia.
      - unfold leap_spec. destruct (Z.eqb_spec ((y + 1) mod 4) 0); lia.
      - unfold leap_spec.
        destruct (Z.eqb_spec ((y + 1) mod 4) 0), (Z.eqb_spec ((y + 1) mod 100) 0), (Z.eqb_spec ((y + 1) mod 400) 0); cbn [andb orb negb]; lia. }
    rewrite L. rewrite wrap64_id; unfold Dof in *; [lia|].
    assert (0 <= Sof y <= y) by (apply Sof_range; unfold h_yearmax; lia).
    unfold Sof in *.
    destruct (Z.leb_spec 1583 (y + 1)), (Z.leb_spec 1583 y); lia.
Qed.

Definition check_jewish_range (y : Z) : bool := (22 <=? Dof y) && (Dof y <=? 61).
Lemma check_jewish_all : zall check_jewish_range (Z.to_nat (3430 - 1583)) 1583 = true.
Proof. vm_compute. reflexivity. Qed.

Lemma JewishCalendar_valid y : 1583 <= y < 3430 ->
  exists r, JewishCalendar (fl := RFlt) y = Some r /\
    valid_date (user_calendar y) (mkdate y (jc_mP r) (jc_dP r)) = true /\
    valid_date (user_calendar y) (mkdate y (jc_mNY r) (jc_dNY r)) = true.
Proof.
  intros Hy. pose proof (zall_range _ 1583 3430 ltac:(lia) check_jewish_all y Hy) as C.
  unfold check_jewish_range in C.
  unfold JewishCalendar. cbv zeta. rewrite (wrap64_id (y + 1)) by lia.
  rewrite (bigD_R y) by (unfold h_yearmax in *; lia). rewrite (bigD_R (y + 1)) by (unfold h_yearmax in *; lia).
  fold (Dof y). fold (Dof (y + 1)).
  eexists. split; [reflexivity|]. cbn [jc_A jc_mP jc_dP jc_mNY jc_dNY jc_months jc_days].
  split; apply valid_date_intro; cbn [d_y d_m d_d].
  - destruct (31 <? Dof y); lia.
  - destruct (Z.ltb_spec 31 (Dof y)); [rewrite wrap64_id by lia|]; destruct (leap_spec _ _); cbn [month_length]; lia.
  - destruct (30 <? _); lia.
  - rewrite (wrap64_id (Dof y - 21)) by lia.
    destruct (Z.ltb_spec 30 (Dof y - 21)); [rewrite wrap64_id by lia|]; destruct (leap_spec _ _); cbn [month_length]; lia.
Qed.

(** The number of months is that of year y + 3760, the number of days that of
    year y + 3761. *)
Lemma JewishCalendar_0 : exists r, JewishCalendar (fl := RFlt) 0 = Some r /\ jc_months r = 13 /\ jc_days r = 355.
Proof.
  destruct (JewishCalendar_R 0 ltac:(unfold h_yearmax; lia)) as (r & E & _ & _ & _ & M & D).
  exists r. split; [exact E|]. rewrite M, (D ltac:(lia)). split; reflexivity.
Qed.

(** The New Year of some years is returned as a day of September before the first. *)
Lemma JewishCalendar_18 : exists r, JewishCalendar (fl := RFlt) 18 = Some r /\ jc_mNY r = 9 /\ jc_dNY r = -1.
Proof.
  unfold JewishCalendar. cbv zeta. change (18 +! 1) with 19.
  rewrite !bigD_R by (unfold h_yearmax; lia). eexists. split; [reflexivity|].
  cbn [jc_mNY jc_dNY]. split; reflexivity.
Qed.

(** Beyond year 3429 Pesach is returned as April 31. *)
Lemma JewishCalendar_3430 : exists r, JewishCalendar (fl := RFlt) 3430 = Some r /\ jc_mP r = 4 /\ jc_dP r = 31.
Proof.
  unfold JewishCalendar. cbv zeta. change (3430 +! 1) with 3431.
  rewrite !bigD_R by (unfold h_yearmax; lia). eexists. split; [reflexivity|].
  cbn [jc_mP jc_dP]. split; reflexivity.
Qed.

(** Around the calendar reform the number of days is wrong by the ten days dropped. *)
Lemma JewishCalendar_1582 : exists r, JewishCalendar (fl := RFlt) 1582 = Some r /\
  jc_days r = h_year_days (1582 + 3761) + 10.
Proof.
  unfold JewishCalendar. cbv zeta. change (1582 +! 1) with 1583.
  rewrite !bigD_R by (unfold h_yearmax; lia). eexists. split; [reflexivity|].
  cbn [jc_days]. reflexivity.
Qed.
