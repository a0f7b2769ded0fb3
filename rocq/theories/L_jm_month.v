(** jm.MMonth.String on the months that JulianToMoslem returns. *)
From Coq Require Import ZArith Bool Lia ZifyBool List String.
From Verif Require Import GoInt GoFloat M_base M_julian M_jm S_Calendar S_julian S_Moslem L_tac L_julian_int L_julian_inv L_jm L_jm_moslem L_jm_moslem2.
Import ListNotations.
Local Open Scope Z_scope.
Local Open Scope go_scope.
Ltac Zify.zify_post_hook ::= Z.div_mod_to_equations.

Lemma String_index m : 1 <= m <= 12 -> MMonth_String m = nth_error mmonths (Z.to_nat (m - 1)).
Proof.
  intros H. unfold MMonth_String. cbv zeta. rewrite wrap64_id by lia.
  destruct (Z.leb_spec 0 (m - 1)); [|lia]. destruct (Z.ltb_spec (m - 1) 12); [reflexivity|lia].
Qed.

Lemma String_none m : - two63 <= m < two63 -> (MMonth_String m = None <-> m < 1 \/ 12 < m).
Proof.
  intros R. split.
  - intros E. destruct (Z_lt_dec m 1); [auto|]. destruct (Z_lt_dec 12 m); [auto|]. exfalso.
    rewrite String_index in E by lia. apply nth_error_None in E. cbn in E. lia.
  - intros H. unfold MMonth_String. cbv zeta. destruct (Z.eq_dec m (- two63)) as [->|N]; [reflexivity|].
    rewrite wrap64_id by (unfold two63 in *; lia). destruct (Z.leb_spec 0 (m - 1)); [|reflexivity]. destruct (Z.ltb_spec (m - 1) 12); [lia|reflexivity].
Qed.

Lemma mmonths_nodup : NoDup mmonths.
Proof. unfold mmonths. repeat (constructor; [cbn; intuition discriminate|]). constructor. Qed.

Lemma String_inj m m' s : - two63 <= m < two63 -> - two63 <= m' < two63 ->
  MMonth_String m = Some s -> MMonth_String m' = Some s -> m = m'.
Proof.
  intros R R' E E'.
  assert (G : forall k, - two63 <= k < two63 -> MMonth_String k = Some s -> 1 <= k <= 12).
  { intros k Rk Ek. destruct (Z_lt_dec k 1); [|destruct (Z_lt_dec 12 k); [|lia]];
    (assert (X : MMonth_String k = None) by (apply String_none; [assumption|lia]); congruence). }
  pose proof (G _ R E) as H. pose proof (G _ R' E') as H'. rewrite String_index in E, E' by assumption.
  assert (L : (Z.to_nat (m - 1) < List.length mmonths)%nat) by (cbn; lia).
  assert (X : Z.to_nat (m - 1) = Z.to_nat (m' - 1)) by (apply (proj1 (NoDup_nth_error mmonths) mmonths_nodup _ _ L); congruence).
  lia.
Qed.

Lemma month_of fl x : C2_ok fl -> 623 <= d_y x <= 1000000000000000 -> valid_date Julian x = true ->
  let h := code_year (jdn Julian (mkdate (d_y x) 1 1)) in
  let first := m_jdn (mkdate h 1 1) in
  exists y m d, JulianToMoslem (fl := fl) (d_y x) (d_m x) (d_d x) = Some (y, m, d) /\ 0 <= m <= 13 /\
    (MMonth_String m = None <->
     jdn Julian x < first \/ first + m_year_length (m_leap (d_y x)) + 355 <= jdn Julian x).
Proof.
  intros HC Hy Hv h first. rewrite (JulianToMoslem_form2 fl x HC Hy Hv). cbv zeta. fold h. fold first.
  pose proof (doy_jdn x Hv) as DJ. pose proof (doy_range x Hv) as DR.
  assert (RJ : -12 <= jdn Julian x - first + 1 <= 720).
  { assert (B : jdn Julian (mkdate (d_y x) 1 1) <= jdn Julian x <= jdn Julian (mkdate (d_y x) 1 1) + 365) by lia.
    clear DJ DR HC Hv. subst first h. unfold code_year, m_jdn. cbv zeta. cbn [d_y d_m d_d]. change m_epoch with 1948440.
    set (j1 := jdn Julian (mkdate (d_y x) 1 1)) in *. set (j := jdn Julian x) in *. clearbody j1 j. clear Hy x.
    set (n := j1 - 1948440 + 1). set (q := n / 10631). set (r := n mod 10631).
    assert (E : n = 10631 * q + r /\ 0 <= r < 10631) by (subst q r; lia). clearbody q r. destruct E as [E Hr]. subst n.
    set (J := r / 354). assert (HJ : 354 * J <= r < 354 * J + 354 /\ 0 <= J <= 30) by (subst J; lia). clearbody J.
    assert (F : (3 + 11 * (30 * q + J + 1)) / 30 = 11 * q + (11 * J + 14) / 30) by (clear; lia). rewrite F. clear F.
    set (O := (11 * J + 14) / 30). assert (HO : 0 <= O <= 11) by (subst O; lia). clearbody O. change (1 / 2) with 0. lia. }
  set (days := m_year_length (m_leap (d_y x))).
  assert (Hd : 354 <= days <= 355) by (subst days; unfold m_year_length; destruct (m_leap (d_y x)); lia). clearbody days.
  set (JJ := jdn Julian x - first + 1) in *.
  set (J' := if days <? JJ then JJ - days else JJ).
  exists (if days <? JJ then h + 1 else h), (fst (split_ord J')), (snd (split_ord J')).
  assert (RJ' : -12 <= J' <= 366) by (subst J'; destruct (Z.ltb_spec days JJ); lia).
  assert (M : 0 <= fst (split_ord J') <= 13 /\ (fst (split_ord J') < 1 <-> J' < 1) /\ (12 < fst (split_ord J') <-> 355 < J')).
  { clearbody J'. clear - RJ'. unfold split_ord. cbv zeta. destruct (Z.eqb_spec J' 355) as [->|N]; cbn [fst]; [lia|]. set (S := (J' - 1) * 10 / 295). assert (HS : 295 * S <= (J' - 1) * 10 < 295 * S + 295) by (subst S; lia). clearbody S. lia. }
  destruct M as (M1 & M2 & M3). split; [reflexivity|]. split; [exact M1|].
  assert (W : - two63 <= fst (split_ord J') < two63) by (unfold two63; lia). rewrite (String_none _ W). rewrite M2, M3. subst J'.
  destruct (Z.ltb_spec days JJ); subst JJ; lia.
Qed.
