(** jm.JulianToMoslem: exactly which dates are converted correctly. *)
From Coq Require Import ZArith Bool Lia ZifyBool List.
From Verif Require Import GoInt GoFloat M_base M_julian M_jm S_Calendar S_julian S_Moslem L_tac L_julian_int L_julian_inv L_jm L_jm_moslem.
Import ListNotations.
Local Open Scope Z_scope.
Local Open Scope go_scope.
Ltac Zify.zify_post_hook ::= Z.div_mod_to_equations.

(** What the code does, without reference to the Moslem date of January 1. *)
Lemma JulianToMoslem_form2 fl x : C2_ok fl ->
  623 <= d_y x <= 1000000000000000 -> valid_date Julian x = true ->
  JulianToMoslem (fl := fl) (d_y x) (d_m x) (d_d x) =
  let h := code_year (jdn Julian (mkdate (d_y x) 1 1)) in
  let JJ := jdn Julian x - m_jdn (mkdate h 1 1) + 1 in
  let days := m_year_length (m_leap (d_y x)) in
  let H' := if days <? JJ then h + 1 else h in
  let JJ' := if days <? JJ then JJ - days else JJ in
  Some (H', fst (split_ord JJ'), snd (split_ord JJ')).
Proof.
  intros HC Hy Hv. cbv zeta.
  pose proof (julian_ord x Hv) as HN. cbv zeta in HN.
  unfold JulianToMoslem. cbv zeta. rewrite HN. clear HN.
  pose proof (doy_jdn x Hv) as DJ. pose proof (doy_range x Hv) as DR.
  set (N := jdn Julian x - jdn Julian (mkdate (d_y x) 1 1) + 1) in *.
  assert (RN : 1 <= N <= 366) by (subst N; lia).
  replace (jdn Julian x) with (jdn Julian (mkdate (d_y x) 1 1) + N - 1) by (subst N; lia).
  clearbody N. clear DJ DR.
  rewrite MoslemLeapYear_spec by lia.
  fold (m_year_length (m_leap (d_y x))).
  set (days := m_year_length (m_leap (d_y x))).
  assert (Hdays : 354 <= days <= 355) by (subst days; unfold m_year_length; clear; destruct (m_leap (d_y x)); lia).
  clearbody days. clear Hv. set (y := d_y x) in *. clearbody y. clear x.
  rewrite (wrap64_id (y - 623)) by lia. rewrite HC by lia. rewrite (floordiv_pos (y - 623)) by lia.
  unfold code_year. change m_epoch with 1948440. pose proof (jan1_jul y) as EJ1. set (j1 := jdn Julian (mkdate y 1 1)) in *. clearbody j1.
  assert (EDp : 1461 *! ((y - 623) / 4) +! 170 +! c2val ((y - 623) mod 4) = j1 - 1948440 + 1).
  { assert (C : c2val ((y - 623) mod 4) = 365 * ((y - 623) mod 4) + ((y - 623) mod 4) / 2).
    { assert (H : 0 <= (y - 623) mod 4 < 4) by lia. revert H. generalize ((y - 623) mod 4). intros c Hc.
      assert (c = 0 \/ c = 1 \/ c = 2 \/ c = 3) as [-> | [-> | [-> | -> ]]] by lia; reflexivity. }
    rewrite C. rewrite (wrap64_id (1461 * _)) by lia. rewrite (wrap64_id (_ + 170)) by lia.
    rewrite wrap64_id by lia. clear - EJ1 Hy. lia. }
  rewrite EDp. set (Dp := j1 - 1948440 + 1) in *.
  assert (HDp0 : 0 <= Dp < 9000000000000000000) by (subst Dp; lia).
  rewrite (rem_pos_mod Dp) by lia. rewrite (floordiv_pos Dp) by lia.
  assert (HQ0 : 0 <= Dp / 10631 < 1000000000000000) by (subst Dp; lia).
  set (q := Dp / 10631) in *. set (r := Dp mod 10631). assert (Hr : 0 <= r < 10631) by (subst r; lia). assert (EQ : Dp = 10631 * q + r) by (subst q r; lia). clearbody q r.
  rewrite (floordiv_pos r) by lia. rewrite (rem_pos_mod r) by lia.
  set (J := r / 354). set (K := r mod 354). assert (HJ : 0 <= J <= 30) by (subst J; lia). assert (HK : 0 <= K < 354) by (subst K; lia). assert (ER : r = 354 * J + K) by (subst J K; lia). clearbody J K.
  rewrite (wrap64_id (11 * J)) by lia. rewrite (wrap64_id (11 * J + 14)) by lia. rewrite (floordiv_pos (11 * J + 14)) by lia.
  set (O := (11 * J + 14) / 30). assert (HO : 0 <= O <= 11) by (subst O; lia).
  rewrite (wrap64_id (30 * q)) by lia. rewrite (wrap64_id (30 * q + J)) by lia. rewrite (wrap64_id (30 * q + J + 1)) by lia.
  rewrite (wrap64_id (K - O)) by lia. rewrite (wrap64_id (K - O + N)) by lia. rewrite (wrap64_id (K - O + N - 1)) by lia.
  assert (EJJ : j1 + N - 1 - m_jdn (mkdate (30 * q + J + 1) 1 1) + 1 = K - O + N - 1).
  { unfold m_jdn. cbn [d_y d_m d_d]. change m_epoch with 1948440. assert (F : (3 + 11 * (30 * q + J + 1)) / 30 = 11 * q + O) by (subst O; clear; lia). rewrite F. subst Dp. clear - EQ ER. change (1 / 2) with 0. lia. }
  rewrite EJJ. set (JJ := K - O + N - 1). assert (RJ : -12 <= JJ <= 718) by (subst JJ; lia). clearbody JJ. set (h1 := 30 * q + J + 1). assert (Hh : 1 <= h1 < 40000000000000000) by (subst h1; lia). clearbody h1.
  unfold split_ord. cbv zeta.
  destruct (Z.ltb_spec days JJ).
  - rewrite (wrap64_id (JJ - days)) by lia. rewrite (wrap64_id (h1 + 1)) by lia.
    destruct (JJ - days =? 355); [reflexivity|].
    rewrite (wrap64_id (JJ - days - 1)) by lia. rewrite (wrap64_id ((JJ - days - 1) * 10)) by lia.
    rewrite (floordiv_pos ((JJ - days - 1) * 10)) by lia.
    set (S := (JJ - days - 1) * 10 / 295). assert (0 <= S <= 20) by (subst S; lia).
    unwrap. reflexivity.
  - destruct (JJ =? 355); [reflexivity|].
    rewrite (wrap64_id (JJ - 1)) by lia. rewrite (wrap64_id ((JJ - 1) * 10)) by lia.
    rewrite (floordiv_pos ((JJ - 1) * 10)) by lia.
    set (S := (JJ - 1) * 10 / 295). assert (-10 <= S <= 20) by (subst S; lia).
    unwrap. reflexivity.
Qed.

Lemma JulianToMoslem_exact fl x z : C2_ok fl ->
  623 <= d_y x <= 1000000000000000 -> valid_date Julian x = true -> m_valid z = true -> m_jdn z = jdn Julian x ->
  let h := code_year (jdn Julian (mkdate (d_y x) 1 1)) in
  (JulianToMoslem (fl := fl) (d_y x) (d_m x) (d_d x) = Some (d_y z, d_m z, d_d z) <->
   (d_y z = h /\ (m_leap (d_y x) = m_leap h \/ ~ (d_m z = 12 /\ d_d z = 30))) \/ (d_y z = h + 1 /\ m_leap (d_y x) = m_leap h)).
Proof.
  intros HC Hy Hv Hz Ez h. rewrite (JulianToMoslem_form2 fl x HC Hy Hv). cbv zeta. fold h. clearbody h.
  destruct z as [hz m d]. cbn [d_y d_m d_d] in *.
  pose proof (m_ord_range _ _ _ Hz) as R. pose proof (split_ord_spec _ _ _ Hz) as SO.
  assert (Hz' : d = 30 -> m = 12 -> m_ord hz m d = 355) by (intros -> ->; reflexivity).
  assert (Hz'' : m_ord hz m d = 355 -> m = 12 /\ d = 30).
  { intros E. rewrite E in SO. unfold split_ord in SO. cbn in SO. inversion SO. lia. }
  assert (M12 : m <= 12) by (apply m_valid_inv in Hz as [? _]; cbn [d_y d_m d_d] in *; lia).
  rewrite m_jdn_ord in Ez. rewrite <- Ez, m_jdn_ord. replace (m_ord h 1 1) with 1 by reflexivity. clear Ez Hz.
  set (o := m_ord hz m d) in *. clearbody o.
  assert (B : forall y, m_year_length (m_leap y) = 354 + ((14 + 11 * y) / 30 - (3 + 11 * y) / 30)).
  { intros z. rewrite m_leap_arith. unfold m_year_length. destruct (Z.ltb_spec ((14 + 11 * z) mod 30) 11); lia. }
  set (JJ := m_epoch + 354 * (hz - 1) + (3 + 11 * hz) / 30 + o - 1 - (m_epoch + 354 * (h - 1) + (3 + 11 * h) / 30 + 1 - 1) + 1).
  assert (EJ : JJ = 354 * (hz - h) + ((3 + 11 * hz) / 30 - (3 + 11 * h) / 30) + o) by (subst JJ; lia). clearbody JJ.
  set (lx := m_leap (d_y x)). clearbody lx. clear Hv Hy HC.
  assert (L0 : forall b, 354 <= m_year_length b <= 355) by (intros []; cbn; lia). assert (Ro : 1 <= o <= 355) by (pose proof (L0 (m_leap hz)); lia).
  destruct (Z.lt_trichotomy hz h) as [LT|[EQ|GT]].
  - (* the Moslem year before *)
    assert (JJ <= 0). { pose proof (B hz) as Bz. rewrite Bz in R. assert (354 * (hz - h) + ((3 + 11 * hz) / 30 - (3 + 11 * h) / 30) <= - (354 + ((14 + 11 * hz) / 30 - (3 + 11 * hz) / 30))). { clear - LT. assert ((14 + 11 * hz) / 30 - (3 + 11 * h) / 30 <= 0) by lia. lia. } lia. }
    pose proof (L0 lx). destruct (Z.ltb_spec (m_year_length lx) JJ); [lia|]. split; [intros E; inversion E; lia|intros [[? _]|[? _]]; lia].
  - subst hz. replace JJ with o by lia. split.
    + intros E. left. split; [reflexivity|]. destruct (Z.ltb_spec (m_year_length lx) o); [inversion E; lia|].
      destruct (Z.eq_dec o 355) as [E5|N5].
      * left. unfold m_year_length in *. destruct lx, (m_leap h); try lia; reflexivity.
      * right. intros [A1 A2]. apply N5, Hz'; assumption.
    + intros [[_ A]|[A _]]; [|lia]. destruct (Z.ltb_spec (m_year_length lx) o) as [G|G].
      * exfalso. assert (o = 355) by (pose proof (L0 lx); lia). destruct A as [A|A]; [rewrite A in G; lia|]. apply A, Hz''. assumption.
      * rewrite SO. reflexivity.
  - destruct (Z.eq_dec hz (h + 1)) as [->|NE].
    + assert (EJ' : JJ = m_year_length (m_leap h) + o). { rewrite EJ, B. replace (3 + 11 * (h + 1)) with (14 + 11 * h) by ring. lia. } clear EJ. rewrite EJ'. set (l1 := m_leap h) in *. clearbody l1.
      destruct (Bool.eqb lx l1) eqn:EL.
      * apply eqb_prop in EL. rewrite EL. destruct (Z.ltb_spec (m_year_length l1) (m_year_length l1 + o)); [|lia].
        replace (m_year_length l1 + o - m_year_length l1) with o by ring. rewrite SO. split; auto.
      * apply eqb_false_iff in EL. split; [|intros [[A _]|[_ A]]; [lia|congruence]]. intros E. exfalso.
        destruct (Z.ltb_spec (m_year_length lx) (m_year_length l1 + o)) as [G|G].
        -- injection E as E1 E2. set (o' := m_year_length l1 + o - m_year_length lx) in *.
           assert (D : o' = o - 1 \/ o' = o + 1) by (subst o'; unfold m_year_length; destruct lx, l1; try lia; congruence).
           assert (Ho2 : 1 <= o' <= 356) by (subst o'; unfold m_year_length in *; destruct lx, l1; try congruence; lia).
           destruct (Z.eq_dec o' 356) as [E6|N6]; [rewrite E6 in E1; cbn in E1; lia|].
           assert (EE : split_ord o' = split_ord o). { rewrite SO. rewrite (surjective_pairing (split_ord o')). congruence. }
           apply split_ord_inj in EE; lia.
        -- inversion E. lia.
    + split; [|intros [[? _]|[? _]]; lia]. intros E. exfalso. destruct (Z.ltb _ _); inversion E; lia.
Qed.
(** The first Moslem year, up to 622 December 31. *)
Lemma moslem_622 z : m_valid z = true -> d_y z = 1 -> m_jdn z < jdn Julian (mkdate 623 1 1) ->
  exists x, d_y x = 622 /\ valid_date Julian x = true /\ jdn Julian x = m_jdn z /\ JulianToMoslem (fl := BFlt) 622 (d_m x) (d_d x) <> Some (d_y z, d_m z, d_d z).
Proof.
  intros Hv Hy Hj.
  assert (G : forallb (fun m => forallb (fun d => let z := mkdate 1 m d in if m_valid z && (m_jdn z <? jdn Julian (mkdate 623 1 1)) then
     existsb (fun m' => existsb (fun d' => let x := mkdate 622 m' d' in if (if valid_date Julian x then jdn Julian x =? m_jdn z else false) then negb (match JulianToMoslem (fl := BFlt) 622 m' d' with Some (a, b, c) => (a =? 1) && (b =? m) && (c =? d) | None => false end) else false) (map Z.of_nat (seq 1 31))) (map Z.of_nat (seq 1 12)) else true) (map Z.of_nat (seq 1 30))) (map Z.of_nat (seq 1 12)) = true) by (vm_compute; reflexivity).
  destruct z as [y m d]. cbn [d_y d_m d_d] in *. subst y. rewrite forallb_forall in G.
  assert (MD : 1 <= m <= 12 /\ 1 <= d <= 30).
  { unfold m_valid, m_month_length in Hv. cbn [d_y d_m d_d] in Hv. destruct (_ || _) in Hv; lia. }
  specialize (G m ltac:(apply in_map_iff; exists (Z.to_nat m); split; [lia|apply in_seq; lia])). rewrite forallb_forall in G.
  specialize (G d ltac:(apply in_map_iff; exists (Z.to_nat d); split; [lia|apply in_seq; lia])). cbv zeta in G. rewrite Hv in G. apply Z.ltb_lt in Hj. rewrite Hj in G. cbn [andb] in G.
  apply existsb_exists in G as (m' & _ & G). apply existsb_exists in G as (d' & _ & G). cbv zeta in G. destruct (valid_date Julian (mkdate 622 m' d')) eqn:V; [|discriminate G]. destruct (jdn Julian (mkdate 622 m' d') =? m_jdn (mkdate 1 m d)) eqn:EJ; [|discriminate G]. rename G into NB.
  exists (mkdate 622 m' d'). cbn [d_y d_m d_d]. split; [reflexivity|]. split; [exact V|]. split; [apply Z.eqb_eq, EJ|]. intros E. rewrite E in NB. rewrite !Z.eqb_refl in NB. discriminate NB.
Qed.
Lemma code_year_spec z1 : m_valid z1 = true -> let h := code_year (m_jdn z1) in
  (h = d_y z1 \/ h = d_y z1 + 1) /\ (m_jdn z1 - m_jdn (mkdate (d_y z1) 1 1) < 342 -> h = d_y z1).
Proof.
  intros Hv. destruct z1 as [h1 m1 d1]. cbn [d_y d_m d_d]. pose proof (m_ord_range _ _ _ Hv) as R. rewrite !m_jdn_ord. replace (m_ord h1 1 1) with 1 by reflexivity. set (o1 := m_ord h1 m1 d1) in *. clearbody o1. clear Hv m1 d1.
  assert (B : m_year_length (m_leap h1) = 354 + ((14 + 11 * h1) / 30 - (3 + 11 * h1) / 30)).
  { rewrite m_leap_arith. unfold m_year_length. destruct (Z.ltb_spec ((14 + 11 * h1) mod 30) 11); lia. }
  rewrite B in R. clear B. unfold code_year. cbv zeta. replace (m_epoch + 354 * (h1 - 1) + (3 + 11 * h1) / 30 + o1 - 1 - m_epoch + 1) with (354 * (h1 - 1) + (3 + 11 * h1) / 30 + o1) by ring.
  replace (m_epoch + 354 * (h1 - 1) + (3 + 11 * h1) / 30 + o1 - 1 - (m_epoch + 354 * (h1 - 1) + (3 + 11 * h1) / 30 + 1 - 1)) with (o1 - 1) by ring.
  set (q := (h1 - 1) / 30). set (r := (h1 - 1) mod 30). assert (Eh : h1 = 30 * q + r + 1 /\ 0 <= r < 30) by (subst q r; lia). clearbody q r. destruct Eh as [-> Hr].
  assert (F1 : (3 + 11 * (30 * q + r + 1)) / 30 = 11 * q + (14 + 11 * r) / 30) by (clear - Hr; lia). assert (F2 : (14 + 11 * (30 * q + r + 1)) / 30 = 11 * q + (25 + 11 * r) / 30) by (clear - Hr; lia). rewrite F1, F2 in *. clear F1 F2.
  set (L := (14 + 11 * r) / 30) in *. assert (HL : 0 <= L <= 11) by (subst L; lia). set (L' := (25 + 11 * r) / 30) in *. assert (HL' : L <= L' <= L + 1) by (subst L L'; lia).
  replace (354 * (30 * q + r + 1 - 1) + (11 * q + L) + o1) with (10631 * q + (354 * r + L + o1)) by ring. set (e := 354 * r + L + o1).
  assert (E1 : 1 <= o1 <= 354 + (L' - L)) by lia.
  assert (R29 : r = 29 -> L = 11 /\ L' = 11) by (intros ->; subst L L'; lia).
  destruct (Z.eq_dec e 10631) as [E0|N0].
  - assert (r = 29) by (subst e; lia). destruct (R29 H) as [H1 H2]. rewrite E0. replace ((10631 * q + 10631) / 10631) with (q + 1) by lia. replace ((10631 * q + 10631) mod 10631) with 0 by lia. change (0 / 354) with 0. split; [right; lia|intros; subst e; lia].
  - assert (He : 0 <= e < 10631). { subst e. destruct (Z.eq_dec r 29) as [E9|N9]; [destruct (R29 E9); lia|]. lia. }
    replace ((10631 * q + e) / 10631) with q by lia. replace ((10631 * q + e) mod 10631) with e by lia. clear - He HL HL' E1. subst e. assert (354 * r + L + o1 < 354 * (r + 2)) by lia.
    destruct (Z_lt_dec (L + o1) 354).
    + assert ((354 * r + L + o1) / 354 = r) by lia. lia.
    + assert ((354 * r + L + o1) / 354 = r + 1) by lia. lia.
Qed.
