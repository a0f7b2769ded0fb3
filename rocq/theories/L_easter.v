(** Proofs about package easter. *)
From Coq Require Import ZArith Bool Lia ZifyBool.
From Verif Require Import GoInt S_Calendar S_Easter L_tac L_julian_int L_julian_inv.
From Verif Require M_easter.
Local Open Scope Z_scope.
Ltac Zify.zify_post_hook ::= Z.div_mod_to_equations.

Lemma mod7_window p n : p < n <= p + 7 -> n mod 7 = 0 -> first_sunday_after p n.
Proof. intros H1 H2. repeat split; try lia; [assumption|]. intros k Hk Hs. unfold is_sunday in Hs. lia. Qed.

(** Day number of the n-th day counted from March 1 (n = 0), n <= 60. *)
Lemma rd_march_greg y m d n : (m = 3 /\ d = n + 1) \/ (m = 4 /\ d = n - 30) ->
  rata_die Gregorian (mkdate y m d) = 365 * y + y / 4 - y / 100 + y / 400 - 305 + n.
Proof.
  intros H. assert (Hm : 1 <= m <= 12) by lia.
  pose proof (jdn_march_greg y m d Hm) as E1. pose proof (jdn_march_jul y m d Hm) as E2.
  unfold jdn in *. destruct H as [[-> ->]|[-> ->]]; unfold myear in *; cbn [Z.leb Z.compare Pos.compare Pos.compare_cont moff] in *; lia.
Qed.

Lemma rd_march_jul y m d n : (m = 3 /\ d = n + 1) \/ (m = 4 /\ d = n - 30) ->
  rata_die Julian (mkdate y m d) = 365 * y + y / 4 - 307 + n.
Proof.
  intros H. assert (Hm : 1 <= m <= 12) by lia.
  pose proof (jdn_march_jul y m d Hm) as E2.
  unfold jdn in *. destruct H as [[-> ->]|[-> ->]]; unfold myear in *; cbn [Z.leb Z.compare Pos.compare Pos.compare_cont moff] in *; lia.
Qed.

Lemma easter_month N : 21 <= N <= 55 ->
  (Z.quot (N + 93) 31 = 3 /\ Z.rem (N + 93) 31 + 1 = N + 1 /\ N <= 30) \/
  (Z.quot (N + 93) 31 = 4 /\ Z.rem (N + 93) 31 + 1 = N - 30 /\ 31 <= N).
Proof.
  intros H. rewrite quot_pos_div, rem_pos_mod by lia. destruct (Z_lt_le_dec N 31); lia.
Qed.

Lemma easter_date c y m d N : 21 <= N <= 55 ->
  (m = 3 /\ d = N + 1 /\ N <= 30) \/ (m = 4 /\ d = N - 30 /\ 31 <= N) ->
  valid_date c (mkdate y m d) = true /\ easter_range m d.
Proof.
  intros H [(-> & -> & H2)|(-> & -> & H2)]; (split; [apply valid_date_intro; cbn [d_y d_m d_d month_length]; lia|]);
    unfold easter_range; lia.
Qed.

(** The code's Gregorian computation in unbounded arithmetic. *)
Definition greg_N (y : Z) : Z :=
  let a := y mod 19 in
  let b := y / 100 in let c := y mod 100 in
  let d := b / 4 in let e := b mod 4 in
  let g := (b - (b + 8) / 25 + 1) / 3 in
  let h := (19 * a + b - d - g + 15) mod 30 in
  let i := c / 4 in let k := c mod 4 in
  let l := (32 + 2 * e + 2 * i - h - k) mod 7 in
  let m := (a + 11 * h + 22 * l) / 451 in
  h + l - 7 * m + 21.

Lemma greg_N_h y : 0 <= y ->
  let h := 29 - shifted_epact y in
  (19 * (y mod 19) + y / 100 - y / 100 / 4 - (y / 100 - (y / 100 + 8) / 25 + 1) / 3 + 15) mod 30 = h.
Proof.
  intros Hy h. unfold h, shifted_epact. cbv zeta.
  set (a := y mod 19). set (b := y / 100). clearbody a b.
  assert (E : (b - (b + 8) / 25 + 1) / 3 = (5 + 8 * (b + 1)) / 25) by lia. rewrite E.
  assert (E2 : 3 * (b + 1) / 4 = b - b / 4) by lia. rewrite E2.
  set (u := (5 + 8 * (b + 1)) / 25). set (w := b / 4). clearbody u w. lia.
Qed.

Lemma greg_easter_Z y m d : 0 <= y ->
  (m = 3 /\ d = greg_N y + 1 /\ greg_N y <= 30) \/ (m = 4 /\ d = greg_N y - 30 /\ 31 <= greg_N y) ->
  21 <= greg_N y <= 55 /\
  first_sunday_after (paschal_moon Gregorian y) (rata_die Gregorian (mkdate y m d)).
Proof.
  intros Hy Hmd.
  assert (HR : rata_die Gregorian (mkdate y m d) = 365 * y + y / 4 - y / 100 + y / 400 - 305 + greg_N y)
    by (apply rd_march_greg; lia).
  assert (HP : rata_die Gregorian (mkdate y 4 19) = 365 * y + y / 4 - y / 100 + y / 400 - 305 + 49)
    by (apply rd_march_greg; lia).
  clear Hmd.
  unfold paschal_moon. rewrite HR, HP. clear HR HP. unfold adjusted_epact.
  unfold greg_N. cbv zeta. rewrite (greg_N_h y Hy).
  assert (Hs : 0 <= shifted_epact y < 30) by (unfold shifted_epact; lia).
  set (s := shifted_epact y) in *. clearbody s.
  set (b := y / 100). set (c := y mod 100). set (a := y mod 19).
  assert (Ha : 0 <= a < 19) by (subst a; lia). clearbody a.
  assert (Hc : 0 <= c < 100) by (subst c; lia).
  assert (E4 : y / 4 = 25 * b + c / 4) by (subst b c; lia).
  assert (E400 : y / 400 = b / 4) by (subst b; lia).
  assert (Ey : y = 100 * b + c) by (subst b c; lia).
  rewrite E4, E400, Ey. clear E4 E400. clearbody b c. clear Ey y Hy.
  set (i := c / 4). set (k := c mod 4). assert (Ec : c = 4 * i + k) by (subst i k; lia).
  assert (Hk : 0 <= k < 4) by (subst k; lia). rewrite Ec. clearbody i k. clear Ec Hc c.
  set (q := b / 4). set (e := b mod 4). assert (Eb : b = 4 * q + e) by (subst q e; lia).
  assert (He : 0 <= e < 4) by (subst e; lia). rewrite Eb. clearbody q e. clear Eb b.
  set (l := (32 + 2 * e + 2 * i - (29 - s) - k) mod 7).
  assert (Hl : 0 <= l < 7) by (subst l; lia).
  assert (El : (l - (32 + 2 * e + 2 * i - (29 - s) - k)) mod 7 = 0) by (subst l; lia).
  clearbody l.
  set (mm := (a + 11 * (29 - s) + 22 * l) / 451).
  assert (Hm : (mm = 1 /\ l = 6 /\ (s = 0 \/ (s = 1 /\ 10 < a))) \/
               (mm = 0 /\ ~ (l = 6 /\ (s = 0 \/ (s = 1 /\ 10 < a))))).
  { subst mm. lia. }
  clearbody mm.
  split; [lia|].
  apply mod7_window.
  - destruct ((s =? 0) || ((s =? 1) && (10 <? a))) eqn:B; lia.
  - replace (365 * (100 * (4 * q + e) + (4 * i + k)) + (25 * (4 * q + e) + i) - (4 * q + e) + q - 305
             + (29 - s + l - 7 * mm + 21))
      with ((l - (32 + 2 * e + 2 * i - (29 - s) - k)) + 7 * (20871 * q + 5218 * e + 209 * i + 52 * k - mm - 36)) by lia.
    rewrite <- Z.add_mod_idemp_r by lia. rewrite (Z.mul_comm 7), Z.mod_mul, Z.add_0_r by lia. exact El.
Qed.

Lemma Gregorian_code y : 0 <= y < two63 -> 21 <= greg_N y <= 55 ->
  M_easter.Gregorian y = (Z.quot (greg_N y + 93) 31, Z.rem (greg_N y + 93) 31 + 1).
Proof.
  intros Hy HN. unfold two63 in Hy. unfold M_easter.Gregorian. cbv zeta.
  rewrite !(quot_pos_div y), !(rem_pos_mod y) by lia.
  rewrite !(wrap64_id (y / 100)) by lia.
  unfold greg_N in *. cbv zeta in HN |- *.
  set (a := y mod 19) in *. set (b := y / 100) in *. set (c := y mod 100) in *.
  assert (Ha : 0 <= a < 19) by (subst a; lia). clearbody a.
  assert (Hc : 0 <= c < 100) by (subst c; lia). clearbody c.
  assert (Hb : 0 <= b < 100000000000000000) by (subst b; lia). clearbody b. clear Hy y.
  rewrite !(quot_pos_div b), !(rem_pos_mod b), !(quot_pos_div c), !(rem_pos_mod c) by lia.
  rewrite !(wrap64_id (b + 8)) by lia. rewrite !(quot_pos_div (b + 8)) by lia.
  set (i := c / 4) in *. set (k := c mod 4) in *.
  assert (Hi : 0 <= i < 25) by (subst i; lia). assert (Hk : 0 <= k < 4) by (subst k; lia).
  clearbody i k. clear Hc c.
  set (f := (b + 8) / 25) in *. assert (Hf : 0 <= f <= b / 25 + 1) by (subst f; lia). clearbody f.
  set (d := b / 4) in *. assert (Hd : 0 <= d /\ d <= b) by (subst d; lia).
  set (e := b mod 4) in *. assert (He : 0 <= e < 4) by (subst e; lia). clearbody e.
  rewrite !(wrap64_id f), !(wrap64_id (b - f)), !(wrap64_id (b - f + 1)) by lia.
  rewrite !(quot_pos_div (b - f + 1)) by lia.
  set (g := (b - f + 1) / 3) in *. assert (Hg : 0 <= g /\ g <= b / 3 + 1) by (subst g; lia). clearbody g.
  assert (Hh0 : 0 <= 19 * a + b - d - g + 15) by (subst d; lia). clearbody d.
  repeat unwrap1.
  rewrite !(rem_pos_mod (19 * a + b - d - g + 15)) by lia.
  set (h := (19 * a + b - d - g + 15) mod 30) in *.
  assert (Hh : 0 <= h < 30) by (subst h; lia). clearbody h.
  repeat unwrap1.
  rewrite !(rem_pos_mod (32 + 2 * e + 2 * i - h - k)) by lia.
  set (l := (32 + 2 * e + 2 * i - h - k) mod 7) in *.
  assert (Hl : 0 <= l < 7) by (subst l; lia). clearbody l.
  repeat unwrap1.
  rewrite !(quot_pos_div (a + 11 * h + 22 * l)) by lia.
  set (m := (a + 11 * h + 22 * l) / 451) in *.
  assert (Hm : 0 <= m <= 1) by (subst m; lia). clearbody m.
  repeat unwrap1.
  replace (h + l - 7 * m + 114) with (h + l - 7 * m + 21 + 93) by lia.
  rewrite !quot_pos_div, !rem_pos_mod by lia. repeat unwrap1. reflexivity.
Qed.

Lemma Gregorian_easter y : 0 <= y < two63 ->
  let '(m, d) := M_easter.Gregorian y in is_easter Gregorian y m d.
Proof.
  intros Hy.
  assert (HN : 21 <= greg_N y <= 55).
  { destruct (Z_le_gt_dec (greg_N y) 30).
    - apply (greg_easter_Z y 3 (greg_N y + 1)); lia.
    - apply (greg_easter_Z y 4 (greg_N y - 30)); lia. }
  rewrite Gregorian_code by assumption.
  pose proof (easter_month _ HN) as E.
  set (m := Z.quot (greg_N y + 93) 31) in *. set (d := Z.rem (greg_N y + 93) 31 + 1) in *.
  destruct (easter_date Gregorian y m d _ HN E) as [V R].
  destruct (greg_easter_Z y m d ltac:(lia) E) as [_ S].
  repeat split; try assumption; apply S.
Qed.

(** Julian *)
Definition jul_N (y : Z) : Z :=
  let d := (19 * (y mod 19) + 15) mod 30 in
  let e := (2 * (y mod 4) + 4 * (y mod 7) - d + 34) mod 7 in
  d + e + 21.

Lemma Julian_easter y : 0 <= y < two63 ->
  let '(m, d) := M_easter.Julian y in is_easter Julian y m d.
Proof.
  unfold two63. intros Hy. unfold M_easter.Julian. cbv zeta.
  rewrite !(rem_pos_mod y) by lia.
  set (a := y mod 4). set (b := y mod 7). set (c := y mod 19).
  assert (Ha : 0 <= a < 4) by (subst a; lia). assert (Hb : 0 <= b < 7) by (subst b; lia).
  assert (Hc : 0 <= c < 19) by (subst c; lia).
  repeat unwrap1. rewrite !(rem_pos_mod (19 * c + 15)) by lia.
  set (d := (19 * c + 15) mod 30). assert (Hd : 0 <= d < 30) by (subst d; lia).
  assert (Ed : (14 + 11 * c) mod 30 = 29 - d) by (subst d; lia).
  repeat unwrap1. rewrite !(rem_pos_mod (2 * a + 4 * b - d + 34)) by lia.
  set (e := (2 * a + 4 * b - d + 34) mod 7). assert (He : 0 <= e < 7) by (subst e; lia).
  repeat unwrap1.
  set (N := d + e + 21). assert (HN : 21 <= N <= 55) by (subst N; lia).
  replace (d + e + 114) with (N + 93) by (subst N; lia).
  pose proof (easter_month _ HN) as E.
  rewrite ?(wrap64_id (Z.quot (N + 93) 31)), ?(wrap64_id (Z.rem (N + 93) 31 + 1)) by lia.
  set (m' := Z.quot (N + 93) 31) in *. set (d' := Z.rem (N + 93) 31 + 1) in *. clearbody m' d'.
  destruct (easter_date Julian y m' d' _ HN E) as [V R].
  split; [exact V|]. split; [exact R|].
  unfold paschal_moon. fold c. rewrite Ed.
  rewrite (rd_march_jul y m' d' N) by lia. rewrite (rd_march_jul y 4 19 49) by lia.
  apply mod7_window; [subst N; lia|].
  assert (Ee : (e - (2 * a + 4 * b - d + 34)) mod 7 = 0) by (subst e; lia).
  clearbody e. clear E R V Ed HN. clearbody d. clear c Hc.
  set (q := y / 4). assert (Eq : y = 4 * q + a) by (subst q a; lia).
  set (p := y / 7). assert (Ep : y = 7 * p + b) by (subst p b; lia).
  replace (365 * y + q - 307 + N)
    with ((e - (2 * a + 4 * b - d + 34)) + 7 * (53 * y - q - 4 * p - 36)) by (subst N; lia).
  rewrite <- Z.add_mod_idemp_r by lia. rewrite (Z.mul_comm 7), Z.mod_mul, Z.add_0_r by lia. exact Ee.
Qed.

Lemma is_easter_unique c y m d m' d' : is_easter c y m d -> is_easter c y m' d' -> m = m' /\ d = d'.
Proof.
  intros (V & _ & A1 & A2 & A3) (V' & _ & B1 & B2 & B3).
  assert (E : rata_die c (mkdate y m d) = rata_die c (mkdate y m' d')).
  { destruct (Z.lt_trichotomy (rata_die c (mkdate y m d)) (rata_die c (mkdate y m' d'))) as [L|[L|L]]; [|exact L|].
    - exfalso. apply (B3 (rata_die c (mkdate y m d))); [lia|assumption].
    - exfalso. apply (A3 (rata_die c (mkdate y m' d'))); [lia|assumption]. }
  pose proof (rata_die_inj c _ _ V V' E) as X. injection X as -> ->. auto.
Qed.
