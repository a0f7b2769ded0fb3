(** Integer part of the calendar conversions. *)
From Coq Require Import ZArith Bool Lia ZifyBool.
From Verif Require Import GoInt M_base M_julian S_Calendar L_tac.
Local Open Scope Z_scope.
Local Open Scope go_scope.
Ltac Zify.zify_post_hook ::= Z.div_mod_to_equations.

Lemma LeapYearJulian_spec y : LeapYearJulian y = leap_spec Julian y.
Proof.
  unfold LeapYearJulian, leap_spec.
  pose proof (Z.rem_divide y 4) as H1. pose proof (Z.mod_divide y 4) as H2.
  destruct (Z.eqb_spec (Z.rem y 4) 0), (Z.eqb_spec (y mod 4) 0); try reflexivity.
  - exfalso. apply n. apply H2; [lia|]. apply H1; [lia|assumption].
  - exfalso. apply n. apply H1; [lia|]. apply H2; [lia|assumption].
Qed.

Lemma rem_mod_zero y n : 0 < n -> (Z.rem y n =? 0) = (y mod n =? 0).
Proof.
  intros Hn. pose proof (Z.rem_divide y n) as H1. pose proof (Z.mod_divide y n) as H2.
  destruct (Z.eqb_spec (Z.rem y n) 0) as [H|H], (Z.eqb_spec (y mod n) 0) as [H'|H']; try reflexivity.
  - exfalso. apply H'. apply H2; [lia|]. apply H1; [lia|assumption].
  - exfalso. apply H. apply H1; [lia|]. apply H2; [lia|assumption].
Qed.

Lemma LeapYearGregorian_spec y : LeapYearGregorian y = leap_spec Gregorian y.
Proof.
  unfold LeapYearGregorian, leap_spec. rewrite !rem_mod_zero by lia. reflexivity.
Qed.

(** The Rata Die day count counts days. *)
Lemma month_cases m : 1 <= m <= 12 ->
  m = 1 \/ m = 2 \/ m = 3 \/ m = 4 \/ m = 5 \/ m = 6 \/ m = 7 \/ m = 8 \/ m = 9 \/
  m = 10 \/ m = 11 \/ m = 12.
Proof. lia. Qed.

Ltac month_split H :=
  destruct (month_cases _ H) as [-> | [-> | [-> | [-> | [-> | [-> | [-> | [-> | [-> | [-> | [-> | -> ]]]]]]]]]]].

Lemma valid_date_inv c x : valid_date c x = true ->
  1 <= d_m x <= 12 /\ 1 <= d_d x <= month_length (leap_spec c (d_y x)) (d_m x).
Proof. unfold valid_date. lia. Qed.

Lemma valid_date_intro c x :
  1 <= d_m x <= 12 -> 1 <= d_d x <= month_length (leap_spec c (d_y x)) (d_m x) ->
  valid_date c x = true.
Proof. unfold valid_date. lia. Qed.

Lemma rata_die_counts c : counts_days c (rata_die c).
Proof.
  intros [y m d] H. apply valid_date_inv in H as [Hm Hd]. cbn [d_y d_m d_d] in *.
  unfold next_date, rata_die. cbn [d_y d_m d_d].
  month_split Hm; destruct c; unfold month_length, leap_spec, days_before_month in *;
    cbn [d_y d_m d_d Z.ltb Z.compare Pos.compare Pos.compare_cont Z.add Pos.add Pos.succ] in *;
    repeat match goal with |- context [if ?b then _ else _] => destruct b eqn:?E end;
    cbn [d_y d_m d_d] in *; try (replace (y + 1 - 1) with y by lia);
    repeat match goal with H : context [if ?b then _ else _] |- _ => destruct b eqn:?E end; lia.
Qed.

Lemma next_date_valid c x : valid_date c x = true -> valid_date c (next_date c x) = true.
Proof.
  destruct x as [y m d]. intros H. apply valid_date_inv in H as [Hm Hd]. cbn [d_y d_m d_d] in *.
  unfold next_date. cbn [d_y d_m d_d].
  destruct (Z.ltb_spec d (month_length (leap_spec c y) m)).
  - apply valid_date_intro; cbn [d_y d_m d_d]; lia.
  - destruct (Z.ltb_spec m 12).
    + apply valid_date_intro; cbn [d_y d_m d_d]; [lia|].
      assert (HM : 1 <= m + 1 <= 12) by lia.
      unfold month_length. month_split Hm; cbn; destruct (leap_spec c y); lia.
    + apply valid_date_intro; cbn [d_y d_m d_d]; [lia|]. unfold month_length. lia.
Qed.

Definition prev_date (c : calendar) (x : date) : date :=
  if 1 <? d_d x then mkdate (d_y x) (d_m x) (d_d x - 1)
  else if 1 <? d_m x then mkdate (d_y x) (d_m x - 1) (month_length (leap_spec c (d_y x)) (d_m x - 1))
  else mkdate (d_y x - 1) 12 31.

Lemma prev_date_spec c x : valid_date c x = true ->
  valid_date c (prev_date c x) = true /\ next_date c (prev_date c x) = x.
Proof.
  destruct x as [y m d]. intros H. apply valid_date_inv in H as [Hm Hd]. cbn [d_y d_m d_d] in *.
  unfold prev_date. cbn [d_y d_m d_d].
  destruct (Z.ltb_spec 1 d).
  - split.
    + apply valid_date_intro; cbn [d_y d_m d_d]; lia.
    + unfold next_date; cbn [d_y d_m d_d].
      destruct (Z.ltb_spec (d - 1) (month_length (leap_spec c y) m)); [f_equal; lia|lia].
  - assert (d = 1) by lia; subst d. destruct (Z.ltb_spec 1 m).
    + split.
      * apply valid_date_intro; cbn [d_y d_m d_d]; [lia|]. split; [|lia].
        unfold month_length. month_split Hm; cbn; destruct (leap_spec c y); lia.
      * unfold next_date; cbn [d_y d_m d_d]. rewrite Z.ltb_irrefl.
        destruct (Z.ltb_spec (m - 1) 12); [f_equal; lia|lia].
    + assert (m = 1) by lia; subst m. split.
      * apply valid_date_intro; cbn [d_y d_m d_d]; cbn; lia.
      * unfold next_date; cbn [d_y d_m d_d]. cbn [month_length Z.ltb Z.compare Pos.compare Pos.compare_cont].
        f_equal. lia.
Qed.

(** Two dates with the same Rata Die number are equal. *)
Lemma rata_die_inj c x x' :
  valid_date c x = true -> valid_date c x' = true -> rata_die c x = rata_die c x' -> x = x'.
Proof.
  destruct x as [y m d], x' as [y' m' d']. intros H H'.
  apply valid_date_inv in H as [Hm Hd]. apply valid_date_inv in H' as [Hm' Hd'].
  cbn [d_y d_m d_d] in *. unfold rata_die. cbn [d_y d_m d_d]. intros E.
  assert (B : forall l k, 1 <= k <= 12 -> 0 <= days_before_month l k <= 335 /\
     days_before_month l k + month_length l k <= year_length l).
  { intros l k Hk. destruct l; month_split Hk; cbn; lia. }
  pose proof (B (leap_spec c y) m Hm) as [B1 B2].
  pose proof (B (leap_spec c y') m' Hm') as [B1' B2'].
  assert (Ey : y = y').
  { assert (HY : forall a b, a < b ->
       365 * (a - 1) + (a - 1) / 4 +
       match c with Gregorian => (a - 1) / 400 - (a - 1) / 100 | Julian => - 2 end + year_length (leap_spec c a)
       <= 365 * (b - 1) + (b - 1) / 4 +
       match c with Gregorian => (b - 1) / 400 - (b - 1) / 100 | Julian => - 2 end).
    { intros a b Hab. unfold leap_spec, year_length.
      destruct c; match goal with |- context [if ?b then _ else _] => destruct b eqn:?E end; lia. }
    destruct (Z.lt_trichotomy y y') as [L|[L|L]]; [|exact L|].
    - specialize (HY y y' L). lia.
    - specialize (HY y' y L). lia. }
  subst y'. assert (Em : m = m').
  { assert (HM : forall a b, 1 <= a -> a < b -> b <= 12 ->
      days_before_month (leap_spec c y) a + month_length (leap_spec c y) a <= days_before_month (leap_spec c y) b).
    { intros a b Ha Hab Hb.
      assert (a1 : 1 <= a <= 12) by lia. assert (b1 : 1 <= b <= 12) by lia.
      month_split a1; month_split b1; try lia; cbn; destruct (leap_spec c y); lia. }
    destruct (Z.lt_trichotomy m m') as [L|[L|L]]; [|exact L|].
    - specialize (HM m m' ltac:(lia) L ltac:(lia)). lia.
    - specialize (HM m' m ltac:(lia) L ltac:(lia)). lia. }
  subst m'. f_equal. lia.
Qed.

(** Any function that counts days agrees with Rata Die up to its origin. *)
Lemma counts_days_unique c f : counts_days c f ->
  forall x x0, valid_date c x = true -> valid_date c x0 = true ->
  f x - f x0 = rata_die c x - rata_die c x0.
Proof.
  intros Hf.
  assert (G : forall n x x0, valid_date c x = true -> valid_date c x0 = true ->
    rata_die c x = rata_die c x0 + Z.of_nat n -> f x = f x0 + Z.of_nat n).
  { induction n as [|n IH]; intros x x0 Hx Hx0 E.
    - assert (x = x0) by (apply (rata_die_inj c); auto; lia). subst. lia.
    - destruct (prev_date_spec c x Hx) as [Hv Hn].
      pose proof (rata_die_counts c _ Hv) as Hc. rewrite Hn in Hc.
      pose proof (Hf _ Hv) as Hc'. rewrite Hn in Hc'.
      specialize (IH (prev_date c x) x0 Hv Hx0 ltac:(lia)). lia. }
  intros x x0 Hx Hx0.
  destruct (Z.le_ge_cases (rata_die c x0) (rata_die c x)) as [L|L].
  - pose proof (G (Z.to_nat (rata_die c x - rata_die c x0)) x x0 Hx Hx0). lia.
  - pose proof (G (Z.to_nat (rata_die c x0 - rata_die c x)) x0 x Hx0 Hx). lia.
Qed.

(** The integer part of the code's calendar-to-JD conversion. *)
Definition yearbound (y : Z) : Prop := - 200000000000000 <= y <= 200000000000000.

Lemma greg_to_int y m : yearbound y -> 1 <= m <= 12 ->
  let jf := (m =? 1) || (m =? 2) in
  let y' := if jf then y -! 1 else y in
  let m' := if jf then m +! 12 else m in
  let a := floordiv y' 100 in
  let b := (2 -! a) +! floordiv a 4 in
  floordiv (36525 *! (y' +! 4716)) 100 + (floordiv (306 *! (m' +! 1)) 10 +! b)
  = jdn Gregorian (mkdate y m 0) + 1524.
Proof.
  unfold yearbound. intros Hy Hm.
  unfold jdn, rata_die, leap_spec, days_before_month; cbn [d_y d_m d_d].
  month_split Hm;
  cbn [Z.eqb Pos.eqb orb]; unwrap;
  try (match goal with |- context [if ?b then _ else _] => destruct b eqn:?E end); lia.
Qed.

Lemma jul_to_int y m : yearbound y -> 1 <= m <= 12 ->
  let jf := (m =? 1) || (m =? 2) in
  let y' := if jf then y -! 1 else y in
  let m' := if jf then m +! 12 else m in
  floordiv (36525 *! (y' +! 4716)) 100 + floordiv (306 *! (m' +! 1)) 10
  = jdn Julian (mkdate y m 0) + 1524.
Proof.
  unfold yearbound. intros Hy Hm.
  unfold jdn, rata_die, leap_spec, days_before_month; cbn [d_y d_m d_d].
  month_split Hm;
  cbn [Z.eqb Pos.eqb orb]; unwrap;
  try (match goal with |- context [if ?b then _ else _] => destruct b eqn:?E end); lia.
Qed.
