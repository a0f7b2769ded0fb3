(** Lemmas for solstices and equinoxes. *)
From Coq Require Import ZArith Reals List Lra Lia Bool.
From Flocq Require Import Core.
From Verif Require Import GoFloat GoMath M_base M_coord M_precess M_vsop M_solar M_season.
From Verif Require Import S_base S_Calendar S_solar S_season L_base L_trig L_kepler L_precess L_solar.
Import ListNotations.
Local Open Scope R_scope.

(** ** The sum of periodic terms *)
Lemma season_sum_sumR T : season_sum T = sumR (map (fun t => let '(a, b, c) := t in IZR a * cos ((IZR b / 100 + IZR c / 1000 * T) * PI / 180)) season_terms).
Proof.
  unfold season_sum.
  assert (G : forall l s, fold_left (fun s (t : Z * Z * Z) => let '(a, b, c) := t in s + IZR a * cos ((IZR b / 100 + IZR c / 1000 * T) * PI / 180)) (rev l) s =
    s + sumR (map (fun t : Z * Z * Z => let '(a, b, c) := t in IZR a * cos ((IZR b / 100 + IZR c / 1000 * T) * PI / 180)) l)).
  { induction l as [|[[a b] c] l IH]; intros s; [cbn; lra|]. cbn [rev]. rewrite fold_left_app, IH. cbn [fold_left map]. unfold sumR. cbn [fold_right]. lra. }
  rewrite G. lra.
Qed.
Lemma season_sum_bound T : Rabs (season_sum T) <= 1978.
Proof.
  rewrite season_sum_sumR.
  assert (G : forall l, (forall a b c, In (a, b, c) l -> (0 <= a)%Z) ->
    Rabs (sumR (map (fun t : Z * Z * Z => let '(a, b, c) := t in IZR a * cos ((IZR b / 100 + IZR c / 1000 * T) * PI / 180)) l)) <= IZR (fold_right Z.add 0%Z (map (fun t : Z * Z * Z => let '(a, _, _) := t in a) l))).
  { induction l as [|[[a b] c] l IH]; intros H; [cbn; rewrite Rabs_R0; lra|]. cbn [map]. unfold sumR. cbn [fold_right]. rewrite plus_IZR. fold (sumR (map (fun t : Z * Z * Z => let '(a, b, c) := t in IZR a * cos ((IZR b / 100 + IZR c / 1000 * T) * PI / 180)) l)).
    eapply Rle_trans; [apply Rabs_triang|]. apply Rplus_le_compat; [|apply IH; intros a' b' c' I; apply (H a' b' c'); right; exact I].
    assert (0 <= IZR a) by (apply IZR_le, (H a b c); left; reflexivity). rewrite Rabs_mult, (Rabs_pos_eq (IZR a)) by assumption.
    pose proof (abs_cos ((IZR b / 100 + IZR c / 1000 * T) * PI / 180)). nra. }
  refine (Rle_trans _ _ _ (G season_terms _) _).
  - intros a b c I. cbn in I. repeat (destruct I as [E|I]; [injection E as <- <- <-; lia|]). destruct I.
  - vm_compute fold_right. lra.
Qed.
Lemma season_corr T : Rabs (1 / 100000 * season_sum T / season_dl T) <= 21 / 1000.
Proof.
  pose proof (season_sum_bound T) as B. unfold season_dl. cbv zeta. set (W := 35999373 / 1000 * PI / 180 * T - 247 / 100 * PI / 180).
  pose proof (COS_bound W). pose proof (COS_bound (2 * W)). set (d := 1 + 334 / 10000 * cos W + 7 / 10000 * cos (2 * W)).
  assert (D : 9659 / 10000 <= d) by (unfold d; lra). assert (0 < / d) by (apply Rinv_0_lt_compat; lra).
  unfold Rdiv at 1. rewrite !Rabs_mult, (Rabs_pos_eq (/ d)) by lra. rewrite (Rabs_pos_eq (1 / 100000)) by lra.
  apply Rmult_le_reg_r with d; [lra|]. replace (1 / 100000 * Rabs (season_sum T) * / d * d) with (1 / 100000 * Rabs (season_sum T)) by (field; lra). lra.
Qed.
Lemma season_poly y c0 c1 c2 c3 c4 : let Y := IZR y / 1000 in
  Rabs (season_eq y [c0; c1; c2; c3; c4] - (c0 + c1 * Y + c2 * Y ^ 2 + c3 * Y ^ 3 + c4 * Y ^ 4)) <= 21 / 1000.
Proof.
  cbv zeta. unfold season_eq. cbv zeta. set (J := HornerR _ _). pose proof (season_corr (J2000Century (fl := RFlt) J)) as B.
  replace (c0 + c1 * (IZR y / 1000) + c2 * (IZR y / 1000) ^ 2 + c3 * (IZR y / 1000) ^ 3 + c4 * (IZR y / 1000) ^ 4) with J.
  - match goal with |- Rabs ?q <= _ => replace q with (1 / 100000 * season_sum (J2000Century (fl := RFlt) J) / season_dl (J2000Century (fl := RFlt) J)) by lra end. exact B.
  - unfold J. rewrite HornerR_poly by discriminate. rewrite !poly_cons, !poly_nil. field.
Qed.

(** ** Dates *)
Lemma date0h_lin y m d : (3 <= m)%Z -> date0h y m d = IZR (365 * y + y / 4 - y / 100 + y / 400 + days_before_month false m + d + 1721060) - / 2.
Proof.
  intros Hm. unfold date0h, jdn, rata_die. cbn [d_y d_m d_d]. f_equal. f_equal.
  assert (E : days_before_month (leap_spec Gregorian y) m = (days_before_month false m + (if leap_spec Gregorian y then 1 else 0))%Z).
  { unfold days_before_month. destruct (leap_spec Gregorian y); destruct m as [|p|p]; try lia. destruct p as [p|p|]; try lia; destruct p as [p|p|]; try lia; destruct p as [p|p|]; try lia; destruct p as [p|p|]; lia. }
  rewrite E. unfold leap_spec. destruct (Z.eqb_spec (y mod 4) 0), (Z.eqb_spec (y mod 100) 0), (Z.eqb_spec (y mod 400) 0); cbn [andb orb negb]; Z.div_mod_to_equations; lia.
Qed.
Lemma leap_dev y : 97 / 400 * IZR y - 699 / 400 <= IZR (y / 4 - y / 100 + y / 400) <= 97 / 400 * IZR y + 99 / 100.
Proof.
  assert (A : (400 * (y / 4 - y / 100 + y / 400) <= 97 * y + 396)%Z) by (Z.div_mod_to_equations; lia).
  assert (B : (97 * y - 699 <= 400 * (y / 4 - y / 100 + y / 400))%Z) by (Z.div_mod_to_equations; lia).
  apply IZR_le in A. apply IZR_le in B. rewrite plus_IZR, !mult_IZR in A. rewrite minus_IZR, !mult_IZR in B. lra.
Qed.
Lemma powers Y : -1 <= Y <= 1 -> 0 <= Y ^ 2 <= 1 /\ -1 <= Y ^ 3 <= 1 /\ 0 <= Y ^ 4 <= 1.
Proof.
  intros H. assert (A : 0 <= Y ^ 2 <= 1) by nra. split; [exact A|]. split; [replace (Y ^ 3) with (Y * Y ^ 2) by ring; set (a := Y ^ 2) in *; clearbody a; nra|].
  replace (Y ^ 4) with (Y ^ 2 * Y ^ 2) by ring. set (a := Y ^ 2) in *; clearbody a; nra.
Qed.
Lemma by_year_poly c00 c01 c02 c03 c04 c20 c21 c22 c23 c24 y : (-1000 <= y <= 3000)%Z ->
  ((y < 1000)%Z /\ exists Y, Y = IZR y / 1000 /\ -1 <= Y <= 999 / 1000 /\ 0 <= Y ^ 2 <= 1 /\ -1 <= Y ^ 3 <= 1 /\ 0 <= Y ^ 4 <= 1 /\
     c00 + c01 * Y + c02 * Y ^ 2 + c03 * Y ^ 3 + c04 * Y ^ 4 - 21 / 1000 <= by_year [c00; c01; c02; c03; c04] [c20; c21; c22; c23; c24] y <= c00 + c01 * Y + c02 * Y ^ 2 + c03 * Y ^ 3 + c04 * Y ^ 4 + 21 / 1000) \/
  ((1000 <= y)%Z /\ exists Y, Y = (IZR y - 2000) / 1000 /\ -1 <= Y <= 1 /\ 0 <= Y ^ 2 <= 1 /\ -1 <= Y ^ 3 <= 1 /\ 0 <= Y ^ 4 <= 1 /\
     c20 + c21 * Y + c22 * Y ^ 2 + c23 * Y ^ 3 + c24 * Y ^ 4 - 21 / 1000 <= by_year [c00; c01; c02; c03; c04] [c20; c21; c22; c23; c24] y <= c20 + c21 * Y + c22 * Y ^ 2 + c23 * Y ^ 3 + c24 * Y ^ 4 + 21 / 1000).
Proof.
  intros H. unfold by_year. destruct (Z.ltb_spec y 1000) as [L|L]; [left|right]; (split; [exact L|]).
  - exists (IZR y / 1000). assert (B : -1 <= IZR y / 1000 <= 999 / 1000) by (assert (-1000 <= IZR y <= 999) by (split; apply IZR_le; lia); lra).
    split; [reflexivity|]. split; [exact B|]. pose proof (powers (IZR y / 1000) ltac:(lra)) as (P2 & P3 & P4). do 3 (split; [assumption|]).
    pose proof (season_poly y c00 c01 c02 c03 c04) as P. cbv zeta in P. apply Rabs_le_inv in P. lra.
  - exists ((IZR y - 2000) / 1000). assert (B : -1 <= (IZR y - 2000) / 1000 <= 1) by (assert (1000 <= IZR y <= 3000) by (split; apply IZR_le; lia); lra).
    split; [reflexivity|]. split; [exact B|]. pose proof (powers _ B) as (P2 & P3 & P4). do 3 (split; [assumption|]).
    pose proof (season_poly (y - 2000) c20 c21 c22 c23 c24) as P. cbv zeta in P. rewrite minus_IZR in P. apply Rabs_le_inv in P. lra.
Qed.
Lemma season_date y m d1 d2 c00 c01 c02 c03 c04 c20 c21 c22 c23 c24 : (-1000 <= y <= 3000)%Z -> (3 <= m)%Z ->
  (forall Y, -1 <= Y <= 999 / 1000 -> 0 <= Y ^ 2 <= 1 -> -1 <= Y ^ 3 <= 1 -> 0 <= Y ^ 4 <= 1 ->
    IZR (days_before_month false m) + IZR d1 + 1721060 - / 2 + 365242.5 * Y + 99 / 100 + 21 / 1000 <= c00 + c01 * Y + c02 * Y ^ 2 + c03 * Y ^ 3 + c04 * Y ^ 4 < 
    IZR (days_before_month false m) + IZR d2 + 1721060 - / 2 + 365242.5 * Y - 699 / 400 - 21 / 1000) ->
  (forall Y, -1 <= Y <= 1 -> 0 <= Y ^ 2 <= 1 -> -1 <= Y ^ 3 <= 1 -> 0 <= Y ^ 4 <= 1 ->
    IZR (days_before_month false m) + IZR d1 + 2451545 - / 2 + 365242.5 * Y + 99 / 100 + 21 / 1000 <= c20 + c21 * Y + c22 * Y ^ 2 + c23 * Y ^ 3 + c24 * Y ^ 4 < 
    IZR (days_before_month false m) + IZR d2 + 2451545 - / 2 + 365242.5 * Y - 699 / 400 - 21 / 1000) ->
  date0h y m d1 <= by_year [c00; c01; c02; c03; c04] [c20; c21; c22; c23; c24] y < date0h y m d2.
Proof.
  intros H Hm H0 H2. rewrite (date0h_lin y m d1), (date0h_lin y m d2) by exact Hm. pose proof (leap_dev y) as LD.
  replace (365 * y + y / 4 - y / 100 + y / 400 + days_before_month false m + d1 + 1721060)%Z with ((y / 4 - y / 100 + y / 400) + (365 * y + days_before_month false m + d1 + 1721060))%Z by ring.
  replace (365 * y + y / 4 - y / 100 + y / 400 + days_before_month false m + d2 + 1721060)%Z with ((y / 4 - y / 100 + y / 400) + (365 * y + days_before_month false m + d2 + 1721060))%Z by ring.
  rewrite !(plus_IZR (y / 4 - y / 100 + y / 400)). generalize dependent (IZR (y / 4 - y / 100 + y / 400)). intros q Q. rewrite !plus_IZR, !mult_IZR.
  destruct (by_year_poly c00 c01 c02 c03 c04 c20 c21 c22 c23 c24 y H) as [(_ & Y & EY & BY & P2 & P3 & P4 & B)|(_ & Y & EY & BY & P2 & P3 & P4 & B)].
  - specialize (H0 Y BY P2 P3 P4). assert (E : IZR y = 1000 * Y) by (rewrite EY; field). rewrite E in *. decimals_in H0. lra.
  - specialize (H2 Y BY P2 P3 P4). assert (E : IZR y = 1000 * Y + 2000) by (rewrite EY; field). rewrite E in *. decimals_in H2. lra.
Qed.
Ltac date_by := unfold March, June, September, December, mc0, mc2, jc0, jc2, sc0, sc2, dc0, dc2; intros H; apply season_date; [exact H|lia|..];
  intros Y HY H2 H3 H4; decimals; repeat match goal with |- context [days_before_month ?b ?m] => let v := eval vm_compute in (days_before_month b m) in change (days_before_month b m) with v end; lra.
Lemma March_date y : (-1000 <= y <= 3000)%Z -> date0h y 3 19 <= March y < date0h y 3 23.
Proof. date_by. Qed.
Lemma June_date y : (-1000 <= y <= 3000)%Z -> date0h y 6 19 <= June y < date0h y 6 26.
Proof. date_by. Qed.
Lemma September_date y : (-1000 <= y <= 3000)%Z -> date0h y 9 21 <= September y < date0h y 9 26.
Proof. date_by. Qed.
Lemma December_date y : (-1000 <= y <= 3000)%Z -> date0h y 12 19 <= December y < date0h y 12 24.
Proof. date_by. Qed.

(** ** Order and lengths *)
Ltac unf := unfold March, June, September, December, mc0, mc2, jc0, jc2, sc0, sc2, dc0, dc2.
Ltac get_bounds y H := repeat match goal with |- context [by_year [?c00; ?c01; ?c02; ?c03; ?c04] [?c20; ?c21; ?c22; ?c23; ?c24] y] =>
  let X := fresh "X" in pose proof (by_year_poly c00 c01 c02 c03 c04 c20 c21 c22 c23 c24 y H) as X; 
  generalize dependent (by_year [c00; c01; c02; c03; c04] [c20; c21; c22; c23; c24] y); intros ? X end.
Ltac use_bounds := repeat match goal with X : (_ /\ exists _, _) \/ (_ /\ exists _, _) |- _ =>
  let A := fresh "L" in let Y := fresh "Y" in let B := fresh "B" in let E := fresh "E" in destruct X as [(A & Y & E & B)|(A & Y & E & B)] end.
Lemma seasons_same_year y : (-1000 <= y <= 3000)%Z ->
  91 < June y - March y < 95 /\ 91 < September y - June y < 95 /\ 88 < December y - September y < 91.
Proof.
  intros H. unf. get_bounds y H. use_bounds; try lia; repeat match goal with E : ?Y = _, E' : ?Z = _ |- _ => lazymatch Y with Z => fail | _ => rewrite <- E in E'; try subst Z end end; lra.
Qed.
Lemma powers_step Y : -1 <= Y <= 1 -> -1 <= Y + 1 / 1000 <= 1 -> 
  -1 / 400 <= (Y + 1 / 1000) ^ 2 - Y ^ 2 <= 1 / 400 /\ 0 <= (Y + 1 / 1000) ^ 3 - Y ^ 3 <= 1 / 300 /\ -1 / 200 <= (Y + 1 / 1000) ^ 4 - Y ^ 4 <= 1 / 200.
Proof.
  intros H1 H2. set (Z := Y + 1 / 1000) in *.
  replace (Z ^ 2 - Y ^ 2) with ((Z + Y) * (1 / 1000)) by (unfold Z; ring).
  replace (Z ^ 3 - Y ^ 3) with ((Z * Z + Z * Y + Y * Y) * (1 / 1000)) by (unfold Z; ring).
  replace (Z ^ 4 - Y ^ 4) with ((Z + Y) * (Z * Z + Y * Y) * (1 / 1000)) by (unfold Z; ring).
  clearbody Z. assert (0 <= Z * Z <= 1) by nra. assert (0 <= Y * Y <= 1) by nra. assert (-1 <= Z * Y <= 1) by nra.
  assert (0 <= Z * Z + Z * Y + Y * Y) by (pose proof (Rle_0_sqr (Z + Y)); unfold Rsqr in *; nra).
  assert (-4 <= (Z + Y) * (Z * Z + Y * Y) <= 4) by (set (w := Z * Z + Y * Y) in *; assert (0 <= w <= 2) by (unfold w; lra); clearbody w; nra). lra.
Qed.
Lemma year_lengths y : (-1000 <= y <= 2999)%Z ->
  365.19 < March (y + 1) - March y < 365.29 /\ 365.19 < June (y + 1) - June y < 365.29 /\
  365.19 < September (y + 1) - September y < 365.29 /\ 365.19 < December (y + 1) - December y < 365.29.
Proof.
  intros H. unf. assert (H1 : (-1000 <= y <= 3000)%Z) by lia. assert (H2 : (-1000 <= y + 1 <= 3000)%Z) by lia.
  assert (G : forall c00 c01 c02 c03 c04 c20 c21 c22 c23 c24,
    (forall a b c, -1 / 400 <= a <= 1 / 400 -> 0 <= b <= 1 / 300 -> -1 / 200 <= c <= 1 / 200 -> 365.232 < c01 / 1000 + c02 * a + c03 * b + c04 * c < 365.248) ->
    (forall a b c, -1 / 400 <= a <= 1 / 400 -> 0 <= b <= 1 / 300 -> -1 / 200 <= c <= 1 / 200 -> 365.232 < c21 / 1000 + c22 * a + c23 * b + c24 * c < 365.248) ->
    365.232 < (c20 - c21 + c22 - c23 + c24) - (c00 + c01 * (999 / 1000) + c02 * (999 / 1000) ^ 2 + c03 * (999 / 1000) ^ 3 + c04 * (999 / 1000) ^ 4) < 365.248 ->
    365.19 < by_year [c00; c01; c02; c03; c04] [c20; c21; c22; c23; c24] (y + 1) - by_year [c00; c01; c02; c03; c04] [c20; c21; c22; c23; c24] y < 365.29).
  { intros c00 c01 c02 c03 c04 c20 c21 c22 c23 c24 K1 K2 K3.
    destruct (by_year_poly c00 c01 c02 c03 c04 c20 c21 c22 c23 c24 y H1) as [(L & Y & E & R1 & _ & _ & _ & B)|(L & Y & E & R1 & _ & _ & _ & B)];
    destruct (by_year_poly c00 c01 c02 c03 c04 c20 c21 c22 c23 c24 (y + 1) H2) as [(L' & Y' & E' & R2 & _ & _ & _ & B')|(L' & Y' & E' & R2 & _ & _ & _ & B')]; try lia.
    - assert (Q : Y' = Y + 1 / 1000) by (rewrite E, E', plus_IZR; field). rewrite Q in *. destruct (powers_step Y ltac:(lra) ltac:(lra)) as (P2 & P3 & P4).
      specialize (K1 _ _ _ P2 P3 P4). decimals_in K1. decimals. lra.
    - assert (y = 999)%Z by lia. subst y. assert (QY : Y = 999 / 1000) by exact E. assert (QY' : Y' = -1) by (rewrite E'; change (999 + 1)%Z with 1000%Z; lra). rewrite QY, QY' in *. decimals_in K3. decimals. lra.
    - assert (Q : Y' = Y + 1 / 1000) by (rewrite E, E', plus_IZR; field). rewrite Q in *. destruct (powers_step Y ltac:(lra) ltac:(lra)) as (P2 & P3 & P4).
      specialize (K2 _ _ _ P2 P3 P4). decimals_in K2. decimals. lra. }
  split; [|split; [|split]]; apply G; intros; decimals; lra.
Qed.
Lemma winter y : (-1000 <= y <= 2999)%Z -> 88 < March (y + 1) - December y < 92.
Proof.
  intros H. pose proof (year_lengths y H) as (A & _). pose proof (seasons_same_year y ltac:(lia)) as (B & C & D). 
  assert (E : 273.5 < December y - March y < 277).
  { clear - H. unf. assert (H1 : (-1000 <= y <= 3000)%Z) by lia. get_bounds y H1. decimals. use_bounds; try lia; repeat match goal with E : ?Y = _, E' : ?Z = _ |- _ => lazymatch Y with Z => fail | _ => rewrite <- E in E'; try subst Z end end; lra. }
  decimals_in A. decimals_in E. lra.
Qed.

(** ** The iteration *)
Lemma sin_cube x : 0 <= x <= PI -> x - x * x * x / 6 <= sin x.
Proof.
  intros H. pose proof (sin_bound x 0 ltac:(lra) ltac:(lra)) as (A & _). unfold sin_approx, sin_term, sum_f_R0, Nat.mul, Nat.add in A. cbn [fact pow Nat.mul Nat.add] in A.
  replace (INR 1) with 1 in A by reflexivity. replace (INR 6) with 6 in A by (cbn; lra). lra.
Qed.
Lemma season_loop_sound lam q fuel : forall J r, season_loop lam q fuel J = Some r ->
  exists J', r = J' + 58 * sin (q - lam J') /\ Rabs (58 * sin (q - lam J')) < 5 / 1000000.
Proof.
  induction fuel as [|n IH]; intros J r; cbn [season_loop]; [discriminate|]. cbv zeta. case Rlt_bool_spec; intros H E.
  - injection E as <-. exists J. split; [reflexivity|exact H].
  - exact (IH _ _ E).
Qed.
Lemma season_step d rho : 0 <= d <= 50 -> 166 / 10000 <= rho <= 178 / 10000 ->
  83 / 100 * d <= 58 * sin (rho * d) <= 10324 / 10000 * d.
Proof.
  intros Hd Hr. pose proof (PI_bounds) as P. assert (X : 0 <= rho * d <= 89 / 100) by nra.
  pose proof (sin_cube (rho * d) ltac:(lra)) as A. pose proof (sin_le_x (rho * d) ltac:(lra)) as B.
  split; [|nra]. set (x := rho * d) in *. assert (rho * d >= 166 / 10000 * d) by nra. fold x in H.
  assert (x * x <= 8 / 10) by nra. assert (x * x * x <= 8 / 10 * x) by nra. nra.
Qed.
Lemma season_contracts lam q t J : steady_sun lam (t - 50) (t + 50) -> same_angle (lam t) q -> Rabs (J - t) <= 50 ->
  let c := 58 * sin (q - lam J) in 83 / 100 * Rabs (J - t) <= Rabs c <= 10324 / 10000 * Rabs (J - t) /\ Rabs (J + c - t) <= 17 / 100 * Rabs (J - t).
Proof.
  intros (L & HL & HS) (k & Hk) HJ c. apply Rabs_le_inv in HJ.
  destruct (HL t ltac:(lra)) as (k1 & E1). destruct (HL J ltac:(lra)) as (k2 & E2).
  assert (E : sin (q - lam J) = sin (L t - L J)).
  { replace (q - lam J) with (L t - L J + IZR (k1 - k - k2) * (2 * PI)) by (rewrite !minus_IZR; lra). apply sin_Z. }
  assert (EC : c = 58 * sin (L t - L J)) by (unfold c; rewrite E; reflexivity). clearbody c. 
  destruct (Rle_or_lt J t) as [Q|Q].
  - destruct (Req_dec J t) as [-> |N].
    + rewrite EC. replace (L t - L t) with 0 by lra. rewrite sin_0. replace (t - t) with 0 by lra. replace (t + 58 * 0 - t) with 0 by lra. rewrite Rmult_0_r, Rabs_R0. lra.
    + destruct (HS J t ltac:(lra) Q ltac:(lra)) as [S1 S2]. decimals_in S1. decimals_in S2.
      pose (rho := (L t - L J) / (t - J)). assert (ER : L t - L J = rho * (t - J)) by (unfold rho; field; lra).
      assert (HR : 166 / 10000 <= rho <= 178 / 10000) by (split; [apply Rmult_le_reg_r with (t - J)|apply Rmult_le_reg_r with (t - J)]; rewrite <- ?ER; lra).
      pose proof (season_step (t - J) rho ltac:(lra) HR) as B. rewrite <- ER, <- EC in B.
      rewrite (Rabs_left (J - t)) by lra. rewrite (Rabs_pos_eq c) by lra. split; [lra|]. apply Rabs_le. lra.
  - destruct (HS t J ltac:(lra) ltac:(lra) ltac:(lra)) as [S1 S2]. decimals_in S1. decimals_in S2.
    pose (rho := (L J - L t) / (J - t)). assert (ER : L J - L t = rho * (J - t)) by (unfold rho; field; lra).
    assert (HR : 166 / 10000 <= rho <= 178 / 10000) by (split; [apply Rmult_le_reg_r with (J - t)|apply Rmult_le_reg_r with (J - t)]; rewrite <- ?ER; lra).
    pose proof (season_step (J - t) rho ltac:(lra) HR) as B. rewrite <- ER in B.
    replace (L t - L J) with (- (L J - L t)) in EC by lra. rewrite sin_neg in EC.
    rewrite (Rabs_pos_eq (J - t)) by lra. rewrite (Rabs_left c) by lra. split; [lra|]. apply Rabs_le. lra.
Qed.
Lemma season_converges lam q t : steady_sun lam (t - 50) (t + 50) -> same_angle (lam t) q ->
  forall n J fuel, Rabs (J - t) <= 50 -> Rabs (J - t) * (17 / 100) ^ n < 48 / 10000000 -> (n < fuel)%nat ->
  exists r, season_loop lam q fuel J = Some r /\ Rabs (r - t) <= 2 / 1000000.
Proof.
  intros HS HA. induction n as [|n IH]; intros J fuel HJ HN HF; (destruct fuel as [|fuel]; [lia|]); cbn [season_loop]; cbv zeta;
  pose proof (season_contracts lam q t J HS HA HJ) as (C & D); cbv zeta in C, D; case Rlt_bool_spec; intros T.
  - eexists. split; [reflexivity|]. lra.
  - cbn [pow] in HN. lra.
  - eexists. split; [reflexivity|]. lra.
  - apply IH; [lra| |lia]. pose proof (pow_lt (17 / 100) n ltac:(lra)). cbn [pow] in HN.
    apply Rle_lt_trans with (17 / 100 * Rabs (J - t) * (17 / 100) ^ n); [apply Rmult_le_compat_r; lra|lra].
Qed.
Lemma season_eq_start y c : Rabs (season_eq y c - HornerR (IZR y * (1 / 1000)) c) <= 21 / 1000.
Proof. unfold season_eq. cbv zeta. match goal with |- Rabs ?q <= _ => replace q with (1 / 100000 * season_sum (J2000Century (fl := RFlt) (HornerR (IZR y * (1 / 1000)) c)) / season_dl (J2000Century (fl := RFlt) (HornerR (IZR y * (1 / 1000)) c))) by ring end. apply season_corr. Qed.
Lemma by_year2_converges lam q c0 c2 y t fuel : steady_sun lam (t - 50) (t + 50) -> same_angle (lam t) q -> Rabs (by_year c0 c2 y - t) <= 49 -> (10 < fuel)%nat ->
  exists r, by_year2 lam fuel q c0 c2 y = Some r /\ Rabs (r - t) <= 2 / 1000000.
Proof.
  intros HS HA HB HF. unfold by_year, by_year2 in *. 
  assert (G : forall z c, Rabs (season_eq z c - t) <= 49 -> exists r, season_eq2 lam fuel q z c = Some r /\ Rabs (r - t) <= 2 / 1000000).
  { intros z c Hz. unfold season_eq2. pose proof (season_eq_start z c) as A. apply Rabs_le_inv in A, Hz. set (J := HornerR (IZR z * (1 / 1000)) c) in *.
    assert (HJ : Rabs (J - t) <= 50) by (apply Rabs_le; lra). apply (season_converges lam q t HS HA 10); [exact HJ| |exact HF].
    assert (P : (17 / 100) ^ 10 <= 3 / 100000000) by lra. assert (0 <= (17 / 100) ^ 10) by lra. pose proof (Rabs_pos (J - t)). nra. }
  destruct (y <? 1000)%Z; apply G, HB.
Qed.
Lemma March2_value y e t fuel : steady_sun (sun_longitude e) (t - 50) (t + 50) -> same_angle (sun_longitude e t) 0 -> Rabs (March y - t) <= 49 -> (10 < fuel)%nat ->
  exists r, March2 fuel y e = Some r /\ Rabs (r - t) <= 2 / 1000000.
Proof. intros. unfold March2. apply by_year2_converges; assumption. Qed.
Lemma June2_value y e t fuel : steady_sun (sun_longitude e) (t - 50) (t + 50) -> same_angle (sun_longitude e t) (PI / 2) -> Rabs (June y - t) <= 49 -> (10 < fuel)%nat ->
  exists r, June2 fuel y e = Some r /\ Rabs (r - t) <= 2 / 1000000.
Proof. intros. unfold June2. apply by_year2_converges; assumption. Qed.
Lemma September2_value y e t fuel : steady_sun (sun_longitude e) (t - 50) (t + 50) -> same_angle (sun_longitude e t) PI -> Rabs (September y - t) <= 49 -> (10 < fuel)%nat ->
  exists r, September2 fuel y e = Some r /\ Rabs (r - t) <= 2 / 1000000.
Proof. intros. unfold September2. apply by_year2_converges; assumption. Qed.
Lemma December2_value y e t fuel : steady_sun (sun_longitude e) (t - 50) (t + 50) -> same_angle (sun_longitude e t) (PI * 3 / 2) -> Rabs (December y - t) <= 49 -> (10 < fuel)%nat ->
  exists r, December2 fuel y e = Some r /\ Rabs (r - t) <= 2 / 1000000.
Proof. intros. unfold December2. apply by_year2_converges; assumption. Qed.
Lemma seasons2_sound y e fuel r :
  (March2 fuel y e = Some r -> exists J, Rabs (r - J) < 5 / 1000000 /\ Rabs (sin (0 - sun_longitude e J)) < 1 / 10000000) /\
  (June2 fuel y e = Some r -> exists J, Rabs (r - J) < 5 / 1000000 /\ Rabs (sin (PI / 2 - sun_longitude e J)) < 1 / 10000000) /\
  (September2 fuel y e = Some r -> exists J, Rabs (r - J) < 5 / 1000000 /\ Rabs (sin (PI - sun_longitude e J)) < 1 / 10000000) /\
  (December2 fuel y e = Some r -> exists J, Rabs (r - J) < 5 / 1000000 /\ Rabs (sin (PI * 3 / 2 - sun_longitude e J)) < 1 / 10000000).
Proof.
  assert (G : forall q c0 c2, by_year2 (sun_longitude e) fuel q c0 c2 y = Some r -> exists J, Rabs (r - J) < 5 / 1000000 /\ Rabs (sin (q - sun_longitude e J)) < 1 / 10000000).
  { intros q c0 c2 H. unfold by_year2, season_eq2 in H.
    assert (G : exists J', r = J' + 58 * sin (q - sun_longitude e J') /\ Rabs (58 * sin (q - sun_longitude e J')) < 5 / 1000000) by (destruct (y <? 1000)%Z; exact (season_loop_sound _ _ _ _ _ H)).
    destruct G as (J & E & B). exists J. replace (r - J) with (58 * sin (q - sun_longitude e J)) by lra. split; [exact B|]. rewrite Rabs_mult, (Rabs_pos_eq 58) in B by lra. lra. }
  split; [|split; [|split]]; apply G.
Qed.
(** A Sun that moves uniformly. *)
Lemma steady_example : steady_sun (fun t => Mod1 (0.0172 * t)) 0 100.
Proof.
  exists (fun t => 0.0172 * t). split; [intros t _; destruct (Mod1_same (0.0172 * t)) as (k & E); exists k; exact E|].
  intros s t _ H _. decimals. lra.
Qed.
Lemma season_example : Rabs (June 2000 - 2451716.56767) <= 0.021 /\ date0h 2000 6 21 = 2451716.5.
Proof.
  split.
  - unfold June, by_year. change (2000 <? 1000)%Z with false. cbv iota. change (2000 - 2000)%Z with 0%Z. unfold jc2.
    pose proof (season_poly 0 (245171656767 / 100000) (36524162603 / 100000) (325 / 100000) (888 / 100000) (- (30 / 100000))) as P. cbv zeta in P. decimals.
    match goal with |- Rabs ?a <= _ => match type of P with Rabs ?b <= _ => replace a with b by field end end. lra.
  - unfold date0h. change (jdn Gregorian (mkdate 2000 6 21)) with 2451717%Z. decimals. lra.
Qed.
Lemma search_example : exists r, by_year2 (fun t => Mod1 (0.0172 * (t - date0h 2000 6 21))) 11 0 jc0 jc2 2000 = Some r /\ Rabs (r - date0h 2000 6 21) <= 2 / 1000000.
Proof.
  pose proof season_example as (J & D). apply (by_year2_converges _ 0 jc0 jc2 2000 (date0h 2000 6 21) 11).
  - exists (fun t => 0.0172 * (t - date0h 2000 6 21)). split; [intros t _; destruct (Mod1_same (0.0172 * (t - date0h 2000 6 21))) as (k & E); exists k; exact E|].
    intros s t _ H _. decimals. lra.
  - cbv beta. destruct (Mod1_same (0.0172 * (date0h 2000 6 21 - date0h 2000 6 21))) as (k & E). exists k. rewrite E. decimals. lra.
  - change (by_year jc0 jc2 2000) with (June 2000). apply Rabs_le. apply Rabs_le_inv in J. revert J. rewrite D. decimals. intros J. decimals_in J. lra.
  - lia.
Qed.
