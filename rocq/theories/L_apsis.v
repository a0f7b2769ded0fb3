(** Lemmas for the parallaxes of apsis: ApogeeParallax and PerigeeParallax. *)
From Coq Require Import ZArith Reals Lra Psatz.
From Flocq Require Import Core.
From Verif Require Import GoMath M_precess M_lunar M_moon S_solar S_moon S_meanmotion S_fk5 L_trig L_kepler L_precess L_light L_solar L_refraction L_event L_event2 L_moon2 L_moon6 L_base L_meanmotion L_meanmotion2 L_meanmotion3.
Local Open Scope R_scope.

Ltac cosines := repeat match goal with |- context [cos ?x] => let H := fresh "B" in pose proof (COS_bound x) as H; let c := fresh "c" in set (c := cos x) in *; clearbody c end.
Lemma small_T T c : Rabs T <= 201 / 10 -> Rabs (T * cos c) <= 201 / 10.
Proof. intros H. rewrite Rabs_mult. pose proof (COS_bound c) as B. assert (Rabs (cos c) <= 1) by (apply Rabs_le; lra). pose proof (Rabs_pos T). pose proof (Rabs_pos (cos c)). nra. Qed.
Lemma ap_ap_sum T D M F : Rabs T <= 201 / 10 -> exists x, ap_ap T D M F = AngleFromSec x /\ Rabs (x - (3245251 / 1000 - 9147 / 1000 * cos (2 * D))) <= 317 / 100.
Proof.
  intros HT. eexists. split; [reflexivity|]. pose proof (small_T T M HT) as A. apply Rabs_le_inv in A. rewrite Rmult_plus_distr_r, (Rmult_assoc _ T). decimals. set (tm := T * cos M) in *. clearbody tm. clear HT. apply Rabs_le. cosines. lra.
Qed.
Lemma ap_pp_sum T D M F : Rabs T <= 201 / 10 -> exists x, ap_pp T D M F = AngleFromSec x /\ Rabs (x - (3629215 / 1000 + 63224 / 1000 * cos (2 * D) - 699 / 100 * cos (4 * D))) <= 117 / 10.
Proof.
  intros HT. eexists. split; [reflexivity|]. pose proof (small_T T M HT) as A. pose proof (small_T T (2 * D - M) HT) as A2. pose proof (small_T T (4 * D - M) HT) as A3. apply Rabs_le_inv in A, A2, A3.
  match goal with |- Rabs (?x - _) <= _ => replace x with (x + 0 * cos (2 * D)) by ring end.
  assert (E : forall a b c t, (a - b * t) * cos c = a * cos c - b * (t * cos c)) by (intros; ring). assert (E' : forall a b c t, (a + b * t) * cos c = a * cos c + b * (t * cos c)) by (intros; ring). rewrite !E, !E'. clear E E'. decimals.
  set (t1 := T * cos M) in *. set (t2 := T * cos (2 * D - M)) in *. set (t3 := T * cos (4 * D - M)) in *. clearbody t1 t2 t3. clear HT. apply Rabs_le. cosines. lra.
Qed.

(** The ranges. *)
Lemma cos_4 D : cos (4 * D) = 2 * (cos (2 * D)) ^ 2 - 1.
Proof. replace (4 * D) with (2 * (2 * D)) by ring. rewrite cos_2a_cos. ring. Qed.
Lemma ap_pp_range T D M F : Rabs T <= 201 / 10 -> exists x, ap_pp T D M F = AngleFromSec x /\ 35473 / 10 <= x <= 36972 / 10.
Proof.
  intros H. destruct (ap_pp_sum T D M F H) as (x & E & B). exists x. split; [exact E|]. apply Rabs_le_inv in B. rewrite cos_4 in B. pose proof (COS_bound (2 * D)). set (c := cos (2 * D)) in *. clearbody c. clear - B H0. split; nra.
Qed.
Lemma ap_ap_range T D M F : Rabs T <= 201 / 10 -> exists x, ap_ap T D M F = AngleFromSec x /\ 32329 / 10 <= x <= 32576 / 10.
Proof.
  intros H. destruct (ap_ap_sum T D M F H) as (x & E & B). exists x. split; [exact E|]. apply Rabs_le_inv in B. pose proof (COS_bound (2 * D)). lra.
Qed.
(** At the syzygies and at the quadratures. *)
Lemma near_sin_abs a b d : near_turns (a - b) d -> Rabs (sin b) <= Rabs (sin a) + d.
Proof.
  intros [k H]. assert (A : Rabs (b - (a + IZR (- k) * (2 * PI))) <= d) by (rewrite opp_IZR; replace (b - _) with (- (a - b - IZR k * (2 * PI))) by ring; rewrite Rabs_Ropp; exact H).
  pose proof (sin_close 1 1 b a (- k) d A) as S. replace (1 - 1) with 0 in S by ring. rewrite Rabs_R0, Rabs_R1, !Rmult_1_l, Rplus_0_l in S. pose proof (Rabs_triang_inv (sin b) (sin a)). lra.
Qed.
Lemma near_cos_abs a b d : near_turns (a - b) d -> Rabs (cos b) <= Rabs (cos a) + d.
Proof.
  intros [k H]. assert (A : Rabs (b - (a + IZR (- k) * (2 * PI))) <= d) by (rewrite opp_IZR; replace (b - _) with (- (a - b - IZR k * (2 * PI))) by ring; rewrite Rabs_Ropp; exact H).
  pose proof (cos_close 1 1 b a (- k) d A) as S. replace (1 - 1) with 0 in S by ring. rewrite Rabs_R0, Rabs_R1, !Rmult_1_l, Rplus_0_l in S. pose proof (Rabs_triang_inv (cos b) (cos a)). lra.
Qed.
Lemma tiny_degrees : degrees 0.00275 <= 7 / 100000.
Proof. unfold degrees. decimals. pose proof PI_4. lra. Qed.
Lemma syzygy a D : near_turns (a - D) (degrees 0.00275) -> Rabs (sin a) <= 1 / 11 -> 9834 / 10000 <= cos (2 * D) <= 1.
Proof.
  intros N H. pose proof (near_sin_abs _ _ _ N) as S. pose proof tiny_degrees. assert (B : Rabs (sin D) <= 9098 / 100000) by lra. apply Rabs_le_inv in B. rewrite cos_2a_sin. set (s := sin D) in *. clearbody s. clear - B. split; nra.
Qed.
Lemma quadrature a D : near_turns (a - D) (degrees 0.00275) -> Rabs (cos a) <= 1 / 11 -> -1 <= cos (2 * D) <= - (9834 / 10000).
Proof.
  intros N H. pose proof (near_cos_abs _ _ _ N) as S. pose proof tiny_degrees. assert (B : Rabs (cos D) <= 9098 / 100000) by lra. apply Rabs_le_inv in B. rewrite cos_2a_cos. set (s := cos D) in *. clearbody s. clear - B. split; nra.
Qed.
Lemma perigee_evection year : Rabs (year - 2000) <= 2000 -> exists x, PerigeeParallax year = AngleFromSec x /\ 35473 / 10 <= x <= 36972 / 10 /\
  let D := degrees (elongation (centuries (MeanPerigee year))) in (Rabs (sin D) <= 1 / 11 -> 3673 <= x) /\ (Rabs (cos D) <= 1 / 11 -> x <= 3573).
Proof.
  intros H. pose proof (ap_T_range year 0 H) as HT. destruct (apsis_arguments year 0 H) as (N & _ & _). unfold PerigeeParallax, MeanPerigee in *. cbv zeta in *. set (T := ap_snap year 0 * ap_ck) in *.
  destruct (ap_pp_sum T (ap_D T) (ap_M T) (ap_F T) HT) as (x & E & B). exists x. split; [exact E|]. apply Rabs_le_inv in B. rewrite cos_4 in B.
  pose proof (COS_bound (2 * ap_D T)) as C. pose proof (syzygy _ _ N) as Y. pose proof (quadrature _ _ N) as Q. set (c := cos (2 * ap_D T)) in *. clearbody c. clear - B C Y Q.
  split; [split; nra|]. split; intros A; [specialize (Y A) | specialize (Q A)]; nra.
Qed.
Lemma apogee_evection year : Rabs (year - 2000) <= 2000 -> exists x, ApogeeParallax year = AngleFromSec x /\ 32329 / 10 <= x <= 32576 / 10 /\
  let D := degrees (elongation (centuries (MeanApogee year))) in (Rabs (sin D) <= 1 / 11 -> x <= 32395 / 10) /\ (Rabs (cos D) <= 1 / 11 -> 3251 <= x).
Proof.
  intros H. pose proof (ap_T_range year 0.5 H) as HT. destruct (apsis_arguments year 0.5 H) as (N & _ & _). unfold ApogeeParallax, MeanApogee in *. cbv zeta in *. set (T := ap_snap year 0.5 * ap_ck) in *.
  destruct (ap_ap_sum T (ap_D T) (ap_M T) (ap_F T) HT) as (x & E & B). exists x. split; [exact E|]. apply Rabs_le_inv in B.
  pose proof (COS_bound (2 * ap_D T)) as C. pose proof (syzygy _ _ N) as Y. pose proof (quadrature _ _ N) as Q. set (c := cos (2 * ap_D T)) in *. clearbody c. clear - B C Y Q.
  split; [split; lra|]. split; intros A; [specialize (Y A) | specialize (Q A)]; lra.
Qed.

(** The distance that has a given parallax. *)
Lemma distance_of x lo hi s : AngleFromSec lo <= x <= AngleFromSec hi -> 3000 <= lo -> hi <= 4000 -> x = s ->
  let d := 637814 / 100 / sin s in MoonParallax d = x /\ 637814 / 100 <= d * AngleFromSec hi /\ d * (AngleFromSec lo * (1 - AngleFromSec 4000 * AngleFromSec 4000 / 6)) <= 637814 / 100.
Proof.
  intros H L U <- d. pose proof PI_fine as P. assert (X : 1 / 100 <= x <= 2 / 100) by (unfold AngleFromSec in H; nra).
  assert (A4 : 0 < AngleFromSec 4000 <= 2 / 100) by (unfold AngleFromSec; lra). assert (XU : x <= AngleFromSec 4000) by (unfold AngleFromSec in *; nra). assert (L0 : 0 < AngleFromSec lo) by (unfold AngleFromSec; nra).
  destruct (sin_cubic_pos x ltac:(lra)) as (S1 & S2). set (a := AngleFromSec 4000) in *. clearbody a.
  assert (S3 : x * (1 - a * a / 6) <= sin x) by (assert (x * x <= a * a) by nra; assert (x * (x * x) <= x * (a * a)) by nra; nra).
  assert (S0 : 0 < sin x) by (apply sin_gt_0; lra). unfold d. split; [|].
  - unfold MoonParallax. replace (637814 / 100 / (637814 / 100 / sin x)) with (sin x) by (field; lra). apply asin_sin; lra.
  - split.
    + apply (Rmult_le_reg_r (sin x)); [exact S0|]. replace (637814 / 100 / sin x * AngleFromSec hi * sin x) with (637814 / 100 * AngleFromSec hi) by (field; lra). nra.
    + apply (Rmult_le_reg_r (sin x)); [exact S0|]. match goal with |- _ * ?q * _ <= _ => replace (637814 / 100 / sin x * q * sin x) with (637814 / 100 * q) by (field; lra) end. assert (AngleFromSec lo * (1 - a * a / 6) <= x * (1 - a * a / 6)) by (apply Rmult_le_compat_r; [nra | lra]). nra.
Qed.
Lemma sec_mono x y : x <= y -> AngleFromSec x <= AngleFromSec y.
Proof. intros H. unfold AngleFromSec. pose proof PI_pos. apply Rmult_le_compat_r; lra. Qed.
Lemma perigee_distance year : Rabs (year - 2000) <= 2000 -> exists d, MoonParallax d = PerigeeParallax year /\ 355800 <= d <= 370950.
Proof.
  intros H. destruct (perigee_evection year H) as (x & E & (B1 & B2) & _). destruct (distance_of (PerigeeParallax year) (35473 / 10) (36972 / 10) _ ltac:(rewrite E; split; apply sec_mono; assumption) ltac:(lra) ltac:(lra) eq_refl) as (V & U & L).
  eexists. split; [exact V|]. set (d := 637814 / 100 / _) in *. clearbody d. clear - U L. unfold AngleFromSec in *. pose proof PI_fine as P.
  assert (Q : 314159 / 100000 / 648000 <= PI / 180 / 3600 <= 314160 / 100000 / 648000) by (split; lra). set (u := PI / 180 / 3600) in *. clearbody u. clear P.
  assert (Q2 : 0 <= u * u <= 3 / 100000000000) by nra. split.
  - nra.
  - assert (K : 1 - 4000 * u * (4000 * u) / 6 >= 99991 / 100000) by nra. set (k := 1 - _) in *. clearbody k. assert (17196 / 1000000 <= 35473 / 10 * u * k) by nra. nra.
Qed.
Lemma apogee_distance year : Rabs (year - 2000) <= 2000 -> exists d, MoonParallax d = ApogeeParallax year /\ 403800 <= d <= 407000.
Proof.
  intros H. destruct (apogee_evection year H) as (x & E & (B1 & B2) & _). destruct (distance_of (ApogeeParallax year) (32329 / 10) (32576 / 10) _ ltac:(rewrite E; split; apply sec_mono; assumption) ltac:(lra) ltac:(lra) eq_refl) as (V & U & L).
  eexists. split; [exact V|]. set (d := 637814 / 100 / _) in *. clearbody d. clear - U L. unfold AngleFromSec in *. pose proof PI_fine as P.
  assert (Q : 314159 / 100000 / 648000 <= PI / 180 / 3600 <= 314160 / 100000 / 648000) by (split; lra). set (u := PI / 180 / 3600) in *. clearbody u. clear P.
  assert (Q2 : 0 <= u * u <= 3 / 100000000000) by nra. split.
  - nra.
  - assert (K : 1 - 4000 * u * (4000 * u) / 6 >= 99991 / 100000) by nra. set (k := 1 - _) in *. clearbody k. assert (156715 / 10000000 <= 32329 / 10 * u * k) by nra. nra.
Qed.
Lemma apsides_order y z : Rabs (y - 2000) <= 2000 -> Rabs (z - 2000) <= 2000 -> ApogeeParallax y + AngleFromSec 289 < PerigeeParallax z.
Proof.
  intros A B. destruct (apogee_evection y A) as (a & -> & Ha & _). destruct (perigee_evection z B) as (b & -> & Hb & _). unfold AngleFromSec. pose proof PI_pos. nra.
Qed.

(** Four apsides close to the syzygies and the quadratures. *)
Lemma near_sym a b d : near_turns (a - b) d -> near_turns (b - a) d.
Proof. intros [k H]. exists (- k)%Z. rewrite opp_IZR. replace (b - a - - IZR k * (2 * PI)) with (- (a - b - IZR k * (2 * PI))) by ring. rewrite Rabs_Ropp. exact H. Qed.
Lemma snap_at y h (n : Z) : IZR n <= (y - 1999.97) * 13.2555 - h + 0.5 < IZR n + 1 -> ap_snap y h = IZR n + h.
Proof. intros H. unfold ap_snap, Floor. cbv zeta. rewrite (Zfloor_imp n); [reflexivity|]. rewrite plus_IZR. exact H. Qed.
Lemma ap_D_at k : Rabs k <= 10 -> Rabs (ap_D (k * ap_ck) - degrees (171.9179 + 335.9106046 * k)) <= degrees 0.00001.
Proof.
  intros H. apply Rabs_le_inv in H. assert (T : Rabs (k * ap_ck) <= 1 / 100) by (unfold ap_ck; decimals; apply Rabs_le; lra). apply Rabs_le_inv in T.
  assert (E : ap_D (k * ap_ck) - degrees (171.9179 + 335.9106046 * k) = degrees ((k * ap_ck) ^ 2 * (-0.0100383 - 0.00001156 * (k * ap_ck) + 0.000000055 * (k * ap_ck) ^ 2))) by (unfold ap_D; rewrite HornerR_poly by discriminate; rewrite !L_base.poly_cons, L_base.poly_nil; unfold degrees, M_lunar.p_, ap_ck; decimals; field).
  rewrite E. set (x := k * ap_ck) in *. clearbody x. unfold degrees. decimals. pose proof PI_fine as P. assert (X : 0 <= x ^ 2 <= 1 / 10000) by nra. set (q := x ^ 2) in *. clearbody q.
  rewrite Rabs_mult, (Rabs_pos_eq (PI / 180)) by lra. apply Rmult_le_compat_r; [lra|]. apply Rabs_le. split; nra.
Qed.
Lemma apsis_D y h (n m : Z) e : Rabs (y - 2000) <= 2000 -> IZR n <= (y - 1999.97) * 13.2555 - h + 0.5 < IZR n + 1 -> Rabs (IZR n + h) <= 10 -> 171.9179 + 335.9106046 * (IZR n + h) = e + 360 * IZR m ->
  near_turns (degrees e - degrees (elongation (centuries (ap_mean (ap_snap y h * ap_ck))))) (degrees 0.003).
Proof.
  intros Y S K E. destruct (apsis_arguments y h Y) as (N & _ & _). rewrite (snap_at y h n S) in *. pose proof (ap_D_at (IZR n + h) K) as B. rewrite E in B. apply near_sym in N. set (A := degrees (elongation _)) in *. clearbody A. destruct N as [j N]. exists (j - m)%Z. rewrite minus_IZR.
  set (D := ap_D _) in *. clearbody D. clear - N B. assert (X : degrees (e + 360 * IZR m) = degrees e + IZR m * (2 * PI)) by (unfold degrees; field). rewrite X in B. clear X. set (u := degrees e) in *. clearbody u.
  replace (u - A - (IZR j - IZR m) * (2 * PI)) with ((D - A - IZR j * (2 * PI)) - (D - (u + IZR m * (2 * PI)))) by ring. unfold Rminus at 1. eapply Rle_trans; [apply Rabs_triang|]. rewrite Rabs_Ropp.
  unfold degrees in *. decimals_in N. decimals_in B. decimals. pose proof PI_pos. lra.
Qed.
Lemma degrees_small e : Rabs e <= 5 -> Rabs (degrees e) <= 8732 / 100000.
Proof. intros H. unfold degrees. rewrite Rabs_mult. pose proof PI_fine. rewrite (Rabs_pos_eq (PI / 180)) by lra. pose proof (Rabs_pos e). nra. Qed.
Lemma syzygy_at y h (n m : Z) e : Rabs (y - 2000) <= 2000 -> IZR n <= (y - 1999.97) * 13.2555 - h + 0.5 < IZR n + 1 -> Rabs (IZR n + h) <= 10 -> 171.9179 + 335.9106046 * (IZR n + h) = e + 360 * IZR m -> Rabs e <= 5 ->
  Rabs (sin (degrees (elongation (centuries (ap_mean (ap_snap y h * ap_ck)))))) <= 1 / 11.
Proof.
  intros Y S K E Z. pose proof (near_sin_abs _ _ _ (apsis_D y h n m e Y S K E)) as A. pose proof (sin_lip (degrees e) 0) as B. rewrite sin_0, !Rminus_0_r in B. pose proof (degrees_small e Z).
  assert (degrees 0.003 <= 1 / 10000) by (unfold degrees; decimals; pose proof PI_fine; lra). lra.
Qed.
Lemma quadrature_at y h (n m : Z) e : Rabs (y - 2000) <= 2000 -> IZR n <= (y - 1999.97) * 13.2555 - h + 0.5 < IZR n + 1 -> Rabs (IZR n + h) <= 10 -> 171.9179 + 335.9106046 * (IZR n + h) = 270 + e + 360 * IZR m -> Rabs e <= 5 ->
  Rabs (cos (degrees (elongation (centuries (ap_mean (ap_snap y h * ap_ck)))))) <= 1 / 11.
Proof.
  intros Y S K E Z. pose proof (near_cos_abs _ _ _ (apsis_D y h n m (270 + e) Y S K E)) as A. replace (cos (degrees (270 + e))) with (sin (degrees e)) in A
    by (replace (degrees (270 + e)) with (3 * (PI / 2) + degrees e) by (unfold degrees; field); rewrite cos_plus, cos_3PI2, sin_3PI2; ring).
  pose proof (sin_lip (degrees e) 0) as B. rewrite sin_0, !Rminus_0_r in B. pose proof (degrees_small e Z).
  assert (degrees 0.003 <= 1 / 10000) by (unfold degrees; decimals; pose proof PI_fine; lra). lra.
Qed.
Lemma apsis_examples : Rabs (sin (degrees (elongation (centuries (MeanPerigee 2000.5))))) <= 1 / 11 /\ Rabs (cos (degrees (elongation (centuries (MeanPerigee 1999.67))))) <= 1 / 11 /\
  Rabs (sin (degrees (elongation (centuries (MeanApogee 1999.93))))) <= 1 / 11 /\ Rabs (cos (degrees (elongation (centuries (MeanApogee 2000.23))))) <= 1 / 11.
Proof.
  repeat split.
  - apply (syzygy_at 2000.5 0 7 7 (171.9179 + 335.9106046 * 7 - 2520)); [apply Rabs_le | | apply Rabs_le | | apply Rabs_le]; decimals; lra.
  - apply (quadrature_at 1999.67 0 (-4) (-4) (171.9179 - 335.9106046 * 4 + 1170)); [apply Rabs_le | | apply Rabs_le | | apply Rabs_le]; decimals; lra.
  - apply (syzygy_at 1999.93 0.5 (-1) 0 (171.9179 - 335.9106046 * 0.5)); [apply Rabs_le | | apply Rabs_le | | apply Rabs_le]; decimals; lra.
  - apply (quadrature_at 2000.23 0.5 3 3 (171.9179 + 335.9106046 * 3.5 - 1350)); [apply Rabs_le | | apply Rabs_le | | apply Rabs_le]; decimals; lra.
Qed.

(** The same in the vocabulary of the specification. *)
Lemma sec_arcsec x : AngleFromSec x = arcsec x.
Proof. unfold AngleFromSec, arcsec. field. Qed.
Lemma perigee_parallax year : Rabs (year - 2000) <= 2000 -> let D := degrees (elongation (centuries (MeanPerigee year))) in
  arcsec 3547.3 <= PerigeeParallax year <= arcsec 3697.2 /\ (Rabs (sin D) <= 1 / 11 -> arcsec 3673 <= PerigeeParallax year) /\ (Rabs (cos D) <= 1 / 11 -> PerigeeParallax year <= arcsec 3573).
Proof.
  intros H D. destruct (perigee_evection year H) as (x & E & B & Y & Q). fold D in Y, Q. rewrite E, <- !sec_arcsec. split; [split; apply sec_mono; decimals; lra|]. split; intros A; apply sec_mono; [exact (Y A) | exact (Q A)].
Qed.
Lemma apogee_parallax year : Rabs (year - 2000) <= 2000 -> let D := degrees (elongation (centuries (MeanApogee year))) in
  arcsec 3232.9 <= ApogeeParallax year <= arcsec 3257.6 /\ (Rabs (sin D) <= 1 / 11 -> ApogeeParallax year <= arcsec 3239.5) /\ (Rabs (cos D) <= 1 / 11 -> arcsec 3251 <= ApogeeParallax year).
Proof.
  intros H D. destruct (apogee_evection year H) as (x & E & B & Y & Q). fold D in Y, Q. rewrite E, <- !sec_arcsec. split; [split; apply sec_mono; decimals; lra|]. split; intros A; apply sec_mono; [specialize (Y A); decimals; lra | exact (Q A)].
Qed.
