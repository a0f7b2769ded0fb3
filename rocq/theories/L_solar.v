(** Lemmas for VSOP87 positions, solar coordinates, nutation and the equation of time. *)
From Coq Require Import ZArith Reals List Lra Lia Bool Ascii.
From Flocq Require Import Core.
From Verif Require Import GoFloat GoMath M_base M_coord M_precess M_vsop M_solar.
From Verif Require Import S_base S_Sphere S_precess S_vsop S_solar L_base L_trig L_coord L_kepler L_precess L_vsop.
Import ListNotations.
Local Open Scope R_scope.

Ltac decimals_in H := unfold Q2R in H; cbn [QArith_base.Qnum QArith_base.Qden] in H.
Lemma HornerR_poly x c : c <> [] -> HornerR x c = poly c x.
Proof. intros H. unfold HornerR. rewrite Horner_poly by exact H. reflexivity. Qed.

(** ** Series *)
Lemma sumR_app l m : sumR (l ++ m) = sumR l + sumR m.
Proof. unfold sumR in *. induction l as [|a l IH]; cbn [List.app fold_right]; [lra|]. rewrite IH. lra. Qed.
Lemma sum_terms_periodic tau terms : sum_terms tau terms = periodic tau terms.
Proof.
  unfold sum_terms, periodic.
  assert (G : forall l s, fold_left (fun s t => let '(a, b, c) := t in s + a * cos (b + c * tau)) (rev l) s = s + sumR (map (fun t => let '(a, b, c) := t in a * cos (b + c * tau)) l)).
  { induction l as [|[[a b] c] l IH]; intros s; [cbn; lra|]. cbn [rev]. rewrite fold_left_app, IH. cbn [fold_left map]. unfold sumR. cbn [fold_right]. lra. }
  rewrite G. lra.
Qed.
Lemma sum_series_poly tau c : c <> [] -> sum_series tau c = poly (map (periodic tau) c) tau.
Proof.
  intros H. unfold sum_series. rewrite HornerR_poly by (destruct c; [contradiction|discriminate]). f_equal. apply map_ext. intros t. apply sum_terms_periodic.
Qed.

Lemma sumR_map_add {A} (f g : A -> R) l : sumR (map f l) + sumR (map g l) = sumR (map (fun x => f x + g x) l).
Proof. unfold sumR in *. induction l as [|a l IH]; cbn [map fold_right]; [lra|]. rewrite <- IH. lra. Qed.
Lemma sumR_zero {A} (f : A -> R) l : (forall x, In x l -> f x = 0) -> sumR (map f l) = 0.
Proof. unfold sumR in *. induction l as [|a l IH]; intros H; cbn [map fold_right]; [reflexivity|]. rewrite IH by (intros x I; apply H; right; exact I). rewrite H by (left; reflexivity). lra. Qed.
Lemma sumR_ext {A} (f g : A -> R) l : (forall x, In x l -> f x = g x) -> sumR (map f l) = sumR (map g l).
Proof. intros H. f_equal. apply map_ext_in. exact H. Qed.

Definition pick (tau : R) (k : nat) (s : @series R) : R := if Nat.eqb (s_power s) k then tau ^ k * periodic tau (s_terms s) else 0.
Lemma pick_sum tau ss k ts : NoDup (map s_power ss) -> terms_of ss k ts -> tau ^ k * periodic tau ts = sumR (map (pick tau k) ss).
Proof.
  intros N [(s & I & P & ->)|[Q ->]].
  - induction ss as [|x ss IH]; [destruct I|]. cbn [map] in N. inversion N as [|y ys NI ND E]. subst y ys.
    cbn [map]. unfold sumR. cbn [fold_right]. fold (sumR (map (pick tau k) ss)). destruct I as [-> |I].
    + rewrite (sumR_zero (pick tau k)).
      * unfold pick. rewrite P, Nat.eqb_refl. lra.
      * intros y Iy. unfold pick. destruct (Nat.eqb_spec (s_power y) k) as [E2|]; [|reflexivity]. exfalso. apply NI. rewrite P, <- E2. now apply in_map.
    + rewrite <- (IH ND I). unfold pick. destruct (Nat.eqb_spec (s_power x) k) as [E2|]; [|lra]. exfalso. apply NI. rewrite E2, <- P. now apply in_map.
  - rewrite sumR_zero; [unfold periodic; cbn; lra|]. intros s I. unfold pick. destruct (Nat.eqb_spec (s_power s) k) as [E|]; [|reflexivity]. exfalso. exact (Q s I E).
Qed.
Lemma theory_value tau ss c : length c = 6%nat -> NoDup (map s_power ss) -> (forall s, In s ss -> (s_power s <= 5)%nat) ->
  (forall k, terms_of ss k (nth k c [])) -> sum_series tau c = theory tau ss.
Proof.
  intros L N P T. rewrite sum_series_poly by (intros ->; discriminate L).
  do 6 (destruct c as [|? c]; [discriminate L|]). destruct c; [|discriminate L]. cbn [map].
  pose proof (pick_sum tau ss 0 _ N (T 0%nat)) as E0. pose proof (pick_sum tau ss 1 _ N (T 1%nat)) as E1. pose proof (pick_sum tau ss 2 _ N (T 2%nat)) as E2.
  pose proof (pick_sum tau ss 3 _ N (T 3%nat)) as E3. pose proof (pick_sum tau ss 4 _ N (T 4%nat)) as E4. pose proof (pick_sum tau ss 5 _ N (T 5%nat)) as E5.
  cbn [nth] in *. rewrite !poly_cons, poly_nil.
  transitivity (sumR (map (pick tau 0) ss) + sumR (map (pick tau 1) ss) + sumR (map (pick tau 2) ss) + sumR (map (pick tau 3) ss) + sumR (map (pick tau 4) ss) + sumR (map (pick tau 5) ss)).
  { rewrite <- E0, <- E1, <- E2, <- E3, <- E4, <- E5. ring. }
  rewrite !sumR_map_add. unfold theory. apply sumR_ext. intros s I. specialize (P s I). unfold pick.
  destruct (s_power s) as [|[|[|[|[|[|p]]]]]]; [..|lia]; cbn [Nat.eqb]; ring.
Qed.
Lemma Position2000_value v jde tau : tau = (jde - 2451545) / 365250 -> v_l v <> [] -> v_b v <> [] -> v_r v <> [] ->
  let '(L, B, R0) := Position2000 v jde in
  0 <= L < 2 * PI /\ same_angle L (poly (map (periodic tau) (v_l v)) tau) /\
  B = poly (map (periodic tau) (v_b v)) tau /\ R0 = poly (map (periodic tau) (v_r v)) tau.
Proof.
  intros -> H1 H2 H3. unfold Position2000. cbv zeta.
  assert (E : J2000Century (fl := RFlt) jde * (1 / 10) = (jde - 2451545) / 365250) by (unfold J2000Century, J2000, JulianCentury; cbn -[IZR]; field).
  rewrite E. split; [apply PMod_bound, two_PI_pos|]. rewrite <- !sum_series_poly by assumption. repeat split.
  destruct (PMod_eq (sum_series ((jde - 2451545) / 365250) (v_l v)) (2 * PI) two_PI_pos) as (k & Ek). exists k. exact Ek.
Qed.

(** ** Nutation *)
Definition nS0 (r : nrow) : Z := let '(_, _, _, _, _, s0, _, _, _) := r in s0.
Definition nS1 (r : nrow) : Z := let '(_, _, _, _, _, _, s1, _, _) := r in s1.
Definition nC0 (r : nrow) : Z := let '(_, _, _, _, _, _, _, c0, _) := r in c0.
Definition nC1 (r : nrow) : Z := let '(_, _, _, _, _, _, _, _, c1) := r in c1.
Definition sumZ (l : list Z) : Z := fold_right Z.add 0%Z l.
Definition nut_sums (T D M N F W : R) (l : list nrow) : R * R :=
  (sumR (map (fun r => sin (nut_arg D M N F W r) * (IZR (nS0 r) / 10 + IZR (nS1 r) / 10 * T)) l),
   sumR (map (fun r => cos (nut_arg D M N F W r) * (IZR (nC0 r) / 10 + IZR (nC1 r) / 10 * T)) l)).
Lemma nut_sums_cons T D M N F W r l : nut_sums T D M N F W (r :: l) =
  (sin (nut_arg D M N F W r) * (IZR (nS0 r) / 10 + IZR (nS1 r) / 10 * T) + fst (nut_sums T D M N F W l),
   cos (nut_arg D M N F W r) * (IZR (nC0 r) / 10 + IZR (nC1 r) / 10 * T) + snd (nut_sums T D M N F W l)).
Proof. reflexivity. Qed.
Lemma Nutation_sums jde : let T := J2000Century (fl := RFlt) jde in
  let s := nut_sums T (nut_D T) (nut_M T) (nut_N T) (nut_F T) (nut_W T) table22A in
  Nutation jde = (AngleFromSec (fst s * (1 / 10000)), AngleFromSec (snd s * (1 / 10000))).
Proof.
  cbv zeta. unfold Nutation. cbv zeta. set (T := J2000Century (fl := RFlt) jde). set (D := nut_D T). set (M := nut_M T). set (N := nut_N T). set (F := nut_F T). set (W := nut_W T).
  clearbody T D M N F W.
  assert (G : forall l p e, fold_left (fun acc r => let '(p, e) := acc in
      let '(_, _, _, _, _, s0, s1, c0, c1) := r in let arg := nut_arg D M N F W r in
      (p + sin arg * (IZR s0 / 10 + IZR s1 / 10 * T), e + cos arg * (IZR c0 / 10 + IZR c1 / 10 * T))) (rev l) (p, e) =
      (p + fst (nut_sums T D M N F W l), e + snd (nut_sums T D M N F W l))).
  { induction l as [|r l IH]; intros p e; [unfold nut_sums, sumR; cbn [rev fold_left map fold_right fst snd]; f_equal; lra|].
    cbn [rev]. rewrite fold_left_app, IH. cbn [fold_left]. unfold nut_sums. cbn [fst snd map]. unfold sumR. cbn [fold_right].
    destruct r as [[[[[[[[d m] n] f] w] s0] s1] c0] c1]. cbn [nS0 nS1 nC0 nC1]. cbv zeta. f_equal; lra. }
  rewrite G. generalize (nut_sums T D M N F W table22A). intros [a b]. cbn [fst snd]. f_equal; f_equal; lra.
Qed.
Lemma abs_trig_mul t x y : Rabs t <= 1 -> Rabs y <= x -> Rabs (t * y) <= x.
Proof. intros A B. rewrite Rabs_mult. pose proof (Rabs_pos t). pose proof (Rabs_pos y). nra. Qed.
Lemma abs_sin x : Rabs (sin x) <= 1. Proof. apply Rabs_le. apply SIN_bound. Qed.
Lemma abs_cos x : Rabs (cos x) <= 1. Proof. apply Rabs_le. apply COS_bound. Qed.
Lemma nut_bound T D M N F W l :
  Rabs (fst (nut_sums T D M N F W l)) <= IZR (sumZ (map (fun r => Z.abs (nS0 r)) l)) / 10 + IZR (sumZ (map (fun r => Z.abs (nS1 r)) l)) / 10 * Rabs T /\
  Rabs (snd (nut_sums T D M N F W l)) <= IZR (sumZ (map (fun r => Z.abs (nC0 r)) l)) / 10 + IZR (sumZ (map (fun r => Z.abs (nC1 r)) l)) / 10 * Rabs T.
Proof.
  assert (G : forall (t : R -> R) (f g : nrow -> Z), (forall x, Rabs (t x) <= 1) ->
    Rabs (sumR (map (fun r => t (nut_arg D M N F W r) * (IZR (f r) / 10 + IZR (g r) / 10 * T)) l)) <= IZR (sumZ (map (fun r => Z.abs (f r)) l)) / 10 + IZR (sumZ (map (fun r => Z.abs (g r)) l)) / 10 * Rabs T).
  { intros t f g Ht. induction l as [|r l IH]; cbn [map]; unfold sumR, sumZ; cbn [fold_right]; [rewrite Rabs_R0; lra|].
    fold (sumR (map (fun r => t (nut_arg D M N F W r) * (IZR (f r) / 10 + IZR (g r) / 10 * T)) l)).
    fold (sumZ (map (fun r => Z.abs (f r)) l)). fold (sumZ (map (fun r => Z.abs (g r)) l)). rewrite !plus_IZR.
    eapply Rle_trans; [apply Rabs_triang|].
    assert (B : Rabs (t (nut_arg D M N F W r) * (IZR (f r) / 10 + IZR (g r) / 10 * T)) <= IZR (Z.abs (f r)) / 10 + IZR (Z.abs (g r)) / 10 * Rabs T).
    { apply abs_trig_mul; [apply Ht|]. eapply Rle_trans; [apply Rabs_triang|]. rewrite Rabs_mult. unfold Rdiv. rewrite !Rabs_mult, !abs_IZR. rewrite (Rabs_pos_eq (/ 10)) by lra. lra. }
    lra. }
  split; apply G; [apply abs_sin|apply abs_cos].
Qed.
Lemma AngleFromSec_arcsec x : AngleFromSec x = arcsec x.
Proof. unfold AngleFromSec, arcsec. field. Qed.
Lemma arcsec_abs x : Rabs (arcsec x) = arcsec (Rabs x).
Proof. unfold arcsec. rewrite Rabs_mult. f_equal. apply Rabs_pos_eq. pose proof PI_pos. lra. Qed.
Lemma arcsec_le x y : x <= y -> arcsec x <= arcsec y.
Proof. intros H. unfold arcsec. apply Rmult_le_compat_r; [pose proof PI_pos; lra|exact H]. Qed.
Lemma Nutation_bound jde : let T := (jde - 2451545) / 36525 in
  Rabs (fst (Nutation jde)) <= arcsec (19.4316 + 0.01823 * Rabs T) /\ Rabs (snd (Nutation jde)) <= arcsec (10.0733 + 0.00141 * Rabs T).
Proof.
  cbv zeta. rewrite Nutation_sums. cbv zeta. assert (ET : J2000Century (fl := RFlt) jde = (jde - 2451545) / 36525) by (unfold J2000Century, J2000, JulianCentury; cbn -[IZR]; field). rewrite ET. set (T := (jde - 2451545) / 36525).
  destruct (nut_bound T (nut_D T) (nut_M T) (nut_N T) (nut_F T) (nut_W T) table22A) as [A B].
  change (sumZ (map (fun r => Z.abs (nS0 r)) table22A)) with 1943160%Z in A. change (sumZ (map (fun r => Z.abs (nS1 r)) table22A)) with 1823%Z in A.
  change (sumZ (map (fun r => Z.abs (nC0 r)) table22A)) with 1007330%Z in B. change (sumZ (map (fun r => Z.abs (nC1 r)) table22A)) with 141%Z in B.
  set (s := nut_sums _ _ _ _ _ _ _) in *. clearbody s. cbn [fst snd]. rewrite !AngleFromSec_arcsec, !arcsec_abs. split; apply arcsec_le; rewrite Rabs_mult, (Rabs_pos_eq (1 / 10000)) by lra; decimals; lra.
Qed.

(** The approximation. *)
Lemma sin_close a b x y k d : Rabs (x - (y + IZR k * (2 * PI))) <= d -> Rabs (a * sin x - b * sin y) <= Rabs (a - b) + Rabs b * d.
Proof.
  intros H. replace (a * sin x - b * sin y) with ((a - b) * sin x + b * (sin x - sin y)) by ring. eapply Rle_trans; [apply Rabs_triang|]. rewrite !Rabs_mult.
  pose proof (abs_sin x) as S. pose proof (sin_lip x (y + IZR k * (2 * PI))) as L. rewrite sin_Z in L. pose proof (Rabs_pos (a - b)). pose proof (Rabs_pos b). pose proof (Rabs_pos (sin x)).
  assert (Rabs (a - b) * Rabs (sin x) <= Rabs (a - b) * 1) by (apply Rmult_le_compat_l; lra).
  assert (Rabs b * Rabs (sin x - sin y) <= Rabs b * d) by (apply Rmult_le_compat_l; lra). lra.
Qed.
Lemma cos_close a b x y k d : Rabs (x - (y + IZR k * (2 * PI))) <= d -> Rabs (a * cos x - b * cos y) <= Rabs (a - b) + Rabs b * d.
Proof.
  intros H. replace (a * cos x - b * cos y) with ((a - b) * cos x + b * (cos x - cos y)) by ring. eapply Rle_trans; [apply Rabs_triang|]. rewrite !Rabs_mult.
  pose proof (abs_cos x) as S. pose proof (cos_lip x (y + IZR k * (2 * PI))) as L. rewrite cos_Z in L. pose proof (Rabs_pos (a - b)). pose proof (Rabs_pos b). pose proof (Rabs_pos (cos x)).
  assert (Rabs (a - b) * Rabs (cos x) <= Rabs (a - b) * 1) by (apply Rmult_le_compat_l; lra).
  assert (Rabs b * Rabs (cos x - cos y) <= Rabs b * d) by (apply Rmult_le_compat_l; lra). lra.
Qed.
Lemma Hor4' x a b c d : HornerR x [a; b; c; d] = a + x * (b + x * (c + x * d)).
Proof. rewrite HornerR_poly by discriminate. rewrite !poly_cons, poly_nil. ring. Qed.
(** A small angle in degrees. *)
Lemma deg_small q e : Rabs q <= e -> Rabs (q * (PI / 180)) <= e * (1 / 57).
Proof.
  intros H. rewrite Rabs_mult, (Rabs_pos_eq (PI / 180)) by (pose proof PI_pos; lra). pose proof PI_bounds. pose proof (Rabs_pos q).
  apply Rmult_le_compat; lra.
Qed.
Lemma nut_args T : Rabs T <= 1 / 2 ->
  let W := (12504452 / 100000 - 1934136261 / 1000000 * T) * PI / 180 in
  let L := (2804665 / 10000 + 360007698 / 10000 * T) * PI / 180 in
  let N := (2183165 / 10000 + 4812678813 / 10000 * T) * PI / 180 in
  Rabs (nut_W T - (W + 0 * (2 * PI))) <= 6 / 10000 / 57 /\
  Rabs (-2 * nut_D T + 2 * nut_F T + 2 * nut_W T - (2 * L + -2 * (2 * PI))) <= 12 / 10000 / 57 /\
  Rabs (2 * nut_F T + 2 * nut_W T - (2 * N + 0 * (2 * PI))) <= 12 / 10000 / 57 /\
  Rabs (2 * nut_W T - (2 * W + 0 * (2 * PI))) <= 12 / 10000 / 57.
Proof.
  intros H. cbv zeta. unfold nut_W, nut_D, nut_F. rewrite !Hor4'.
  assert (H1 : - (1 / 2) <= T <= 1 / 2) by (apply Rabs_le_inv in H; lra).
  assert (H2 : 0 <= T * T <= 1 / 4) by nra. assert (H3 : - (1 / 8) <= T * T * T <= 1 / 8) by nra.
  set (q2 := T * T) in *. set (q3 := q2 * T) in *.
  split; [|split; [|split]].
  - replace (_ - _) with ((20708 / 10000000 * q2 + 1 / 450000 * q3) * (PI / 180)) by (unfold q3, q2; field).
    eapply Rle_trans; [apply (deg_small _ (6 / 10000)); apply Rabs_le; split; lra|lra].
  - replace (_ - _) with ((- (86 / 100000) - 6 / 1000000 * T + 2 * (19142 - 36825 + 20708) / 10000000 * q2 + 2 * (1 / 327270 - 1 / 189474 + 1 / 450000) * q3) * (PI / 180)) by (unfold q3, q2; field).
    eapply Rle_trans; [apply (deg_small _ (12 / 10000)); apply Rabs_le; split; lra|lra].
  - replace (_ - _) with ((- (14 / 100000) - 46 / 1000000 * T + 2 * (- 36825 + 20708) / 10000000 * q2 + 2 * (1 / 327270 + 1 / 450000) * q3) * (PI / 180)) by (unfold q3, q2; field).
    eapply Rle_trans; [apply (deg_small _ (12 / 10000)); apply Rabs_le; split; lra|lra].
  - replace (_ - _) with ((2 * (20708 / 10000000 * q2 + 1 / 450000 * q3)) * (PI / 180)) by (unfold q3, q2; field).
    eapply Rle_trans; [apply (deg_small _ (12 / 10000)); apply Rabs_le; split; lra|lra].
Qed.
Lemma abs_bnd x e : - e <= x <= e -> Rabs x <= e. Proof. intros H. apply Rabs_le. lra. Qed.
Lemma Approx_close jde : Rabs ((jde - 2451545) / 36525) <= 1 / 2 ->
  Rabs (fst (ApproxNutation jde) - fst (Nutation jde)) <= arcsec 0.5 /\ Rabs (snd (ApproxNutation jde) - snd (Nutation jde)) <= arcsec 0.12.
Proof.
  rewrite Nutation_sums. cbv zeta. assert (ET : J2000Century (fl := RFlt) jde = (jde - 2451545) / 36525) by (unfold J2000Century, J2000, JulianCentury; cbn -[IZR]; field). rewrite ET.
  unfold ApproxNutation. cbv zeta. set (T := (jde - 2451545) / 36525). intros HT. pose proof (nut_args T HT) as NA. cbv zeta in NA.
  set (W := (12504452 / 100000 - 1934136261 / 1000000 * T) * PI / 180) in *. set (L := (2804665 / 10000 + 360007698 / 10000 * T) * PI / 180) in *.
  set (N := (2183165 / 10000 + 4812678813 / 10000 * T) * PI / 180) in *. destruct NA as (A1 & A2 & A3 & A4).
  set (D' := nut_D T) in *. set (M' := nut_M T). set (N' := nut_N T). set (F' := nut_F T) in *. set (W' := nut_W T) in *.
  assert (H1 : - (1 / 2) <= T <= 1 / 2) by (apply Rabs_le_inv in HT; lra).
  destruct (nut_bound T D' M' N' F' W' (skipn 4 table22A)) as [B1 B2].
  change (sumZ (map (fun r => Z.abs (nS0 r)) (skipn 4 table22A))) with 47970%Z in B1. change (sumZ (map (fun r => Z.abs (nS1 r)) (skipn 4 table22A))) with 61%Z in B1.
  change (sumZ (map (fun r => Z.abs (nC0 r)) (skipn 4 table22A))) with 11000%Z in B2. change (sumZ (map (fun r => Z.abs (nC1 r)) (skipn 4 table22A))) with 11%Z in B2.
  set (rs := nut_sums T D' M' N' F' W' (skipn 4 table22A)) in *.
  assert (E : nut_sums T D' M' N' F' W' table22A =
    (sin W' * (-1719960 / 10 + -1742 / 10 * T) + (sin (-2 * D' + 2 * F' + 2 * W') * (-131870 / 10 + -16 / 10 * T) + (sin (2 * F' + 2 * W') * (-22740 / 10 + -2 / 10 * T) + (sin (2 * W') * (20620 / 10 + 2 / 10 * T) + fst rs))),
     cos W' * (920250 / 10 + 89 / 10 * T) + (cos (-2 * D' + 2 * F' + 2 * W') * (57360 / 10 + -31 / 10 * T) + (cos (2 * F' + 2 * W') * (9770 / 10 + -5 / 10 * T) + (cos (2 * W') * (-8950 / 10 + 5 / 10 * T) + snd rs))))).
  { assert (Et : table22A = ((0, 0, 0, 0, 1, -1719960, -1742, 920250, 89) :: (-2, 0, 0, 2, 2, -131870, -16, 57360, -31) ::
      (0, 0, 0, 2, 2, -22740, -2, 9770, -5) :: (0, 0, 0, 0, 2, 20620, 2, -8950, 5) :: skipn 4 table22A)%Z) by reflexivity.
    rewrite Et at 1. rewrite !nut_sums_cons. fold rs. cbn [fst snd nS0 nS1 nC0 nC1 nut_arg].
    replace (0 * D' + 0 * M' + 0 * N' + 0 * F' + 1 * W') with W' by ring.
    replace (-2 * D' + 0 * M' + 0 * N' + 2 * F' + 2 * W') with (-2 * D' + 2 * F' + 2 * W') by ring.
    replace (0 * D' + 0 * M' + 0 * N' + 2 * F' + 2 * W') with (2 * F' + 2 * W') by ring.
    replace (0 * D' + 0 * M' + 0 * N' + 0 * F' + 2 * W') with (2 * W') by ring. reflexivity. }
  rewrite E. clearbody rs. cbn [fst snd].
  rewrite !AngleFromSec_arcsec. assert (AS : forall x y, arcsec x - arcsec y = arcsec (x - y)) by (intros; unfold arcsec; ring). rewrite !AS, !arcsec_abs.
  split; apply arcsec_le.
  - pose proof (sin_close (-17.1996 - 0.01742 * T) (-17.2) W' W 0 _ A1) as C1. pose proof (sin_close (-1.3187 - 0.00016 * T) (-1.32) _ (2 * L) (-2) _ A2) as C2.
    pose proof (sin_close (-0.2274 - 0.00002 * T) (-0.23) _ (2 * N) 0 _ A3) as C3. pose proof (sin_close (0.2062 + 0.00002 * T) 0.21 _ (2 * W) 0 _ A4) as C4.
    set (x1 := sin W') in *. set (x2 := sin (-2 * D' + 2 * F' + 2 * W')) in *. set (x3 := sin (2 * F' + 2 * W')) in *. set (x4 := sin (2 * W')) in *.
    assert (K1 : Rabs (-17.1996 - 0.01742 * T - -17.2) <= 0.01) by (apply abs_bnd; decimals; lra). assert (K2 : Rabs (-1.3187 - 0.00016 * T - -1.32) <= 0.0014) by (apply abs_bnd; decimals; lra).
    assert (K3 : Rabs (-0.2274 - 0.00002 * T - -0.23) <= 0.0027) by (apply abs_bnd; decimals; lra). assert (K4 : Rabs (0.2062 + 0.00002 * T - 0.21) <= 0.0039) by (apply abs_bnd; decimals; lra).
    replace (Rabs (-17.2)) with 17.2 in C1 by (rewrite Rabs_left; decimals; lra). replace (Rabs (-1.32)) with 1.32 in C2 by (rewrite Rabs_left; decimals; lra).
    replace (Rabs (-0.23)) with 0.23 in C3 by (rewrite Rabs_left; decimals; lra). rewrite (Rabs_pos_eq 0.21) in C4 by (decimals; lra).
    apply Rabs_le_inv in C1, C2, C3, C4, B1. assert (Rabs T <= 1 / 2) by exact HT. apply abs_bnd. decimals. decimals_in C1. decimals_in C2. decimals_in C3. decimals_in C4. decimals_in K1. decimals_in K2. decimals_in K3. decimals_in K4. lra.
  - pose proof (cos_close (9.2025 + 0.00089 * T) 9.2 W' W 0 _ A1) as C1. pose proof (cos_close (0.5736 - 0.00031 * T) 0.57 _ (2 * L) (-2) _ A2) as C2.
    pose proof (cos_close (0.0977 - 0.00005 * T) 0.1 _ (2 * N) 0 _ A3) as C3. pose proof (cos_close (-0.0895 + 0.00005 * T) (-0.09) _ (2 * W) 0 _ A4) as C4.
    set (x1 := cos W') in *. set (x2 := cos (-2 * D' + 2 * F' + 2 * W')) in *. set (x3 := cos (2 * F' + 2 * W')) in *. set (x4 := cos (2 * W')) in *.
    assert (K1 : Rabs (9.2025 + 0.00089 * T - 9.2) <= 0.003) by (apply abs_bnd; decimals; lra). assert (K2 : Rabs (0.5736 - 0.00031 * T - 0.57) <= 0.0038) by (apply abs_bnd; decimals; lra).
    assert (K3 : Rabs (0.0977 - 0.00005 * T - 0.1) <= 0.0024) by (apply abs_bnd; decimals; lra). assert (K4 : Rabs (-0.0895 + 0.00005 * T - -0.09) <= 0.0006) by (apply abs_bnd; decimals; lra).
    rewrite (Rabs_pos_eq 9.2) in C1 by (decimals; lra). rewrite (Rabs_pos_eq 0.57) in C2 by (decimals; lra). rewrite (Rabs_pos_eq 0.1) in C3 by (decimals; lra).
    replace (Rabs (-0.09)) with 0.09 in C4 by (rewrite Rabs_left; decimals; lra).
    apply Rabs_le_inv in C1, C2, C3, C4, B2. assert (Rabs T <= 1 / 2) by exact HT. apply abs_bnd. decimals. decimals_in C1. decimals_in C2. decimals_in C3. decimals_in C4. decimals_in K1. decimals_in K2. decimals_in K3. decimals_in K4. lra.
Qed.

(** ** Obliquity *)
Lemma century jde : J2000Century (fl := RFlt) jde = (jde - 2451545) / 36525.
Proof. unfold J2000Century, J2000, JulianCentury; cbn -[IZR]; field. Qed.
Lemma obliquities jde : let T := (jde - 2451545) / 36525 in
  MeanObliquity jde = arcsec (84381.448 - 46.815 * T - 0.00059 * T ^ 2 + 0.001813 * T ^ 3) /\
  (Rabs T <= 10 -> Rabs (MeanObliquity jde - MeanObliquityLaskar jde) <= arcsec 1) /\
  (Rabs T <= 20 -> Rabs (MeanObliquity jde - MeanObliquityLaskar jde) <= arcsec 10).
Proof.
  cbv zeta. unfold MeanObliquity, MeanObliquityLaskar. rewrite !century, !HornerR_poly by discriminate. rewrite !AngleFromSec_arcsec. set (T := (jde - 2451545) / 36525).
  rewrite !poly_cons, !poly_nil.
  split; [f_equal; decimals; field|].
  assert (AS : forall x y, arcsec x - arcsec y = arcsec (x - y)) by (intros; unfold arcsec; ring). rewrite AS, arcsec_abs.
  set (u := T * (1 / 100)). assert (ET : T = 100 * u) by (unfold u; lra).
  set (d := _ - _). assert (Ed : d = u * (- (57 / 100) + u * (- (435 / 100) + u * (- (18625 / 100) + u * (5138 / 100 + u * (24967 / 100 + u * (3905 / 100 + u * (- (712 / 100) + u * (- (2787 / 100) + u * (- (579 / 100) + u * - (245 / 100))))))))))) by (unfold d; rewrite ET; field).
  clearbody d. subst d.
  assert (H : forall b, Rabs u <= b -> b <= 1 / 5 -> forall a x e, Rabs x <= e -> Rabs (a + u * x) <= Rabs a + b * e).
  { intros b Hb _ a x e He. eapply Rle_trans; [apply Rabs_triang|]. rewrite Rabs_mult. pose proof (Rabs_pos u). pose proof (Rabs_pos x).
    assert (Rabs u * Rabs x <= b * e) by (apply Rmult_le_compat; lra). lra. }
  assert (K : forall b, Rabs u <= b -> b <= 1 / 5 -> Rabs (u * (- (57 / 100) + u * (- (435 / 100) + u * (- (18625 / 100) + u * (5138 / 100 + u * (24967 / 100 + u * (3905 / 100 + u * (- (712 / 100) + u * (- (2787 / 100) + u * (- (579 / 100) + u * - (245 / 100)))))))))))
      <= b * (Rabs (- (57 / 100)) + b * (Rabs (- (435 / 100)) + b * (Rabs (- (18625 / 100)) + b * (Rabs (5138 / 100) + b * (Rabs (24967 / 100) + b * (Rabs (3905 / 100) + b * (Rabs (- (712 / 100)) + b * (Rabs (- (2787 / 100)) + b * (Rabs (- (579 / 100)) + b * Rabs (- (245 / 100)))))))))))).
  { intros b Hb Hb5. rewrite Rabs_mult. apply Rmult_le_compat; [apply Rabs_pos|apply Rabs_pos|exact Hb|].
    repeat (apply (H b Hb Hb5)). apply Rle_refl. }
  split; intros HT; rewrite ET, Rabs_mult, (Rabs_pos_eq 100) in HT by lra; apply arcsec_le.
  - eapply Rle_trans; [apply (K (1 / 10)); lra|]. rewrite !Rabs_Ropp. rewrite !Rabs_pos_eq by lra. lra.
  - eapply Rle_trans; [apply (K (1 / 5)); lra|]. rewrite !Rabs_Ropp. rewrite !Rabs_pos_eq by lra. lra.
Qed.
(** The obliquity stays between 22 and 25 degrees for 20 centuries. *)
Lemma obliquity_range jde : Rabs ((jde - 2451545) / 36525) <= 20 -> degrees 22 <= MeanObliquity jde <= degrees 25.
Proof.
  intros H. destruct (obliquities jde) as [-> _]. set (T := (jde - 2451545) / 36525) in *. apply Rabs_le_inv in H. unfold arcsec, degrees. pose proof PI_pos.
  assert (H2 : 0 <= T * T <= 400) by nra. assert (H3 : - 8000 <= T * T * T <= 8000) by nra.
  replace (T ^ 3) with (T * T * T) by ring. replace (T ^ 2) with (T * T) by ring. decimals. split.
  - replace (22 * (PI / 180)) with (22 * 3600 * (PI / 180 / 3600)) by field. apply Rmult_le_compat_r; lra.
  - replace (25 * (PI / 180)) with (25 * 3600 * (PI / 180 / 3600)) by field. apply Rmult_le_compat_r; lra.
Qed.

(** ** Low precision solar positions *)
Lemma EclToEq_0 l eps : EclToEq l 0 (sin eps) (cos eps) = (RAFromRad (atan2 (cos eps * sin l) (cos l)), asin (sin eps * sin l)).
Proof. unfold EclToEq. rewrite sin_0, cos_0. replace (sin l * cos eps - 0 / 1 * sin eps) with (cos eps * sin l) by field. replace (0 * cos eps + 1 * sin eps * sin l) with (sin eps * sin l) by ring. reflexivity. Qed.
Lemma equatorial_0 l eps : equatorial_of l 0 eps (RAFromRad (atan2 (cos eps * sin l) (cos l))) (asin (sin eps * sin l)).
Proof.
  pose proof (EclToEq_dir l 0 eps) as H. rewrite EclToEq_0 in H. apply H. pose proof PI_pos. lra.
Qed.
Lemma Mod1_same x : same_angle (Mod1 x) x.
Proof. destruct (PMod_eq x (2 * PI) two_PI_pos) as (k & E). exists k. exact E. Qed.
Lemma solarTrue_value T : let '(s, nu) := solarTrue T in
  let M := degrees (357.52911 + 35999.05029 * T - 0.0001537 * T ^ 2) in
  let C := degrees ((1.914602 - 0.004817 * T - 0.000014 * T ^ 2) * sin M + (0.019993 - 0.000101 * T) * sin (2 * M) + 0.000289 * sin (3 * M)) in
  0 <= s < 2 * PI /\ 0 <= nu < 2 * PI /\ same_angle s (degrees (280.46646 + 36000.76983 * T + 0.0003032 * T ^ 2) + C) /\ same_angle nu (M + C).
Proof.
  unfold solarTrue. cbv zeta.
  assert (EM : MeanAnomaly T = degrees (357.52911 + 35999.05029 * T - 0.0001537 * T ^ 2)).
  { unfold MeanAnomaly, AngleFromDeg, degrees. rewrite HornerR3. decimals. field. }
  rewrite EM. set (M := degrees _). split; [apply Mod1_bound|]. split; [apply Mod1_bound|]. rewrite (Rmult_comm 2 M), (Rmult_comm 3 M).
  rewrite !HornerR3. split.
  - destruct (Mod1_same (AngleFromDeg (28046646 / 100000 + T * (3600076983 / 100000 + T * (3032 / 10000000))) + AngleFromDeg ((1914602 / 1000000 + T * (- (4817 / 1000000) + T * - (14 / 1000000))) * sin M + (19993 / 1000000 - 101 / 1000000 * T) * sin (M * 2) + 289 / 1000000 * sin (M * 3)))) as (k & E).
    exists k. rewrite E. unfold AngleFromDeg, degrees. decimals. field.
  - destruct (Mod1_same (M + AngleFromDeg ((1914602 / 1000000 + T * (- (4817 / 1000000) + T * - (14 / 1000000))) * sin M + (19993 / 1000000 - 101 / 1000000 * T) * sin (M * 2) + 289 / 1000000 * sin (M * 3)))) as (k & E).
    exists k. rewrite E. unfold AngleFromDeg, degrees. decimals. field.
Qed.
Lemma TrueEquatorial_value jde : equatorial_of (fst (solarTrue ((jde - 2451545) / 36525))) 0 (MeanObliquity jde) (fst (TrueEquatorial jde)) (snd (TrueEquatorial jde)).
Proof. unfold TrueEquatorial. rewrite century. cbn [fst snd]. apply equatorial_0. Qed.
Lemma ApparentEquatorial_value jde : let T := (jde - 2451545) / 36525 in
  let omega := degrees (125.04 - 1934.136 * T) in
  ApparentLongitude T = fst (solarTrue T) - degrees 0.00569 - degrees 0.00478 * sin omega /\
  equatorial_of (ApparentLongitude T) 0 (MeanObliquity jde + degrees 0.00256 * cos omega) (fst (ApparentEquatorial jde)) (snd (ApparentEquatorial jde)).
Proof.
  cbv zeta. unfold ApparentEquatorial. rewrite century. set (T := (jde - 2451545) / 36525).
  assert (EN : solarNode T = degrees (125.04 - 1934.136 * T)) by (unfold solarNode, AngleFromDeg, degrees; decimals; field).
  assert (E2 : forall a b, a = b -> AngleFromDeg a = degrees b) by (intros a b ->; reflexivity).
  split.
  - unfold ApparentLongitude. rewrite EN. rewrite (E2 (569 / 100000) 0.00569) by (decimals; field). rewrite (E2 (478 / 100000) 0.00478) by (decimals; field). reflexivity.
  - cbv zeta. rewrite EN, (E2 (256 / 100000) 0.00256) by (decimals; field). cbn [fst snd]. apply equatorial_0.
Qed.

(** Distance: between perihelion and aphelion of the ellipse of date. *)
Lemma Radius_value T : let e := solarEccentricity T in 0 <= e < 1 ->
  Radius T * (1 + e * cos (snd (solarTrue T))) = 1.000001018 * (1 - e ^ 2) /\ 1.000001018 * (1 - e) <= Radius T <= 1.000001018 * (1 + e).
Proof.
  cbv zeta. intros H. unfold Radius. cbv zeta. set (e := solarEccentricity T) in *. set (c := cos (snd (solarTrue T))). pose proof (COS_bound (snd (solarTrue T))) as C. fold c in C.
  assert (P : 0 < 1 + e * c) by nra. replace 1.000001018 with (1000001018 / 1000000000) by (decimals; field). set (a := 1000001018 / 1000000000). assert (0 < a) by (unfold a; lra).
  split; [field; lra|]. assert (E1 : a * (1 - e * e) / (1 + e * c) = a * ((1 - e * e) / (1 + e * c))) by (field; lra). rewrite E1.
  split; apply Rmult_le_compat_l; try lra.
  - apply Rmult_le_reg_r with (1 + e * c); [lra|]. replace ((1 - e * e) / (1 + e * c) * (1 + e * c)) with (1 - e * e) by (field; lra). assert (0 <= e * (1 - e) * (1 - c)) by (repeat apply Rmult_le_pos; lra). lra.
  - apply Rmult_le_reg_r with (1 + e * c); [lra|]. replace ((1 - e * e) / (1 + e * c) * (1 + e * c)) with (1 - e * e) by (field; lra). assert (0 <= e * (1 + e) * (1 + c)) by (repeat apply Rmult_le_pos; lra). lra.
Qed.
Lemma solarEccentricity_range T : Rabs T <= 100 -> 0.01 <= solarEccentricity T <= 0.021.
Proof. intros H. apply Rabs_le_inv in H. unfold solarEccentricity. rewrite HornerR3. decimals. nra. Qed.

(** ** Positions of date *)
Lemma Rabs_0_bool : Req_bool 0 0 = true. Proof. apply Req_bool_true. reflexivity. Qed.
Lemma PlanetPosition_value v jde : let '(L, B, R0) := Position2000 v jde in let '(l, b, r) := PlanetPosition v jde in
  let y := 2000 + (jde - 2451545) / 365.25 in let p := NewEclipticPrecessor 2000 y in
  r = R0 /\ - (PI / 2) <= b <= PI / 2 /\ dir l b = ecliptic_precession (epeta p) (eppi p) (epp p) (dir L B).
Proof.
  unfold PlanetPosition. destruct (Position2000 v jde) as [[L B] R0]. cbv zeta.
  assert (EY : JDEToJulianYear (fl := RFlt) jde = 2000 + (jde - 2451545) / 365.25) by (unfold JDEToJulianYear, J2000, JulianYear; cbn -[IZR]; decimals; field).
  rewrite EY. unfold EclipticPosition. rewrite Rabs_0_bool. cbn [negb orb]. split; [reflexivity|].
  pose proof (EclPrecess_dir (NewEclipticPrecessor 2000 (2000 + (jde - 2451545) / 365.25)) (mkEcl L B)) as H. cbv zeta in H. cbn [eclLon eclLat] in H.
  split; apply H.
Qed.
Lemma TrueVSOP87_value v jde : let '(l, b, r) := PlanetPosition v jde in let '(s, beta, R0) := TrueVSOP87 v jde in
  let T := (jde - 2451545) / 36525 in let l' := l + PI - degrees (1.397 * T + 0.00031 * T ^ 2) in
  R0 = r /\ 0 <= s < 2 * PI /\ same_angle s (l + PI - arcsec 0.09033) /\ beta = - b + arcsec (0.03916 * (cos l' - sin l')).
Proof.
  unfold TrueVSOP87. destruct (PlanetPosition v jde) as [[l b] r]. cbv zeta. rewrite century, HornerR3. set (T := (jde - 2451545) / 36525). rewrite !AngleFromSec_arcsec.
  split; [reflexivity|]. split; [apply Mod1_bound|]. split.
  - destruct (Mod1_same (l + PI - arcsec (9033 / 100000))) as (k & E). exists k. rewrite E. unfold arcsec. decimals. field.
  - replace (l + PI + T * (- (1397 / 1000) * PI / 180 + T * (- (31 / 100000) * PI / 180))) with (l + PI - degrees (1.397 * T + 0.00031 * T ^ 2)) by (unfold degrees; decimals; field).
    generalize (l + PI - degrees (1.397 * T + 0.00031 * T ^ 2)). intros l'. unfold AngleFromSec, arcsec. decimals. field.
Qed.
Lemma ApparentEquatorialVSOP87_value v jde : let '(s, b, r) := TrueVSOP87 v jde in let '(dpsi, deps) := Nutation jde in
  let '(ra, dec, r') := ApparentEquatorialVSOP87 v jde in
  r' = r /\ 0 <= ra < 2 * PI /\ ApparentVSOP87 v jde = (s + dpsi - arcsec 20.4898 / r, b, r) /\
  (- (PI / 2) < b < PI / 2 -> equatorial_of (s + dpsi - arcsec 20.4898 / r) b (MeanObliquity jde + deps) ra dec).
Proof.
  unfold ApparentEquatorialVSOP87, ApparentVSOP87. destruct (TrueVSOP87 v jde) as [[s b] r]. destruct (Nutation jde) as [dpsi deps]. cbv zeta. cbn [fst].
  assert (EA : s + dpsi + aberration r = s + dpsi - arcsec 20.4898 / r).
  { unfold aberration. rewrite AngleFromSec_arcsec. assert (Q : forall x, x / r = x * / r) by reflexivity. rewrite !Q. generalize (/ r). intros i. unfold arcsec. decimals. field. }
  rewrite EA. set (l := s + dpsi - arcsec 20.4898 / r).
  pose proof (EclToEq_dir l b (MeanObliquity jde + deps)) as H.
  assert (RA : 0 <= fst (EclToEq l b (sin (MeanObliquity jde + deps)) (cos (MeanObliquity jde + deps))) < 2 * PI) by apply RAFromRad_bound.
  destruct (EclToEq l b (sin (MeanObliquity jde + deps)) (cos (MeanObliquity jde + deps))) as [ra dec]. cbn [fst] in RA.
  split; [reflexivity|]. split; [exact RA|]. split; [reflexivity|exact H].
Qed.

(** ** Equation of time *)
Lemma EqTime_value v jde : let '(s, b, r) := TrueVSOP87 v jde in let '(dpsi, deps) := Nutation jde in
  let eps := MeanObliquity jde + deps in let tau := (jde - 2451545) / 365250 in
  let L0 := degrees (280.4664567 + 360007.6982779 * tau + 0.03032028 * tau ^ 2 + tau ^ 3 / 49931 - tau ^ 4 / 15300 - tau ^ 5 / 2000000) in
  - PI <= EqTime jde v < PI /\
  (- (PI / 2) < b < PI / 2 -> exists ra dec, equatorial_of (s + dpsi - arcsec 20.4898 / r) b eps ra dec /\
    same_angle (EqTime jde v) (L0 - degrees 0.0057183 - ra + dpsi * cos eps)).
Proof.
  pose proof (ApparentEquatorialVSOP87_value v jde) as H. unfold ApparentEquatorialVSOP87, ApparentVSOP87 in H. unfold EqTime.
  destruct (TrueVSOP87 v jde) as [[s b] r]. destruct (Nutation jde) as [dpsi deps]. cbv zeta in *. fold (aberration r).
  destruct (EclToEq (s + dpsi + aberration r) b (sin (MeanObliquity jde + deps)) (cos (MeanObliquity jde + deps))) as [ra dec]. cbn [fst] in *.
  destruct H as (_ & _ & _ & H).
  match goal with |- context [Mod1 ?x] => set (E := x) end. split; [pose proof (Mod1_bound E); lra|].
  intros Hb. exists ra, dec. split; [apply H, Hb|]. destruct (Mod1_same E) as (k & Ek). exists k. rewrite Ek. unfold E, l0. rewrite century.
  rewrite HornerR_poly by discriminate. rewrite !poly_cons, poly_nil. unfold AngleFromDeg, degrees. decimals. field.
Qed.
Lemma ESmart_value jde : let T := (jde - 2451545) / 36525 in let tau := T / 10 in
  let L0 := degrees (280.4664567 + 360007.6982779 * tau + 0.03032028 * tau ^ 2 + tau ^ 3 / 49931 - tau ^ 4 / 15300 - tau ^ 5 / 2000000) in
  let e := solarEccentricity T in let M := degrees (357.52911 + 35999.05029 * T - 0.0001537 * T ^ 2) in
  let y := (tan (MeanObliquity jde / 2)) ^ 2 in
  ESmart jde = y * sin (2 * L0) - 2 * e * sin M + 4 * e * y * sin M * cos (2 * L0) - / 2 * y ^ 2 * sin (4 * L0) - 5 / 4 * e ^ 2 * sin (2 * M).
Proof.
  cbv zeta. unfold ESmart. rewrite century. cbv zeta. set (T := (jde - 2451545) / 36525).
  assert (EL : l0 (T * (1 / 10)) = degrees (280.4664567 + 360007.6982779 * (T / 10) + 0.03032028 * (T / 10) ^ 2 + (T / 10) ^ 3 / 49931 - (T / 10) ^ 4 / 15300 - (T / 10) ^ 5 / 2000000)).
  { unfold l0, AngleFromDeg, degrees. rewrite HornerR_poly by discriminate. rewrite !poly_cons, poly_nil. decimals. field. }
  assert (EM : MeanAnomaly T = degrees (357.52911 + 35999.05029 * T - 0.0001537 * T ^ 2)).
  { unfold MeanAnomaly, AngleFromDeg, degrees. rewrite HornerR3. decimals. field. }
  rewrite EL, EM. set (L0 := degrees (280.4664567 + _ + _ + _ - _ - _)). set (M := degrees (357.52911 + _ - _)).
  replace (MeanObliquity jde * (1 / 2)) with (MeanObliquity jde / 2) by field. set (t := tan (MeanObliquity jde / 2)).
  replace (L0 * 2) with (2 * L0) by ring. replace (M * 2) with (2 * M) by ring.
  replace (sin (4 * L0)) with (2 * sin (2 * L0) * cos (2 * L0)) by (rewrite <- sin_2a; f_equal; ring). field.
Qed.
Lemma ESmart_bound jde : Rabs ((jde - 2451545) / 36525) <= 20 -> Rabs (ESmart jde) <= 0.1.
Proof.
  intros HT. rewrite (ESmart_value jde). cbv zeta. set (T := (jde - 2451545) / 36525) in *.
  match goal with |- context [sin (2 * ?x)] => set (L0 := x) end. match goal with |- context [_ * sin ?x] => lazymatch x with 2 * _ => fail | _ => set (M := x) end end.
  assert (He : 0.01 <= solarEccentricity T <= 0.021) by (apply solarEccentricity_range; lra). set (e := solarEccentricity T) in *.
  pose proof (obliquity_range jde HT) as HO. set (x := MeanObliquity jde / 2).
  assert (Hx : 0 <= x <= 0.22) by (unfold x, degrees in *; pose proof PI_bounds; decimals; lra).
  assert (Ht : 0 <= tan x <= 0.2255).
  { pose proof PI_bounds. decimals_in Hx. assert (C : 1 - x * x / 2 <= cos x).
    { pose proof (cos_lip x 0). pose proof (sin_abs_le (x / 2)) as Sx. replace x with (2 * (x / 2)) at 3 by field. rewrite cos_2a_sin.
      rewrite (Rabs_pos_eq (x / 2)) in Sx by lra. apply Rabs_le_inv in Sx. nra. }
    assert (Cx : 0.9758 <= cos x) by (decimals; nra).
    assert (S0 : 0 <= sin x) by (apply sin_ge_0; lra). pose proof (sin_abs_le x) as S1. rewrite (Rabs_pos_eq x), Rabs_pos_eq in S1 by lra.
    decimals_in Cx. unfold tan. decimals. split; [apply Rmult_le_pos; [lra|apply Rlt_le, Rinv_0_lt_compat; lra]|].
    apply Rmult_le_reg_r with (cos x); [lra|]. replace (sin x / cos x * cos x) with (sin x) by (field; lra). nra. }
  set (t := tan x) in *. assert (Hy : 0 <= t ^ 2 <= 0.051) by (decimals; decimals_in Ht; replace (t ^ 2) with (t * t) by ring; nra). set (y := t ^ 2) in *. clearbody y.
  pose proof (abs_sin (2 * L0)) as S2. pose proof (abs_sin M) as SM. pose proof (abs_cos (2 * L0)) as C2. pose proof (abs_sin (4 * L0)) as S4. pose proof (abs_sin (2 * M)) as S2M.
  set (a1 := sin (2 * L0)) in *. set (a2 := sin M) in *. set (a3 := cos (2 * L0)) in *. set (a4 := sin (4 * L0)) in *. set (a5 := sin (2 * M)) in *.
  decimals_in He. decimals_in Hy.
  assert (B : forall a k m, Rabs a <= 1 -> 0 <= k <= m -> - m <= k * a <= m) by (intros a k m Ha Hk; apply Rabs_le_inv in Ha; nra).
  pose proof (B a1 y _ S2 Hy). pose proof (B a2 (2 * e) (42 / 1000) SM ltac:(lra)).
  assert (S23 : Rabs (a2 * a3) <= 1) by (rewrite Rabs_mult; pose proof (Rabs_pos a2); pose proof (Rabs_pos a3); nra).
  pose proof (B (a2 * a3) (4 * e * y) (44 / 10000) S23 ltac:(split; nra)). pose proof (B a4 (/ 2 * y ^ 2) (14 / 10000) S4 ltac:(replace (y ^ 2) with (y * y) by ring; split; nra)).
  pose proof (B a5 (5 / 4 * e ^ 2) (6 / 10000) S2M ltac:(replace (e ^ 2) with (e * e) by ring; split; nra)).
  apply abs_bnd. decimals. lra.
Qed.

(** ** Rectangular coordinates of the Sun *)
Lemma xyz_value v jde : let '(L, B, r) := Position2000 v jde in
  vec_of (xyz v jde) = scale r (dir (L + PI) (- B)) /\ dot (vec_of (xyz v jde)) (vec_of (xyz v jde)) = r * r.
Proof.
  unfold xyz. destruct (Position2000 v jde) as [[L B] r]. cbv zeta. unfold vec_of, scale, dir, dot. cbn [vx vy vz].
  split; [apply mkvec_eq; ring|]. pose proof (sc1 (L + PI)) as A. pose proof (sc1 (- B)) as C.
  transitivity (r * r * (cos (- B) * cos (- B) * (sin (L + PI) * sin (L + PI) + cos (L + PI) * cos (L + PI)) + sin (- B) * sin (- B))); [ring|]. rewrite A. nra.
Qed.
Lemma LongitudeJ2000_value v jde : let '(L, B, r) := Position2000 v jde in
  0 <= LongitudeJ2000 v jde < 2 * PI /\ same_angle (LongitudeJ2000 v jde) (L + PI - arcsec 0.09033).
Proof.
  unfold LongitudeJ2000. destruct (Position2000 v jde) as [[L B] r]. split; [apply Mod1_bound|]. rewrite AngleFromSec_arcsec.
  destruct (Mod1_same (L + PI - arcsec (9033 / 100000))) as (k & E). exists k. rewrite E. unfold arcsec. decimals. field.
Qed.
Lemma quad_bound a b c d e f x y z m : Rabs a + Rabs d / 2 + Rabs e / 2 <= m -> Rabs b + Rabs d / 2 + Rabs f / 2 <= m -> Rabs c + Rabs e / 2 + Rabs f / 2 <= m ->
  Rabs (a * (x * x) + b * (y * y) + c * (z * z) + d * (x * y) + e * (x * z) + f * (y * z)) <= m * (x * x + y * y + z * z).
Proof.
  intros H1 H2 H3.
  assert (P : forall k u v, Rabs (k * (u * v)) <= Rabs k / 2 * (u * u + v * v)).
  { intros k u v. rewrite Rabs_mult. pose proof (Rabs_pos k). assert (Q : Rabs (u * v) <= (u * u + v * v) / 2) by (apply Rabs_le; pose proof (Rle_0_sqr (u - v)); pose proof (Rle_0_sqr (u + v)); unfold Rsqr in *; lra). nra. }
  assert (P2 : forall k u, Rabs (k * (u * u)) <= Rabs k * (u * u)) by (intros k u; rewrite Rabs_mult, (Rabs_pos_eq (u * u)) by apply Rle_0_sqr; lra).
  pose proof (P2 a x). pose proof (P2 b y). pose proof (P2 c z). pose proof (P d x y). pose proof (P e x z). pose proof (P f y z).
  assert (0 <= x * x) by apply Rle_0_sqr. assert (0 <= y * y) by apply Rle_0_sqr. assert (0 <= z * z) by apply Rle_0_sqr.
  assert ((Rabs a + Rabs d / 2 + Rabs e / 2) * (x * x) <= m * (x * x)) by (apply Rmult_le_compat_r; assumption).
  assert ((Rabs b + Rabs d / 2 + Rabs f / 2) * (y * y) <= m * (y * y)) by (apply Rmult_le_compat_r; assumption).
  assert ((Rabs c + Rabs e / 2 + Rabs f / 2) * (z * z) <= m * (z * z)) by (apply Rmult_le_compat_r; assumption).
  eapply Rle_trans; [apply Rabs_triang|]. eapply Rle_trans; [apply Rplus_le_compat_r, Rabs_triang|]. eapply Rle_trans; [apply Rplus_le_compat_r, Rplus_le_compat_r, Rabs_triang|].
  eapply Rle_trans; [apply Rplus_le_compat_r, Rplus_le_compat_r, Rplus_le_compat_r, Rabs_triang|]. eapply Rle_trans; [do 4 apply Rplus_le_compat_r; apply Rabs_triang|]. lra.
Qed.
Ltac rabs_num := repeat match goal with |- context [Rabs ?x] => first [rewrite (Rabs_pos_eq x) by lra | rewrite (Rabs_left x) by lra] end.
Lemma J2000_norm v jde : let '(_, _, r) := Position2000 v jde in
  Rabs (dot (vec_of (PositionJ2000 v jde)) (vec_of (PositionJ2000 v jde)) - r * r) <= 1 / 10 ^ 12 * (r * r) /\
  Rabs (dot (vec_of (PositionB1950 v jde)) (vec_of (PositionB1950 v jde)) - r * r) <= 2 / 10 ^ 10 * (r * r).
Proof.
  pose proof (xyz_value v jde) as H. unfold PositionJ2000, PositionB1950. destruct (Position2000 v jde) as [[L B] r]. destruct H as [_ H].
  destruct (xyz v jde) as [[x y] z]. unfold vec_of, dot in *. cbn [vx vy vz] in *. rewrite <- H. split.
  - match goal with |- Rabs ?q <= _ => replace q with
      (((479966 / 1000000000000) ^ 2) * (x * x) +
       ((44036 / 100000000000) ^ 2 + (917482137087 / 1000000000000) ^ 2 + (397776982902 / 1000000000000) ^ 2 - 1) * (y * y) +
       ((190919 / 1000000000000) ^ 2 + (917482137087 / 1000000000000) ^ 2 + (397776982902 / 1000000000000) ^ 2 - 1) * (z * z) +
       (2 * (44036 / 100000000000 - 479966 / 1000000000000 * (917482137087 / 1000000000000))) * (x * y) +
       (2 * (- (190919 / 1000000000000) + 479966 / 1000000000000 * (397776982902 / 1000000000000))) * (x * z) +
       (2 * (- (44036 / 100000000000 * (190919 / 1000000000000)))) * (y * z)) by field end.
    apply quad_bound; rabs_num; lra.
  - match goal with |- Rabs ?q <= _ => replace q with
      (((999925702634 / 1000000000000) ^ 2 + (11179418036 / 1000000000000) ^ 2 + (4859003787 / 1000000000000) ^ 2 - 1) * (x * x) +
       ((12189716217 / 1000000000000) ^ 2 + (917413998946 / 1000000000000) ^ 2 + (397747363646 / 1000000000000) ^ 2 - 1) * (y * y) +
       ((11134016 / 1000000000000) ^ 2 + (397777041885 / 1000000000000) ^ 2 + (917482111428 / 1000000000000) ^ 2 - 1) * (z * z) +
       (2 * (999925702634 / 1000000000000 * (12189716217 / 1000000000000) - 11179418036 / 1000000000000 * (917413998946 / 1000000000000) - 4859003787 / 1000000000000 * (397747363646 / 1000000000000))) * (x * y) +
       (2 * (999925702634 / 1000000000000 * (11134016 / 1000000000000) + 11179418036 / 1000000000000 * (397777041885 / 1000000000000) - 4859003787 / 1000000000000 * (917482111428 / 1000000000000))) * (x * z) +
       (2 * (12189716217 / 1000000000000 * (11134016 / 1000000000000) - 917413998946 / 1000000000000 * (397777041885 / 1000000000000) + 397747363646 / 1000000000000 * (917482111428 / 1000000000000))) * (y * z)) by field end.
    apply quad_bound; rabs_num; lra.
Qed.
Lemma PositionEquinox_value v jde epoch : let p := NewPrecessor 2000 epoch in
  vec_of (PositionEquinox v jde epoch) = precession (pzeta p) (pz p) (ptheta p) (vec_of (PositionJ2000 v jde)).
Proof.
  cbv zeta. destruct (NewPrecessor_poly 2000 epoch) as (A & B & C). rewrite A, B, C. unfold PositionEquinox. destruct (PositionJ2000 v jde) as [[x y] z]. cbv zeta. rewrite !HornerR3.
  set (t := (epoch - 2000) * (1 / 100)).
  match goal with |- _ = precession ?a ?b ?c _ =>
    replace ((23062181 / 10000 + t * (30188 / 100000 + t * (17998 / 1000000))) * t * PI / 180 / 3600) with a by (unfold AngleFromSec, t; decimals; field);
    replace ((23062181 / 10000 + t * (109468 / 100000 + t * (18203 / 1000000))) * t * PI / 180 / 3600) with b by (unfold AngleFromSec, t; decimals; field);
    replace ((20043109 / 10000 + t * (- (42665 / 100000) + t * - (41833 / 1000000))) * t * PI / 180 / 3600) with c by (unfold AngleFromSec, t; decimals; field);
    generalize a b c end.
  intros a b c. unfold vec_of, precession, app, rot_z, rot_y, dot. cbn [r1 r2 r3 vx vy vz]. rewrite !cos_neg, !sin_neg. apply mkvec_eq; ring.
Qed.
Lemma XYZ_value v jde : let '(s, b, r) := TrueVSOP87 v jde in let eps := MeanObliquity jde in
  vec_of (XYZ v jde) = app (rot_x (- eps)) (mkvec (r * cos s) (r * sin s) (r * sin b)) /\
  Rabs (vx (vsub (vec_of (XYZ v jde)) (app (rot_x (- eps)) (scale r (dir s b))))) <= Rabs r * (b * b / 2) /\
  Rabs (vy (vsub (vec_of (XYZ v jde)) (app (rot_x (- eps)) (scale r (dir s b))))) <= Rabs r * (b * b / 2) /\
  Rabs (vz (vsub (vec_of (XYZ v jde)) (app (rot_x (- eps)) (scale r (dir s b))))) <= Rabs r * (b * b / 2).
Proof.
  unfold XYZ. destruct (TrueVSOP87 v jde) as [[s b] r]. cbv zeta. set (eps := MeanObliquity jde).
  assert (E : vec_of (r * cos s, r * (sin s * cos eps - sin b * sin eps), r * (sin s * sin eps + sin b * cos eps)) = app (rot_x (- eps)) (mkvec (r * cos s) (r * sin s) (r * sin b))).
  { unfold vec_of, app, rot_x, dot. cbn [r1 r2 r3 vx vy vz]. rewrite cos_neg, sin_neg. apply mkvec_eq; ring. }
  split; [exact E|]. rewrite E. unfold vsub, vadd, scale, dir, app, rot_x, dot. cbn [r1 r2 r3 vx vy vz]. rewrite cos_neg, sin_neg.
  assert (C : 0 <= 1 - cos b <= b * b / 2).
  { split; [pose proof (COS_bound b); lra|]. pose proof (sin_abs_le (b / 2)) as Sx. replace b with (2 * (b / 2)) at 1 by field. rewrite cos_2a_sin.
    assert (sin (b / 2) * sin (b / 2) <= (b / 2) * (b / 2)) by (apply Rsqr_le_abs_1 in Sx; exact Sx). lra. }
  assert (K : forall q, Rabs q <= 1 -> Rabs (r * (1 - cos b) * q) <= Rabs r * (b * b / 2)).
  { intros q Hq. rewrite !Rabs_mult, (Rabs_pos_eq (1 - cos b)) by lra. pose proof (Rabs_pos r). pose proof (Rabs_pos q).
    assert ((1 - cos b) * Rabs q <= b * b / 2) by nra. rewrite Rmult_assoc. apply Rmult_le_compat_l; assumption. }
  assert (M : forall u w, Rabs u <= 1 -> Rabs w <= 1 -> Rabs (u * w) <= 1) by (intros u w Hu Hw; rewrite Rabs_mult; pose proof (Rabs_pos u); pose proof (Rabs_pos w); nra).
  split; [|split].
  - match goal with |- Rabs ?q <= _ => replace q with (r * (1 - cos b) * cos s) by ring end. apply K, abs_cos.
  - match goal with |- Rabs ?q <= _ => replace q with (r * (1 - cos b) * (sin s * cos eps)) by ring end. apply K, M; [apply abs_sin|apply abs_cos].
  - match goal with |- Rabs ?q <= _ => replace q with (r * (1 - cos b) * (sin s * sin eps)) by ring end. apply K, M; apply abs_sin.
Qed.

(** ** From the file to the position *)
Lemma Load_position (pf : list Ascii.ascii -> option R) ibody ss1 ss2 ss3 rest lines fuel jde : (0 <= ibody < 8)%Z ->
  (forall s, In s ss1 -> well_formed pf (b7 ibody) "1"%char s) -> (forall s, In s ss2 -> well_formed pf (b7 ibody) "2"%char s) ->
  (forall s, In s ss3 -> well_formed pf (b7 ibody) "3"%char s) ->
  NoDup (map s_power ss1) -> NoDup (map s_power ss2) -> NoDup (map s_power ss3) ->
  (forall l, hd_error rest = Some l -> (length l < 132)%nat) ->
  lines = lines_of ss1 ++ lines_of ss2 ++ lines_of ss3 ++ rest -> lines <> [] -> (forall l, In l lines -> ~ In line_feed l) ->
  (length lines < fuel)%nat ->
  let tau := (jde - 2451545) / 365250 in
  exists v, LoadPlanetPath pf fuel ibody (Some (file_of lines)) = Some (LPlanet v) /\
    let '(L, B, r) := Position2000 v jde in
    0 <= L < 2 * PI /\ same_angle L (theory tau ss1) /\ B = theory tau ss2 /\ r = theory tau ss3.
Proof.
  intros Hb W1 W2 W3 N1 N2 N3 Hr E NE LF Hf tau.
  destruct (Load_file pf ibody ss1 ss2 ss3 rest lines fuel Hb W1 W2 W3 N1 N2 N3 Hr E NE LF Hf) as (v & Ev & L1 & L2 & L3 & T). exists v. split; [exact Ev|].
  assert (X : forall c : list (list (R * R * R)), length c = 6%nat -> c <> []) by (intros c Hc ->; discriminate Hc).
  pose proof (Position2000_value v jde tau eq_refl (X _ L1) (X _ L2) (X _ L3)) as P. destruct (Position2000 v jde) as [[L B] r]. destruct P as (P1 & P2 & P3 & P4).
  rewrite <- !sum_series_poly in * by auto.
  rewrite (theory_value tau ss1) in P2; [|exact L1|exact N1|intros s I; apply (W1 s I)|intros k; apply T].
  rewrite (theory_value tau ss2) in P3; [|exact L2|exact N2|intros s I; apply (W2 s I)|intros k; apply T].
  rewrite (theory_value tau ss3) in P4; [|exact L3|exact N3|intros s I; apply (W3 s I)|intros k; apply T].
  auto.
Qed.
Lemma EqTime_range jde v : - PI <= EqTime jde v < PI.
Proof. pose proof (EqTime_value v jde) as H. destruct (TrueVSOP87 v jde) as [[s b] r]. destruct (Nutation jde) as [p e]. apply H. Qed.
Lemma Radius_ellipse T : Rabs T <= 100 -> let e := solarEccentricity T in 0.01 <= e <= 0.021 /\
  Radius T * (1 + e * cos (snd (solarTrue T))) = 1.000001018 * (1 - e ^ 2) /\ 1.000001018 * (1 - e) <= Radius T <= 1.000001018 * (1 + e).
Proof.
  intros H e. pose proof (solarEccentricity_range T H) as Q. split; [exact Q|]. apply (Radius_value T). fold e in Q |- *. clearbody e. decimals_in Q. lra.
Qed.
Lemma sun_ranges T jde v :
  0 <= fst (solarTrue T) < 2 * PI /\ 0 <= snd (solarTrue T) < 2 * PI /\
  0 <= fst (TrueEquatorial jde) < 2 * PI /\ - (PI / 2) <= snd (TrueEquatorial jde) <= PI / 2 /\
  0 <= fst (ApparentEquatorial jde) < 2 * PI /\ - (PI / 2) <= snd (ApparentEquatorial jde) <= PI / 2 /\
  0 <= fst (fst (TrueVSOP87 v jde)) < 2 * PI /\ 0 <= fst (fst (ApparentEquatorialVSOP87 v jde)) < 2 * PI /\
  0 <= LongitudeJ2000 v jde < 2 * PI /\ 0 <= fst (fst (Position2000 v jde)) < 2 * PI.
Proof.
  pose proof (solarTrue_value T) as A. destruct (solarTrue T) as [s nu]. cbv zeta in A. destruct A as (A1 & A2 & _).
  destruct (TrueEquatorial_value jde) as (B1 & B2 & _). destruct (ApparentEquatorial_value jde) as (_ & C1 & C2 & _).
  pose proof (TrueVSOP87_value v jde) as D. pose proof (ApparentEquatorialVSOP87_value v jde) as E. pose proof (LongitudeJ2000_value v jde) as F.
  assert (G : 0 <= fst (fst (Position2000 v jde)) < 2 * PI) by (unfold Position2000; cbv zeta; cbn [fst]; apply PMod_bound, two_PI_pos).
  destruct (PlanetPosition v jde) as [[l b] r]. destruct (TrueVSOP87 v jde) as [[s' b'] r']. cbv zeta in D. destruct D as (_ & D & _).
  destruct (Nutation jde) as [p e]. destruct (ApparentEquatorialVSOP87 v jde) as [[ra dec] r'']. destruct E as (_ & E & _).
  destruct (Position2000 v jde) as [[L B] r0]. destruct F as [F _]. cbn [fst snd] in *. repeat split; tauto.
Qed.
Lemma example_1987 : Rabs ((2446895.5 - 2451545) / 36525) <= 1 / 2.
Proof. decimals. apply Rabs_le. lra. Qed.
Definition one_number (_ : list ascii) : option R := Some 1.
Definition ex_sR : @series R := mkseries 0 ex_h1 [ex_d] [(1, 1, 1)].
Lemma ex_sR_wf : well_formed one_number (b7 2) "1"%char ex_sR /\ forall jde, theory ((jde - 2451545) / 365250) [ex_sR] = cos (1 + (jde - 2451545) / 365250).
Proof.
  split.
  - destruct (proj1 ex_wf) as (H1 & H2 & H3 & H4 & H5 & H6 & H7). split; [exact H1|]. split; [exact H2|]. split; [cbn; lia|]. split; [exact H4|]. split; [cbn; lia|]. split; [exact H6|].
    constructor; [|constructor]. destruct ex_data as (D1 & (ta & A1 & A2 & _) & _ & (tc & C1 & C2 & _)).
    split; [exact D1|]. split; [exists ta; split; [exact A1|split; [exact A2|reflexivity]]|]. split; [reflexivity|]. exists tc. split; [exact C1|split; [exact C2|reflexivity]].
  - intros jde. unfold theory, periodic, sumR. cbn [map fold_right s_power s_terms ex_sR pow]. rewrite !Rmult_1_l, !Rplus_0_r. reflexivity.
Qed.
