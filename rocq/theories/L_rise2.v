(** How much error one correction of rise.Times leaves. *)
From Coq Require Import ZArith Reals List Lra Lia Psatz Bool.
From Verif Require Import GoFloat GoMath M_coord M_rise S_Sphere S_rise S_moon L_trig L_rise.
From Verif Require L_fk5 L_kepler L_minsep L_nearpar.
Import ListNotations.
Local Open Scope R_scope.

Lemma sidRate_val : sidRate = 1 + 985647 / 360000000.
Proof. unfold sidRate. lra. Qed.

(** ** Transit *)
Lemma transit_error p DT Th0 fa t : let t' := adjustTransit p DT Th0 fa t in
  near_turns (hour_angle sidRate Th0 (Lon p) (fa (t' + DT)) t')
    ((sidRate - 1) * (PI / 43200) * Rabs (t' - t) + Rabs (fa (t' + DT) - fa (t + DT))).
Proof.
  intros t'. destruct (adjustTransit_HA p DT Th0 fa t) as [k E]. fold t' in E. exists (- k)%Z. rewrite opp_IZR.
  assert (X : hour_angle sidRate Th0 (Lon p) (fa (t' + DT)) t' - - IZR k * (2 * PI) =
    (sidRate - 1) * (PI / 43200) * (t' - t) - (fa (t' + DT) - fa (t + DT))).
  { unfold hour_angle in *. lra. }
  rewrite X. eapply Rle_trans; [apply Rabs_triang|]. rewrite Rabs_Ropp. apply Rplus_le_compat_r.
  pose proof PI_RGT_0 as HP. rewrite !Rabs_mult, (Rabs_right (sidRate - 1)), (Rabs_right (PI / 43200)); [lra|lra|rewrite sidRate_val; lra].
Qed.

(** ** Rising and setting *)
Lemma dec_lip phi H d d' : Rabs (sin_alt phi d' H - sin_alt phi d H) <= Rabs (d' - d).
Proof.
  rewrite <- (Rmult_1_l (Rabs (d' - d))).
  apply (L_nearpar.mvt_abs (fun d => sin_alt phi d H) (fun d => sin phi * cos d + cos phi * cos H * (- sin d))).
  - intros c _. apply (derivable_pt_lim_ext (fun d => sin phi * sin d + cos phi * cos H * cos d)); [intros; rewrite sin_alt_eq; ring|].
    apply (derivable_pt_lim_plus (fun d => sin phi * sin d) (fun d => cos phi * cos H * cos d)).
    + apply (derivable_pt_lim_scal sin). apply derivable_pt_lim_sin.
    + apply (derivable_pt_lim_scal cos). apply derivable_pt_lim_cos.
  - intros c _. pose proof (sc1 phi) as S1. pose proof (sc1 c) as S2. pose proof (COS_bound H) as CB.
    set (a := sin phi) in *. set (b := cos phi) in *. set (x := cos c) in *. set (y := sin c) in *. set (z := cos H) in *. clearbody a b x y z.
    assert (ZZ : z * z <= 1) by nra.
    assert (Q : (a * x + b * z * (- y)) * (a * x + b * z * (- y)) <= 1).
    { assert (C : (a * x + b * z * (- y)) * (a * x + b * z * (- y)) + (a * y + b * z * x) * (a * y + b * z * x) = (a * a + b * b * (z * z)) * (x * x + y * y)) by ring.
      replace (x * x + y * y) with 1 in C by lra.
      assert (0 <= (a * y + b * z * x) * (a * y + b * z * x)) by apply Rle_0_sqr. assert (0 <= b * b) by apply Rle_0_sqr.
      assert (b * b * (z * z) <= b * b) by nra. lra. }
    apply Rabs_le. split; nra.
Qed.

Lemma ha_lip phi d H H' : Rabs (sin_alt phi d H' - sin_alt phi d H) <= Rabs (H' - H).
Proof.
  rewrite !sin_alt_eq. replace (sin phi * sin d + cos phi * cos d * cos H' - (sin phi * sin d + cos phi * cos d * cos H)) with
    (cos phi * cos d * (cos H' - cos H)) by ring.
  rewrite Rabs_mult. pose proof (L_kepler.cos_lip H' H) as C. pose proof (Rabs_pos (cos H' - cos H)).
  assert (B : Rabs (cos phi * cos d) <= 1).
  { rewrite Rabs_mult. pose proof (COS_bound phi). pose proof (COS_bound d).
    assert (Rabs (cos phi) <= 1) by (apply Rabs_le; lra). assert (Rabs (cos d) <= 1) by (apply Rabs_le; lra).
    pose proof (Rabs_pos (cos phi)). pose proof (Rabs_pos (cos d)). nra. }
  pose proof (Rabs_pos (cos phi * cos d)). nra.
Qed.

Lemma sin_close h h0 : Rabs (sin h - sin h0 - (h - h0)) <= (h * h + h0 * h0) / 2 * Rabs (h - h0).
Proof.
  assert (X : Rabs ((fun x => sin x - x) h - (fun x => sin x - x) h0) <= (h * h + h0 * h0) / 2 * Rabs (h - h0)).
  { apply (L_nearpar.mvt_abs (fun x => sin x - x) (fun x => cos x - 1)).
    - intros c _. apply (derivable_pt_lim_minus sin (fun x => x)); [apply derivable_pt_lim_sin|apply derivable_pt_lim_id].
    - intros c Hc. pose proof (L_minsep.versin_le c) as V. rewrite Rabs_minus_sym, Rabs_right by lra.
      assert (c * c <= h * h + h0 * h0).
      { revert Hc. unfold Rmin, Rmax. destruct (Rle_dec h0 h); intros; destruct (Rle_dec 0 c); nra. }
      lra. }
  cbv beta in X. replace (sin h - sin h0 - (h - h0)) with (sin h - h - (sin h0 - h0)) by ring. exact X.
Qed.

Lemma riseset_error p DT h0 Th0 m fa fd : let d := fd (m + DT) in let H := hour_angle sidRate Th0 (Lon p) (fa (m + DT)) m in
  cos d * cos (Lat p) * sin H <> 0 ->
  let h := asin (sin_alt (Lat p) d H) in
  let m' := adjustRS p DT h0 Th0 fa fd m in
  let step := (m' - m) * (PI / 43200) in
  let d' := fd (m' + DT) in let H' := hour_angle sidRate Th0 (Lon p) (fa (m' + DT)) m' in
  Rabs (sin_alt (Lat p) d' H' - sin h0) <=
    step * step / 2 + (h * h + h0 * h0) / 2 * Rabs (h - h0) + (sidRate - 1) * Rabs step +
    Rabs (fa (m' + DT) - fa (m + DT)) + Rabs (d' - d).
Proof.
  intros d H Hden h m' step d' H'. pose proof PI_RGT_0 as HP.
  pose proof (adjustRS_form p DT h0 Th0 m fa fd) as F. fold d in F. fold H in F. fold m' in F. fold h in F.
  set (c := cos d * cos (Lat p)) in *.
  assert (SH : c * sin H * step = h - h0).
  { unfold step. rewrite F. assert (NS : sin H <> 0) by (intros Z; apply Hden; rewrite Z; ring).
    assert (NC : c <> 0) by (intros Z; apply Hden; rewrite Z; ring). clearbody c. field. repeat split; try assumption; lra. }
  assert (SB : -1 <= sin_alt (Lat p) d H <= 1).
  { pose proof (L_trig.sc1 d) as S1. pose proof (L_trig.sc1 (Lat p)) as S2. rewrite sin_alt_eq. pose proof (COS_bound H).
    set (a := sin (Lat p)) in *. set (b := cos (Lat p)) in *. set (x := cos d) in *. set (y := sin d) in *. set (z := cos H) in *.
    assert (Q : (a * y + b * x * z) * (a * y + b * x * z) <= 1).
    { assert (C : (a * y + b * z * x) * (a * y + b * z * x) + (a * x - b * z * y) * (a * x - b * z * y) = (a * a + b * b * (z * z)) * (x * x + y * y)) by ring.
      replace (x * x + y * y) with 1 in C by lra. assert (0 <= (a * x - b * z * y) * (a * x - b * z * y)) by apply Rle_0_sqr.
      assert (0 <= b * b) by apply Rle_0_sqr. assert (z * z <= 1) by nra. assert (b * b * (z * z) <= b * b) by nra.
      replace (a * y + b * x * z) with (a * y + b * z * x) by ring. lra. }
    split; nra. }
  assert (SI : sin h = sin_alt (Lat p) d H) by (unfold h; apply sin_asin; exact SB).
  assert (HH : H' - (H + step) = (sidRate - 1) * step - (fa (m' + DT) - fa (m + DT))).
  { unfold H', H, step, hour_angle. field. }
  assert (T1 : Rabs (sin_alt (Lat p) d' H' - sin_alt (Lat p) d H') <= Rabs (d' - d)) by apply dec_lip.
  assert (T2 : Rabs (sin_alt (Lat p) d H' - sin_alt (Lat p) d (H + step)) <= (sidRate - 1) * Rabs step + Rabs (fa (m' + DT) - fa (m + DT))).
  { eapply Rle_trans; [apply ha_lip|]. rewrite HH. eapply Rle_trans; [apply Rabs_triang|]. rewrite Rabs_Ropp. apply Rplus_le_compat_r.
    rewrite Rabs_mult, (Rabs_right (sidRate - 1)); [lra|rewrite sidRate_val; lra]. }
  assert (T3 : Rabs (sin_alt (Lat p) d (H + step) - sin h0) <= step * step / 2 + (h * h + h0 * h0) / 2 * Rabs (h - h0)).
  { assert (E : sin_alt (Lat p) d (H + step) - sin h0 = c * (cos (H + step) - cos H + step * sin H) + (sin h - sin h0 - (h - h0))).
    { rewrite SI, <- SH, !sin_alt_eq. unfold c. ring. }
    rewrite E. eapply Rle_trans; [apply Rabs_triang|]. apply Rplus_le_compat; [|apply sin_close].
    rewrite Rabs_mult. pose proof (L_fk5.cos_tangent H step) as CT. pose proof (Rabs_pos (cos (H + step) - cos H + step * sin H)).
    assert (B : Rabs c <= 1).
    { unfold c. rewrite Rabs_mult. pose proof (COS_bound (Lat p)). pose proof (COS_bound d).
      assert (Rabs (cos (Lat p)) <= 1) by (apply Rabs_le; lra). assert (Rabs (cos d) <= 1) by (apply Rabs_le; lra).
      pose proof (Rabs_pos (cos (Lat p))). pose proof (Rabs_pos (cos d)). nra. }
    pose proof (Rabs_pos c). nra. }
  replace (sin_alt (Lat p) d' H' - sin h0) with ((sin_alt (Lat p) d' H' - sin_alt (Lat p) d H') + (sin_alt (Lat p) d H' - sin_alt (Lat p) d (H + step)) + (sin_alt (Lat p) d (H + step) - sin h0)) by ring.
  eapply Rle_trans; [apply Rabs_triang|]. eapply Rle_trans; [apply Rplus_le_compat_r, Rabs_triang|]. lra.
Qed.

(** ** Tables of a slowly moving body *)
Lemma table3_lip y0 y1 y2 A n x y : Rabs (y1 - y0) <= A -> Rabs (y2 - y1) <= A -> 1 <= n -> Rabs (x + y) <= n * 86400 ->
  Rabs (table3 y0 y1 y2 x - table3 y0 y1 y2 y) <= n * A / 86400 * Rabs (x - y).
Proof.
  intros H0 H1 Hn H. set (u := (x + y) / 86400).
  assert (U : - n <= u <= n) by (assert (- (n * 86400) <= x + y <= n * 86400) by (revert H; unfold Rabs; destruct Rcase_abs; lra); unfold u; lra).
  replace (table3 y0 y1 y2 x - table3 y0 y1 y2 y) with ((x - y) / 86400 * (((1 + u) * (y2 - y1) + (1 - u) * (y1 - y0)) / 2)) by (unfold table3, u; field).
  unfold Rdiv at 1. rewrite !Rabs_mult, (Rabs_right (/ 86400)) by lra.
  assert (P0 : - A <= y1 - y0 <= A) by (revert H0; unfold Rabs; destruct Rcase_abs; lra).
  assert (P1 : - A <= y2 - y1 <= A) by (revert H1; unfold Rabs; destruct Rcase_abs; lra).
  assert (B : Rabs (((1 + u) * (y2 - y1) + (1 - u) * (y1 - y0)) / 2) <= n * A).
  { set (p := y2 - y1) in *. set (q := y1 - y0) in *. clearbody p q u. clear - P0 P1 U Hn. assert (0 <= A) by lra. apply Rabs_le.
    assert (A <= n * A) by nra. assert (u * A <= n * A) by nra. assert (- u * A <= n * A) by nra.
    destruct (Rle_dec 0 (1 + u)), (Rle_dec 0 (1 - u)); try lra.
    - assert (- ((1 + u) * A) <= (1 + u) * p <= (1 + u) * A) by (split; nra). assert (- ((1 - u) * A) <= (1 - u) * q <= (1 - u) * A) by (split; nra). lra.
    - assert (- ((1 + u) * A) <= (1 + u) * p <= (1 + u) * A) by (split; nra). assert (((1 - u) * A) <= (1 - u) * q <= - ((1 - u) * A)) by (split; nra). lra.
    - assert (((1 + u) * A) <= (1 + u) * p <= - ((1 + u) * A)) by (split; nra). assert (- ((1 - u) * A) <= (1 - u) * q <= (1 - u) * A) by (split; nra). lra. }
  pose proof (Rabs_pos (x - y)). set (k := Rabs (x - y)) in *. clearbody k.
  apply Rle_trans with (k * / 86400 * (n * A)); [apply Rmult_le_compat_l; [nra|exact B]|lra].
Qed.

Lemma table3_0 y0 y1 y2 : table3 y0 y1 y2 0 = y1.
Proof. unfold table3. field. Qed.

Lemma table3_mid y0 y1 y2 A DT m : Rabs (y1 - y0) <= A -> Rabs (y2 - y1) <= A -> Rabs DT <= 3600 -> 0 <= m < 86400 ->
  Rabs (table3 y0 y1 y2 (m + DT) - y1) <= 21 / 10 * A.
Proof.
  intros H0 H1 HD Hm. assert (DD : -3600 <= DT <= 3600) by (revert HD; unfold Rabs; destruct Rcase_abs; lra).
  pose proof (table3_lip y0 y1 y2 A 2 (m + DT) 0 H0 H1 ltac:(lra)) as L. rewrite table3_0, Rplus_0_r, Rminus_0_r in L.
  assert (X : Rabs (m + DT) <= 90000) by (apply Rabs_le; lra). specialize (L ltac:(lra)).
  pose proof (Rabs_pos (y1 - y0)). assert (0 <= A) by lra. pose proof (Rabs_pos (m + DT)). set (k := Rabs (m + DT)) in *. clearbody k.
  eapply Rle_trans; [exact L|]. clear - X H2 H3. nra.
Qed.

(** The hour angle at the approximate time, with the moving body and the faster clock. *)
Lemma ha_shift Th0 lon a a1 m B : 0 <= m < 86400 -> Rabs (a - a1) <= B ->
  Rabs (hour_angle sidRate Th0 lon a m - hour_angle 1 Th0 lon a1 m) <= 173 / 10000 + B.
Proof.
  intros Hm HB. rewrite sidRate_val.
  replace (hour_angle (1 + 985647 / 360000000) Th0 lon a m - hour_angle 1 Th0 lon a1 m) with (985647 / 360000000 * (m / 86400 * (2 * PI)) - (a - a1)) by (unfold hour_angle; field).
  pose proof PI_bounds as PB.
  assert (M : 0 <= m / 86400 * (2 * PI) <= 2 * (315 / 100)) by (split; nra).
  eapply Rle_trans; [apply Rabs_triang|]. rewrite Rabs_Ropp. apply Rplus_le_compat; [|exact HB]. rewrite Rabs_right; lra.
Qed.

Lemma small_turns x e k : x = e + IZR k * (2 * PI) -> Rabs x <= 3 -> Rabs e <= 3 -> x = e.
Proof.
  intros E Hx He. pose proof PI_bounds as PB.
  assert (-3 <= x <= 3) by (revert Hx; unfold Rabs; destruct Rcase_abs; lra). assert (-3 <= e <= 3) by (revert He; unfold Rabs; destruct Rcase_abs; lra).
  assert (k = 0)%Z; [|subst k; lra].
  assert (-1 < k)%Z by (apply lt_IZR; nra). assert (k < 1)%Z by (apply lt_IZR; nra). lia.
Qed.

(** The size of the correction of the transit, and what is left after it. *)
Lemma Times_transit p DT h0 Th0 a0 a1 a2 d0 d1 d2 A tr tm ts r0 t0 s0 :
  - (PI / 2) < Lat p < PI / 2 -> - (PI / 2) < d1 < PI / 2 ->
  Rabs (a1 - a0) <= A -> Rabs (a2 - a1) <= A -> A <= 1 -> Rabs DT <= 3600 ->
  ApproxTimes p h0 Th0 a1 d1 = Some (r0, t0, s0) ->
  Times p DT h0 Th0 [a0; a1; a2] [d0; d1; d2] = Ret (tr, tm, ts) ->
  Rabs (tm - t0) <= 40000 ->
  let B := 173 / 10000 + 21 / 10 * A in
  Rabs (tm - t0) * (PI / 43200) <= B /\
  near_turns (hour_angle sidRate Th0 (Lon p) (table3 a0 a1 a2 (tm + DT)) tm) ((275 / 100000 + A / 2) * B).
Proof.
  intros HL HD1 H0 H1 HA HDT EA ET Hs B. destruct (ApproxTimes_times p h0 Th0 a1 d1 r0 t0 s0 HL HD1 EA) as (_ & Ht & _ & [k0 K0] & _).
  rewrite Times_three, EA in ET. injection ET as _ ET _. set (fa := table3 a0 a1 a2) in *.
  pose proof (table3_mid a0 a1 a2 A DT t0 H0 H1 HDT Ht) as TM. fold fa in TM.
  pose proof (ha_shift Th0 (Lon p) (fa (t0 + DT)) a1 t0 _ Ht TM) as HS. fold B in HS. rewrite K0 in HS.
  destruct (adjustTransit_HA p DT Th0 fa t0) as [k K]. rewrite ET in K. pose proof PI_bounds as PB.
  pose proof (Rabs_pos (a1 - a0)). assert (A0 : 0 <= A) by lra.
  assert (S1 : Rabs ((t0 - tm) * (PI / 43200)) = Rabs (tm - t0) * (PI / 43200)) by (rewrite Rabs_mult, (Rabs_minus_sym t0 tm), (Rabs_right (PI / 43200)) by lra; reflexivity).
  assert (S2 : Rabs (tm - t0) * (PI / 43200) <= B).
  { rewrite <- S1. pose proof (Rabs_pos (tm - t0)).
    rewrite (small_turns ((t0 - tm) * (PI / 43200)) (hour_angle sidRate Th0 (Lon p) (fa (t0 + DT)) t0 - IZR k0 * (2 * PI)) (k0 + k)); [exact HS| | |unfold B in HS; lra].
    - rewrite K, plus_IZR. ring.
    - rewrite S1. set (q := Rabs (tm - t0)) in *. clearbody q. clear - Hs H2 PB. nra. }
  split; [exact S2|].
  pose proof (transit_error p DT Th0 fa t0) as TE. cbv zeta in TE. rewrite ET in TE. destruct TE as [kk TE]. exists kk.
  eapply Rle_trans; [exact TE|]. clear TE.
  assert (TL : Rabs (fa (tm + DT) - fa (t0 + DT)) <= 3 * A / 86400 * Rabs ((tm + DT) - (t0 + DT))).
  { apply table3_lip; try assumption; [lra|]. assert (-3600 <= DT <= 3600) by (revert HDT; unfold Rabs; destruct Rcase_abs; lra).
    assert (-40000 <= tm - t0 <= 40000) by (revert Hs; unfold Rabs; destruct Rcase_abs; lra). apply Rabs_le. lra. }
  replace (tm + DT - (t0 + DT)) with (tm - t0) in TL by ring. rewrite sidRate_val.
  set (q := Rabs (tm - t0)) in *. assert (Q : 0 <= q) by apply Rabs_pos. clearbody q.
  assert (3 * A / 86400 * q <= A / 2 * B).
  { apply Rle_trans with (A / 2 * (q * (PI / 43200))); [|apply Rmult_le_compat_l; lra].
    replace (3 * A / 86400 * q) with (A / 2 * (q * (3 / 43200))) by field. apply Rmult_le_compat_l; [lra|]. apply Rmult_le_compat_l; lra. }
  assert ((1 + 985647 / 360000000 - 1) * (PI / 43200) * q <= 275 / 100000 * B).
  { replace ((1 + 985647 / 360000000 - 1) * (PI / 43200) * q) with (985647 / 360000000 * (q * (PI / 43200))) by field.
    apply Rmult_le_compat; [lra| |lra|exact S2]. apply Rmult_le_pos; [exact Q|lra]. }
  lra.
Qed.

Lemma asin_small x : Rabs x <= 15 / 100 -> Rabs (asin x) <= 26 / 100.
Proof.
  intros Hx. assert (-15 / 100 <= x <= 15 / 100) by (revert Hx; unfold Rabs; destruct Rcase_abs; lra).
  pose proof PI_bounds as PB. destruct (asin_bound x) as [B1 B2]. pose proof (sin_asin x ltac:(lra)) as S. set (h := asin x) in *. clearbody h.
  apply Rabs_le. split.
  - destruct (Rle_dec (-26 / 100) h); [lra|exfalso]. pose proof (L_kepler.sin_cubic_pos (- h) ltac:(lra)) as C. rewrite sin_neg in C.
    set (u := - h) in *. assert (26 / 100 < u <= 158 / 100) by (unfold u; lra). clearbody u. assert (u - u * u * u / 6 <= 15 / 100) by lra.
    assert (u * u <= 25 / 10) by nra. nra.
  - destruct (Rle_dec h (26 / 100)); [lra|exfalso]. pose proof (L_kepler.sin_cubic_pos h ltac:(lra)) as C.
    assert (h * h <= 25 / 10) by nra. nra.
Qed.

(** One correction of a time of rising or setting. *)
Lemma riseset_step p DT h0 Th0 a0 a1 a2 d0 d1 d2 A D m : let fa := table3 a0 a1 a2 in let fd := table3 d0 d1 d2 in
  Rabs (a1 - a0) <= A -> Rabs (a2 - a1) <= A -> Rabs (d1 - d0) <= D -> Rabs (d2 - d1) <= D -> Rabs DT <= 3600 ->
  0 <= m < 86400 -> sin_alt (Lat p) d1 (hour_angle 1 Th0 (Lon p) a1 m) = sin h0 ->
  Rabs h0 <= 5 / 100 -> let B := 173 / 10000 + 21 / 10 * (A + D) in
  let g := Rabs (cos (fd (m + DT)) * cos (Lat p) * sin (hour_angle sidRate Th0 (Lon p) (fa (m + DT)) m)) in
  B <= 1 / 10 -> B <= 9 / 10 * g ->
  let m' := adjustRS p DT h0 Th0 fa fd m in
  Rabs (m' - m) * (PI / 43200) <= 104 / 100 * (B / g) /\
  Rabs (sin_alt (Lat p) (fd (m' + DT)) (hour_angle sidRate Th0 (Lon p) (fa (m' + DT)) m') - sin h0) <=
    55 / 100 * (B / g) * (B / g) + 4 / 100 * B + 104 / 100 * (275 / 100000 + (A + D) / 2) * (B / g).
Proof.
  intros fa fd Ha1 Ha2 Hd1 Hd2 HDT Hm EA Hh B g HB Hg m'. pose proof PI_bounds as PB.
  pose proof (Rabs_pos (a1 - a0)) as PA. pose proof (Rabs_pos (d1 - d0)) as PD. assert (A0 : 0 <= A) by lra. assert (D0 : 0 <= D) by lra.
  assert (B0 : 173 / 10000 <= B) by (unfold B; lra). assert (G0 : 0 < g) by lra.
  set (d := fd (m + DT)) in *. set (H := hour_angle sidRate Th0 (Lon p) (fa (m + DT)) m) in *.
  assert (Hden : cos d * cos (Lat p) * sin H <> 0) by (intros Z; unfold g in G0; rewrite Z, Rabs_R0 in G0; lra).
  pose proof (riseset_error p DT h0 Th0 m fa fd Hden) as RE. cbv zeta in RE. fold d in RE. fold H in RE. fold m' in RE.
  pose proof (adjustRS_form p DT h0 Th0 m fa fd) as F. fold d in F. fold H in F. fold m' in F.
  set (h := asin (sin_alt (Lat p) d H)) in *.
  assert (SA : Rabs (sin_alt (Lat p) d H - sin h0) <= B).
  { rewrite <- EA. set (H1 := hour_angle 1 Th0 (Lon p) a1 m).
    replace (sin_alt (Lat p) d H - sin_alt (Lat p) d1 H1) with ((sin_alt (Lat p) d H - sin_alt (Lat p) d H1) + (sin_alt (Lat p) d H1 - sin_alt (Lat p) d1 H1)) by ring.
    eapply Rle_trans; [apply Rabs_triang|]. pose proof (ha_lip (Lat p) d H1 H) as L1. pose proof (dec_lip (Lat p) H1 d1 d) as L2.
    pose proof (ha_shift Th0 (Lon p) (fa (m + DT)) a1 m _ Hm (table3_mid a0 a1 a2 A DT m Ha1 Ha2 HDT Hm)) as L3. fold H in L3. fold H1 in L3.
    pose proof (table3_mid d0 d1 d2 D DT m Hd1 Hd2 HDT Hm) as L4. fold fd in L4. fold d in L4. unfold B. lra. }
  assert (HH : -5 / 100 <= h0 <= 5 / 100) by (revert Hh; unfold Rabs; destruct Rcase_abs; lra).
  assert (SX : Rabs (sin_alt (Lat p) d H) <= 15 / 100).
  { pose proof (L_kepler.sin_lip h0 0) as SL. rewrite sin_0, !Rminus_0_r in SL.
    replace (sin_alt (Lat p) d H) with ((sin_alt (Lat p) d H - sin h0) + sin h0) by ring. eapply Rle_trans; [apply Rabs_triang|]. lra. }
  assert (HHH : Rabs h <= 26 / 100) by (apply asin_small; exact SX).
  assert (SI : sin h = sin_alt (Lat p) d H).
  { unfold h. apply sin_asin. revert SX. unfold Rabs; destruct Rcase_abs; lra. }
  rewrite <- SI in SA.
  assert (Hb : -26 / 100 <= h <= 26 / 100) by (revert HHH; unfold Rabs; destruct Rcase_abs; lra).
  set (q := (h * h + h0 * h0) / 2) in *. assert (Q : 0 <= q <= 36 / 1000) by (unfold q; split; nra).
  pose proof (sin_close h h0) as SC. fold q in SC.
  assert (HQ : Rabs (h - h0) <= 1038 / 1000 * B).
  { set (e := Rabs (h - h0)) in *. assert (0 <= e) by apply Rabs_pos.
    assert (e <= Rabs (sin h - sin h0) + q * e).
    { unfold e at 1. replace (h - h0) with ((sin h - sin h0) + - (sin h - sin h0 - (h - h0))) at 1 by ring.
      eapply Rle_trans; [apply Rabs_triang|]. rewrite Rabs_Ropp. lra. }
    clearbody e q. nra. }
  set (step := (m' - m) * (PI / 43200)) in *.
  assert (ST : Rabs step = Rabs (h - h0) / g).
  { assert (E : h - h0 = step * (cos d * cos (Lat p) * sin H)).
    { unfold step. rewrite F. set (w := cos d * cos (Lat p) * sin H) in *. clearbody w. field. split; [lra|exact Hden]. }
    rewrite E, Rabs_mult. fold g. field. lra. }
  assert (BG : B / g <= 9 / 10) by (apply Rmult_le_reg_r with g; [exact G0|]; unfold Rdiv; rewrite Rmult_assoc, Rinv_l by lra; lra).
  assert (BG0 : 0 < B / g) by (apply Rdiv_lt_0_compat; lra).
  assert (SS : Rabs step <= 1038 / 1000 * (B / g)).
  { rewrite ST. unfold Rdiv at 1 3. rewrite <- Rmult_assoc. apply Rmult_le_compat_r; [left; apply Rinv_0_lt_compat; exact G0|exact HQ]. }
  assert (S1 : Rabs step = Rabs (m' - m) * (PI / 43200)) by (unfold step; rewrite Rabs_mult, (Rabs_right (PI / 43200)) by lra; reflexivity).
  rewrite <- S1. split; [lra|]. eapply Rle_trans; [exact RE|].
  assert (MM : Rabs (m' - m) <= 14000).
  { assert (HZ : Rabs step <= 1) by lra. rewrite S1 in HZ. set (z := Rabs (m' - m)) in *. clearbody z. clear - PB HZ. nra. }
  assert (SM : Rabs (m' + DT + (m + DT)) <= 3 * 86400).
  { assert (-3600 <= DT <= 3600) by (revert HDT; unfold Rabs; destruct Rcase_abs; lra).
    assert (-14000 <= m' - m <= 14000) by (revert MM; unfold Rabs; destruct Rcase_abs; lra). apply Rabs_le. lra. }
  pose proof (table3_lip a0 a1 a2 A 3 (m' + DT) (m + DT) Ha1 Ha2 ltac:(lra) SM) as TA. fold fa in TA.
  pose proof (table3_lip d0 d1 d2 D 3 (m' + DT) (m + DT) Hd1 Hd2 ltac:(lra) SM) as TD. fold fd in TD. fold d in TD.
  replace (m' + DT - (m + DT)) with (m' - m) in TA, TD by ring.
  assert (HALF : 3 / 86400 * Rabs (m' - m) <= Rabs step / 2).
  { rewrite S1. set (z := Rabs (m' - m)) in *. assert (HZ : 0 <= z) by apply Rabs_pos. clearbody z. clear - PB HZ. nra. }
  assert (TA' : 3 * A / 86400 * Rabs (m' - m) <= A * (Rabs step / 2)) by (replace (3 * A / 86400 * Rabs (m' - m)) with (A * (3 / 86400 * Rabs (m' - m))) by field; apply Rmult_le_compat_l; lra).
  assert (TD' : 3 * D / 86400 * Rabs (m' - m) <= D * (Rabs step / 2)) by (replace (3 * D / 86400 * Rabs (m' - m)) with (D * (3 / 86400 * Rabs (m' - m))) by field; apply Rmult_le_compat_l; lra).
  assert (SQ : step * step = Rabs step * Rabs step) by (unfold Rabs; destruct Rcase_abs; ring). rewrite SQ.
  set (r := B / g) in *. set (z := Rabs step) in *. assert (Z0 : 0 <= z) by apply Rabs_pos. rewrite sidRate_val.
  assert (z * z / 2 <= 55 / 100 * r * r) by (clearbody z r; clear - SS Z0 BG0; nra).
  assert (q * Rabs (h - h0) <= 4 / 100 * B).
  { pose proof (Rabs_pos (h - h0)) as PE. set (e := Rabs (h - h0)) in *. clearbody e q B. clear - Q HQ PE B0. nra. }
  assert ((1 + 985647 / 360000000 - 1) * z + A * (z / 2) + D * (z / 2) <= 104 / 100 * (275 / 100000 + (A + D) / 2) * r).
  { clearbody z r. clear - SS Z0 BG0 A0 D0. replace ((1 + 985647 / 360000000 - 1) * z + A * (z / 2) + D * (z / 2)) with ((985647 / 360000000 + (A + D) / 2) * z) by field.
    apply Rle_trans with ((275 / 100000 + (A + D) / 2) * (104 / 100 * r)); [|right; ring]. apply Rmult_le_compat; lra. }
  lra.
Qed.

(** Without the hypothesis on the correction: right up to whole days. *)
Lemma Times_transit_days p DT h0 Th0 a0 a1 a2 d0 d1 d2 A tr tm ts r0 t0 s0 :
  - (PI / 2) < Lat p < PI / 2 -> - (PI / 2) < d1 < PI / 2 ->
  Rabs (a1 - a0) <= A -> Rabs (a2 - a1) <= A -> Rabs DT <= 3600 ->
  ApproxTimes p h0 Th0 a1 d1 = Some (r0, t0, s0) ->
  Times p DT h0 Th0 [a0; a1; a2] [d0; d1; d2] = Ret (tr, tm, ts) ->
  near_time ((173 / 10000 + 21 / 10 * A) * (43200 / PI)) tm t0.
Proof.
  intros HL HD1 H0 H1 HDT EA ET. destruct (ApproxTimes_times p h0 Th0 a1 d1 r0 t0 s0 HL HD1 EA) as (_ & Ht & _ & [k0 K0] & _).
  rewrite Times_three, EA in ET. injection ET as _ ET _. set (fa := table3 a0 a1 a2) in *.
  pose proof (table3_mid a0 a1 a2 A DT t0 H0 H1 HDT Ht) as TM. fold fa in TM.
  pose proof (ha_shift Th0 (Lon p) (fa (t0 + DT)) a1 t0 _ Ht TM) as HS. rewrite K0 in HS.
  destruct (adjustTransit_HA p DT Th0 fa t0) as [k K]. rewrite ET in K. pose proof PI_bounds as PB.
  exists (- (k0 + k))%Z. rewrite opp_IZR, plus_IZR.
  set (e := hour_angle sidRate Th0 (Lon p) (fa (t0 + DT)) t0 - IZR k0 * (2 * PI)) in *.
  assert (E : tm - (t0 + - (IZR k0 + IZR k) * 86400) = - e * (43200 / PI)).
  { assert (X : (t0 - tm) * (PI / 43200) = e + (IZR k0 + IZR k) * (2 * PI)) by (rewrite K; unfold e; ring).
    assert (Y : e = (t0 - tm) * (PI / 43200) - (IZR k0 + IZR k) * (2 * PI)) by lra. rewrite Y. field. lra. }
  assert (0 < 43200 / PI) by (apply Rdiv_lt_0_compat; lra).
  rewrite E, Rabs_mult, Rabs_Ropp, (Rabs_right (43200 / PI)) by lra. apply Rmult_le_compat_r; lra.
Qed.

Lemma Times_riseset p DT h0 Th0 a0 a1 a2 d0 d1 d2 A D tr tm ts r0 t0 s0 :
  - (PI / 2) < Lat p < PI / 2 -> - (PI / 2) < d1 < PI / 2 ->
  Rabs (a1 - a0) <= A -> Rabs (a2 - a1) <= A -> Rabs (d1 - d0) <= D -> Rabs (d2 - d1) <= D -> Rabs DT <= 3600 -> Rabs h0 <= 5 / 100 ->
  ApproxTimes p h0 Th0 a1 d1 = Some (r0, t0, s0) ->
  Times p DT h0 Th0 [a0; a1; a2] [d0; d1; d2] = Ret (tr, tm, ts) ->
  forall m m', m = r0 /\ m' = tr \/ m = s0 /\ m' = ts ->
  let HA t := hour_angle sidRate Th0 (Lon p) (table3 a0 a1 a2 (t + DT)) t in
  let dec t := table3 d0 d1 d2 (t + DT) in
  let B := 173 / 10000 + 21 / 10 * (A + D) in
  let g := Rabs (cos (dec m) * cos (Lat p) * sin (HA m)) in
  B <= 1 / 10 -> B <= 9 / 10 * g ->
  Rabs (m' - m) * (PI / 43200) <= 104 / 100 * (B / g) /\
  Rabs (sin_alt (Lat p) (dec m') (HA m') - sin h0) <= 55 / 100 * (B / g) * (B / g) + 4 / 100 * B + 104 / 100 * (275 / 100000 + (A + D) / 2) * (B / g).
Proof.
  intros HL HD1 Ha1 Ha2 Hd1 Hd2 HDT Hh EA ET m m' Hm HA dec B g HB Hg.
  destruct (ApproxTimes_times p h0 Th0 a1 d1 r0 t0 s0 HL HD1 EA) as (Rr & _ & Rs & _ & Er & _ & Es & _).
  rewrite Times_three, EA in ET. injection ET as ER _ ES.
  destruct Hm as [[-> ->]|[-> ->]].
  - rewrite <- ER. exact (riseset_step p DT h0 Th0 a0 a1 a2 d0 d1 d2 A D r0 Ha1 Ha2 Hd1 Hd2 HDT Rr Er Hh HB Hg).
  - rewrite <- ES. exact (riseset_step p DT h0 Th0 a0 a1 a2 d0 d1 d2 A D s0 Ha1 Ha2 Hd1 Hd2 HDT Rs Es Hh HB Hg).
Qed.

(** A body moving a hundredth of a radian a day along the equator. *)
Lemma example_times : exists tr tm ts,
  ApproxTimes (mkCoord 0 0) 0 43200 0 0 = Some (21600, 43200, 64800) /\
  Times (mkCoord 0 0) 60 0 43200 [- (1 / 100); 0; 1 / 100] [0; 0; 0] = Ret (tr, tm, ts) /\
  Rabs (tm - 43200) <= 40000 /\
  173 / 10000 + 21 / 10 * (1 / 100 + 0) <= 9 / 10 * Rabs (cos (table3 0 0 0 (21600 + 60)) * cos 0 * sin (hour_angle sidRate 43200 0 (table3 (- (1 / 100)) 0 (1 / 100) (21600 + 60)) 21600)).
Proof.
  pose proof PI_bounds as PB.
  assert (EA : ApproxTimes (mkCoord 0 0) 0 43200 0 0 = Some (21600, 43200, 64800)).
  { rewrite approx_equator. replace (TimeFromRad 0) with 0 by (unfold TimeFromRad; field; lra).
    rewrite !TimeMod1_m1 by lra. repeat f_equal; lra. }
  do 3 eexists. split; [exact EA|]. split; [rewrite Times_three, EA; reflexivity|]. split.
  - unfold adjustTransit. cbv zeta. cbn [Lon]. rewrite TimeMod1_1 by (rewrite sidRate_val; lra). rewrite sidRate_val.
    set (x := TimeFromRad _). assert (X : 0 <= x <= 300).
    { unfold x, TimeFromRad. replace (0 + table3 (- (1 / 100)) 0 (1 / 100) (43200 + 60)) with (43260 / 8640000) by (unfold table3; field).
      assert (0 < / PI) by (apply Rinv_0_lt_compat; lra). assert (/ PI <= 1) by (rewrite <- Rinv_1; apply Rinv_le_contravar; lra).
      unfold Rdiv. set (i := / PI) in *. clearbody i. clear - H H0. lra. }
    apply Rabs_le. lra.
  - replace (table3 0 0 0 (21600 + 60)) with 0 by (unfold table3; field). rewrite cos_0, !Rmult_1_l.
    replace (hour_angle sidRate 43200 0 (table3 (- (1 / 100)) 0 (1 / 100) (21600 + 60)) 21600) with
      ((PI / 2 * (985647 / 360000000) - 2166 / 864000) + 3 * (PI / 2)) by (rewrite sidRate_val; unfold hour_angle, table3; field).
    set (u := PI / 2 * (985647 / 360000000) - 2166 / 864000). assert (U : -1 / 10 <= u <= 1 / 10) by (unfold u; lra).
    rewrite sin_plus, sin_3PI2, cos_3PI2, Rmult_0_r, Rplus_0_l. replace (cos u * -1) with (- cos u) by ring. rewrite Rabs_Ropp.
    pose proof (L_minsep.versin_le u). assert (u * u <= 1 / 100) by nra. rewrite Rabs_right; lra.
Qed.

(** A star. *)
Lemma Times_star p DT h0 Th0 a d tr tm ts r0 t0 s0 : - (PI / 2) < Lat p < PI / 2 -> - (PI / 2) < d < PI / 2 -> Rabs DT <= 3600 ->
  ApproxTimes p h0 Th0 a d = Some (r0, t0, s0) -> Times p DT h0 Th0 [a; a; a] [d; d; d] = Ret (tr, tm, ts) -> Rabs (tm - t0) <= 40000 ->
  near_turns (hour_angle sidRate Th0 (Lon p) a tm) (48 / 1000000).
Proof.
  intros HL HD HDT EA ET Hs. assert (Z : Rabs (a - a) <= 0) by (rewrite Rminus_diag_eq, Rabs_R0 by reflexivity; lra).
  destruct (Times_transit p DT h0 Th0 a a a d d d 0 tr tm ts r0 t0 s0 HL HD Z Z ltac:(lra) HDT EA ET Hs) as [_ [k K]].
  exists k. replace (table3 a a a (tm + DT)) with a in K by (unfold table3; field). eapply Rle_trans; [exact K|lra].
Qed.
