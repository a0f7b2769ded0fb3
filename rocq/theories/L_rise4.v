(** Above the standard altitude exactly from rising to setting. *)
From Coq Require Import ZArith Reals List Lra Lia Psatz Bool.
From Flocq Require Import Core.
From Verif Require Import GoFloat GoMath M_coord M_rise S_Sphere S_rise L_trig L_rise.
Local Open Scope R_scope.

Lemma cos_abs x : cos (Rabs x) = cos x.
Proof. unfold Rabs. destruct Rcase_abs; [apply cos_neg|reflexivity]. Qed.

Lemma ApproxTimes_above p h0 Th0 a d tr tm ts : - (PI / 2) < Lat p < PI / 2 -> - (PI / 2) < d < PI / 2 ->
  ApproxTimes p h0 Th0 a d = Some (tr, tm, ts) ->
  let alt t := sin_alt (Lat p) d (hour_angle 1 Th0 (Lon p) a t) in
  exists half, 0 <= half <= 43200 /\ same_time tr (tm - half) /\ same_time ts (tm + half) /\
    forall s, Rabs s <= 43200 ->
      (Rabs s < half -> sin h0 < alt (tm + s)) /\ (half < Rabs s -> alt (tm + s) < sin h0) /\ (Rabs s = half -> alt (tm + s) = sin h0) /\
      alt (tm + s) = alt (tm - s) /\ alt (tm + s) <= alt tm.
Proof.
  intros HL HD EA. destruct (ApproxTimes_times p h0 Th0 a d tr tm ts HL HD EA) as (_ & _ & _ & [k K] & _).
  pose proof (cos_pos_lat _ HL) as CL. pose proof (cos_pos_lat _ HD) as CD. pose proof PI_RGT_0 as P0.
  assert (CP : 0 < cos (Lat p) * cos d) by (apply Rmult_lt_0_compat; assumption).
  revert EA. unfold ApproxTimes. set (c := (sin h0 - sin (Lat p) * sin d) / (cos (Lat p) * cos d)).
  assert (Ec : cos (Lat p) * cos d * c = sin h0 - sin (Lat p) * sin d) by (unfold c; field; lra).
  case Rlt_bool_spec; intros H1; [discriminate|]. case Rlt_bool_spec; intros H2; [discriminate|]. cbn [orb]. cbv zeta.
  set (mt := TimeFromRad (a + Lon p) - Th0). intros E. injection E as <- E <-. clearbody c.
  pose proof (acos_bound c) as AB. pose proof (cos_acos c ltac:(lra)) as CA. set (h := acos c) in *. clearbody h.
  assert (TF : TimeFromRad h * (PI / 43200) = h) by (unfold TimeFromRad; field; lra).
  set (half := TimeFromRad h) in *.
  assert (HB : 0 <= half <= 43200).
  { assert (half = h * (43200 / PI)) by reflexivity. assert (0 < 43200 / PI) by (apply Rdiv_lt_0_compat; lra).
    assert (PI * (43200 / PI) = 43200) by (field; lra). clearbody half. split; nra. }
  exists half. split; [exact HB|].
  destruct (TimeMod1_same mt) as [k0 K0]. rewrite E in K0.
  split; [destruct (TimeMod1_same (mt - half)) as [k1 K1]; exists (k1 - k0)%Z; rewrite K1, K0, minus_IZR; ring|].
  split; [destruct (TimeMod1_same (mt + half)) as [k1 K1]; exists (k1 - k0)%Z; rewrite K1, K0, minus_IZR; ring|].
  assert (AL : forall s, sin_alt (Lat p) d (hour_angle 1 Th0 (Lon p) a (tm + s)) = sin (Lat p) * sin d + cos (Lat p) * cos d * cos (s * (PI / 43200))).
  { intros s. replace (hour_angle 1 Th0 (Lon p) a (tm + s)) with (s * (PI / 43200) + IZR k * (2 * PI)) by (rewrite <- K; unfold hour_angle; ring).
    rewrite sin_alt_eq, cos_Z. reflexivity. }
  intros s Hs. set (w := Rabs s) in *. assert (W0 : 0 <= w) by apply Rabs_pos.
  assert (EW : cos (s * (PI / 43200)) = cos (w * (PI / 43200))).
  { rewrite <- (cos_abs (s * (PI / 43200))), Rabs_mult, (Rabs_right (PI / 43200)) by lra. reflexivity. }
  assert (WB : 0 <= w * (PI / 43200) <= PI) by (clearbody w; split; nra).
  pose proof (AL 0) as A0. rewrite Rplus_0_r, Rmult_0_l, cos_0 in A0.
  change (tm - s) with (tm + - s). rewrite !AL, A0, EW. replace (- s * (PI / 43200)) with (- (s * (PI / 43200))) by ring. rewrite cos_neg, EW.
  assert (S0 : sin h0 = sin (Lat p) * sin d + cos (Lat p) * cos d * cos h) by (rewrite CA; lra). rewrite S0.
  assert (HB2 : 0 <= h <= PI) by lra. assert (EH : half = h * (43200 / PI)) by reflexivity. assert (P1 : 0 < PI / 43200) by lra.
  set (x := w * (PI / 43200)) in *. set (A := cos (Lat p) * cos d) in *. set (S := sin (Lat p) * sin d) in *.
  assert (XL : w < half -> x < h) by (intros; rewrite <- TF; unfold x; apply Rmult_lt_compat_r; lra).
  assert (XG : half < w -> h < x) by (intros; rewrite <- TF; unfold x; apply Rmult_lt_compat_r; lra).
  assert (XE : w = half -> x = h) by (intros; rewrite <- TF; unfold x; congruence).
  pose proof (COS_bound x). clearbody x A S half.
  split; [|split; [|split; [|split]]].
  - intros H3. apply Rplus_lt_compat_l, Rmult_lt_compat_l; [exact CP|]. apply cos_decreasing_1; try specialize (XL H3); lra.
  - intros H3. apply Rplus_lt_compat_l, Rmult_lt_compat_l; [exact CP|]. apply cos_decreasing_1; try specialize (XG H3); lra.
  - intros H3. rewrite (XE H3). reflexivity.
  - reflexivity.
  - apply Rplus_le_compat_l, Rmult_le_compat_l; lra.
Qed.

Lemma ApproxTimes_never p h0 Th0 a d : - (PI / 2) < Lat p < PI / 2 -> - (PI / 2) < d < PI / 2 ->
  ApproxTimes p h0 Th0 a d = None ->
  (forall H, sin h0 < sin_alt (Lat p) d H) \/ (forall H, sin_alt (Lat p) d H < sin h0).
Proof.
  intros HL HD. pose proof (cos_pos_lat _ HL) as CL. pose proof (cos_pos_lat _ HD) as CD.
  assert (CP : 0 < cos (Lat p) * cos d) by (apply Rmult_lt_0_compat; assumption).
  unfold ApproxTimes. set (c := (sin h0 - sin (Lat p) * sin d) / (cos (Lat p) * cos d)).
  assert (Ec : cos (Lat p) * cos d * c = sin h0 - sin (Lat p) * sin d) by (unfold c; field; lra). clearbody c.
  assert (X : forall H, sin_alt (Lat p) d H - sin h0 = cos (Lat p) * cos d * (cos H - c)) by (intros H; rewrite sin_alt_eq, Rmult_minus_distr_l, Ec; ring).
  case Rlt_bool_spec; intros H1.
  - intros _. left. intros H. pose proof (COS_bound H). specialize (X H). set (A := cos (Lat p) * cos d) in *. assert (0 < A * (cos H - c)) by (apply Rmult_lt_0_compat; lra). lra.
  - case Rlt_bool_spec; intros H2; cbn [orb]; cbv zeta; [|discriminate]. intros _. right. intros H. pose proof (COS_bound H). specialize (X H).
    set (A := cos (Lat p) * cos d) in *. assert (0 < A * (c - cos H)) by (apply Rmult_lt_0_compat; lra). lra.
Qed.

Lemma never_example : ApproxTimes (mkCoord (PI / 3) 0) 0 0 0 (PI / 3) = None.
Proof.
  unfold ApproxTimes. cbn [Lat Lon]. cbv zeta. rewrite sin_0, sin_PI3, cos_PI3. set (c := (0 - _) / _). enough (c < -1) by (rewrite (Rlt_bool_true c (-1)) by assumption; reflexivity). unfold c.
  assert (sqrt 3 * sqrt 3 = 3) by (apply sqrt_sqrt; lra). set (r := sqrt 3) in *. clearbody r.
  assert (X : (0 - r / 2 * (r / 2)) / (1 / 2 * (1 / 2)) = - (r * r)) by field. rewrite X, H. lra.
Qed.
