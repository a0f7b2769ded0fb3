(** moon.Sunrise and Sunset: the two correction steps approach a crossing of the horizon. *)
From Coq Require Import ZArith Reals Lra Psatz.
From Verif Require Import GoFloat GoMath S_Sphere S_precess S_solar S_physical S_moon M_base M_coord M_precess M_vsop M_light M_moonconst M_solar M_moon.
Local Open Scope R_scope.

Definition sun_altitude_at (eta theta : R) (earth : @V87Planet R) (t : R) : R :=
  SunAltitude eta theta (snd (fst (MoonPhysical t earth))) (snd (MoonPhysical t earth)).

Lemma srCorr_rate eta theta jde earth : 0 < cos theta ->
  srCorr eta theta jde earth = sun_altitude_at eta theta earth jde / (degrees 12.19075 * cos theta).
Proof.
  intros C. unfold srCorr, sun_altitude_at. generalize (MoonPhysical jde earth). intros [[[[l b] P] l0] b0]. cbn [fst snd]. set (h := SunAltitude eta theta l0 b0). clearbody h.
  unfold AngleDeg, degrees. replace 12.19075 with (1219075 / 100000) by lra. pose proof PI_RGT_0. field. lra.
Qed.

Lemma step h0 r q d : 0 < r -> Rabs (h0 - r * d) <= q * r * Rabs d -> Rabs (d - h0 / r) <= q * Rabs d.
Proof.
  intros Hr H. replace (d - h0 / r) with (- (h0 - r * d) * / r) by (field; lra). rewrite Rabs_mult, Rabs_Ropp, (Rabs_pos_eq (/ r)) by (apply Rlt_le, Rinv_0_lt_compat, Hr).
  apply Rmult_le_reg_r with r; [exact Hr|]. rewrite Rmult_assoc, Rinv_l, Rmult_1_r by lra. lra.
Qed.

Lemma two_steps (g : R -> R) r q x : 0 < r -> 0 <= q <= 1 ->
  (forall d, Rabs d <= Rabs x -> Rabs (g d - r * d) <= q * r * Rabs d) ->
  let x1 := x - g x / r in Rabs (x1 - g x1 / r) <= q * q * Rabs x.
Proof.
  intros Hr Hq H x1. assert (B1 : Rabs x1 <= q * Rabs x) by (apply step; [exact Hr|apply H; lra]).
  assert (B1' : Rabs x1 <= Rabs x) by (pose proof (Rabs_pos x); nra).
  assert (B2 := step _ _ _ _ Hr (H x1 B1')). apply Rle_trans with (1 := B2). rewrite Rmult_assoc. apply Rmult_le_compat_l; lra.
Qed.

Lemma sunrise_approaches eta theta jde earth t0 q : 0 < cos theta -> 0 <= q <= 1 ->
  (forall t, Rabs (t - t0) <= Rabs (jde - t0) ->
     Rabs (sun_altitude_at eta theta earth t - degrees 12.19075 * cos theta * (t - t0)) <= q * (degrees 12.19075 * cos theta) * Rabs (t - t0)) ->
  Rabs (MoonSunrise eta theta jde earth - t0) <= q * q * Rabs (jde - t0).
Proof.
  intros C Hq H. unfold MoonSunrise. cbv zeta. rewrite !srCorr_rate by exact C. set (r := degrees 12.19075 * cos theta) in *.
  assert (Hr : 0 < r) by (unfold r, degrees; pose proof PI_RGT_0; apply Rmult_lt_0_compat; lra). set (alt := sun_altitude_at eta theta earth) in *. clearbody r alt.
  assert (G := two_steps (fun d => alt (t0 + d)) r q (jde - t0) Hr Hq). cbv beta zeta in G.
  replace (t0 + (jde - t0)) with jde in G by ring. replace (t0 + (jde - t0 - alt jde / r)) with (jde - alt jde / r) in G by ring.
  replace (jde - alt jde / r - alt (jde - alt jde / r) / r - t0) with (jde - t0 - alt jde / r - alt (jde - alt jde / r) / r) by ring.
  apply G. intros d Hd. assert (X := H (t0 + d)). replace (t0 + d - t0) with d in X by ring. apply X, Hd.
Qed.

Lemma sunset_approaches eta theta jde earth t0 q : 0 < cos theta -> 0 <= q <= 1 ->
  (forall t, Rabs (t - t0) <= Rabs (jde - t0) ->
     Rabs (sun_altitude_at eta theta earth t + degrees 12.19075 * cos theta * (t - t0)) <= q * (degrees 12.19075 * cos theta) * Rabs (t - t0)) ->
  Rabs (MoonSunset eta theta jde earth - t0) <= q * q * Rabs (jde - t0).
Proof.
  intros C Hq H. unfold MoonSunset. cbv zeta. rewrite !srCorr_rate by exact C. set (r := degrees 12.19075 * cos theta) in *.
  assert (Hr : 0 < r) by (unfold r, degrees; pose proof PI_RGT_0; apply Rmult_lt_0_compat; lra). set (alt := sun_altitude_at eta theta earth) in *. clearbody r alt.
  assert (G := two_steps (fun d => - alt (t0 + d)) r q (jde - t0) Hr Hq). cbv beta zeta in G.
  replace (t0 + (jde - t0)) with jde in G by ring. replace (t0 + (jde - t0 - - alt jde / r)) with (jde + alt jde / r) in G by (field; lra).
  replace (jde + alt jde / r + alt (jde + alt jde / r) / r - t0) with (jde - t0 - - alt jde / r - - alt (jde + alt jde / r) / r) by (field; lra).
  apply G. intros d Hd. assert (X := H (t0 + d)). replace (t0 + d - t0) with d in X by ring. replace (- alt (t0 + d) - r * d) with (- (alt (t0 + d) + r * d)) by ring. rewrite Rabs_Ropp. apply X, Hd.
Qed.

(** Near a sunset, Sunrise moves away. *)
Lemma sunrise_leaves_sunset eta theta jde earth t0 q : 0 < cos theta -> 0 <= q <= 1 ->
  (forall t, Rabs (t - t0) <= 3 * Rabs (jde - t0) ->
     Rabs (sun_altitude_at eta theta earth t + degrees 12.19075 * cos theta * (t - t0)) <= q * (degrees 12.19075 * cos theta) * Rabs (t - t0)) ->
  (2 - q) * (2 - q) * Rabs (jde - t0) <= Rabs (MoonSunrise eta theta jde earth - t0).
Proof.
  intros C Hq H. unfold MoonSunrise. cbv zeta. rewrite !srCorr_rate by exact C. set (r := degrees 12.19075 * cos theta) in *.
  assert (Hr : 0 < r) by (unfold r, degrees; pose proof PI_RGT_0; apply Rmult_lt_0_compat; lra). set (alt := sun_altitude_at eta theta earth) in *. clearbody r alt.
  assert (L : forall t, Rabs (t - t0) <= 3 * Rabs (jde - t0) -> (2 - q) * Rabs (t - t0) <= Rabs (t - alt t / r - t0) <= (2 + q) * Rabs (t - t0)).
  { intros t Ht. specialize (H t Ht). assert (S := step (- alt t) r q (t - t0) Hr). specialize (S ltac:(replace (- alt t - r * (t - t0)) with (- (alt t + r * (t - t0))) by ring; rewrite Rabs_Ropp; exact H)).
    replace (t - t0 - - alt t / r) with (2 * (t - t0) - (t - alt t / r - t0)) in S by (field; lra).
    pose proof (Rabs_triang (2 * (t - t0) - (t - alt t / r - t0)) (t - alt t / r - t0)) as T1. replace (2 * (t - t0) - (t - alt t / r - t0) + (t - alt t / r - t0)) with (2 * (t - t0)) in T1 by ring.
    pose proof (Rabs_triang (2 * (t - t0)) (- (2 * (t - t0) - (t - alt t / r - t0)))) as T2. replace (2 * (t - t0) + - (2 * (t - t0) - (t - alt t / r - t0))) with (t - alt t / r - t0) in T2 by ring.
    rewrite Rabs_Ropp in T2. rewrite Rabs_mult, (Rabs_pos_eq 2) in T1, T2 by lra. lra. }
  destruct (L jde ltac:(pose proof (Rabs_pos (jde - t0)); lra)) as [A B]. set (t1 := jde - alt jde / r) in *.
  destruct (L t1) as [A1 _]. { apply Rle_trans with (1 := B). apply Rmult_le_compat_r; [apply Rabs_pos|lra]. }
  apply Rle_trans with (2 := A1). rewrite Rmult_assoc. apply Rmult_le_compat_l; lra.
Qed.

Lemma crossing_example jde earth : exists eta,
  forall t, Rabs (t - jde) <= Rabs (jde - jde) ->
    Rabs (sun_altitude_at eta 0 earth t - degrees 12.19075 * cos 0 * (t - jde)) <= 1 / 2 * (degrees 12.19075 * cos 0) * Rabs (t - jde).
Proof.
  exists (snd (fst (MoonPhysical jde earth)) + PI / 2). intros t Ht.
  replace (jde - jde) with 0 in Ht by ring. rewrite Rabs_R0 in Ht. assert (T : t = jde).
  { destruct (Req_dec (t - jde) 0) as [Z|N]; [lra|]. pose proof (Rabs_pos_lt _ N). lra. }
  subst t. replace (jde - jde) with 0 by ring. unfold sun_altitude_at. generalize (snd (MoonPhysical jde earth)). generalize (snd (fst (MoonPhysical jde earth))). intros l0 b0. unfold SunAltitude. replace (PI / 2 - l0 + (l0 + PI / 2)) with PI by field.
  rewrite sin_PI, sin_0. replace (sin b0 * 0 + cos b0 * cos 0 * 0) with 0 by ring. rewrite asin_0, !Rmult_0_r, Rminus_0_r, Rabs_R0. lra.
Qed.
