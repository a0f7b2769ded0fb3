(** Change of meridian, of sidereal time and of right ascension in rise. *)
From Coq Require Import ZArith Reals List Lra Lia Psatz Bool.
From Flocq Require Import Core.
From Verif Require Import GoFloat GoMath M_coord M_rise S_Sphere S_rise L_trig L_rise.
Import ListNotations.
Local Open Scope R_scope.

Lemma same_time_shift u v w : same_time (TimeMod1 (u + w)) (TimeMod1 (u + v) + (w - v)).
Proof.
  destruct (TimeMod1_same (u + w)) as [k1 K1]. destruct (TimeMod1_same (u + v)) as [k2 K2].
  exists (k1 - k2)%Z. rewrite K1, K2, minus_IZR. ring.
Qed.

Lemma ApproxTimes_shift p h0 Th0 a d x y z : let s := (y + z) * (43200 / PI) - x in
  match ApproxTimes p h0 Th0 a d, ApproxTimes (mkCoord (Lat p) (Lon p + z)) h0 (Th0 + x) (a + y) d with
  | Some (tr, tm, ts), Some (tr', tm', ts') => same_time tr' (tr + s) /\ same_time tm' (tm + s) /\ same_time ts' (ts + s)
  | None, None => True
  | _, _ => False
  end.
Proof.
  intros s. unfold ApproxTimes. cbn [Lat Lon]. cbv zeta. destruct (_ || _); [exact I|].
  set (H0 := TimeFromRad (acos _)). set (mt := TimeFromRad (a + Lon p) - Th0).
  assert (E : TimeFromRad (a + y + (Lon p + z)) - (Th0 + x) = mt + s) by (unfold mt, s, TimeFromRad; ring). rewrite E.
  split; [|split].
  - replace (mt + s - H0) with ((mt - H0) + s) by ring. replace (TimeMod1 (mt - H0)) with (TimeMod1 ((mt - H0) + 0)) by (f_equal; ring).
    replace s with (s - 0) at 2 by ring. apply same_time_shift.
  - replace (TimeMod1 mt) with (TimeMod1 (mt + 0)) by (f_equal; ring). replace s with (s - 0) at 2 by ring. apply same_time_shift.
  - replace (mt + s + H0) with ((mt + H0) + s) by ring. replace (TimeMod1 (mt + H0)) with (TimeMod1 ((mt + H0) + 0)) by (f_equal; ring).
    replace s with (s - 0) at 2 by ring. apply same_time_shift.
Qed.

Lemma ApproxTimes_turn p h0 Th0 a d x y z n : y + z = x * (PI / 43200) + IZR n * (2 * PI) ->
  ApproxTimes (mkCoord (Lat p) (Lon p + z)) h0 (Th0 + x) (a + y) d = ApproxTimes p h0 Th0 a d.
Proof.
  intros E. unfold ApproxTimes. cbn [Lat Lon]. cbv zeta. destruct (_ || _); [reflexivity|].
  set (H0 := TimeFromRad (acos _)). set (mt := TimeFromRad (a + Lon p) - Th0). pose proof PI_RGT_0.
  assert (X : TimeFromRad (a + y + (Lon p + z)) - (Th0 + x) = mt + IZR n * 86400).
  { unfold mt, TimeFromRad. replace (a + y + (Lon p + z)) with (a + Lon p + (y + z)) by ring. rewrite E. field. lra. }
  rewrite X. rewrite (TimeMod1_cong (mt + IZR n * 86400 - H0) (mt - H0)), (TimeMod1_cong (mt + IZR n * 86400) mt), (TimeMod1_cong (mt + IZR n * 86400 + H0) (mt + H0)); [reflexivity| | |]; exists n; ring.
Qed.

Lemma table3_shift y0 y1 y2 c t : table3 (y0 + c) (y1 + c) (y2 + c) t = table3 y0 y1 y2 t + c.
Proof. unfold table3. field. Qed.

Lemma Times_turn p DT h0 Th0 a0 a1 a2 d0 d1 d2 x y z n : y + z = x * (PI / 43200) + IZR n * (2 * PI) ->
  match Times p DT h0 Th0 [a0; a1; a2] [d0; d1; d2], Times (mkCoord (Lat p) (Lon p + z)) DT h0 (Th0 + x) [a0 + y; a1 + y; a2 + y] [d0; d1; d2] with
  | Ret (tr, tm, ts), Ret (tr', tm', ts') => tr' = tr /\ same_time tm' tm /\ ts' = ts
  | Fail, Fail => True
  | _, _ => False
  end.
Proof.
  intros E. rewrite !Times_three, (ApproxTimes_turn p h0 Th0 a1 d1 x y z n E). destruct (ApproxTimes p h0 Th0 a1 d1) as [[[r0 t0] s0]|]; [|exact I].
  set (p' := mkCoord (Lat p) (Lon p + z)). set (fa := table3 a0 a1 a2). set (fa' := table3 (a0 + y) (a1 + y) (a2 + y)). set (fd := table3 d0 d1 d2).
  assert (FA : forall t, fa' t = fa t + y) by (intros; apply table3_shift).
  assert (HA : forall t, hour_angle sidRate (Th0 + x) (Lon p') (fa' (t + DT)) t = hour_angle sidRate Th0 (Lon p) (fa (t + DT)) t + IZR (- n) * (2 * PI)).
  { intros t. rewrite FA, opp_IZR. unfold hour_angle. cbn [Lon p']. assert (x * (PI / 43200) = y + z - IZR n * (2 * PI)) by lra.
    rewrite !Rmult_plus_distr_r, H. ring. }
  assert (RS : forall m, adjustRS p' DT h0 (Th0 + x) fa' fd m = adjustRS p DT h0 Th0 fa fd m).
  { intros m. rewrite !adjustRS_form, HA, sin_Z. cbn [Lat p']. rewrite !sin_alt_eq, cos_Z. reflexivity. }
  split; [apply RS|]. split; [|apply RS].
  destruct (adjustTransit_HA p' DT (Th0 + x) fa' t0) as [k1 K1]. destruct (adjustTransit_HA p DT Th0 fa t0) as [k2 K2]. rewrite HA in K1.
  exists (k2 - k1 + n)%Z. rewrite plus_IZR, minus_IZR. rewrite opp_IZR in K1. pose proof PI_RGT_0.
  set (u' := adjustTransit p' DT (Th0 + x) fa' t0) in *. set (u := adjustTransit p DT Th0 fa t0) in *. clearbody u u'.
  apply Rmult_eq_reg_r with (PI / 43200); [|lra].
  replace ((u + (IZR k2 - IZR k1 + IZR n) * 86400) * (PI / 43200)) with (u * (PI / 43200) + (IZR k2 - IZR k1 + IZR n) * (2 * PI)) by field. lra.
Qed.
