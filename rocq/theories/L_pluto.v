(** Lemmas for package pluto. *)
From Coq Require Import ZArith Reals List Lra Lia Psatz.
From Flocq Require Import Core.
From Verif Require Import GoFloat GoMath S_Sphere M_base M_orbit M_light M_vsop M_solar M_pluto M_physical S_solar S_moon L_trig L_angle L_vec L_orbit L_orbit2 L_precess L_light L_solar.
From Verif Require Import S_solar.
Import ListNotations.
Local Open Scope R_scope.

Lemma amp a b t : Rabs (IZR a * sin t + IZR b * cos t) <= IZR (Z.sqrt (a * a + b * b) + 1).
Proof.
  pose proof (Z.sqrt_spec (a * a + b * b) ltac:(nia)) as (_ & H). pose proof (Z.sqrt_nonneg (a * a + b * b)) as H0. set (w := Z.sqrt (a * a + b * b)) in *. clearbody w. replace (Z.succ w) with (w + 1)%Z in H by lia.
  assert (K : IZR a * IZR a + IZR b * IZR b <= IZR (w + 1) * IZR (w + 1)) by (rewrite <- !mult_IZR, <- plus_IZR; apply IZR_le; lia). assert (P : 0 <= IZR (w + 1)) by (apply IZR_le; lia). set (q := IZR (w + 1)) in *. set (x := IZR a) in *. set (y := IZR b) in *. clearbody q x y.
  pose proof (sc1 t) as E. set (s := sin t) in *. set (c := cos t) in *. clearbody s c. assert (G : (x * s + y * c) ^ 2 <= q ^ 2).
  { assert (F : (x * s + y * c) ^ 2 + (x * c - y * s) ^ 2 = (x * x + y * y) * (s * s + c * c)) by ring. rewrite E in F. pose proof (pow2_ge_0 (x * c - y * s)). lra. }
  rewrite <- (Rabs_pos_eq q P). apply Rsqr_le_abs_0. unfold Rsqr. lra.
Qed.

Definition wsum (c : prow -> Z * Z) (l : list prow) : Z := fold_right (fun t s => let '(a, b) := c t in (Z.sqrt (a * a + b * b) + 1 + s)%Z) 0%Z l.
Definition cL (t : prow) : Z * Z := let '(_, _, _, lA, lB, _, _, _, _) := t in (lA, lB).
Definition cB (t : prow) : Z * Z := let '(_, _, _, _, _, bA, bB, _, _) := t in (bA, bB).
Definition cR (t : prow) : Z * Z := let '(_, _, _, _, _, _, _, rA, rB) := t in (rA, rB).
Lemma pl_bound J S0 P : forall l l0 b0 r0, let '(l1, b1, r1) := fold_left (pl_step J S0 P) l (l0, b0, r0) in
  Rabs (l1 - l0) <= degrees (IZR (wsum cL l) / 1000000) /\ Rabs (b1 - b0) <= degrees (IZR (wsum cB l) / 1000000) /\ Rabs (r1 - r0) <= IZR (wsum cR l) / 10000000.
Proof.
  pose proof PI_RGT_0 as HP. induction l as [|[[[[[[[[i j] k] lA] lB] bA] bB] rA] rB] l IH]; intros l0 b0 r0.
  - cbn [fold_left wsum fold_right]. rewrite !Rminus_diag_eq, Rabs_R0 by reflexivity. unfold degrees. repeat split; lra.
  - cbn [fold_left pl_step]. set (a := J * IZR i + S0 * IZR j + P * IZR k). cbv zeta. fold a.
    set (dl := IZR lA / 1000000 * (PI / 180) * sin a + IZR lB / 1000000 * (PI / 180) * cos a). set (db := IZR bA / 1000000 * (PI / 180) * sin a + IZR bB / 1000000 * (PI / 180) * cos a). set (dr := IZR rA / 10000000 * sin a + IZR rB / 10000000 * cos a).
    specialize (IH (l0 + dl) (b0 + db) (r0 + dr)). destruct (fold_left (pl_step J S0 P) l (l0 + dl, b0 + db, r0 + dr)) as [[l1 b1] r1]. destruct IH as (I1 & I2 & I3).
    assert (split3 : forall x y d u v, Rabs (x - (y + d)) <= u -> Rabs d <= v -> Rabs (x - y) <= v + u).
    { intros x y d u v A B. replace (x - y) with (d + (x - (y + d))) by ring. eapply Rle_trans; [apply Rabs_triang|]. lra. }
    change (wsum cL (_ :: l)) with (Z.sqrt (lA * lA + lB * lB) + 1 + wsum cL l)%Z. change (wsum cB (_ :: l)) with (Z.sqrt (bA * bA + bB * bB) + 1 + wsum cB l)%Z. change (wsum cR (_ :: l)) with (Z.sqrt (rA * rA + rB * rB) + 1 + wsum cR l)%Z.
    pose proof (amp lA lB a) as A1. pose proof (amp bA bB a) as A2. pose proof (amp rA rB a) as A3.
    rewrite (plus_IZR _ (wsum cL l)), (plus_IZR _ (wsum cB l)), (plus_IZR _ (wsum cR l)).
    assert (deg : forall x y q, q = IZR x / 1000000 * (PI / 180) * sin a + IZR y / 1000000 * (PI / 180) * cos a -> forall w, Rabs (IZR x * sin a + IZR y * cos a) <= w -> Rabs q <= degrees (w / 1000000)).
    { intros x y q -> w Hw. replace (IZR x / 1000000 * (PI / 180) * sin a + IZR y / 1000000 * (PI / 180) * cos a) with ((IZR x * sin a + IZR y * cos a) * (PI / 180000000)) by field.
      rewrite Rabs_mult, (Rabs_pos_eq (PI / 180000000)) by lra. unfold degrees. replace (w / 1000000 * (PI / 180)) with (w * (PI / 180000000)) by field. apply Rmult_le_compat_r; lra. }
    split; [|split].
    + replace (degrees _) with (degrees (IZR (Z.sqrt (lA * lA + lB * lB) + 1) / 1000000) + degrees (IZR (wsum cL l) / 1000000)) by (unfold degrees; field). apply (split3 _ _ dl); [exact I1|]. apply (deg lA lB); [reflexivity|exact A1].
    + replace (degrees _) with (degrees (IZR (Z.sqrt (bA * bA + bB * bB) + 1) / 1000000) + degrees (IZR (wsum cB l) / 1000000)) by (unfold degrees; field). apply (split3 _ _ db); [exact I2|]. apply (deg bA bB); [reflexivity|exact A2].
    + replace (_ / 10000000) with (IZR (Z.sqrt (rA * rA + rB * rB) + 1) / 10000000 + IZR (wsum cR l) / 10000000) by field. apply (split3 _ _ dr); [exact I3|].
      replace dr with ((IZR rA * sin a + IZR rB * cos a) / 10000000) by (unfold dr; field). unfold Rdiv. rewrite Rabs_mult, (Rabs_pos_eq (/ 10000000)) by lra. apply Rmult_le_compat_r; lra.
Qed.
Lemma Heliocentric_range jde : let T := (jde - 2451545) / 36525 in let '(l, b, r) := Heliocentric jde in
  Rabs (l - degrees (238.958116 + 144.96 * T)) <= degrees 35.0692 /\ Rabs (b + degrees 3.908239) <= degrees 21.4461 /\ 29.64 <= r <= 51.81.
Proof.
  cbv zeta. unfold Heliocentric. rewrite century. set (T := (jde - 2451545) / 36525). pose proof (pl_bound (pl_J T) (pl_S T) (pl_P T) t37 0 0 0) as H. destruct (fold_left _ t37 (0, 0, 0)) as [[l b] r].
  replace (wsum cL t37) with 35069139%Z in H by (vm_compute; reflexivity). replace (wsum cB t37) with 21446030%Z in H by (vm_compute; reflexivity). replace (wsum cR t37) with 110761865%Z in H by (vm_compute; reflexivity).
  destruct H as (A & B & C). pose proof PI_RGT_0. rewrite Rminus_0_r in A, B, C. split; [|split].
  - match goal with |- Rabs ?x <= _ => replace x with l end; [|unfold AngleFromDeg, degrees; decimals; field]. eapply Rle_trans; [exact A|]. unfold degrees. decimals. lra.
  - match goal with |- Rabs ?x <= _ => replace x with b end; [|unfold AngleFromDeg, degrees; decimals; field]. eapply Rle_trans; [exact B|]. unfold degrees. decimals. lra.
  - apply Rabs_le_inv in C. decimals. lra.
Qed.
(** The six first rows depend on P alone: after a revolution of P the planet is back in place, up to the
    perturbations by Jupiter and Saturn. *)
Lemma pl_shift J S0 P : forall l a b c x y z, fold_left (pl_step J S0 P) l (a + x, b + y, c + z) =
  let '(a', b', c') := fold_left (pl_step J S0 P) l (a, b, c) in (a' + x, b' + y, c' + z).
Proof.
  induction l as [|[[[[[[[[i j] k] lA] lB] bA] bB] rA] rB] l IH]; intros a b c x y z; [reflexivity|]. cbn [fold_left]. unfold pl_step at 2 4. cbv zeta. rewrite <- IH. f_equal. f_equal; [f_equal|]; ring.
Qed.
Lemma pl_head J S0 P J' S1 n : forall acc, fold_left (pl_step J S0 P) (firstn 6 t37) acc = fold_left (pl_step J' S1 (P + IZR n * (2 * PI))) (firstn 6 t37) acc.
Proof.
  intros acc. assert (G : forall l acc, (forall t, In t l -> let '(i, j, _, _, _, _, _, _, _) := t in i = 0%Z /\ j = 0%Z) -> fold_left (pl_step J S0 P) l acc = fold_left (pl_step J' S1 (P + IZR n * (2 * PI))) l acc).
  { clear acc. induction l as [|t l IH]; intros acc H; [reflexivity|]. cbn [fold_left]. rewrite <- IH by (intros; apply H; right; assumption). f_equal. pose proof (H t (or_introl eq_refl)) as K.
    destruct t as [[[[[[[[i j] k] lA] lB] bA] bB] rA] rB]. destruct K as [-> ->]. destruct acc as [[l0 b0] r0]. unfold pl_step. cbv zeta.
    replace (J * 0 + S0 * 0 + P * IZR k) with (P * IZR k) by ring. replace (J' * 0 + S1 * 0 + (P + IZR n * (2 * PI)) * IZR k) with (P * IZR k + IZR (n * k) * (2 * PI)) by (rewrite mult_IZR; ring). rewrite sin_Z, cos_Z. reflexivity. }
  apply G. intros t H. cbn [firstn t37 In] in H. repeat (destruct H as [<-|H]; [split; reflexivity|]). destruct H.
Qed.
Definition pl_period : R := 360 / 144.96 * 36525.
Lemma Heliocentric_period jde n : let '(l, b, r) := Heliocentric jde in let '(l', b', r') := Heliocentric (jde + IZR n * pl_period) in
  near_turns (l' - l) (degrees 0.1343) /\ Rabs (b' - b) <= degrees 0.0394 /\ Rabs (r' - r) <= 0.0222.
Proof.
  unfold Heliocentric. rewrite !century. set (T := (jde - 2451545) / 36525). set (T' := (jde + IZR n * pl_period - 2451545) / 36525).
  assert (ET : T' = T + IZR n * (360 / 144.96)) by (unfold T', T, pl_period; decimals; field).
  assert (EP : pl_P T' = pl_P T + IZR n * (2 * PI)) by (unfold pl_P, AngleFromDeg; rewrite ET; decimals; field).
  rewrite EP. set (P := pl_P T). set (J := pl_J T). set (S0 := pl_S T). set (J' := pl_J T'). set (S1 := pl_S T'). clearbody P J S0 J' S1.
  set (l7 := skipn 6 t37). assert (Et : t37 = firstn 6 t37 ++ l7) by (symmetry; apply firstn_skipn). rewrite Et, !fold_left_app, <- (pl_head J S0 P J' S1 n).
  destruct (fold_left (pl_step J S0 P) (firstn 6 t37) (0, 0, 0)) as [[x y] z]. pose proof (pl_bound J S0 P l7 x y z) as A. pose proof (pl_bound J' S1 (P + IZR n * (2 * PI)) l7 x y z) as B.
  destruct (fold_left (pl_step J S0 P) l7 (x, y, z)) as [[l b] r]. destruct (fold_left (pl_step J' S1 (P + IZR n * (2 * PI))) l7 (x, y, z)) as [[l' b'] r'].
  replace (wsum cL l7) with 67126%Z in * by (vm_compute; reflexivity). replace (wsum cB l7) with 19671%Z in * by (vm_compute; reflexivity). replace (wsum cR l7) with 110988%Z in * by (vm_compute; reflexivity).
  destruct A as (A1 & A2 & A3). destruct B as (B1 & B2 & B3). pose proof PI_RGT_0 as HP. clear Et EP l7. assert (D2 : forall u v w a q, Rabs (u - w) <= a -> Rabs (v - w) <= a -> 2 * a <= q -> Rabs (v - u) <= q).
  { intros u v w a q H1 H2 H3. replace (v - u) with ((v - w) + - (u - w)) by ring. eapply Rle_trans; [apply Rabs_triang|]. rewrite Rabs_Ropp. lra. }
  split; [|split].
  - exists n. match goal with |- Rabs ?e <= _ => replace e with (l' - l) end; [|rewrite ET; unfold AngleFromDeg; decimals; field].
    apply (D2 l l' x _ _ A1 B1). unfold degrees. decimals. lra.
  - match goal with |- Rabs ?e <= _ => replace e with (b' - b) by ring end. apply (D2 b b' y _ _ A2 B2). unfold degrees. decimals. lra.
  - match goal with |- Rabs ?e <= _ => replace e with (r' - r) by ring end. apply (D2 r r' z _ _ A3 B3). decimals. lra.
Qed.
(** Equatorial rectangular coordinates *)
Definition vec_of (p : R * R * R) : vec := let '(x, y, z) := p in mkvec x y z.
Lemma pl_xyz_value jde : let '(l, b, r) := Heliocentric jde in exists se ce, Rabs (se * se + ce * ce - 1) <= 1 / 100000000 /\ se = SOblJ2000 /\ ce = COblJ2000 /\
  vec_of (pl_xyz jde) = scale r (mkvec (vx (dir l b)) (vy (dir l b) * ce - vz (dir l b) * se) (vy (dir l b) * se + vz (dir l b) * ce)) /\ 29 <= norm (vec_of (pl_xyz jde)) <= 52.
Proof.
  pose proof (Heliocentric_range jde) as HR. unfold pl_xyz. destruct (Heliocentric jde) as [[l b] r]. destruct HR as (_ & _ & Hr). decimals_in Hr. exists SOblJ2000, COblJ2000.
  assert (E : Rabs (SOblJ2000 * SOblJ2000 + COblJ2000 * COblJ2000 - 1) <= 1 / 100000000) by (unfold SOblJ2000, COblJ2000; apply Rabs_le; lra).
  split; [exact E|]. split; [reflexivity|]. split; [reflexivity|]. split.
  { unfold vec_of, scale, dir. cbn [vx vy vz]. f_equal; ring. }
  unfold vec_of, norm, dot. cbn [vx vy vz]. set (se := SOblJ2000) in *. set (ce := COblJ2000) in *. clearbody se ce. pose proof (sc1 l) as Kl. pose proof (sc1 b) as Kb. set (sl := sin l) in *. set (cl := cos l) in *. set (sb := sin b) in *. set (cb := cos b) in *. clearbody sl cl sb cb.
  match goal with |- 29 <= sqrt ?e <= 52 => replace e with (r * r * (cl * cl * (cb * cb) + (sl * sl * (cb * cb) + sb * sb) * (se * se + ce * ce))) by ring end.
  set (q := se * se + ce * ce) in *. clearbody q. apply Rabs_le_inv in E. replace (cl * cl * (cb * cb) + (sl * sl * (cb * cb) + sb * sb) * q) with (1 + (sl * sl * (cb * cb) + sb * sb) * (q - 1)) by (replace 1 with ((sl * sl + cl * cl) * (cb * cb) + sb * sb) at 1 by (rewrite Kl; lra); ring).
  assert (B : 0 <= sl * sl * (cb * cb) + sb * sb <= 1). { assert (0 <= cl * cl * (cb * cb)) by (apply Rmult_le_pos; nra). assert (0 <= sl * sl * (cb * cb)) by (apply Rmult_le_pos; nra). assert ((sl * sl + cl * cl) * (cb * cb) = cb * cb) by (rewrite Kl; ring). nra. }
  set (t := sl * sl * (cb * cb) + sb * sb) in *. clearbody t. assert (C : - (1 / 10000000) <= t * (q - 1) <= 1 / 10000000) by nra. set (w := t * (q - 1)) in *. clearbody w. clear - Hr C. assert (D : 878 <= r * r <= 2685) by nra.
  split; [rewrite <- (sqrt_square 29) by lra|rewrite <- (sqrt_square 52) by lra]; apply sqrt_le_1_alt; nra.
Qed.
Lemma PlutoAstrometric_value jde e : let X := vec_of (PositionJ2000 e jde) in 0 < norm X <= 20 -> let '(ra, dec) := PlutoAstrometric jde e in
  let u0 := vadd X (vec_of (pl_xyz jde)) in let u := vadd X (vec_of (pl_xyz (jde - LightTime (norm u0)))) in
  0 <= ra < 2 * PI /\ - (PI / 2) <= dec <= PI / 2 /\ u <> vzero /\ scale (norm u) (dir ra dec) = u.
Proof.
  intros X HX. unfold PlutoAstrometric. destruct (PositionJ2000 e jde) as [[x y] z] eqn:EP. destruct (pl_xyz jde) as [[x0 y0] z0] eqn:E0. set (u0 := vadd X (vec_of (x0, y0, z0))).
  destruct (pl_xyz (jde - LightTime (norm u0))) as [[x1 y1] z1] eqn:E1. pose proof (pl_xyz_value (jde - LightTime (norm u0))) as HP. destruct (Heliocentric _) as [[l b] r]. destruct HP as (_ & _ & _ & _ & _ & _ & HN). rewrite E1 in HN.
  assert (NZ : vadd X (vec_of (x1, y1, z1)) <> vzero).
  { intros Q. assert (N2 : vec_of (x1, y1, z1) = scale (-1) X). { unfold X in *. revert Q. unfold vec_of, vadd, vzero, scale. cbn [vx vy vz]. intros Q. injection Q as A B C. f_equal; lra. }
    rewrite N2 in HN. unfold X, vec_of, norm, dot, scale in HN, HX. cbn [vx vy vz] in HN, HX. replace (-1 * x * (-1 * x) + -1 * y * (-1 * y) + -1 * z * (-1 * z)) with (x * x + y * y + z * z) in HN by ring. lra. }
  pose proof (Astrometric_ok LightTime (PositionJ2000 e) pl_xyz jde x y z x0 y0 z0 x1 y1 z1 EP E0 E1 NZ) as H.
  assert (SZ : mkvec x y z <> vzero). { intros Q. unfold X in HX. unfold vec_of in HX. rewrite Q in HX. unfold norm, dot, vzero in HX. cbn [vx vy vz] in HX. replace (0 * 0 + 0 * 0 + 0 * 0) with 0 in HX by ring. rewrite sqrt_0 in HX. lra. }
  specialize (H SZ). destruct (AstrometricJ2000 _ _ _ _) as [[ra dec] psi]. destruct H as (H1 & H2 & H3 & _). split; [exact H1|]. split; [exact H2|]. split; [exact NZ|exact H3].
Qed.
