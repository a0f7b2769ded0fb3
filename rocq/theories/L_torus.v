(** Bounds for trigonometric polynomials in three angles, from their values on a grid
    in two of them; used for the accuracy of the approximate nutation. *)
From Coq Require Import ZArith Reals List Lra Lia Psatz Bool.
From Flocq Require Import Core.
From Verif Require Import GoMath S_solar L_trig L_kepler L_solar L_event L_apparent2 L_taylor L_season2.
Import ListNotations.
Local Open Scope R_scope.

(** Table of 2^20 cos(2 pi j / 64), j = 0 .. 63, good to one unit. *)
Definition side (j : Z) : Z := if (j <=? 32)%Z then j else (j - 64)%Z.
Definition arg_j (j : Z) : tm := trad (tq (360 * side j) 64).
Definition oct (m : tm) : tm * tm := let q := quad (tm_divz 2 m) in ang_add q q.
Lemma oct_ok t m : tm_ok t m -> (tm_abs (tm_divz 4 (tm_divz 2 m)) <=? SC)%Z = true -> ang_ok t (oct m).
Proof.
  intros T H. unfold oct. cbv zeta. pose proof (quad_ok _ _ (tm_divz_ok 2 _ _ ltac:(reflexivity) T) H) as A. eapply ang_ext; [|exact (ang_add_ok _ _ _ _ A A)]. intros x _. cbv beta. lra.
Qed.
Definition cos_j (j : Z) : tm := snd (oct (arg_j j)).
Definition tab : list Z := Eval vm_compute in map (fun j => ((2 * hd 0 (fst (cos_j (Z.of_nat j))) + 2 ^ 50) / 2 ^ 51)%Z) (seq 0 64).
Definition cz (j : Z) : Z := nth (Z.to_nat (j mod 64)) tab 0%Z.
Definition good_j (j : Z) : bool := ((tm_abs (tm_divz 4 (tm_divz 2 (arg_j j))) <=? SC) && (tm_abs (tm_sub (cos_j j) (tq (nth (Z.to_nat j) tab 0) 1048576)) * 1048576 <=? SC))%Z.
Lemma tab_good : forallb (fun j => good_j (Z.of_nat j)) (seq 0 64) = true.
Proof. vm_compute. reflexivity. Qed.
Lemma cz_ok j : Rabs (cos (2 * PI / 64 * IZR j) - IZR (cz j) / 1048576) <= / 1048576.
Proof.
  pose proof (Z.mod_pos_bound j 64 ltac:(lia)) as Hr. pose proof (Z.div_mod j 64 ltac:(lia)) as E. unfold cz. set (r := (j mod 64)%Z) in *.
  assert (G : good_j r = true). { pose proof tab_good as T. rewrite forallb_forall in T. specialize (T (Z.to_nat r)). rewrite Z2Nat.id in T by lia. apply T, in_seq. lia. }
  unfold good_j in G. apply andb_true_iff in G. destruct G as [G1 G2]. apply Z.leb_le in G2.
  assert (A : tm_ok (fun _ => degrees (IZR (360 * side r) / 64)) (arg_j r)). { unfold arg_j. eapply tm_ext; [|apply trad_ok, tq_ok]. intros x _. reflexivity. }
  destruct (oct_ok _ _ A G1) as [_ C]. fold (cos_j r) in C. pose proof (tm_sub_ok _ _ _ _ C (tq_ok (nth (Z.to_nat r) tab 0%Z) 1048576)) as D.
  pose proof (tm_abs_ok _ _ D 0 ltac:(rewrite Rabs_R0; lra)) as Q. cbv beta in Q. apply IZR_le in G2. rewrite mult_IZR in G2.
  assert (Ec : cos (2 * PI / 64 * IZR j) = cos (degrees (IZR (360 * side r) / 64))).
  { assert (exists k, 2 * PI / 64 * IZR j = degrees (IZR (360 * side r) / 64) + IZR k * (2 * PI)) as [k ->].
    { unfold side, degrees. destruct (Z.leb_spec r 32); [exists (j / 64)%Z|exists (j / 64 + 1)%Z]; rewrite E at 1; rewrite ?mult_IZR, ?minus_IZR, ?plus_IZR, ?mult_IZR; field. }
    apply cos_Z. }
  rewrite Ec. pose proof SC_pos as SP. apply Rmult_le_reg_r with (IZR SC * 1048576); [lra|].
  replace (/ 1048576 * (IZR SC * 1048576)) with (IZR SC) by field. 
  match type of Q with ?a * _ <= _ => match goal with |- ?b * _ <= _ => change a with b in Q end end. nra.
Qed.

(** ** Trigonometric polynomials *)
(** (c, k1, k2, m): c cos(k1 x + k2 y + m w) *)
Definition tterm := (Z * Z * Z * Z)%type.
Definition tval (x y w : R) (t : tterm) : R := let '(c, k1, k2, m) := t in IZR c * cos (IZR k1 * x + IZR k2 * y + IZR m * w).
Definition tsum (l : list tterm) (x y w : R) : R := fold_right Rplus 0 (map (tval x y w) l).
Definition amp (l : list tterm) : Z := fold_right Z.add 0%Z (map (fun t : tterm => let '(c, _, _, _) := t in Z.abs c) l).
Definition curv (l : list tterm) : Z := fold_right Z.add 0%Z (map (fun t : tterm => let '(c, k1, k2, _) := t in (Z.abs c * ((Z.abs k1 + Z.abs k2) * (Z.abs k1 + Z.abs k2)))%Z) l).
(** Constant part and coefficients of cos w and sin w at a point of the grid. *)
Definition gP (i j : Z) (l : list tterm) : Z := fold_right Z.add 0%Z (map (fun t : tterm => let '(c, k1, k2, m) := t in if (m =? 0)%Z then (c * cz (k1 * i + k2 * j))%Z else 0%Z) l).
Definition gQ (i j : Z) (l : list tterm) : Z := fold_right Z.add 0%Z (map (fun t : tterm => let '(c, k1, k2, m) := t in if (m =? 0)%Z then 0%Z else (c * cz (k1 * i + k2 * j))%Z) l).
Definition gR (i j : Z) (l : list tterm) : Z := fold_right Z.add 0%Z (map (fun t : tterm => let '(c, k1, k2, m) := t in if (m =? 0)%Z then 0%Z else (- c * m * cz (k1 * i + k2 * j - 16))%Z) l).
Definition simple (l : list tterm) : bool := forallb (fun t : tterm => let '(_, _, _, m) := t in (Z.abs m <=? 1)%Z) l.
Definition check_point (l : list tterm) (G : Z) (i j : Z) : bool :=
  let p := (G * 1048576 - gP i j l - 2 * amp l)%Z in let q := gQ i j l in let r := gR i j l in ((0 <=? p) && (q * q + r * r <=? p * p))%Z.
Definition check (l : list tterm) (G : Z) : bool := simple l && forallb (fun i => forallb (fun j => check_point l G (Z.of_nat i) (Z.of_nat j)) (seq 0 64)) (seq 0 64).

Lemma amp_pos l : (0 <= amp l)%Z.
Proof. unfold amp. induction l as [|[[[c k1] k2] m] l IH]; cbn [map fold_right]; lia. Qed.
Lemma tsum_amp l x y w : Rabs (tsum l x y w) <= IZR (amp l).
Proof.
  unfold tsum, amp. induction l as [|[[[c k1] k2] m] l IH]; cbn [map fold_right]; [rewrite Rabs_R0; lra|]. rewrite plus_IZR. eapply Rle_trans; [apply Rabs_triang|]. apply Rplus_le_compat; [|exact IH].
  unfold tval. rewrite Rabs_mult, abs_IZR. pose proof (abs_cos (IZR k1 * x + IZR k2 * y + IZR m * w)). pose proof (Rabs_pos (IZR c)). nra.
Qed.
Definition gx (i : Z) : R := 2 * PI / 64 * IZR i.
Lemma sin_index j : sin (2 * PI / 64 * IZR j) = cos (2 * PI / 64 * IZR (j - 16)).
Proof. rewrite minus_IZR. replace (2 * PI / 64 * (IZR j - 16)) with (- (PI / 2 - 2 * PI / 64 * IZR j)) by field. rewrite cos_neg, cos_shift. reflexivity. Qed.
Lemma tsum_grid l i j w : simple l = true ->
  Rabs (tsum l (gx i) (gx j) w * 1048576 - (IZR (gP i j l) + IZR (gQ i j l) * cos w + IZR (gR i j l) * sin w)) <= 2 * IZR (amp l).
Proof.
  unfold tsum, amp, gP, gQ, gR, simple. induction l as [|[[[c k1] k2] m] l IH]; cbn [map fold_right forallb]; intros S; [rewrite Rabs_right; lra|].
  apply andb_true_iff in S. destruct S as [Sm S]. specialize (IH S). apply Z.leb_le in Sm. rewrite !plus_IZR.
  set (s := fold_right Rplus 0 (map (tval (gx i) (gx j) w) l)) in *. set (P := fold_right Z.add 0%Z _) in *. set (Q := fold_right Z.add 0%Z (map (fun t : tterm => let '(c, k1, k2, m) := t in if (m =? 0)%Z then 0%Z else (c * cz (k1 * i + k2 * j))%Z) l)) in *. set (Rr := fold_right Z.add 0%Z (map (fun t : tterm => let '(c, k1, k2, m) := t in if (m =? 0)%Z then 0%Z else (- c * m * cz (k1 * i + k2 * j - 16))%Z) l)) in *.
  set (A := fold_right Z.add 0%Z (map (fun t : tterm => let '(c, _, _, _) := t in Z.abs c) l)) in *. clearbody s P Q Rr A.
  set (n := (k1 * i + k2 * j)%Z). assert (En : IZR k1 * gx i + IZR k2 * gx j = 2 * PI / 64 * IZR n) by (unfold gx, n; rewrite plus_IZR, !mult_IZR; ring).
  unfold tval. rewrite En. pose proof (cz_ok n) as C. pose proof (cz_ok (n - 16)) as D. rewrite <- sin_index in D. set (a := 2 * PI / 64 * IZR n) in *.
  assert (T : Rabs (IZR c * cos (a + IZR m * w) * 1048576 - (IZR (if (m =? 0)%Z then (c * cz n)%Z else 0%Z) + IZR (if (m =? 0)%Z then 0%Z else (c * cz n)%Z) * cos w + IZR (if (m =? 0)%Z then 0%Z else (- c * m * cz (n - 16))%Z) * sin w)) <= 2 * IZR (Z.abs c)).
  { rewrite abs_IZR. pose proof (abs_cos w) as Cw. pose proof (abs_sin w) as Sw. pose proof (Rabs_pos (IZR c)) as Pc. set (C' := cos a - IZR (cz n) / 1048576) in *. set (D' := sin a - IZR (cz (n - 16)) / 1048576) in *.
    destruct (Z.eqb_spec m 0) as [->|Nm].
    - replace (IZR c * cos (a + 0 * w) * 1048576 - _) with (IZR c * (C' * 1048576)) by (rewrite Rmult_0_l, Rplus_0_r, mult_IZR; unfold C'; field). rewrite !Rabs_mult, (Rabs_pos_eq 1048576) by lra. nra.
    - assert (cos (a + IZR m * w) = cos a * cos w - IZR m * sin a * sin w) as ->.
      { assert (m = 1 \/ m = -1)%Z as [->| ->] by lia; [rewrite Rmult_1_l, cos_plus; ring|]. replace (a + -1 * w) with (a - w) by ring. rewrite cos_minus. ring. }
      assert (Hm : Rabs (IZR m) <= 1) by (rewrite <- abs_IZR; apply (IZR_le _ 1); lia).
      replace (IZR c * (cos a * cos w - IZR m * sin a * sin w) * 1048576 - _) with (IZR c * (C' * 1048576 * cos w - IZR m * (D' * 1048576) * sin w)) by (rewrite !mult_IZR, opp_IZR; unfold C', D'; field).
      rewrite Rabs_mult, (Rmult_comm 2). apply Rmult_le_compat_l; [exact Pc|]. eapply Rle_trans; [apply Rabs_triang|]. rewrite Rabs_Ropp, !Rabs_mult, (Rabs_pos_eq 1048576) by lra.
      pose proof (Rabs_pos C'). pose proof (Rabs_pos D'). pose proof (Rabs_pos (cos w)). pose proof (Rabs_pos (sin w)). pose proof (Rabs_pos (IZR m)).
      assert (Rabs C' * 1048576 * Rabs (cos w) <= 1). { assert (Rabs C' * 1048576 <= 1) by lra. assert (0 <= Rabs C' * 1048576) by lra. nra. }
      assert (Rabs (IZR m) * (Rabs D' * 1048576) * Rabs (sin w) <= 1). { assert (Rabs D' * 1048576 <= 1) by lra. assert (0 <= Rabs D' * 1048576) by lra. assert (0 <= Rabs (IZR m) * (Rabs D' * 1048576) <= 1) by (split; nra). nra. } lra. }
  match goal with |- Rabs ?z <= _ => match type of T with Rabs ?z1 <= _ => match type of IH with Rabs ?z2 <= _ => replace z with (z1 + z2) by ring end end end.
  eapply Rle_trans; [apply Rabs_triang|]. lra.
Qed.
Lemma grid_bound l G i j w : check l G = true -> tsum l (gx i) (gx j) w <= IZR G.
Proof.
  intros Ck. unfold check in Ck. apply andb_true_iff in Ck. destruct Ck as [S Ck].
  assert (Em : tsum l (gx i) (gx j) w = tsum l (gx (i mod 64)) (gx (j mod 64)) w).
  { unfold tsum. f_equal. apply map_ext. intros [[[c k1] k2] m]. unfold tval. f_equal.
    replace (IZR k1 * gx i + IZR k2 * gx j + IZR m * w) with (IZR k1 * gx (i mod 64) + IZR k2 * gx (j mod 64) + IZR m * w + IZR (k1 * (i / 64) + k2 * (j / 64)) * (2 * PI)); [apply cos_Z|].
    unfold gx. pose proof (Z.div_mod i 64 ltac:(lia)) as E1. pose proof (Z.div_mod j 64 ltac:(lia)) as E2. apply (f_equal IZR) in E1, E2. rewrite plus_IZR, mult_IZR in E1, E2. rewrite E1, E2. rewrite plus_IZR, !mult_IZR. field. }
  rewrite Em. pose proof (Z.mod_pos_bound i 64 ltac:(lia)) as Hi. pose proof (Z.mod_pos_bound j 64 ltac:(lia)) as Hj. set (i' := (i mod 64)%Z) in *. set (j' := (j mod 64)%Z) in *. clearbody i' j'.
  rewrite forallb_forall in Ck. specialize (Ck (Z.to_nat i') ltac:(apply in_seq; lia)). rewrite forallb_forall in Ck. specialize (Ck (Z.to_nat j') ltac:(apply in_seq; lia)). rewrite !Z2Nat.id in Ck by lia.
  unfold check_point in Ck. cbv zeta in Ck. apply andb_true_iff in Ck. destruct Ck as [C1 C2]. apply Z.leb_le in C1, C2.
  pose proof (tsum_grid l i' j' w S) as T. apply abs_le_inv in T. apply IZR_le in C1, C2. rewrite plus_IZR, !mult_IZR in C2. set (p := (G * 1048576 - gP i' j' l - 2 * amp l)%Z) in *. assert (Ep : IZR p = IZR G * 1048576 - IZR (gP i' j' l) - 2 * IZR (amp l)) by (unfold p; rewrite !minus_IZR, !mult_IZR; reflexivity). clearbody p.
  set (q := IZR (gQ i' j' l)) in *. set (r := IZR (gR i' j' l)) in *. pose proof (sin2_cos2 w) as SC1. unfold Rsqr in SC1.
  assert (K : q * cos w + r * sin w <= IZR p).
  { destruct (Rle_dec (q * cos w + r * sin w) (IZR p)) as [L|L]; [exact L|exfalso]. set (s := sin w) in *. set (c := cos w) in *. clearbody s c q r. clear - L C1 C2 SC1.
    assert (H1 : (q * c + r * s) * (q * c + r * s) + (q * s - r * c) * (q * s - r * c) = q * q + r * r) by (transitivity ((q * q + r * r) * (s * s + c * c)); [ring|rewrite SC1; ring]).
    assert (0 <= (q * s - r * c) * (q * s - r * c)) by apply Rle_0_sqr. nra. }
  apply Rmult_le_reg_r with 1048576; [lra|]. lra.
Qed.
(** The value at a point in terms of those at two points symmetric to it. *)
Lemma tsum_sym l x y w d e h : Rabs d <= h -> Rabs e <= h ->
  Rabs (tsum l x y w - (tsum l (x + d) (y + e) w + tsum l (x - d) (y - e) w) / 2) <= IZR (curv l) * (h * h) / 2.
Proof.
  intros Hd He. unfold tsum, curv. induction l as [|[[[c k1] k2] m] l IH]; cbn [map fold_right]; [rewrite Rabs_right; lra|].
  set (s0 := fold_right Rplus 0 (map (tval x y w) l)) in *. set (s1 := fold_right Rplus 0 (map (tval (x + d) (y + e) w) l)) in *. set (s2 := fold_right Rplus 0 (map (tval (x - d) (y - e) w) l)) in *. set (K := fold_right Z.add 0%Z _) in *. clearbody s0 s1 s2 K.
  unfold tval. set (a := IZR k1 * x + IZR k2 * y + IZR m * w). set (b := IZR k1 * d + IZR k2 * e).
  replace (IZR k1 * (x + d) + IZR k2 * (y + e) + IZR m * w) with (a + b) by (unfold a, b; ring). replace (IZR k1 * (x - d) + IZR k2 * (y - e) + IZR m * w) with (a - b) by (unfold a, b; ring). rewrite cos_plus, cos_minus.
  match goal with |- Rabs ?z <= _ => replace z with (IZR c * (cos a * (1 - cos b)) + (s0 - (s1 + s2) / 2)) by field end. eapply Rle_trans; [apply Rabs_triang|]. rewrite plus_IZR.
  assert (Hb : Rabs b <= IZR (Z.abs k1 + Z.abs k2) * h). { unfold b. eapply Rle_trans; [apply Rabs_triang|]. rewrite !Rabs_mult, plus_IZR, !abs_IZR. pose proof (Rabs_pos (IZR k1)). pose proof (Rabs_pos (IZR k2)). nra. }
  assert (Hc : 0 <= 1 - cos b <= IZR (Z.abs k1 + Z.abs k2) * IZR (Z.abs k1 + Z.abs k2) * (h * h) / 2).
  { pose proof (cos_lower b). pose proof (COS_bound b). split; [lra|]. assert (b * b <= (IZR (Z.abs k1 + Z.abs k2) * h) * (IZR (Z.abs k1 + Z.abs k2) * h)). { rewrite <- (Rabs_pos_eq (b * b)) by apply Rle_0_sqr. rewrite Rabs_mult. pose proof (Rabs_pos b). apply Rmult_le_compat; lra. } lra. }
  assert (T : Rabs (IZR c * (cos a * (1 - cos b))) <= IZR (Z.abs c * ((Z.abs k1 + Z.abs k2) * (Z.abs k1 + Z.abs k2))) * (h * h) / 2).
  { rewrite !Rabs_mult, (Rabs_pos_eq (1 - cos b)) by lra. rewrite mult_IZR, abs_IZR, mult_IZR. pose proof (Rabs_pos (IZR c)) as Pc. pose proof (abs_cos a). pose proof (Rabs_pos (cos a)). set (kk := IZR (Z.abs k1 + Z.abs k2)) in *.
    replace (Rabs (IZR c) * (kk * kk) * (h * h) / 2) with (Rabs (IZR c) * (kk * kk * (h * h) / 2)) by field. apply Rmult_le_compat_l; [exact Pc|]. nra. }
  lra.
Qed.
Lemma torus_bound l G : check l G = true -> forall x y w, tsum l x y w <= IZR G + IZR (curv l) * (PI / 64 * (PI / 64)).
Proof.
  intros Ck. pose (E := fun v => exists x y w, v = tsum l x y w).
  destruct (completeness E) as [S [U L]].
  - exists (IZR (amp l)). intros v (x & y & w & ->). pose proof (tsum_amp l x y w) as H. apply abs_le_inv in H. lra.
  - exists (tsum l 0 0 0), 0, 0, 0. reflexivity.
  - assert (HS : S <= (IZR G + S) / 2 + IZR (curv l) * (PI / 64 * (PI / 64)) / 2).
    { apply L. intros v (x & y & w & ->). pose proof PI_pos as PP.
      assert (N : forall z, exists i : Z, Rabs (gx i - z) <= PI / 64).
      { intros z. exists (Zfloor (z / (2 * PI / 64) + 1 / 2)). set (t := z / (2 * PI / 64)). pose proof (Zfloor_lb (t + 1 / 2)) as F1. pose proof (Zfloor_ub (t + 1 / 2)) as F2. set (f := IZR (Zfloor (t + 1 / 2))) in *.
        replace (gx _ - z) with (2 * PI / 64 * (f - t)) by (unfold gx, f, t; field; lra). rewrite Rabs_mult, (Rabs_pos_eq (2 * PI / 64)) by lra. assert (Rabs (f - t) <= 1 / 2) by (apply Rabs_le; lra). pose proof (Rabs_pos (f - t)). nra. }
      destruct (N x) as [i Hi]. destruct (N y) as [j Hj]. pose proof (tsum_sym l x y w _ _ _ Hi Hj) as T. replace (x + (gx i - x)) with (gx i) in T by ring. replace (y + (gx j - y)) with (gx j) in T by ring.
      pose proof (grid_bound l G i j w Ck) as B. assert (V : tsum l (x - (gx i - x)) (y - (gx j - y)) w <= S) by (apply U; eexists _, _, _; reflexivity). apply abs_le_inv in T. lra. }
    intros x y w. assert (V : tsum l x y w <= S) by (apply U; eexists _, _, _; reflexivity). lra.
Qed.
