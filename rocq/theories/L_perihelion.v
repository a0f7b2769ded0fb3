(** Mean planetary configurations and the perihelion search. *)
From Coq Require Import ZArith Reals List Lra Lia Bool.
From Flocq Require Import Core.
From Verif Require Import GoFloat GoMath M_base M_precess M_interp M_planetary S_base S_event L_base L_trig L_precess L_interp L_event.
Import ListNotations.
Local Open Scope R_scope.

(** ** planetary *)
Lemma pl_J_nearest y a : 0 < caB a ->
  nearest_event (fun n => caA a + IZR n * caB a) (365.2425 * y + 1721060) (pl_J y a) /\
  Rabs (pl_J y a - (365.2425 * y + 1721060)) <= caB a / 2.
Proof.
  intros HB. set (t := 365.2425 * y + 1721060). set (x := (t - caA a) / caB a).
  assert (ET : t = caA a + x * caB a) by (unfold x; field; lra).
  destruct (snap_nearest 0 x) as [[m Em] Nn]. pose proof (snap_near 0 x) as N. rewrite Rminus_0_r, Rplus_0_r in *.
  assert (EK : pl_k y a = IZR m). { unfold pl_k. fold t. fold x. lra. }
  assert (EJ : pl_J y a - t = (Floor (x + 0.5) - x) * caB a). { unfold pl_J. rewrite EK, ET, Em. ring. }
  rewrite Em, Rplus_0_l in EJ, Nn, N.
  split.
  - split. { exists m. unfold pl_J. now rewrite EK. }
    intros n. rewrite EJ. replace (caA a + IZR n * caB a - t) with ((0 + IZR n - x) * caB a) by (rewrite ET; ring).
    rewrite !Rabs_mult. apply Rmult_le_compat_r; [apply Rabs_pos|]. apply Nn.
  - rewrite EJ, Rabs_mult, (Rabs_right (caB a)) by lra. replace (caB a / 2) with (1 / 2 * caB a) by field. apply Rmult_le_compat_r; lra.
Qed.

Lemma rowH_some T c : c <> [] -> exists v, rowH T c = Some v.
Proof. intros H. exists (poly c T). exact (Horner_poly T c H). Qed.
Fixpoint pairs_ok (rows : list (list R)) : bool :=
  match rows with
  | [] => true
  | (_ :: _) :: (_ :: _) :: rest => pairs_ok rest
  | _ => false
  end.
Lemma sum_loop_some T M rows : pairs_ok rows = true -> forall mm j, exists v, sum_loop T M rows mm j = Some v.
Proof.
  revert rows. fix IH 1. intros [|[|s0 s] [|[|c0 c] rest]] H mm j; try discriminate.
  - now exists j.
  - cbn [sum_loop]. destruct (rowH_some T (s0 :: s)) as [vs ->]; [discriminate|]. destruct (rowH_some T (c0 :: c)) as [vc ->]; [discriminate|].
    cbv zeta. apply IH. exact H.
Qed.
Definition table_ok (c : list (list R)) : bool := match c with (_ :: _) :: rest => pairs_ok rest | _ => false end.
Lemma pl_sum_some T M c : table_ok c = true -> exists v, pl_sum T M c = Some v.
Proof.
  destruct c as [|[|x c0] rest]; try discriminate. intros H. cbn [pl_sum]. destruct (rowH_some T (x :: c0)) as [v ->]; [discriminate|].
  now apply sum_loop_some.
Qed.
Lemma ms_some y a c : table_ok c = true -> exists v, ms y a c = Some v.
Proof. intros H. unfold ms. destruct (pl_sum_some (pl_T y a) (pl_M y a) c H) as [v ->]. eexists. reflexivity. Qed.
Fixpoint npairs_ok (n : nat) (rows : list (list R)) : bool :=
  match n, rows with
  | O, _ => true
  | S n, (_ :: _) :: (_ :: _) :: rest => npairs_ok n rest
  | _, _ => false
  end.
Lemma sumA_loop_some T aa : forall rows j, npairs_ok (length aa) rows = true -> exists v, sumA_loop T aa rows j = Some v.
Proof.
  induction aa as [|a aa IH]; intros rows j H. { now exists j. }
  destruct rows as [|[|s0 s] [|[|c0 c] rest]]; try discriminate. cbn [sumA_loop].
  destruct (rowH_some T (s0 :: s)) as [vs ->]; [discriminate|]. destruct (rowH_some T (c0 :: c)) as [vc ->]; [discriminate|]. apply IH. exact H.
Qed.
Definition tableA_ok (c : list (list R)) (aa : list caa) : bool :=
  let i := (length c - 2 * length aa)%nat in
  negb (length c <? 2 * length aa)%nat && table_ok (firstn i c) && npairs_ok (length aa) (skipn i c).
Lemma msa_some y a c aa : tableA_ok c aa = true -> exists v, msa y a c aa = Some v.
Proof.
  intros H. unfold tableA_ok in H. cbv zeta in H. apply andb_true_iff in H. destruct H as [H H3]. apply andb_true_iff in H. destruct H as [H1 H2].
  unfold msa, sumA. apply negb_true_iff in H1. rewrite H1. cbv zeta.
  destruct (pl_sum_some (pl_T y a) (pl_M y a) _ H2) as [j ->].
  destruct (sumA_loop_some (pl_T y a) aa _ j H3) as [v ->]. eexists. reflexivity.
Qed.
Lemma el_some y a t e : table_ok t = true -> table_ok e = true -> exists v, el y a t e = Some v.
Proof.
  intros H1 H2. unfold el. destruct (pl_sum_some (pl_T y micA) (pl_M y micA) t H1) as [u ->].
  destruct (pl_sum_some (pl_T y micA) (pl_M y micA) e H2) as [v ->]. eexists. reflexivity.
Qed.
Lemma planetary_total y :
  plMercuryInfConj y <> None /\ plMercurySupConj y <> None /\ plVenusInfConj y <> None /\ plMarsOpp y <> None /\
  plJupiterOpp y <> None /\ plSaturnOpp y <> None /\ plSaturnConj y <> None /\ plUranusOpp y <> None /\ plNeptuneOpp y <> None /\
  plMercuryEastElongation y <> None /\ plMercuryWestElongation y <> None /\ plMarsStation2 y <> None.
Proof.
  assert (A : forall a c, table_ok c = true -> ms y a c <> None).
  { intros a c H. destruct (ms_some y a c H) as [v ->]. discriminate. }
  assert (B : forall a c aa, tableA_ok c aa = true -> msa y a c aa <> None).
  { intros a c aa H. destruct (msa_some y a c aa H) as [v ->]. discriminate. }
  assert (C : forall a t e, table_ok t = true -> table_ok e = true -> el y a t e <> None).
  { intros a t e H1 H2. destruct (el_some y a t e H1 H2) as [v ->]. discriminate. }
  repeat split; first [apply A; reflexivity|apply B; reflexivity|apply C; reflexivity].
Qed.

(** ** perihelion: index *)
Lemma pf_nearest x : nearest_index 0 x (pf x).
Proof. pose proof (snap_nearest 0 x) as H. rewrite Rminus_0_r, Rplus_0_r in H. exact H. Qed.
Lemma af_nearest x : nearest_index 0.5 x (af x).
Proof.
  pose proof (snap_nearest 0.5 x) as H. unfold af. replace (x - 0.5 + 0.5) with x in H by ring. exact H.
Qed.

(** ** perihelion: search *)
Section Search.
Variables (r : R -> R) (d : R) (a : bool) (start : R).
Definition on_grid (j : R) : Prop := exists z : Z, j = start + IZR z * d.
Definition strict (u v : R) : Prop := if a then v < u else u < v.
Lemma extreme_strict r0 r1 r2 : extreme a r0 r1 r2 = true <-> strict r1 r0 /\ strict r1 r2.
Proof.
  unfold extreme, strict. destruct a; rewrite andb_true_iff;
    split; intros [A B]; split; try (apply Rlt_bool_true; assumption);
    [revert A|revert B|revert A|revert B]; case Rlt_bool_spec; intros; auto; discriminate.
Qed.
Lemma loop_inv fuel : forall j1 j0' j2' r0' r1' r2', on_grid j1 ->
  ap2a_loop fuel r d a (j1 - d) j1 (j1 + d) (r (j1 - d)) (r j1) (r (j1 + d)) = Some (j0', j2', (r0', r1', r2')) ->
  exists m, on_grid m /\ j0' = m - d /\ j2' = m + d /\ r0' = r (m - d) /\ r1' = r m /\ r2' = r (m + d) /\ strict (r m) (r (m - d)) /\ strict (r m) (r (m + d)).
Proof.
  induction fuel as [|fuel IH]; intros j1 j0' j2' r0' r1' r2' G; cbn [ap2a_loop];
    (destruct (extreme a (r (j1 - d)) (r j1) (r (j1 + d))) eqn:E;
     [intros H; injection H as <- <- <- <- <-; exists j1; apply extreme_strict in E; tauto|]); [discriminate|].
  destruct (Bool.eqb _ a); cbv zeta; intros H.
  - apply (IH (j1 + d)).
    + destruct G as [z ->]. exists (z + 1)%Z. rewrite plus_IZR. ring.
    + replace (j1 + d - d) with j1 by ring. exact H.
  - apply (IH (j1 - d)).
    + destruct G as [z ->]. exists (z - 1)%Z. rewrite minus_IZR. ring.
    + replace (j1 - d + d) with j1 by ring. exact H.
Qed.
End Search.
Lemma extremum_inside (a : bool) (m d r0 r1 r2 : R) : d <> 0 -> strict a r1 r0 -> strict a r1 r2 ->
  exists l x v, NewLen3 (fl := RFlt) (m - d)%R (m + d)%R ([r0; r1; r2] : list R) = Ok l /\ Len3_Extremum (fl := RFlt) l = Ok (x, v) /\
    Rabs (x - m) < Rabs d / 2 /\ (if a then r1 <= v else v <= r1).
Proof.
  intros D S0 S2. unfold NewLen3. cbn [feq RFlt]. rewrite Req_bool_false by (intros E; apply D; assert (X : (m + d)%R = (m - d)%R :> R) by exact E; lra).
  set (A := r1 - r0). set (B := r2 - r1). set (C := B - A).
  assert (HC : C <> 0 /\ Rabs ((A + B) / (-2 * C)) < 1 / 2 /\ (if a then 0 <= (A + B) * (A + B) / (-8 * C) else (A + B) * (A + B) / (-8 * C) <= 0)).
  { assert (SQ : 0 <= (A + B) * (A + B)) by apply Rle_0_sqr. destruct a; unfold strict in S0, S2; cbv beta iota in S0, S2.
    - assert (P : 0 < - C) by (unfold C, A, B; lra). split; [lra|]. split.
      + replace ((A + B) / (-2 * C)) with ((A + B) / 2 * / (- C)) by (field; lra).
        rewrite Rabs_mult, (Rabs_right (/ - C)) by (left; apply Rinv_0_lt_compat; lra).
        apply Rmult_lt_reg_r with (- C); [lra|]. rewrite Rmult_assoc, Rinv_l by lra. rewrite Rmult_1_r. apply Rabs_lt. unfold C, A, B. lra.
      + replace (-8 * C) with (8 * - C) by ring. apply Rmult_le_pos; [exact SQ|]. left. apply Rinv_0_lt_compat. lra.
    - assert (P : 0 < C) by (unfold C, A, B; lra). split; [lra|]. split.
      + replace ((A + B) / (-2 * C)) with (- ((A + B) / 2 * / C)) by (field; lra).
        rewrite Rabs_Ropp, Rabs_mult, (Rabs_right (/ C)) by (left; apply Rinv_0_lt_compat; lra).
        apply Rmult_lt_reg_r with C; [lra|]. rewrite Rmult_assoc, Rinv_l by lra. rewrite Rmult_1_r. apply Rabs_lt. unfold C, A, B. lra.
      + replace ((A + B) * (A + B) / (-8 * C)) with (- ((A + B) * (A + B) / (8 * C))) by (field; lra).
        assert (0 <= (A + B) * (A + B) / (8 * C)); [|lra]. apply Rmult_le_pos; [exact SQ|]. left. apply Rinv_0_lt_compat. lra. }
  destruct HC as [C0 [N V]]. set (n := (A + B) / (-2 * C)) in *.
  exists (mkLen3 (fl := RFlt) (m - d)%R (m + d)%R r0 r1 r2 A B C (A + B)%R (m + d + (m - d))%R (m + d - (m - d))%R).
  exists (m + d * n), (r1 + (A + B) * (A + B) / (-8 * C)).
  split; [reflexivity|]. split; [|split].
  - unfold Len3_Extremum. rcbn.
    replace (0 / 1) with 0 by field. replace (-2 / 1) with (-2) by field. replace (-1 / 1) with (-1) by field.
    replace (1 / 1) with 1 by field. replace (8 / 1) with 8 by field. fold n. apply Rabs_lt_inv in N.
    rewrite Req_bool_false by exact C0. rewrite Rlt_bool_false by lra. rewrite Rlt_bool_false by lra. cbn [orb]. f_equal. f_equal; toR; field; lra.
  - replace (m + d * n - m) with (d * n) by ring.
    rewrite Rabs_mult. replace (Rabs d / 2) with (Rabs d * (1 / 2)) by field. apply Rmult_lt_compat_l; [now apply Rabs_pos_lt|exact N].
  - destruct a; lra.
Qed.

Lemma ap2a_result fuel r j1 d a : d <> 0 ->
  ap2a fuel r j1 d a = Running \/
  exists m x v, ap2a fuel r j1 d a = Found (x, v) /\ (exists z : Z, m = j1 + IZR z * d) /\
    strict a (r m) (r (m - d)) /\ strict a (r m) (r (m + d)) /\ Rabs (x - m) < Rabs d / 2 /\ (if a then r m <= v else v <= r m).
Proof.
  intros D. unfold ap2a. cbv zeta. destruct (ap2a_loop _ _ _ _ _ _ _ _ _ _) as [[[j0' j2'] [[r0' r1'] r2']]|] eqn:E; [|now left]. right.
  apply (loop_inv r d a j1) in E; [|exists 0%Z; ring].
  destruct E as [m [G [-> [-> [-> [-> [-> [S0 S2]]]]]]]].
  destruct (extremum_inside a m d _ _ _ D S0 S2) as [l [x [v [E1 [E2 [E3 E4]]]]]].
  exists m, x, v. split; [|now repeat split].
  change (match NewLen3 (fl := RFlt) (m - d)%R (m + d)%R ([r (m - d)%R; r m; r (m + d)%R] : list R) with Err _ => Panicked | Ok l => match Len3_Extremum l with Err _ => Panicked | Ok (x, y) => Found (x, y) end end = Found (x, v)).
  rewrite E1, E2. reflexivity.
Qed.

(** With a step of zero the search never ends. *)
Lemma ap2a_zero fuel r j1 a : ap2a fuel r j1 0 a = Running.
Proof.
  unfold ap2a. cbv zeta. rewrite Rminus_0_r, Rplus_0_r.
  replace (ap2a_loop fuel r 0 a j1 j1 j1 (r j1) (r j1) (r j1)) with (@None (R * R * (R * R * R))); [reflexivity|].
  symmetry. induction fuel as [|fuel IH]; cbn [ap2a_loop].
  - replace (extreme a (r j1) (r j1) (r j1)) with false; [reflexivity|]. unfold extreme. rewrite Rlt_bool_false by lra. now destruct a.
  - replace (extreme a (r j1) (r j1) (r j1)) with false by (unfold extreme; rewrite Rlt_bool_false by lra; now destruct a).
    cbv zeta. rewrite Rminus_0_r, Rplus_0_r. destruct (Bool.eqb _ _); exact IH.
Qed.
(** Two equal greatest samples: the search steps back and forth forever. *)
Lemma ap2a_tie fuel (r : R -> R) j1 d : r (j1 - d) < r j1 -> r (j1 + d) = r j1 -> r (j1 + 2 * d) < r j1 ->
  ap2a fuel r j1 d true = Running.
Proof.
  intros H0 H1 H2. unfold ap2a. cbv zeta.
  assert (G : forall n, ap2a_loop n r d true (j1 - d) j1 (j1 + d) (r (j1 - d)) (r j1) (r (j1 + d)) = None /\
    ap2a_loop n r d true j1 (j1 + d) (j1 + 2 * d) (r j1) (r (j1 + d)) (r (j1 + 2 * d)) = None).
  { induction n as [|n [IH1 IH2]]; cbn [ap2a_loop].
    - unfold extreme. rewrite H1. rewrite (Rlt_bool_false (r j1) (r j1)) by lra. rewrite andb_false_r. now split.
    - unfold extreme. rewrite H1 in *. rewrite (Rlt_bool_false (r j1) (r j1)) by lra. rewrite andb_false_r. cbn [andb].
      rewrite (Rlt_bool_true (r (j1 - d)) (r j1)) by lra. rewrite (Rlt_bool_false (r j1) (r (j1 + 2 * d))) by lra. cbn [Bool.eqb]. cbv zeta.
      replace (j1 + d + d) with (j1 + 2 * d) by ring. split; [exact IH2|exact IH1]. }
  destruct (G fuel) as [-> _]. reflexivity.
Qed.
Lemma ap2a_tie_min fuel (r : R -> R) j1 d : r j1 < r (j1 - d) -> r (j1 + d) = r j1 -> r j1 < r (j1 + 2 * d) ->
  ap2a fuel r j1 d false = Running.
Proof.
  intros H0 H1 H2. unfold ap2a. cbv zeta.
  assert (G : forall n, ap2a_loop n r d false (j1 - d) j1 (j1 + d) (r (j1 - d)) (r j1) (r (j1 + d)) = None /\
    ap2a_loop n r d false j1 (j1 + d) (j1 + 2 * d) (r j1) (r (j1 + d)) (r (j1 + 2 * d)) = None).
  { induction n as [|n [IH1 IH2]]; cbn [ap2a_loop].
    - unfold extreme. rewrite H1. rewrite (Rlt_bool_false (r j1) (r j1)) by lra. rewrite andb_false_r. now split.
    - unfold extreme. rewrite H1 in *. rewrite (Rlt_bool_false (r j1) (r j1)) by lra. rewrite andb_false_r. cbn [andb].
      rewrite (Rlt_bool_false (r (j1 - d)) (r j1)) by lra. rewrite (Rlt_bool_true (r j1) (r (j1 + 2 * d))) by lra. cbn [Bool.eqb]. cbv zeta.
      replace (j1 + d + d) with (j1 + 2 * d) by ring. split; [exact IH2|exact IH1]. }
  destruct (G fuel) as [-> _]. reflexivity.
Qed.

(** ** The search ends on a curve with one extremum and no ties on the grid *)
Section Unimodal.
Variables (r : R -> R) (d c : R) (a : bool).
Hypothesis Hd : 0 < d.
Hypothesis Hup : forall x y, x < y -> y <= c -> strict a (r y) (r x).
Hypothesis Hdown : forall x y, c <= x -> x < y -> strict a (r x) (r y).
Lemma strict_asym u v : strict a u v -> ~ strict a v u.
Proof. unfold strict. destruct a; lra. Qed.
Lemma strict_trans u v w : strict a u v -> strict a v w -> strict a u w.
Proof. unfold strict. destruct a; lra. Qed.
Lemma strict_or u v : u <> v -> strict a u v \/ strict a v u.
Proof. unfold strict. destruct a; intros H; destruct (Rtotal_order u v) as [L|[L|L]]; auto; contradiction. Qed.
Lemma move r0 r2 : r0 <> r2 -> Bool.eqb (Rlt_bool r0 r2) a = true <-> strict a r2 r0.
Proof.
  intros N. unfold strict. case Rlt_bool_spec; intros L; destruct a; cbn; split; intros H; try discriminate; try reflexivity; try assumption; lra.
Qed.
Variable j1 : R.
Hypothesis Hties : forall z : Z, r (j1 + IZR z * d) <> r (j1 + IZR (z + 1) * d).
Lemma no_tie j : on_grid d j1 j -> r j <> r (j + d).
Proof. intros [z ->]. pose proof (Hties z) as H. rewrite plus_IZR in H. replace (j1 + IZR z * d + d) with (j1 + (IZR z + 1) * d) by ring. exact H. Qed.
Lemma grid_next j : on_grid d j1 j -> on_grid d j1 (j + d) /\ on_grid d j1 (j - d).
Proof. intros [z ->]. split; [exists (z + 1)%Z; rewrite plus_IZR; ring|exists (z - 1)%Z; rewrite minus_IZR; ring]. Qed.
Lemma right_ends n : forall j, on_grid d j1 j -> c < j + INR n * d -> strict a (r j) (r (j - d)) ->
  ap2a_loop n r d a (j - d) j (j + d) (r (j - d)) (r j) (r (j + d)) <> None.
Proof.
  induction n as [|n IH]; intros j G B S0; cbn [ap2a_loop];
    (destruct (extreme a (r (j - d)) (r j) (r (j + d))) eqn:E; [discriminate|]).
  - exfalso. assert (S2 : strict a (r j) (r (j + d))) by (apply Hdown; cbn in B; lra).
    assert (extreme a (r (j - d)) (r j) (r (j + d)) = true) by now apply extreme_strict. congruence.
  - destruct (strict_or _ _ (no_tie j G)) as [S2|S2].
    { assert (extreme a (r (j - d)) (r j) (r (j + d)) = true) by now apply extreme_strict. congruence. }
    pose proof (strict_trans _ _ _ S2 S0) as S02.
    rewrite (proj2 (move (r (j - d)) (r (j + d)) ltac:(intros X; rewrite X in S02; apply (strict_asym _ _ S02); exact S02)) S02). cbv zeta.
    pose proof (IH (j + d) (proj1 (grid_next j G))) as K. replace (j + d - d) with j in K by ring. apply K; [|exact S2].
    rewrite S_INR in B. lra.
Qed.
Lemma left_ends n : forall j, on_grid d j1 j -> j - INR n * d < c -> strict a (r j) (r (j + d)) ->
  ap2a_loop n r d a (j - d) j (j + d) (r (j - d)) (r j) (r (j + d)) <> None.
Proof.
  induction n as [|n IH]; intros j G B S2; cbn [ap2a_loop];
    (destruct (extreme a (r (j - d)) (r j) (r (j + d))) eqn:E; [discriminate|]).
  - exfalso. assert (S0 : strict a (r j) (r (j - d))) by (apply Hup; cbn in B; lra).
    assert (extreme a (r (j - d)) (r j) (r (j + d)) = true) by now apply extreme_strict. congruence.
  - pose proof (no_tie (j - d) (proj2 (grid_next j G))) as NT. replace (j - d + d) with j in NT by ring.
    destruct (strict_or _ _ NT) as [S0|S0].
    2:{ assert (extreme a (r (j - d)) (r j) (r (j + d)) = true) by now apply extreme_strict. congruence. }
    pose proof (strict_trans _ _ _ S0 S2) as S02.
    assert (NE : r (j - d) <> r (j + d)) by (intros X; rewrite X in S02; apply (strict_asym _ _ S02); exact S02).
    assert (MV : Bool.eqb (Rlt_bool (r (j - d)) (r (j + d))) a = false).
    { destruct (Bool.eqb _ a) eqn:X; [|reflexivity]. apply (move _ _ NE) in X. exfalso. exact (strict_asym _ _ X S02). }
    rewrite MV. cbv zeta.
    pose proof (IH (j - d) (proj2 (grid_next j G))) as K. replace (j - d + d) with j in K by ring. apply K; [|exact S0].
    rewrite S_INR in B. lra.
Qed.
Lemma unimodal_ends n : Rabs (c - j1) < INR n * d -> ap2a n r j1 d a <> Running.
Proof.
  intros B. assert (G0 : on_grid d j1 j1) by (exists 0%Z; ring). apply Rabs_lt_inv in B.
  assert (L : ap2a_loop n r d a (j1 - d) j1 (j1 + d) (r (j1 - d)) (r j1) (r (j1 + d)) <> None).
  { pose proof (no_tie (j1 - d) (proj2 (grid_next j1 G0))) as NT. replace (j1 - d + d) with j1 in NT by ring.
    destruct (strict_or _ _ NT) as [S0|S0].
    - apply left_ends; [exact G0|lra|]. apply Hdown; [|lra]. destruct (Rle_lt_dec c j1) as [C|C]; [exact C|].
      exfalso. apply (strict_asym _ _ S0). apply Hup; lra.
    - apply right_ends; [exact G0|lra|exact S0]. }
  unfold ap2a. cbv zeta. destruct (ap2a_loop _ _ _ _ _ _ _ _ _ _) as [[[j0' j2'] [[r0' r1'] r2']]|]; [|congruence].
  destruct (NewLen3 _ _ _) as [l|e]; [|discriminate]. destruct (Len3_Extremum l) as [[x y]|e]; discriminate.
Qed.
End Unimodal.

(** ** No panic *)
Lemma ap2a_no_panic fuel r j1 d a : ap2a fuel r j1 d a <> Panicked.
Proof.
  destruct (Req_dec d 0) as [->|D]. { rewrite ap2a_zero. discriminate. }
  destruct (ap2a_result fuel r j1 d a D) as [->|[m [x [v [-> _]]]]]; discriminate.
Qed.
Lemma ap2_no_panic fuel p y d r : Perihelion2 fuel p y d r <> Panicked /\ Aphelion2 fuel p y d r <> Panicked.
Proof.
  assert (K : forall a f, ap2 fuel p y d r a f <> Panicked).
  { intros a f. unfold ap2. cbv zeta. destruct p; try apply ap2a_no_panic.
    pose proof (ap2a_no_panic fuel r (pe_ap Neptune y a f - 5000) d a) as A. pose proof (ap2a_no_panic fuel r (pe_ap Neptune y a f + 5000) d a) as B.
    destruct (ap2a _ _ _ _ _) as [| |[j0 r0]]; [|contradiction|]; (destruct (ap2a _ _ _ _ _) as [| |[j2 r2]]; [|contradiction|]); try discriminate; destruct (Bool.eqb _ _); discriminate. }
  split; apply K.
Qed.
Lemma ap2a_found fuel r j d a x v : d <> 0 -> ap2a fuel r j d a = Found (x, v) -> extremum_near a r d j x v.
Proof. intros D E. destruct (ap2a_result fuel r j d a D) as [K|[m [x' [v' [K R0]]]]]; [congruence|]. rewrite K in E. injection E as -> ->. exists m. exact R0. Qed.
Lemma Perihelion2_found fuel p y d r x v : p <> Neptune -> d <> 0 ->
  (Perihelion2 fuel p y d r = Found (x, v) -> extremum_near false r d (Perihelion p y) x v) /\
  (Aphelion2 fuel p y d r = Found (x, v) -> extremum_near true r d (Aphelion p y) x v).
Proof.
  intros N D. unfold Perihelion2, Aphelion2, ap2, Perihelion, Aphelion. cbv zeta. split; intros E; destruct p; try congruence; apply (ap2a_found fuel _ _ _ _ _ _ D E).
Qed.
Lemma ap2_neptune fuel y d r a f x v : d <> 0 -> ap2 fuel Neptune y d r a f = Found (x, v) ->
  exists x1 v1 x2 v2, extremum_near a r d (pe_ap Neptune y a f - 5000) x1 v1 /\ extremum_near a r d (pe_ap Neptune y a f + 5000) x2 v2 /\
    ((x, v) = (x1, v1) \/ (x, v) = (x2, v2)) /\ (if a then v1 <= v /\ v2 <= v else v <= v1 /\ v <= v2).
Proof.
  intros D. unfold ap2. cbv zeta. destruct (ap2a _ _ _ _ _) as [| |[x1 v1]] eqn:E1; try discriminate; destruct (ap2a _ _ (_ + _) _ _) as [| |[x2 v2]] eqn:E2; try discriminate. intros E.
  exists x1, v1, x2, v2. split; [exact (ap2a_found _ _ _ _ _ _ _ D E1)|]. split; [exact (ap2a_found _ _ _ _ _ _ _ D E2)|].
  revert E. case Rlt_bool_spec; intros L; destruct a; cbn [Bool.eqb]; intros E; injection E as <- <-; (split; [auto|lra]).
Qed.
Lemma Neptune_found fuel y d r x v : d <> 0 ->
  (Perihelion2 fuel Neptune y d r = Found (x, v) ->
    exists x1 v1 x2 v2, extremum_near false r d (Perihelion Neptune y - 5000) x1 v1 /\ extremum_near false r d (Perihelion Neptune y + 5000) x2 v2 /\
      ((x, v) = (x1, v1) \/ (x, v) = (x2, v2)) /\ v <= v1 /\ v <= v2) /\
  (Aphelion2 fuel Neptune y d r = Found (x, v) ->
    exists x1 v1 x2 v2, extremum_near true r d (Aphelion Neptune y - 5000) x1 v1 /\ extremum_near true r d (Aphelion Neptune y + 5000) x2 v2 /\
      ((x, v) = (x1, v1) \/ (x, v) = (x2, v2)) /\ v1 <= v /\ v2 <= v).
Proof. intros D. split; intros E; exact (ap2_neptune fuel y d r _ _ x v D E). Qed.
