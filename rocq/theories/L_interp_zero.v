(** Lemmas for the iterative parts of package interp: Zero and Len5.Extremum. *)
From Coq Require Import ZArith Bool List Reals Lra Lia.
From Flocq Require Import Core.
From Verif Require Import GoInt GoFloat M_base M_interp S_base S_interp L_base L_interp.
Import ListNotations.
Local Open Scope R_scope.

Ltac xcbn := cbn -[IZR Rabs Rlt_bool Rle_bool Req_bool poly abscissa between].

Local Arguments Len3_InterpolateX : simpl never.
Local Arguments Len5_InterpolateX : simpl never.
Local Arguments Len5_InterpolateN : simpl never.

Lemma xdiv_fin a b r : xdiv (Fin a) (Fin b) = Fin r -> b <> 0 /\ r = a / b.
Proof.
  cbn. case Req_bool_spec; intros E.
  - destruct (Req_bool a 0); discriminate.
  - intros H. injection H as <-. auto.
Qed.

Lemma iterate_Some f fuel : forall a n, iterate_loop (fl := XFlt) (Fin a) f fuel = Some n ->
  exists a' b, n = Fin b /\ f (Fin a') = Fin b /\ a' <> 0 /\ Rabs (b - a') < 1 / 1000000000000000 * Rabs a'.
Proof.
  induction fuel as [|fuel IH]; intros a n; cbn [iterate_loop]; [discriminate|].
  destruct (f (Fin a)) as [b|s| ] eqn:E; cbn [ffin XFlt negb]; try discriminate.
  cbn -[iterate_loop xdiv xlt IZR]. change (xadd (Fin b) (Fin (- a))) with (Fin (b + - a)).
  destruct (xdiv (Fin (b + - a)) (Fin a)) as [q|s| ] eqn:Q.
  - apply xdiv_fin in Q. destruct Q as [Ha Hq]. cbn [xabs xlt]. case Rlt_bool_spec; intros L.
    + intros H. injection H as <-. exists a, b. repeat split; auto.
      assert (P : 0 < Rabs a) by (apply Rabs_pos_lt; auto).
      subst q. unfold Rdiv in L at 1. rewrite Rabs_mult, Rabs_inv in L.
      apply Rmult_lt_reg_r with (/ Rabs a); [apply Rinv_0_lt_compat; auto|].
      replace (1 / 1000000000000000 * Rabs a * / Rabs a) with (1 / 1000000000000000) by (field; lra).
      exact L.
    + intros H. apply (IH _ _ H).
  - cbn [xabs xlt negb]. intros H. apply (IH _ _ H).
  - cbn [xabs xlt]. intros H. apply (IH _ _ H).
Qed.

(** Once at zero with a step that stays there, the relative test never passes. *)
Lemma iterate_stuck f fuel : (f (Fin 0) = Fin 0 \/ ffin (Flt := XFlt) (f (Fin 0)) = false) ->
  iterate_loop (fl := XFlt) (Fin 0) f fuel = None.
Proof.
  intros H. induction fuel as [|fuel IH]; cbn [iterate_loop]; [reflexivity|].
  destruct H as [H|H].
  - rewrite H. cbn -[iterate_loop xdiv xlt IZR].
    change (xadd (Fin 0) (Fin (- 0))) with (Fin (0 + - 0)).
    unfold xdiv. rewrite Req_bool_true by reflexivity. rewrite Req_bool_true by ring. exact IH.
  - rewrite H. reflexivity.
Qed.

Lemma prev_bound a b B : 0 <= B -> Rabs b <= B -> Rabs (b - a) < 1 / 1000000000000000 * Rabs a ->
  Rabs a <= B * (1 + 1 / 100000000000000) /\ Rabs (b - a) <= B * (11 / 10000000000000000).
Proof.
  intros HB Hb H.
  assert (T : Rabs a <= Rabs b + Rabs (b - a)).
  { replace a with (b - (b - a)) at 1 by ring. eapply Rle_trans; [apply Rabs_triang|]. rewrite Rabs_Ropp. lra. }
  split; lra.
Qed.

Lemma NewLen3_X x1 x3 y dx : NewLen3 (fl := XFlt) (Fin x1) (Fin x3) (map Fin y) = Ok dx ->
  x1 <> x3 /\ exists y0 y1 y2, y = [y0; y1; y2] /\
  dx = mkLen3 (fl := XFlt) (Fin x1) (Fin x3) (Fin y0) (Fin y1) (Fin y2)
        (Fin (y1 + - y0)) (Fin (y2 + - y1)) (Fin (y2 + - y1 + - (y1 + - y0)))
        (Fin (y1 + - y0 + (y2 + - y1))) (Fin (x3 + x1)) (Fin (x3 + - x1)).
Proof.
  unfold NewLen3. destruct y as [|y0 [|y1 [|y2 [|? ?]]]]; try discriminate.
  xcbn. case Req_bool_spec; intros E; [discriminate|].
  intros H. injection H as <-. split; [congruence|]. exists y0, y1, y2. split; reflexivity.
Qed.

Lemma abs3 a b c A B C k0 k1 k2 : Rabs a <= A -> Rabs b <= B -> Rabs c <= C -> 0 <= k0 -> 0 <= k1 -> 0 <= k2 ->
  Rabs (k0 * a + k1 * b + k2 * c) <= k0 * A + k1 * B + k2 * C.
Proof.
  intros. apply Rabs_le. apply Rabs_le_inv in H, H0, H1. split; nra.
Qed.

Lemma Len3_Zero_ok x1 x3 y dx d strong x Y :
  NewLen3 (fl := XFlt) (Fin x1) (Fin x3) (map Fin y) = Ok dx ->
  NewLen3 (fl := RFlt) x1 x3 y = Ok d ->
  (forall v, In v y -> Rabs v <= Y) ->
  Len3_Zero (fl := XFlt) dx strong = Ok x ->
  exists r, x = Fin r /\ between x1 x3 r /\
    Rabs (Len3_InterpolateX (fl := RFlt) d r) <= 1 / 100000000000000 * Y.
Proof.
  intros Hdx Hd HY. destruct (NewLen3_X _ _ _ _ Hdx) as [Hx [y0 [y1 [y2 [-> ->]]]]].
  unfold Len3_Zero, iterate.
  destruct (iterate_loop _ _ _) as [n|] eqn:E; [|discriminate].
  apply iterate_Some in E. destruct E as [a [b [-> [Hs [Ha Hab]]]]].
  xcbn. case Rlt_bool_spec; [discriminate|]; intros B1. case Rlt_bool_spec; [discriminate|]; intros B2.
  cbn [orb]. intros H. injection H as <-. eexists. split; [reflexivity|].
  set (r := 5 / 10 * (x3 + x1 + (x3 + - x1) * b)).
  assert (En : (2 * r - (x3 + x1)) / (x3 - x1) = b) by (unfold r; field; lra).
  split; [apply (between_n _ _ _ _ Hd); rewrite En; lra|].
  rewrite (Len3_curve _ _ _ _ Hd). cbv zeta. rewrite En. cbn [nth].
  assert (Hb : Rabs b <= 1) by (apply Rabs_le; lra).
  assert (Y0 : Rabs y0 <= Y) by (apply HY; cbn; auto).
  assert (Y1 : Rabs y1 <= Y) by (apply HY; cbn; auto).
  assert (Y2 : Rabs y2 <= Y) by (apply HY; cbn; auto).
  destruct (prev_bound a b 1 ltac:(lra) Hb Hab) as [Ba Bd].
  set (c := y2 - 2 * y1 + y0).
  assert (Bc : Rabs c <= 4 * Y).
  { unfold c. apply Rabs_le. apply Rabs_le_inv in Y0, Y1, Y2. lra. }
  set (dl := b - a) in *.
  assert (Key : y1 + b / 2 * (y2 - y0) + b * b / 2 * c = c / 2 * dl * (if strong then dl else b)).
  { destruct strong.
    - revert Hs. unfold Len3_Zero_step. cbn -[IZR xdiv].
      match goal with |- context [xdiv ?p ?q] => destruct (xdiv p q) as [t| | ] eqn:Q; cbn; try discriminate end.
      intros H. injection H as H. apply xdiv_fin in Q. destruct Q as [Qd Qt].
      assert (Et : t = - dl) by (unfold dl; lra). clear H.
      assert (M : t * (y1 + - y0 + (y2 + - y1) + 2 / 1 * (y2 + - y1 + - (y1 + - y0)) * a) =
        2 / 1 * y1 + a * (y1 + - y0 + (y2 + - y1) + (y2 + - y1 + - (y1 + - y0)) * a)).
      { rewrite Qt at 1. field. intros Z. apply Qd. lra. }
      rewrite Et in M. unfold c. replace a with (b - dl) in M by (unfold dl; ring). clearbody dl. lra.
    - revert Hs. unfold Len3_Zero_step. cbn -[IZR xdiv]. intros Q.
      apply xdiv_fin in Q. destruct Q as [Qd Qt].
      assert (M : b * (y1 + - y0 + (y2 + - y1) + (y2 + - y1 + - (y1 + - y0)) * a) = -2 / 1 * y1).
      { rewrite Qt at 1. field. intros Z. apply Qd. lra. }
      unfold c. replace a with (b - dl) in M by (unfold dl; ring). clearbody dl. lra. }
  rewrite Key.
  assert (HY0 : 0 <= Y) by (pose proof (Rabs_pos y0); lra).
  rewrite Rabs_mult, Rabs_mult. unfold Rdiv at 1. rewrite Rabs_mult, (Rabs_right (/ 2)) by lra.
  assert (B3 : Rabs (if strong then dl else b) <= 1).
  { destruct strong; [|exact Hb]. lra. }
  pose proof (Rabs_pos c). pose proof (Rabs_pos dl). pose proof (Rabs_pos (if strong then dl else b)).
  assert (0 <= Rabs c * / 2 * Rabs dl) by nra.
  apply Rle_trans with (Rabs c * / 2 * Rabs dl * 1); [apply Rmult_le_compat_l; auto|].
  assert (Rabs c * Rabs dl <= 4 * Y * (1 * (11 / 10000000000000000))) by (apply Rmult_le_compat; auto).
  lra.
Qed.

Lemma Len3_Zero_middle x1 x3 y0 y2 dx strong :
  NewLen3 (fl := XFlt) (Fin x1) (Fin x3) [Fin y0; Fin 0; Fin y2] = Ok dx ->
  Len3_Zero (fl := XFlt) dx strong = Err ErrorNoConverge.
Proof.
  intros Hdx. destruct (NewLen3_X x1 x3 [y0; 0; y2] _ Hdx) as [Hx [y0' [y1' [y2' [E ->]]]]].
  injection E as <- <- <-. unfold Len3_Zero, iterate.
  replace (fconst (Flt := XFlt) 0 1) with (Fin 0) by (cbn; f_equal; field).
  rewrite iterate_stuck; [reflexivity|].
  unfold Len3_Zero_step. destruct strong; cbn -[IZR].
  - case Req_bool_spec; intros Z.
    + right. rewrite Req_bool_true by ring. reflexivity.
    + left. cbn -[IZR]. f_equal. field. intros Z'. apply Z. lra.
  - case Req_bool_spec; intros Z.
    + right. rewrite Req_bool_true by ring. reflexivity.
    + left. cbn -[IZR]. f_equal. field. intros Z'. apply Z. lra.
Qed.

(** ** Len5 *)
Section L5X.
Variables (y0 y1 y2 y3 y4 : R).
Let b := y2 + - y1. Let c := y3 + - y2.
Let e := b + - (y1 + - y0). Let f := c + - b. Let g := y4 + - y3 + - c.
Let h := f + - e. Let j := g + - f. Let k := j + - h.
Definition xl5 (x1 x5 : R) : Len5 (fl := XFlt) :=
  mkLen5 (fl := XFlt) (Fin x1) (Fin x5) [Fin y0; Fin y1; Fin y2; Fin y3; Fin y4]
   (Fin b) (Fin c) (Fin f) (Fin h) (Fin j) (Fin k) (Fin y2) (Fin (x5 + x1)) (Fin (x5 + - x1))
   [Fin y2; Fin ((b + c) / 2 + - ((h + j) / 12)); Fin (f / 2 + - (k / 24)); Fin ((h + j) / 12); Fin (k / 24)].
End L5X.

Lemma div_cancel n d : d <> 0 -> n / d * d = n.
Proof. intros. field. auto. Qed.

Lemma xdiv_const a n : n <> 0 -> xdiv (Fin a) (Fin n) = Fin (a / n).
Proof. intros H. cbn. now rewrite Req_bool_false. Qed.

(** Evaluate extended-real operations on finite operands. *)
Ltac xall := repeat (cbn [xadd xneg xmul];
  match goal with |- context [xdiv (Fin ?a) (Fin (?p / 1))] =>
    rewrite (xdiv_const a (p / 1)) by lra end); cbn [xadd xneg xmul].

Lemma NewLen5_X x1 x5 y dx : NewLen5 (fl := XFlt) (Fin x1) (Fin x5) (map Fin y) = Ok dx ->
  x1 <> x5 /\ exists y0 y1 y2 y3 y4, y = [y0; y1; y2; y3; y4] /\ dx = xl5 y0 y1 y2 y3 y4 x1 x5.
Proof.
  unfold NewLen5. destruct y as [|y0 [|y1 [|y2 [|y3 [|y4 [|? ?]]]]]]; try discriminate.
  cbn [map]. cbn [feq XFlt xeq]. case Req_bool_spec; intros E; [discriminate|].
  intros H. split; [congruence|]. exists y0, y1, y2, y3, y4. split; [reflexivity|].
  revert H. cbn -[IZR xdiv].
  rewrite !xdiv_const by lra. intros H. injection H as <-. unfold xl5. cbn -[IZR].
  replace (2 / 1) with 2 by field. replace (12 / 1) with 12 by field. replace (24 / 1) with 24 by field.
  reflexivity.
Qed.

Lemma horner_fin n c : c <> [] -> horner (fl := XFlt) (Fin n) (map Fin c) = Fin (horner (fl := RFlt) n c).
Proof.
  intros Hc. unfold horner, Horner. rewrite <- map_rev. change (@rev (@F RFlt) c) with (@rev R c).
  destruct (rev c) as [|a l] eqn:E.
  { apply f_equal with (f := @rev R) in E. rewrite rev_involutive in E. cbn in E. contradiction. }
  cbn [map]. clear - a. revert a. induction l as [|x l IH]; intros a; cbn [map horner_loop]; [reflexivity|].
  cbn [fadd fmul XFlt xadd xmul RFlt]. apply IH.
Qed.

Lemma NewLen5_R x1 x5 (y0 y1 y2 y3 y4 : R) d : NewLen5 (fl := RFlt) x1 x5 [y0; y1; y2; y3; y4] = Ok d ->
  forall n : R, Len5_InterpolateN (fl := RFlt) d n =
     y2 + n * (q1 y0 y1 y2 y3 y4 + n * (q2 y0 y1 y2 y3 y4 + n * (q3 y0 y1 y2 y3 y4 + n * q4 y0 y1 y2 y3 y4))).
Proof.
  intros Hd. destruct (NewLen5_Ok _ _ _ _ Hd) as [_ [z0 [z1 [z2 [z3 [z4 [E [HN _]]]]]]]].
  injection E as <- <- <- <- <-. exact HN.
Qed.

(** Bounds on the coefficients. *)
Lemma q_bounds y0 y1 y2 y3 y4 Y : Rabs y0 <= Y -> Rabs y1 <= Y -> Rabs y2 <= Y -> Rabs y3 <= Y -> Rabs y4 <= Y ->
  Rabs (q2 y0 y1 y2 y3 y4) <= 3 * Y /\ Rabs (q3 y0 y1 y2 y3 y4) <= Y /\ Rabs (q4 y0 y1 y2 y3 y4) <= Y.
Proof.
  intros H0 H1 H2 H3 H4. apply Rabs_le_inv in H0, H1, H2, H3, H4. unfold q2, q3, q4.
  repeat split; apply Rabs_le; lra.
Qed.

(** |P d1 + N d2 + M d3| for bounded coefficients and factors. *)
Lemma sum3_bound P N M P' N' M' u v w U V W :
  Rabs P <= P' -> Rabs N <= N' -> Rabs M <= M' -> Rabs u <= U -> Rabs v <= V -> Rabs w <= W ->
  Rabs (P * u + N * v + M * w) <= P' * U + N' * V + M' * W.
Proof.
  intros. eapply Rle_trans; [apply Rabs_triang|]. eapply Rle_trans.
  { apply Rplus_le_compat_r. apply Rabs_triang. }
  rewrite !Rabs_mult. pose proof (Rabs_pos P). pose proof (Rabs_pos N). pose proof (Rabs_pos M).
  pose proof (Rabs_pos u). pose proof (Rabs_pos v). pose proof (Rabs_pos w).
  repeat apply Rplus_le_compat; apply Rmult_le_compat; auto.
Qed.

Section Powers.
Variables (a b : R).
Hypothesis (Hb : Rabs b <= 2) (Ha : Rabs a <= 2 * (1 + 1 / 100000000000000))
  (Hd : Rabs (b - a) <= 2 * (11 / 10000000000000000)).
Lemma pow_bounds :
  Rabs (b * b - a * a) <= 1 / 100000000000000 /\ Rabs (b * b * b - a * a * a) <= 3 / 100000000000000 /\
  Rabs (b * b * b * b - a * a * a * a) <= 8 / 100000000000000.
Proof.
  assert (S1 : Rabs (b + a) <= 41 / 10).
  { eapply Rle_trans; [apply Rabs_triang|]. lra. }
  assert (Bb : Rabs (b * b) <= 4).
  { rewrite Rabs_mult. pose proof (Rabs_pos b). nra. }
  assert (Ba : Rabs (a * a) <= 41 / 10).
  { rewrite Rabs_mult. pose proof (Rabs_pos a). nra. }
  assert (Bab : Rabs (b * a) <= 41 / 10).
  { rewrite Rabs_mult. pose proof (Rabs_pos a). pose proof (Rabs_pos b). nra. }
  assert (S2 : Rabs (b * b + b * a + a * a) <= 122 / 10).
  { eapply Rle_trans; [apply Rabs_triang|]. pose proof (Rabs_triang (b * b) (b * a)). lra. }
  assert (S3 : Rabs (b * b + a * a) <= 81 / 10).
  { eapply Rle_trans; [apply Rabs_triang|]. lra. }
  pose proof (Rabs_pos (b - a)). pose proof (Rabs_pos (b + a)).
  pose proof (Rabs_pos (b * b + b * a + a * a)). pose proof (Rabs_pos (b * b + a * a)).
  assert (D1 : Rabs (b * b - a * a) <= 2 * (11 / 10000000000000000) * (41 / 10)).
  { replace (b * b - a * a) with ((b - a) * (b + a)) by ring. rewrite Rabs_mult. apply Rmult_le_compat; auto. }
  repeat split.
  - lra.
  - replace (b * b * b - a * a * a) with ((b - a) * (b * b + b * a + a * a)) by ring. rewrite Rabs_mult.
    assert (Rabs (b - a) * Rabs (b * b + b * a + a * a) <= 2 * (11 / 10000000000000000) * (122 / 10))
      by (apply Rmult_le_compat; auto). lra.
  - replace (b * b * b * b - a * a * a * a) with ((b * b - a * a) * (b * b + a * a)) by ring. rewrite Rabs_mult.
    pose proof (Rabs_pos (b * b - a * a)).
    assert (Rabs (b * b - a * a) * Rabs (b * b + a * a) <= 2 * (11 / 10000000000000000) * (41 / 10) * (81 / 10))
      by (apply Rmult_le_compat; auto). lra.
Qed.
End Powers.

Lemma between_n5_full x1 x5 b : x1 <> x5 -> -2 <= b <= 2 -> between x1 x5 (5 / 10 * (x5 + x1) + 25 / 100 * (x5 + - x1) * b).
Proof.
  intros Hx Hb. unfold between, Rmin, Rmax. destruct (Rle_dec x1 x5).
  - assert (0 < x5 - x1) by lra. split; nra.
  - assert (0 < x1 - x5) by lra. split; nra.
Qed.

Lemma Len5_Zero_ok x1 x5 y dx d strong x Y :
  NewLen5 (fl := XFlt) (Fin x1) (Fin x5) (map Fin y) = Ok dx ->
  NewLen5 (fl := RFlt) x1 x5 y = Ok d ->
  (forall v, In v y -> Rabs v <= Y) ->
  Len5_Zero (fl := XFlt) dx strong = Ok x ->
  exists r, x = Fin r /\ between x1 x5 r /\
    Rabs (Len5_InterpolateX (fl := RFlt) d r) <= 1 / 1000000000000 * Y.
Proof.
  intros Hdx Hd HY. destruct (NewLen5_X _ _ _ _ Hdx) as [Hx [y0 [y1 [y2 [y3 [y4 [-> ->]]]]]]].
  unfold Len5_Zero, iterate.
  destruct (iterate_loop _ _ _) as [n|] eqn:E; [|discriminate].
  apply iterate_Some in E. destruct E as [a [b [-> [Hs [Ha Hab]]]]].
  cbn -[IZR xl5]. case Rlt_bool_spec; [discriminate|]; intros B1. case Rlt_bool_spec; [discriminate|]; intros B2.
  cbn -[IZR]. intros H. injection H as <-. eexists. split; [reflexivity|].
  split; [apply between_n5_full; [auto|lra]|].
  rewrite (Len5_X_N _ _ _ _ Hd), (NewLen5_R _ _ _ _ _ _ _ _ Hd).
  replace ((4 * (5 / 10 * (x5 + x1) + 25 / 100 * (x5 + - x1) * b) - 2 * (x5 + x1)) / (x5 - x1)) with b by (field; lra).
  assert (Hb : Rabs b <= 2) by (apply Rabs_le; lra).
  assert (Y0 : Rabs y0 <= Y) by (apply HY; cbn; auto).
  assert (Y1 : Rabs y1 <= Y) by (apply HY; cbn; auto).
  assert (Y2 : Rabs y2 <= Y) by (apply HY; cbn; auto).
  assert (Y3 : Rabs y3 <= Y) by (apply HY; cbn; auto).
  assert (Y4 : Rabs y4 <= Y) by (apply HY; cbn; auto 10).
  assert (HY0 : 0 <= Y) by (pose proof (Rabs_pos y0); lra).
  destruct (q_bounds _ _ _ _ _ _ Y0 Y1 Y2 Y3 Y4) as [QP [QN QM]].
  destruct (prev_bound a b 2 ltac:(lra) Hb Hab) as [Ba Bd].
  set (Q := q1 y0 y1 y2 y3 y4). set (P := q2 y0 y1 y2 y3 y4) in *.
  set (N := q3 y0 y1 y2 y3 y4) in *. set (M := q4 y0 y1 y2 y3 y4) in *.
  destruct strong.
  - (* Newton step *)
    assert (Key : (b - a) * (Q + a * (2 * P + a * (3 * N + a * (4 * M)))) = - (y2 + a * (Q + a * (P + a * (N + a * M))))).
    { revert Hs. unfold Len5_Zero_step.
      cbn [xl5 l5_k l5_h l5_j l5_f l5_b l5_c l5_y3]. cbn -[IZR horner xdiv xadd].

      xall.
      match goal with |- context [horner (fl := XFlt) (Fin a) [Fin y2; Fin ?v; Fin ?w; Fin ?p; Fin ?q]] =>
        change [Fin y2; Fin v; Fin w; Fin p; Fin q] with (map Fin [y2; v; w; p; q]) end.
      match goal with |- context [horner (fl := XFlt) (Fin a) [Fin ?v; Fin ?w; Fin ?p; Fin ?q]] =>
        change [Fin v; Fin w; Fin p; Fin q] with (map Fin [v; w; p; q]) end.
      rewrite !horner_fin by discriminate.
      match goal with |- context [xdiv ?p ?q] => destruct (xdiv p q) as [t| | ] eqn:D; cbn [xneg xadd]; try discriminate end.
      intros H. injection H as H. apply xdiv_fin in D. destruct D as [Dn Dt].
      assert (Et : b - a = - t) by lra. rewrite Et.
      match type of Dn with ?x <> 0 => assert (T : t * x = horner (fl := RFlt) a [y2; Q; P; N; M]) end.
      { rewrite Dt at 1.
        rewrite (div_cancel _ _ Dn).
        unfold horner, Horner. cbn -[IZR]. unfold Q, P, N, M, q1, q2, q3, q4. toR. field. }
      clear Dt Dn. revert T. unfold horner, Horner. cbn -[IZR]. intros T.
      transitivity (- (((((M * a + N) * a + P) * a) + Q) * a + y2)); [|ring].
      rewrite <- T. unfold Q, P, N, M, q1, q2, q3, q4. field. }
    set (dl := b - a) in *.
    assert (Eq : y2 + b * (Q + b * (P + b * (N + b * M))) =
       P * (dl * dl) + N * (dl * dl * (3 * a + dl)) + M * (dl * dl * (6 * (a * a) + 4 * (a * dl) + dl * dl))).
    { transitivity (y2 + b * (Q + b * (P + b * (N + b * M))) - ((y2 + a * (Q + a * (P + a * (N + a * M)))) + dl * (Q + a * (2 * P + a * (3 * N + a * (4 * M)))))).
      - rewrite Key. ring.
      - replace b with (a + dl) by (unfold dl; ring). clear. ring. }
    rewrite Eq. eapply Rle_trans.
    { apply (sum3_bound P N M (3 * Y) Y Y _ _ _ (1 / 1000000000000000) (1 / 100000000000000) (1 / 10000000000000)); auto.
      - rewrite Rabs_mult. pose proof (Rabs_pos dl). nra.
      - assert (L : Rabs (3 * a + dl) <= 7).
        { eapply Rle_trans; [apply Rabs_triang|]. rewrite Rabs_mult, (Rabs_right 3) by lra. lra. }
        rewrite !Rabs_mult. pose proof (Rabs_pos dl). pose proof (Rabs_pos (3 * a + dl)).
        assert (Rabs dl * Rabs dl <= 1 / 1000000000000000) by nra. nra.
      - assert (L : Rabs (6 * (a * a) + 4 * (a * dl) + dl * dl) <= 30).
        { apply Rabs_le_inv in Ba, Bd. apply Rabs_le.
          assert (0 <= a * a <= 41 / 10) by nra. assert (0 <= dl * dl <= 1) by nra.
          assert (-1 <= a * dl <= 1) by nra. lra. }
        rewrite !Rabs_mult. pose proof (Rabs_pos dl). pose proof (Rabs_pos (6 * (a * a) + 4 * (a * dl) + dl * dl)).
        assert (Rabs dl * Rabs dl <= 1 / 1000000000000000) by nra. nra. }
    lra.
  - (* weak iteration *)
    assert (Key : b * Q = - (y2 + a * a * P + a * a * a * N + a * a * a * a * M)).
    { revert Hs. unfold Len5_Zero_step. cbn [xl5 l5_k l5_h l5_j l5_f l5_b l5_c l5_y3].
      cbn -[IZR horner xdiv].
      match goal with |- context [horner (fl := XFlt) (Fin a) [Fin ?u; Fin ?v; Fin ?w; Fin ?p; Fin ?q]] =>
        change [Fin u; Fin v; Fin w; Fin p; Fin q] with (map Fin [u; v; w; p; q]) end.
      rewrite !horner_fin by discriminate.
      intros D. apply xdiv_fin in D. destruct D as [Dn Dt].
      match type of Dn with ?x <> 0 => assert (T : b * x = -24 * (y2 + a * a * P + a * a * a * N + a * a * a * a * M)) end.
      { rewrite Dt at 1.
        rewrite (div_cancel _ _ Dn).
        unfold horner, Horner. cbn -[IZR]. unfold P, N, M, q2, q3, q4. toR. field. }
      clear Dt Dn. apply Rmult_eq_reg_l with 24; [|lra].
      transitivity (-24 * (y2 + a * a * P + a * a * a * N + a * a * a * a * M)); [|ring].
      rewrite <- T. unfold Q, q1. field. }
    assert (Eq : y2 + b * (Q + b * (P + b * (N + b * M))) =
       P * (b * b - a * a) + N * (b * b * b - a * a * a) + M * (b * b * b * b - a * a * a * a)).
    { transitivity (y2 + b * Q + b * b * P + b * b * b * N + b * b * b * b * M); [ring|]. rewrite Key. ring. }
    rewrite Eq. destruct (pow_bounds a b Hb Ba Bd) as [R1 [R2 R3]].
    eapply Rle_trans; [eapply sum3_bound; eassumption|]. lra.
Qed.

Lemma Len5_Zero_middle x1 x5 y0 y1 y3 y4 dx strong :
  NewLen5 (fl := XFlt) (Fin x1) (Fin x5) [Fin y0; Fin y1; Fin 0; Fin y3; Fin y4] = Ok dx ->
  Len5_Zero (fl := XFlt) dx strong = Err ErrorNoConverge.
Proof.
  intros Hdx. destruct (NewLen5_X x1 x5 [y0; y1; 0; y3; y4] _ Hdx) as [Hx [z0 [z1 [z2 [z3 [z4 [E ->]]]]]]].
  injection E as <- <- <- <- <-. unfold Len5_Zero, iterate.
  replace (fconst (Flt := XFlt) 0 1) with (Fin 0) by (cbn; f_equal; field).
  rewrite iterate_stuck; [reflexivity|].
  unfold Len5_Zero_step. cbn [xl5 l5_k l5_h l5_j l5_f l5_b l5_c l5_y3]. destruct strong; cbn -[IZR horner xdiv].
  - xall.
      match goal with |- context [horner (fl := XFlt) (Fin 0) [Fin ?u; Fin ?v; Fin ?w; Fin ?p; Fin ?q]] =>
        change [Fin u; Fin v; Fin w; Fin p; Fin q] with (map Fin [u; v; w; p; q]) end.
      match goal with |- context [horner (fl := XFlt) (Fin 0) [Fin ?v; Fin ?w; Fin ?p; Fin ?q]] =>
        change [Fin v; Fin w; Fin p; Fin q] with (map Fin [v; w; p; q]) end.
    rewrite !horner_fin by discriminate.
    match goal with |- context [horner (fl := RFlt) 0%R (0 :: ?l)] =>
      replace (horner (fl := RFlt) 0%R (0 :: l)) with 0 by (unfold horner, Horner; cbn; toR; ring) end.
    match goal with |- context [xdiv _ (Fin ?D)] => generalize D as dn; intros dn end.
    cbn. case Req_bool_spec; intros Z.
    + right. rewrite Req_bool_true by ring. reflexivity.
    + left. cbn -[IZR]. f_equal. field. exact Z.
  - match goal with |- context [horner (fl := XFlt) (Fin 0) [Fin ?u; Fin ?v; Fin ?w; Fin ?p; Fin ?q]] =>
        change [Fin u; Fin v; Fin w; Fin p; Fin q] with (map Fin [u; v; w; p; q]) end.
    rewrite !horner_fin by discriminate.
    match goal with |- context [horner (fl := RFlt) ?a ?l] =>
      replace (horner (fl := RFlt) a l) with 0 by (unfold horner, Horner; cbn -[IZR]; toR; field) end.
    match goal with |- context [xdiv _ (Fin ?D)] => generalize D as dn; intros dn end.
    cbn. case Req_bool_spec; intros Z.
    + right. rewrite Req_bool_true by ring. reflexivity.
    + left. cbn -[IZR]. f_equal. field. exact Z.
Qed.

(** ** Len5.Extremum *)
Lemma quartic_deriv c0 c1 c2 c3 c4 n :
  derivable_pt_lim (fun n => c0 + n * (c1 + n * (c2 + n * (c3 + n * c4)))) n
    (c1 + n * (2 * c2 + n * (3 * c3 + n * (4 * c4)))).
Proof.
  apply derivable_ext with (fun n => c0 + c1 * n ^ 1 + c2 * n ^ 2 + c3 * n ^ 3 + c4 * n ^ 4).
  { intros. ring. }
  replace (c1 + n * (2 * c2 + n * (3 * c3 + n * (4 * c4)))) with
    (0 + c1 * (INR 1 * n ^ Nat.pred 1) + c2 * (INR 2 * n ^ Nat.pred 2) + c3 * (INR 3 * n ^ Nat.pred 3) + c4 * (INR 4 * n ^ Nat.pred 4))
    by (cbn; ring).
  repeat apply derivable_pt_lim_plus; try apply derivable_pt_lim_const;
    apply (derivable_pt_lim_scal (fun x => x ^ _)); apply derivable_pt_lim_pow.
Qed.

Lemma Len5_Extremum_ok x1 x5 y dx d x v Y :
  NewLen5 (fl := XFlt) (Fin x1) (Fin x5) (map Fin y) = Ok dx ->
  NewLen5 (fl := RFlt) x1 x5 y = Ok d ->
  (forall v, In v y -> Rabs v <= Y) ->
  Len5_Extremum (fl := XFlt) dx = Ok (x, v) ->
  exists n D, x = Fin ((x1 + x5) / 2 + n * (x5 - x1) / 4) /\ -2 <= n <= 2 /\
    v = Fin (Len5_InterpolateN (fl := RFlt) d n) /\
    derivable_pt_lim (Len5_InterpolateN (fl := RFlt) d) n D /\
    Rabs (D - (nth 3 y 0 - 3 * nth 2 y 0 + 3 * nth 1 y 0 - nth 0 y 0) / 4 * (n * n)) <= 1 / 1000000000000 * Y.
Proof.
  intros Hdx Hd HY. destruct (NewLen5_X _ _ _ _ Hdx) as [Hx [y0 [y1 [y2 [y3 [y4 [-> ->]]]]]]].
  unfold Len5_Extremum. destruct (feq _ _) eqn:Ez; [discriminate|].
  unfold iterate.
  destruct (iterate_loop _ _ _) as [n|] eqn:E; [|discriminate].
  apply iterate_Some in E. destruct E as [a [b [-> [Hs [Ha Hab]]]]].
  cbn -[IZR xl5 horner]. case Rlt_bool_spec; [discriminate|]; intros B1. case Rlt_bool_spec; [discriminate|]; intros B2.
  cbn -[IZR horner]. intros H. injection H as <- <-.
  exists b, (q1 y0 y1 y2 y3 y4 + b * (2 * q2 y0 y1 y2 y3 y4 + b * (3 * q3 y0 y1 y2 y3 y4 + b * (4 * q4 y0 y1 y2 y3 y4)))).
  split; [f_equal; field|]. split; [lra|]. split.
  { match goal with |- context [horner (fl := XFlt) (Fin b) [Fin ?u; Fin ?v; Fin ?w; Fin ?p; Fin ?q]] =>
        change [Fin u; Fin v; Fin w; Fin p; Fin q] with (map Fin [u; v; w; p; q]) end.
    rewrite horner_fin by discriminate. f_equal. rewrite (NewLen5_R _ _ _ _ _ _ _ _ Hd).
    unfold horner, Horner, q1, q2, q3, q4. cbn -[IZR]. toR. field. }
  split.
  { eapply derivable_ext; [intros; symmetry; apply (NewLen5_R _ _ _ _ _ _ _ _ Hd)|]. apply quartic_deriv. }
  cbn [nth].
  assert (Hb : Rabs b <= 2) by (apply Rabs_le; lra).
  assert (Y0 : Rabs y0 <= Y) by (apply HY; cbn; auto).
  assert (Y1 : Rabs y1 <= Y) by (apply HY; cbn; auto).
  assert (Y2 : Rabs y2 <= Y) by (apply HY; cbn; auto).
  assert (Y3 : Rabs y3 <= Y) by (apply HY; cbn; auto).
  assert (Y4 : Rabs y4 <= Y) by (apply HY; cbn; auto 10).
  assert (HY0 : 0 <= Y) by (pose proof (Rabs_pos y0); lra).
  destruct (prev_bound a b 2 ltac:(lra) Hb Hab) as [Ba Bd].
  destruct (pow_bounds a b Hb Ba Bd) as [R1 [R2 R3]].
  set (h := y3 - 3 * y2 + 3 * y1 - y0). set (k := y0 - 4 * y1 + 6 * y2 - 4 * y3 + y4).
  assert (Key : q1 y0 y1 y2 y3 y4 + b * (2 * q2 y0 y1 y2 y3 y4 + b * (3 * q3 y0 y1 y2 y3 y4 + b * (4 * q4 y0 y1 y2 y3 y4)))
     - h / 4 * (b * b) = (h + k) / 4 * (b * b - a * a) + k / 6 * (b * b * b - a * a * a)).
  { revert Hs. unfold Len5_Extremum_step. cbn [xl5 l5_k l5_h l5_j l5_f l5_b l5_c l5_y3].
    cbn -[IZR horner xdiv].
    match goal with |- context [horner (fl := XFlt) (Fin a) [Fin ?u; Fin ?v; Fin ?w; Fin ?p]] =>
      change [Fin u; Fin v; Fin w; Fin p] with (map Fin [u; v; w; p]) end.
    rewrite !horner_fin by discriminate.
    intros D. apply xdiv_fin in D. destruct D as [Dn Dt].
    match type of Dn with ?x <> 0 => assert (T : b * x =
        12 * q1 y0 y1 y2 y3 y4 + 3 * (h + k) * (a * a) + 2 * k * (a * a * a)) end.
    { rewrite Dt at 1.
      rewrite (div_cancel _ _ Dn).
      unfold horner, Horner. cbn -[IZR]. unfold h, k, q1. toR. field. }
    clear Dt Dn.
    assert (T2 : b * (-24 * q2 y0 y1 y2 y3 y4) = 12 * q1 y0 y1 y2 y3 y4 + 3 * (h + k) * (a * a) + 2 * k * (a * a * a)).
    { rewrite <- T. unfold q2. field. }
    clear T.
    transitivity (((12 * q1 y0 y1 y2 y3 y4 - b * (-24 * q2 y0 y1 y2 y3 y4)) + 36 * q3 y0 y1 y2 y3 y4 * (b * b) + 48 * q4 y0 y1 y2 y3 y4 * (b * b * b) - 3 * h * (b * b)) / 12); [field|].
    rewrite T2. unfold q3, q4, h, k. field. }
  rewrite Key.
  replace ((h + k) / 4 * (b * b - a * a) + k / 6 * (b * b * b - a * a * a)) with
    ((h + k) / 4 * (b * b - a * a) + k / 6 * (b * b * b - a * a * a) + 0 * 0) by ring.
  eapply Rle_trans.
  { apply (sum3_bound _ _ _ (6 * Y) (3 * Y) 0 _ _ _ (1 / 100000000000000) (3 / 100000000000000) 0); auto.
    - apply Rabs_le_inv in Y0, Y1, Y2, Y3, Y4. unfold h, k. apply Rabs_le; lra.
    - apply Rabs_le_inv in Y0, Y1, Y2, Y3, Y4. unfold h, k. apply Rabs_le; lra.
    - rewrite Rabs_R0. lra.
    - rewrite Rabs_R0. lra. }
  lra.
Qed.

(** A table for which the iteration converges to a non-stationary point. *)
Definition bad_table : list R := [17 / 3; 1 / 3; 0; - (1 / 3); - (8 / 3)].
Lemma Len5_Extremum_bad dx d :
  NewLen5 (fl := XFlt) (Fin (-2)) (Fin 2) (map Fin bad_table) = Ok dx ->
  NewLen5 (fl := RFlt) (-2)%R 2%R bad_table = Ok d ->
  exists v, Len5_Extremum (fl := XFlt) dx = Ok (Fin 1, v) /\
    derivable_pt_lim (Len5_InterpolateX (fl := RFlt) d) 1 (- (5 / 4)).
Proof.
  intros Hdx Hd. destruct (NewLen5_X _ _ _ _ Hdx) as [Hx [y0 [y1 [y2 [y3 [y4 [E ->]]]]]]].
  injection E as <- <- <- <- <-.
  assert (St : forall n, Len5_Extremum_step (fl := XFlt) (xl5 (17 / 3) (1 / 3) 0 (- (1 / 3)) (- (8 / 3)) (-2) 2) (Fin n) = Fin (1 - 2 * n * n + 2 * n * n * n)).
  { intros n. unfold Len5_Extremum_step. cbn [xl5 l5_k l5_h l5_j l5_f l5_b l5_c l5_y3].
    cbn -[IZR horner xdiv].
    match goal with |- context [horner (fl := XFlt) (Fin n) [Fin ?u; Fin ?v; Fin ?w; Fin ?p]] =>
      change [Fin u; Fin v; Fin w; Fin p] with (map Fin [u; v; w; p]) end.
    rewrite !horner_fin by discriminate.
    rewrite xdiv_const by lra. f_equal. unfold horner, Horner. cbn -[IZR]. toR. field. }
  assert (It : iterate (fl := XFlt) (fconst (Flt := XFlt) 0 1) (Len5_Extremum_step (fl := XFlt) (xl5 (17 / 3) (1 / 3) 0 (- (1 / 3)) (- (8 / 3)) (-2) 2)) = Some (Fin 1)).
  { unfold iterate. change 50%nat with (S (S 48)). generalize 48%nat as fuel. intros fuel.
    replace (fconst (Flt := XFlt) 0 1) with (Fin 0) by (cbn; f_equal; field).
    cbn [iterate_loop]. rewrite St. replace (1 - 2 * 0 * 0 + 2 * 0 * 0 * 0) with 1 by ring.
    rewrite St. replace (1 - 2 * 1 * 1 + 2 * 1 * 1 * 1) with 1 by ring.
    cbn -[IZR Rabs].
    rewrite (Req_bool_true 0 0) by reflexivity. rewrite (Req_bool_false (1 + - 0) 0) by lra.
    rewrite (Req_bool_false 1 0) by lra. cbn -[IZR Rabs].
    rewrite Rlt_bool_true; [reflexivity|]. replace ((1 + - (1)) / 1) with 0 by field. rewrite Rabs_R0. lra. }
  eexists. split.
  - unfold Len5_Extremum. rewrite It. cbn -[IZR horner].
    rewrite Req_bool_false by lra. rewrite !Rlt_bool_false by lra. cbn [orb].
    replace (5 / 10 * (2 + -2) + 25 / 100 * (2 + - -2) * 1) with 1 by field. reflexivity.
  - eapply derivable_ext.
    { intros x. symmetry. rewrite (Len5_X_N _ _ _ _ Hd), (NewLen5_R _ _ _ _ _ _ _ _ Hd).
      replace ((4 * x - 2 * (2 + -2)) / (2 - -2)) with x by field. reflexivity. }
    match goal with |- derivable_pt_lim _ _ ?D => replace D with
      (q1 (17 / 3) (1 / 3) 0 (- (1 / 3)) (- (8 / 3)) + 1 * (2 * q2 (17 / 3) (1 / 3) 0 (- (1 / 3)) (- (8 / 3)) +
       1 * (3 * q3 (17 / 3) (1 / 3) 0 (- (1 / 3)) (- (8 / 3)) + 1 * (4 * q4 (17 / 3) (1 / 3) 0 (- (1 / 3)) (- (8 / 3)))))) end.
    + apply quartic_deriv.
    + unfold q1, q2, q3, q4. field.
Qed.

Lemma Len3_Zero_example : exists dx, NewLen3 (fl := XFlt) (Fin 0) (Fin 2) (map Fin [-1; 1; 3]) = Ok dx /\
  Len3_Zero (fl := XFlt) dx false = Ok (Fin (1 / 2)).
Proof.
  assert (E : exists dx, NewLen3 (fl := XFlt) (Fin 0) (Fin 2) (map Fin [-1; 1; 3]) = Ok dx).
  { unfold NewLen3. cbn [map]. cbn [feq XFlt xeq]. rewrite Req_bool_false by lra. eexists. reflexivity. }
  destruct E as [dx Hdx]. exists dx. split; [exact Hdx|].
  destruct (NewLen3_X _ _ _ _ Hdx) as [_ [y0 [y1 [y2 [E ->]]]]]. injection E as <- <- <-.
  match goal with |- Len3_Zero ?d _ = _ => set (dd := d) end.
  assert (St : forall n, Len3_Zero_step (fl := XFlt) dd false (Fin n) = Fin (- (1 / 2))).
  { intros n. unfold Len3_Zero_step, dd. cbn -[IZR]. rewrite Req_bool_false by lra. f_equal. field. }
  assert (It : iterate (fl := XFlt) (fconst (Flt := XFlt) 0 1) (Len3_Zero_step (fl := XFlt) dd false) = Some (Fin (- (1 / 2)))).
  { unfold iterate. change 50%nat with (S (S 48)). generalize 48%nat as fuel. intros fuel.
    replace (fconst (Flt := XFlt) 0 1) with (Fin 0) by (cbn; f_equal; field).
    cbn [iterate_loop]. rewrite !St. cbn -[IZR Rabs].
    rewrite (Req_bool_true 0 0) by reflexivity. rewrite (Req_bool_false (- (1 / 2) + - 0) 0) by lra.
    rewrite (Req_bool_false (- (1 / 2)) 0) by lra. cbn -[IZR Rabs].
    rewrite Rlt_bool_true; [reflexivity|].
    replace ((- (1 / 2) + - - (1 / 2)) / - (1 / 2)) with 0 by field. rewrite Rabs_R0. lra. }
  unfold Len3_Zero. rewrite It. unfold dd. cbn -[IZR]. rewrite !Rlt_bool_false by lra. cbn [orb].
  f_equal. f_equal. field.
Qed.
