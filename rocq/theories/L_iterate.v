(** Lemmas for package iterate. *)
From Coq Require Import ZArith Bool List Reals Lra Lia Ranalysis5.
From Flocq Require Import Core.
From Verif Require Import GoInt GoFloat M_iterate S_iterate.
Local Open Scope R_scope.

Lemma iter_n_succ {A} (f : A -> A) k x : iter_n f k (f x) = f (iter_n f k x).
Proof. induction k; cbn; congruence. Qed.

(** A loop that stops at the first pair of successive iterates passing [close]. *)
Section Loop.
Context {A : Type} (better : A -> A) (close : A -> A -> bool).
Fixpoint loop (start : A) (fuel : nat) : res A :=
  match fuel with
  | O => MaxIterations
  | S fuel => let n := better start in if close start n then Ok n else loop n fuel
  end.

Lemma loop_ok fuel : forall start r,
  loop start fuel = Ok r <->
  exists k, (k < fuel)%nat /\ r = iter_n better (S k) start /\
    close (iter_n better k start) (iter_n better (S k) start) = true /\
    forall i, (i < k)%nat -> close (iter_n better i start) (iter_n better (S i) start) = false.
Proof.
  induction fuel as [|fuel IH]; intros start r; cbn [loop].
  - split; [discriminate | intros [k [H _]]; lia].
  - cbv zeta. destruct (close start (better start)) eqn:E.
    + split.
      * intros H. injection H as <-. exists O. cbn. repeat split; auto; intros; lia.
      * intros [k [H1 [H2 [H3 H4]]]]. destruct k as [|k].
        -- cbn in H2. congruence.
        -- specialize (H4 O ltac:(lia)). cbn in H4. congruence.
    + rewrite IH. split.
      * intros [k [H1 [H2 [H3 H4]]]]. exists (S k).
        cbn [iter_n] in *. rewrite !iter_n_succ in *. repeat split; [lia|auto|auto|].
        intros i Hi. destruct i as [|i]; [exact E|].
        cbn [iter_n]. specialize (H4 i ltac:(lia)). rewrite !iter_n_succ in H4. exact H4.
      * intros [k [H1 [H2 [H3 H4]]]]. destruct k as [|k].
        -- cbn in H3. congruence.
        -- exists k. cbn [iter_n] in *. rewrite !iter_n_succ. repeat split; [lia|auto|auto|].
           intros i Hi. specialize (H4 (S i) ltac:(lia)). cbn [iter_n] in H4.
           rewrite !iter_n_succ. exact H4.
Qed.

Lemma loop_err fuel : forall start,
  loop start fuel = MaxIterations <->
  forall i, (i < fuel)%nat -> close (iter_n better i start) (iter_n better (S i) start) = false.
Proof.
  induction fuel as [|fuel IH]; intros start; cbn [loop].
  - split; [intros; lia | reflexivity].
  - cbv zeta. destruct (close start (better start)) eqn:E.
    + split; [discriminate|]. intros H. specialize (H O ltac:(lia)). cbn in H. congruence.
    + rewrite IH. split; intros H i Hi.
      * destruct i as [|i]; [exact E|]. specialize (H i ltac:(lia)).
        cbn [iter_n] in *. rewrite !iter_n_succ in H. exact H.
      * specialize (H (S i) ltac:(lia)). cbn [iter_n] in *. rewrite !iter_n_succ. exact H.
Qed.
End Loop.

Section Generic.
Context {fl : Flt}.
Local Open Scope flt_scope.

Lemma DecimalPlaces_is_loop pow10 better start places max :
  DecimalPlaces pow10 better start places max =
  loop better (fun a b => fabs (b - a) <? pow10 (- places)%Z) start (Z.to_nat max).
Proof.
  unfold DecimalPlaces. generalize (Z.to_nat max) as fuel. intros fuel. revert start.
  induction fuel as [|fuel IH]; intros start; [reflexivity|].
  cbn [DecimalPlaces_loop loop]. cbv zeta. now rewrite IH.
Qed.
Lemma FullPrecision_is_loop better start max :
  FullPrecision better start max =
  loop better (fun a b => fabs ((b - a) / b) <? fconst 1 1000000000000000) start (Z.to_nat max).
Proof.
  unfold FullPrecision. generalize (Z.to_nat max) as fuel. intros fuel. revert start.
  induction fuel as [|fuel IH]; intros start; [reflexivity|].
  cbn [FullPrecision_loop loop]. cbv zeta. now rewrite IH.
Qed.

Lemma DecimalPlaces_ok pow10 better start places max r :
  DecimalPlaces pow10 better start places max = Ok r <->
  exists k : nat, (Z.of_nat k < max)%Z /\ r = better (iter_n better k start) /\
    (fabs (r - iter_n better k start) <? pow10 (- places)%Z) = true /\
    forall i, (i < k)%nat ->
      (fabs (iter_n better (S i) start - iter_n better i start) <? pow10 (- places)%Z) = false.
Proof.
  rewrite DecimalPlaces_is_loop, loop_ok. split; intros [k [H1 [H2 [H3 H4]]]]; exists k.
  - cbn [iter_n] in H2. subst r. repeat split; auto; lia.
  - cbn [iter_n]. subst r. repeat split; auto; lia.
Qed.
Lemma DecimalPlaces_err pow10 better start places max :
  DecimalPlaces pow10 better start places max = MaxIterations <->
  forall i : nat, (Z.of_nat i < max)%Z ->
      (fabs (iter_n better (S i) start - iter_n better i start) <? pow10 (- places)%Z) = false.
Proof.
  rewrite DecimalPlaces_is_loop, loop_err. split; intros H i Hi; apply H; lia.
Qed.
Lemma FullPrecision_ok better start max r :
  FullPrecision better start max = Ok r <->
  exists k : nat, (Z.of_nat k < max)%Z /\ r = better (iter_n better k start) /\
    (fabs ((r - iter_n better k start) / r) <? fconst 1 1000000000000000) = true /\
    forall i, (i < k)%nat ->
      (fabs ((iter_n better (S i) start - iter_n better i start) / iter_n better (S i) start)
        <? fconst 1 1000000000000000) = false.
Proof.
  rewrite FullPrecision_is_loop, loop_ok. split; intros [k [H1 [H2 [H3 H4]]]]; exists k.
  - cbn [iter_n] in H2. subst r. repeat split; auto; lia.
  - cbn [iter_n]. subst r. repeat split; auto; lia.
Qed.
Lemma FullPrecision_err better start max :
  FullPrecision better start max = MaxIterations <->
  forall i : nat, (Z.of_nat i < max)%Z ->
      (fabs ((iter_n better (S i) start - iter_n better i start) / iter_n better (S i) start)
        <? fconst 1 1000000000000000) = false.
Proof.
  rewrite FullPrecision_is_loop, loop_err. split; intros H i Hi; apply H; lia.
Qed.
End Generic.

(** Real-number consequences *)
Lemma contraction_step better q x y :
  contraction better q -> better x = x ->
  Rabs (better y - x) <= q / (1 - q) * Rabs (better y - y).
Proof.
  intros [[Hq0 Hq1] Hc] Hx.
  assert (H : Rabs (better y - x) <= q * Rabs (y - x)) by (rewrite <- Hx at 1; apply Hc).
  assert (H2 : Rabs (y - x) <= Rabs (better y - y) + Rabs (better y - x)).
  { replace (y - x) with (- (better y - y) + (better y - x)) by ring.
    rewrite <- (Rabs_Ropp (better y - y)). apply Rabs_triang. }
  apply Rmult_le_reg_l with (1 - q); [lra|].
  replace ((1 - q) * (q / (1 - q) * Rabs (better y - y))) with (q * Rabs (better y - y)) by (field; lra).
  nra.
Qed.

Lemma DecimalPlaces_contraction pow10 better start places max r q x :
  contraction better q -> better x = x -> 0 < pow10 (- places)%Z ->
  DecimalPlaces (fl := RFlt) pow10 better start places max = Ok r ->
  Rabs (r - x) <= q / (1 - q) * pow10 (- places)%Z.
Proof.
  intros Hc Hx Hd H. apply (DecimalPlaces_ok (fl := RFlt)) in H. destruct H as [k [_ [-> [H _]]]].
  cbn in H. revert H. case Rlt_bool_spec; [|discriminate]. intros H _.
  eapply Rle_trans; [apply contraction_step; eassumption|].
  apply Rmult_le_compat_l; [|apply Rlt_le, H]. destruct Hc as [Hq _].
  apply Rmult_le_pos; [lra|]. left. apply Rinv_0_lt_compat. lra.
Qed.

(** An improvement function converging exactly to 0 is reported as not converging. *)
Lemma FullPrecision_zero max :
  FullPrecision (fl := XFlt) (fun _ => Fin 0) (Fin 1) max = MaxIterations.
Proof.
  apply (FullPrecision_err (fl := XFlt)). intros i _. cbn [iter_n].
  assert (E : forall a : xreal, xdiv a (Fin 0) = XNaN \/ exists s, xdiv a (Fin 0) = XInf s).
  { intros [r|s| ]; cbn; rewrite ?Req_bool_true by reflexivity.
    - destruct (Req_bool r 0); [now left | right; eauto].
    - right; eauto.
    - now left. }
  cbn -[xdiv xadd xlt xabs].
  destruct (E (xadd (Fin 0) (xneg (iter_n (fun _ : xreal => Fin 0) i (Fin 1))))) as [H|[s H]]; rewrite H; reflexivity.
Qed.

(** ** BinaryRoot *)
Lemma ivt f a b : a <= b -> (forall x, a <= x <= b -> continuity_pt f x) ->
  (f a < 0 <= f b \/ f b <= 0 <= f a) -> exists x, a <= x <= b /\ f x = 0.
Proof.
  intros Hab Hc Hs.
  destruct (Req_dec (f a) 0) as [E|Ha]; [exists a; split; [lra|auto]|].
  destruct (Req_dec (f b) 0) as [E|Hb]; [exists b; split; [lra|auto]|].
  destruct (Req_dec a b) as [->|Hne]; [lra|].
  destruct Hs as [Hs|Hs].
  - destruct (IVT_interv f a b Hc ltac:(lra) ltac:(lra) ltac:(lra)) as [z Hz]. exists z; auto.
  - destruct (IVT_interv (fun x => - f x) a b) as [z Hz]; try lra.
    { intros x Hx. apply continuity_pt_opp. auto. }
    exists z. split; [tauto|lra].
Qed.

Definition bracket (f : R -> R) a b := f a < 0 <= f b \/ f b <= 0 <= f a.

Lemma between_ends a b : between a b a /\ between a b b.
Proof. unfold between, Rmin, Rmax. destruct (Rle_dec a b); lra. Qed.
Lemma between_mid a b : between a b ((a + b) / 2).
Proof. unfold between, Rmin, Rmax. destruct (Rle_dec a b); lra. Qed.
Lemma between_trans a b c x : between a b c -> between a c x -> between a b x.
Proof. unfold between, Rmin, Rmax. destruct (Rle_dec a b), (Rle_dec a c); lra. Qed.
Lemma between_sym a b x : between a b x -> between b a x.
Proof. unfold between. now rewrite Rmin_comm, Rmax_comm. Qed.
Lemma between_trans_r a b c x : between a b c -> between c b x -> between a b x.
Proof. intros. apply between_sym. apply between_trans with c; apply between_sym; auto. Qed.
Lemma between_dist a b x y : between a b x -> between a b y -> Rabs (x - y) <= Rabs (b - a).
Proof.
  unfold between, Rmin, Rmax, Rabs. destruct (Rle_dec a b), (Rcase_abs (x - y)), (Rcase_abs (b - a)); lra.
Qed.

Lemma bracket_root f a b : continuous_between f a b -> bracket f a b -> exists x, between a b x /\ f x = 0.
Proof.
  intros Hc Hs. unfold between, continuous_between in *.
  destruct (Rle_dec a b) as [H|H].
  - destruct (ivt f a b H) as [x [H1 H2]]; auto.
    { intros x Hx. apply Hc. unfold between. rewrite Rmin_left, Rmax_right by lra. lra. }
    exists x. rewrite Rmin_left, Rmax_right by lra. auto.
  - assert (E : exists x, b <= x <= a /\ f x = 0).
    { destruct Hs as [Hs|Hs].
      - destruct (ivt f b a) as [x Hx]; [lra| | |eauto].
        + intros x Hx. apply Hc. unfold between. rewrite Rmin_right, Rmax_left by lra. lra.
        + right. lra.
      - destruct (Req_dec (f b) 0) as [E|Hb]; [exists b; split; [lra|auto]|].
        destruct (ivt f b a) as [x Hx]; [lra| | |eauto].
        + intros x Hx. apply Hc. unfold between. rewrite Rmin_right, Rmax_left by lra. lra.
        + left. lra. }
    destruct E as [x Hx]. exists x. rewrite Rmin_right, Rmax_left by lra. auto.
Qed.

Lemma BinaryRoot_loop_spec f fuel : forall lower upper mid,
  continuous_between f lower upper -> bracket f lower upper -> (0 < fuel)%nat ->
  let r := BinaryRoot_loop (fl := RFlt) f lower upper (f lower) mid fuel in
  between lower upper r /\
  exists x, between lower upper x /\ f x = 0 /\ Rabs (r - x) <= Rabs (upper - lower) / 2 ^ fuel.
Proof.
  induction fuel as [|fuel IH]; intros lower upper mid Hc Hb Hf; [lia|].
  cbn [BinaryRoot_loop]. cbn -[Rabs IZR pow BinaryRoot_loop].
  replace (2 / 1) with 2 by field.
  set (m := (lower + upper) / 2).
  pose proof (between_mid lower upper) as Hm. fold m in Hm.
  destruct (between_ends lower upper) as [Hl Hu].
  case Req_bool_spec; intros E0.
  { split; [auto|]. exists m. repeat split; auto; try lra; try apply Hm.
    rewrite Rminus_diag_eq, Rabs_R0 by reflexivity.
    apply Rmult_le_pos; [apply Rabs_pos|]. left. apply Rinv_0_lt_compat. apply pow_lt. lra. }
  replace (0 / 1) with 0 in E0 by field.
  destruct (Bool.eqb (Rlt_bool (f lower) 0) (Rlt_bool (f m) 0)) eqn:Es.
  - assert (B : bracket f m upper).
    { revert Es. unfold bracket in *. case Rlt_bool_spec; case Rlt_bool_spec; cbn; intros; try discriminate; lra. }
    assert (C : continuous_between f m upper).
    { intros x Hx. apply Hc. apply between_sym. apply between_trans with m; apply between_sym; auto. }
    assert (L : Rabs (upper - m) = Rabs (upper - lower) / 2).
    { unfold m. replace (upper - (lower + upper) / 2) with ((upper - lower) / 2) by field.
      unfold Rdiv. rewrite Rabs_mult, (Rabs_right (/ 2)); lra. }
    destruct fuel as [|fuel].
    + cbn [BinaryRoot_loop]. split; [auto|].
      destruct (bracket_root f m upper C B) as [x [Hx Ex]]. exists x.
      split; [apply (between_trans_r _ _ _ _ Hm Hx)|]. split; [auto|].
      replace (2 ^ 1) with 2 by ring. rewrite <- L. apply between_dist; auto. apply between_ends.
    + destruct (IH m upper m C B ltac:(lia)) as [H1 [x [H2 [H3 H4]]]].
      split; [apply (between_trans_r _ _ _ _ Hm H1)|].
      exists x. split; [apply (between_trans_r _ _ _ _ Hm H2)|]. split; [auto|].
      rewrite L in H4. eapply Rle_trans; [exact H4|].
      right. cbn [pow]. field. apply pow_nonzero. lra.
  - assert (B : bracket f lower m).
    { revert Es. unfold bracket in *. case Rlt_bool_spec; case Rlt_bool_spec; cbn; intros; try discriminate; lra. }
    assert (C : continuous_between f lower m).
    { intros x Hx. apply Hc. apply between_trans with m; auto. }
    assert (L : Rabs (m - lower) = Rabs (upper - lower) / 2).
    { unfold m. replace ((lower + upper) / 2 - lower) with ((upper - lower) / 2) by field.
      unfold Rdiv. rewrite Rabs_mult, (Rabs_right (/ 2)); lra. }
    destruct fuel as [|fuel].
    + cbn [BinaryRoot_loop]. split; [auto|].
      destruct (bracket_root f lower m C B) as [x [Hx Ex]]. exists x.
      split; [apply (between_trans _ _ _ _ Hm Hx)|]. split; [auto|].
      replace (2 ^ 1) with 2 by ring. rewrite <- L. apply between_dist; auto. apply between_ends.
    + destruct (IH lower m m C B ltac:(lia)) as [H1 [x [H2 [H3 H4]]]]. split.
      * apply between_trans with m; auto.
      * exists x. split; [apply (between_trans _ _ _ _ Hm H2)|]. split; [auto|].
        rewrite L in H4. eapply Rle_trans; [exact H4|].
        right. cbn [pow]. field. apply pow_nonzero. lra.
Qed.

Lemma BinaryRoot_root f lower upper :
  continuous_between f lower upper ->
  (f lower < 0 <= f upper \/ f upper <= 0 <= f lower) ->
  let r := BinaryRoot (fl := RFlt) f lower upper in
  between lower upper r /\
  exists x, between lower upper x /\ f x = 0 /\ Rabs (r - x) <= Rabs (upper - lower) / 2 ^ 52.
Proof. intros Hc Hb. apply BinaryRoot_loop_spec; [exact Hc | exact Hb | lia]. Qed.

(** The remaining case f lower = 0 < f upper: the root at the lower bound is missed. *)
Lemma BinaryRoot_loop_up fuel : forall lower mid, 0 <= lower < 1 -> (0 < fuel)%nat ->
  lower < BinaryRoot_loop (fl := RFlt) (fun x => x) lower 1 lower mid fuel.
Proof.
  induction fuel as [|fuel IH]; intros lower mid Hl Hf; [lia|].
  cbn [BinaryRoot_loop]. cbn -[Rabs IZR BinaryRoot_loop]. replace (2 / 1) with 2 by field.
  case Req_bool_spec; intros E; [lra|].
  rewrite !Rlt_bool_false by lra. cbn.
  destruct fuel as [|fuel]; [cbn; lra|].
  eapply Rlt_trans; [|apply IH; [lra|lia]]; lra.
Qed.
Lemma BinaryRoot_lower_root_missed :
  let f := fun x : R => x in f 0 = 0 /\ 1 / 2 <= BinaryRoot (fl := RFlt) f 0 1.
Proof.
  split; [reflexivity|]. unfold BinaryRoot.
  assert (G : forall n, (0 < n)%nat ->
    1 / 2 <= BinaryRoot_loop (fl := RFlt) (fun x : R => x) 0 1 0 (0 / 1) (S n)).
  { intros n Hn. cbn [BinaryRoot_loop]. cbn -[Rabs IZR BinaryRoot_loop].
    replace (2 / 1) with 2 by field. replace ((0 + 1) / 2) with (1 / 2) by field.
    rewrite Req_bool_false by lra. rewrite !Rlt_bool_false by lra. cbn [Bool.eqb].
    left. apply BinaryRoot_loop_up; [lra|lia]. }
  apply (G 51%nat). lia.
Qed.
