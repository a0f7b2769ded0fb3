(** Lemmas for interp.Lagrange and interp.LagrangePoly. *)
From Coq Require Import ZArith Bool List Reals Lra Lia Permutation.
From Verif Require Import GoInt GoFloat M_base M_interp S_base S_interp L_base L_interp.
Import ListNotations.
Local Open Scope R_scope.

(** ** Uniqueness of the interpolating polynomial *)

(** Synthetic division of c by (x - r). *)
Fixpoint sdiv (r : R) (c : list R) : list R :=
  match c with
  | [] => []
  | [_] => []
  | _ :: t => poly t r :: sdiv r t
  end.
Lemma sdiv_length r c : length (sdiv r c) = (length c - 1)%nat.
Proof.
  induction c as [|a [|b t] IH]; [reflexivity|reflexivity|].
  change (sdiv r (a :: b :: t)) with (poly (b :: t) r :: sdiv r (b :: t)). cbn [length] in *. rewrite IH. lia.
Qed.
Lemma sdiv_spec r x c : poly c x = (x - r) * poly (sdiv r c) x + poly c r.
Proof.
  induction c as [|a [|b t] IH].
  - rewrite !poly_nil. ring.
  - cbn [sdiv]. rewrite !poly_cons, !poly_nil. ring.
  - change (sdiv r (a :: b :: t)) with (poly (b :: t) r :: sdiv r (b :: t)).
    rewrite (poly_cons a (b :: t) x), (poly_cons a (b :: t) r), (poly_cons (poly (b :: t) r) (sdiv r (b :: t)) x).
    rewrite IH at 1. ring.
Qed.

Lemma poly_roots : forall roots c, NoDup roots -> (length c <= length roots)%nat ->
  (forall r, In r roots -> poly c r = 0) -> forall x, poly c x = 0.
Proof.
  induction roots as [|r roots IH]; intros c Hn Hl Hr x.
  - destruct c; [apply poly_nil | cbn in Hl; lia].
  - inversion Hn as [|? ? Hni Hn']; subst.
    rewrite (sdiv_spec r x c), (Hr r) by (left; reflexivity).
    rewrite IH; [ring|assumption| |].
    + rewrite sdiv_length. cbn [length] in Hl. lia.
    + intros s Hs. specialize (Hr s (or_intror Hs)) as E. rewrite (sdiv_spec r s c), (Hr r) in E by (left; reflexivity).
      assert (s <> r) by (intros ->; contradiction).
      apply Rmult_eq_reg_l with (s - r); lra.
Qed.

Fixpoint psub (p q : list R) : list R :=
  match p, q with
  | [], _ => map Ropp q
  | _, [] => p
  | a :: p, b :: q => (a - b) :: psub p q
  end.
Lemma poly_opp q x : poly (map Ropp q) x = - poly q x.
Proof. induction q as [|a q IH]; cbn [map]; rewrite ?poly_nil, ?poly_cons; [ring|]. rewrite IH. ring. Qed.
Lemma psub_spec p : forall q x, poly (psub p q) x = poly p x - poly q x.
Proof.
  induction p as [|a p IH]; intros q x; cbn [psub].
  - rewrite poly_opp, poly_nil. ring.
  - destruct q as [|b q]; [rewrite (poly_nil x); ring|]. rewrite !poly_cons, IH. ring.
Qed.
Lemma psub_length p : forall q, length (psub p q) = Nat.max (length p) (length q).
Proof.
  induction p as [|a p IH]; intros q; cbn [psub]; [cbn; apply map_length|].
  destruct q as [|b q]; [reflexivity|]. cbn. now rewrite IH.
Qed.

Lemma poly_unique nodes p q : NoDup nodes -> (length p <= length nodes)%nat -> (length q <= length nodes)%nat ->
  (forall r, In r nodes -> poly p r = poly q r) -> forall x, poly p x = poly q x.
Proof.
  intros Hn Hp Hq H x. apply Rminus_diag_uniq. rewrite <- psub_spec.
  apply (poly_roots nodes); auto.
  - rewrite psub_length. lia.
  - intros r Hr. rewrite psub_spec, H by auto. ring.
Qed.

(** ** Loops that skip one index *)
Fixpoint remove_nth {A} (i : nat) (l : list A) : list A :=
  match l, i with
  | [], _ => []
  | _ :: t, O => t
  | a :: t, S i => a :: remove_nth i t
  end.
Lemma remove_nth_length {A} (l : list A) : forall i, (i < length l)%nat -> length (remove_nth i l) = (length l - 1)%nat.
Proof.
  induction l as [|a l IH]; intros i Hi; cbn [length] in *; [lia|]. destruct i; cbn [remove_nth length]; [lia|].
  rewrite IH by lia. lia.
Qed.
Lemma remove_nth_map {A B} (f : A -> B) l : forall i, remove_nth i (map f l) = map f (remove_nth i l).
Proof. induction l as [|a l IH]; intros [|i]; cbn; auto. now rewrite IH. Qed.
Lemma remove_nth_In {A} (l : list A) : forall i j d, i <> j -> (j < length l)%nat -> In (nth j l d) (remove_nth i l).
Proof.
  induction l as [|a l IH]; intros i j d Hij Hj; cbn in *; [lia|].
  destruct i, j; cbn; auto; try lia.
  - apply nth_In. lia.
  - right. apply IH; lia.
Qed.
Lemma remove_nth_NoDup {A} (l : list A) : forall i d a, NoDup l -> (i < length l)%nat ->
  In a (remove_nth i l) -> a <> nth i l d.
Proof.
  induction l as [|x l IH]; intros i d a Hn Hi Ha; cbn in *; [lia|].
  inversion Hn as [|? ? Hni Hn']; subst. destruct i; cbn in *.
  - intros ->. contradiction.
  - destruct Ha as [->|Ha].
    + intros ->. apply Hni. apply nth_In. lia.
    + apply IH; auto. lia.
Qed.

Lemma fold_ext {A B} (f g : A -> B -> A) l : (forall a b, f a b = g a b) -> forall s, fold_left f l s = fold_left g l s.
Proof. intros H. induction l as [|b l IH]; intros s; cbn; [reflexivity|]. now rewrite H, IH. Qed.

Lemma skip_past {A St} (g : St -> A -> St) (i : nat) : forall (l : list A) a s, (i < a)%nat ->
  fold_left (fun st jt => if Nat.eqb i (fst jt) then st else g st (snd jt)) (combine (seq a (length l)) l) s =
  fold_left g l s.
Proof.
  induction l as [|x l IH]; intros a s Hi; [reflexivity|].
  cbn [length seq combine fold_left fst snd].
  destruct (Nat.eqb_spec i a); [lia|]. apply IH. lia.
Qed.
Lemma skip_fold {A St} (g : St -> A -> St) : forall (l : list A) a k s,
  fold_left (fun st jt => if Nat.eqb (a + k) (fst jt) then st else g st (snd jt)) (combine (seq a (length l)) l) s =
  fold_left g (remove_nth k l) s.
Proof.
  induction l as [|x l IH]; intros a k s; [destruct k; reflexivity|].
  cbn [length seq combine fold_left fst snd].
  destruct k as [|k].
  - rewrite Nat.add_0_r, Nat.eqb_refl. cbn [remove_nth]. apply skip_past. lia.
  - destruct (Nat.eqb_spec (a + S k) a); [lia|]. cbn [remove_nth fold_left].
    rewrite <- (IH (S a) k). apply fold_ext. intros st jt. now rewrite <- Nat.add_succ_comm.
Qed.
Lemma skip_indexed {A St} (g : St -> A -> St) (l : list A) i s :
  fold_left (fun st jt => if Nat.eqb i (fst jt) then st else g st (snd jt)) (indexed l) s =
  fold_left g (remove_nth i l) s.
Proof. apply (skip_fold g l 0 i s). Qed.

(** ** The Lagrange basis *)
Definition rprod (f : R -> R) (l : list R) : R := fold_right (fun a p => f a * p) 1 l.
Lemma fold_left_prod (f : R -> R) (l : list R) : forall a, fold_left (fun p b => p * f b) l a = a * rprod f l.
Proof. unfold rprod. induction l as [|b l IH]; intros a; cbn; [ring|]. rewrite IH. ring. Qed.

Definition others (table : list (R * R)) (i : nat) : list R := map fst (remove_nth i table).

Lemma Lagrange_prod_spec (x : R) (table : list (R * R)) i (xi : R) :
  Lagrange_prod (fl := RFlt) x table i xi = rprod (fun xj => (x - xj) / (xi - xj)) (others table i).
Proof.
  unfold Lagrange_prod.
  rewrite (fold_ext _ (fun (st : R) (jt : nat * (R * R)) => if Nat.eqb i (fst jt) then st else
     (fun (s : R) (t : R * R) => s * ((x - fst t) / (xi - fst t))) st (snd jt))).
  2:{ intros a [j [xj yj]]. cbn. destruct (Nat.eqb i j); reflexivity. }
  rewrite (skip_indexed (fun (s : R) (t : R * R) => s * ((x - fst t) / (xi - fst t))) table i).
  unfold others. cbn -[IZR]. replace (1 / 1) with 1 by field.
  transitivity (1 * rprod (fun xj => (x - xj) / (xi - xj)) (map fst (remove_nth i table))); [|toR; apply Rmult_1_l].
  rewrite <- fold_left_prod. generalize 1 as a. generalize (remove_nth i table) as l.
  induction l as [|[u v] l IH]; intros a; cbn; [reflexivity|]. apply IH.
Qed.

(** Sums over an indexed table. *)
Definition isum (h : nat -> R * R -> R) (table : list (R * R)) : R :=
  fold_left (fun s it => s + h (fst it) (snd it)) (indexed table) 0.
Lemma isum_ext h h' table :
  (forall i, (i < length table)%nat -> h i (nth i table (0, 0)) = h' i (nth i table (0, 0))) ->
  isum h table = isum h' table.
Proof.
  unfold isum, indexed. intros H.
  assert (G : forall l a s, (forall i, (i < length l)%nat -> h (a + i)%nat (nth i l (0, 0)) = h' (a + i)%nat (nth i l (0, 0))) ->
    fold_left (fun s it => s + h (fst it) (snd it)) (combine (seq a (length l)) l) s =
    fold_left (fun s it => s + h' (fst it) (snd it)) (combine (seq a (length l)) l) s).
  { induction l as [|t l IH]; intros a s Hh; [reflexivity|]. cbn [length seq combine fold_left fst snd].
    specialize (Hh 0%nat ltac:(cbn; lia)) as H0. rewrite Nat.add_0_r in H0. cbn [nth] in H0. rewrite H0. apply IH.
    intros i Hi. specialize (Hh (S i) ltac:(cbn; lia)). rewrite Nat.add_succ_comm. exact Hh. }
  apply G. exact H.
Qed.
Lemma isum_single table k v : (k < length table)%nat ->
  isum (fun i _ => if Nat.eqb i k then v else 0) table = v.
Proof.
  unfold isum, indexed. intros Hk.
  assert (P : forall l a s, (k < a)%nat -> fold_left (fun s it => s + (if Nat.eqb (fst it) k then v else 0)) (combine (seq a (length l)) (l : list (R * R))) s = s).
  { induction l as [|t l IH]; intros a s Ha; [reflexivity|]. cbn [length seq combine fold_left fst snd].
    destruct (Nat.eqb_spec a k); [lia|]. rewrite IH by lia. ring. }
  assert (G : forall l a s, (a <= k < a + length l)%nat -> fold_left (fun s it => s + (if Nat.eqb (fst it) k then v else 0)) (combine (seq a (length l)) (l : list (R * R))) s = s + v).
  { induction l as [|t l IH]; intros a s Ha; [cbn in Ha; lia|]. cbn [length seq combine fold_left fst snd] in *.
    destruct (Nat.eqb_spec a k).
    - apply P. lia.
    - rewrite IH by lia. ring. }
  rewrite G by lia. ring.
Qed.

Lemma Lagrange_isum (x : R) (table : list (R * R)) :
  Lagrange (fl := RFlt) x table = isum (fun i t => snd t * rprod (fun xj => (x - xj) / (fst t - xj)) (others table i)) table.
Proof.
  unfold Lagrange, isum. cbn -[IZR Lagrange_prod indexed]. replace (0 / 1) with 0 by field.
  apply fold_ext. intros s [i [xi yi]]. cbn [fst snd]. now rewrite Lagrange_prod_spec.
Qed.

Lemma rprod_zero f l : (exists a, In a l /\ f a = 0) -> rprod f l = 0.
Proof.
  unfold rprod. intros [a [Ha E]]. induction l as [|b l IH]; [contradiction|]. cbn. destruct Ha as [->|Ha].
  - rewrite E. ring.
  - rewrite IH by auto. ring.
Qed.
Lemma rprod_one f l : (forall a, In a l -> f a = 1) -> rprod f l = 1.
Proof.
  unfold rprod. intros H. induction l as [|b l IH]; [reflexivity|]. cbn. rewrite H by (left; auto).
  rewrite IH; [ring|]. intros. apply H. right. auto.
Qed.
Lemma rprod_nonzero f l : (forall a, In a l -> f a <> 0) -> rprod f l <> 0.
Proof.
  unfold rprod. intros H. induction l as [|b l IH]; cbn; [lra|].
  apply Rmult_integral_contrapositive_currified; [apply H; left; auto|]. apply IH. intros; apply H; right; auto.
Qed.
Lemma rprod_div f g l : (forall a, In a l -> g a <> 0) -> rprod (fun a => f a / g a) l = rprod f l / rprod g l.
Proof.
  intros H. induction l as [|b l IH]; [cbn; field|].
  assert (Hb : g b <> 0) by (apply H; left; auto).
  assert (Hl : forall a, In a l -> g a <> 0) by (intros; apply H; right; auto).
  specialize (IH Hl). pose proof (rprod_nonzero g l Hl).
  change (rprod (fun a => f a / g a) (b :: l)) with (f b / g b * rprod (fun a => f a / g a) l).
  rewrite IH. change (rprod f (b :: l)) with (f b * rprod f l). change (rprod g (b :: l)) with (g b * rprod g l).
  field. auto.
Qed.

Lemma nth_fst (table : list (R * R)) i : nth i (map fst table) 0 = fst (nth i table (0, 0)).
Proof. change 0 with (fst (0, 0)) at 1. apply map_nth. Qed.

Lemma Lagrange_node (table : list (R * R)) x y : NoDup (map fst table) -> In (x, y) table ->
  Lagrange (fl := RFlt) x table = y.
Proof.
  intros Hn Hin. destruct (In_nth _ _ (0, 0) Hin) as [k [Hk Ek]].
  rewrite Lagrange_isum. rewrite <- (isum_single table k y Hk). apply isum_ext. intros i Hi.
  destruct (Nat.eqb_spec i k) as [->|Hik].
  - rewrite Ek. cbn [fst snd]. rewrite rprod_one; [ring|].
    intros a Ha. assert (Hne : a <> nth k (map fst table) 0).
    { apply remove_nth_NoDup; [assumption|now rewrite map_length|]. unfold others in Ha. now rewrite remove_nth_map. }
    rewrite nth_fst, Ek in Hne. cbn in Hne. field. lra.
  - rewrite rprod_zero; [ring|]. exists x. split.
    + unfold others. rewrite <- remove_nth_map. replace x with (nth k (map fst table) 0).
      * apply remove_nth_In; [auto|now rewrite map_length].
      * rewrite nth_fst, Ek. reflexivity.
    + unfold Rdiv. ring.
Qed.

(** ** LagrangePoly *)
Local Notation set := (@set RFlt).
Local Notation get := (@get RFlt).

Lemma set_app (pre : list R) a r v : set (pre ++ a :: r) (length pre) v = pre ++ v :: r.
Proof. induction pre as [|p pre IH]; cbn; [reflexivity|]. now rewrite IH. Qed.
Lemma get_app (pre r : list R) k : get (pre ++ r) (length pre + k) = nth k r 0.
Proof.
  unfold M_interp.get. rewrite app_nth2 by lia. replace (length pre + k - length pre)%nat with k by lia.
  change (fconst 0 1) with (0 / 1)%R. replace (0 / 1) with 0 by field. reflexivity.
Qed.

(** Coefficients of (x - a) q without the constant one. *)
Fixpoint shift (a : R) (q : list R) : list R :=
  match q with
  | [] => []
  | [c] => [c]
  | c :: ((c' :: _) as t) => (c - c' * a) :: shift a t
  end.
Lemma shift_length a q : length (shift a q) = length q.
Proof.
  induction q as [|c [|c' t] IH]; [reflexivity|reflexivity|].
  change (shift a (c :: c' :: t)) with ((c - c' * a) :: shift a (c' :: t)). cbn [length] in *. now rewrite IH.
Qed.
Lemma poly_shift a c q x : poly ((c * - a) :: shift a (c :: q)) x = (x - a) * poly (c :: q) x.
Proof.
  rewrite poly_cons. revert c. induction q as [|c' q IH]; intros c.
  - cbn [shift]. rewrite !poly_cons, poly_nil. ring.
  - change (shift a (c :: c' :: q)) with ((c - c' * a) :: shift a (c' :: q)).
    rewrite (poly_cons (c - c' * a)), (poly_cons c (c' :: q)).
    specialize (IH c'). replace (x * poly (shift a (c' :: q)) x) with ((x - a) * poly (c' :: q) x - c' * - a) by (rewrite <- IH; ring).
    ring.
Qed.

Lemma LP_inner_spec (a : R) : forall (q pre : list R) k n, k = length pre -> n = (length q - 1)%nat ->
  LP_inner (fl := RFlt) (pre ++ q) a k n = pre ++ shift a q.
Proof.
  induction q as [|c [|c' t] IH]; intros pre k n -> ->; [reflexivity|reflexivity|].
  replace (length (c :: c' :: t) - 1)%nat with (S (length (c' :: t) - 1)) by (cbn; lia).
  cbn [LP_inner].
  replace (get (pre ++ c :: c' :: t) (length pre)) with c
    by (rewrite <- (Nat.add_0_r (length pre)), get_app; reflexivity).
  replace (get (pre ++ c :: c' :: t) (S (length pre))) with c'
    by (rewrite <- (Nat.add_1_r (length pre)), get_app; reflexivity).
  rewrite set_app. change (shift a (c :: c' :: t)) with ((c - c' * a) :: shift a (c' :: t)).
  transitivity (LP_inner (fl := RFlt) ((pre ++ [(c - c' * a)%R]) ++ c' :: t) a (S (length pre)) (length (c' :: t) - 1)).
  { rewrite <- app_assoc. reflexivity. }
  rewrite IH; [|rewrite app_length; cbn; lia|reflexivity]. rewrite <- app_assoc. reflexivity.
Qed.

(** One factor: the block of coefficients from index n on is multiplied by (x - xj). *)
Lemma LP_factor (junk q : list R) (xj : R) v c : junk <> [] -> q = c :: v ->
  let n := length junk in let last := (length junk + length q - 1)%nat in
  exists junk', length junk' = (length junk - 1)%nat /\
  LP_inner (fl := RFlt) (set (junk ++ q) (n - 1) (get (junk ++ q) n * - xj)%R) xj n (last - n) =
   junk' ++ (c * - xj)%R :: shift xj q.
Proof.
  intros Hj Hq n last.
  destruct (exists_last Hj) as [junk' [z Ez]]. exists junk'.
  assert (L : length junk = S (length junk')) by (rewrite Ez, app_length; cbn; lia).
  split; [lia|].
  replace (get (junk ++ q) n) with c.
  2:{ unfold n. rewrite <- (Nat.add_0_r (length junk)), get_app, Hq. reflexivity. }
  rewrite Ez, <- app_assoc. cbn [app]. unfold n. replace (length junk - 1)%nat with (length junk') by lia.
  rewrite set_app.
  transitivity (LP_inner (fl := RFlt) ((junk' ++ [(c * - xj)%R]) ++ q) xj (length junk) (last - length junk)).
  { rewrite <- app_assoc. reflexivity. }
  rewrite LP_inner_spec.
  - rewrite <- app_assoc. reflexivity.
  - rewrite app_length. cbn. lia.
  - unfold last. lia.
Qed.

Definition LP_step (last : nat) (xi : R) (st : list R * R * nat) (t : R * R) : list R * R * nat :=
  let '(prod, den, n) := st in
  let prod := set prod (n - 1) (get prod n * - fst t)%R in
  (LP_inner (fl := RFlt) prod (fst t) n (last - n), (den * (xi - fst t))%R, (n - 1)%nat).

Lemma LP_fold last (xi : R) : forall (l : list (R * R)) junk q den c v,
  q = c :: v -> length l = length junk -> last = (length junk + length q - 1)%nat ->
  exists p, fold_left (LP_step last xi) l (junk ++ q, den, length junk) =
      (p, den * rprod (fun xj => xi - xj) (map fst l), 0%nat) /\
    length p = (length junk + length q)%nat /\
    forall x, poly p x = rprod (fun xj => x - xj) (map fst l) * poly q x.
Proof.
  induction l as [|[xj yj] l IH]; intros junk q den c v Hq Hl Hlast.
  - destruct junk; [|discriminate]. cbn [fold_left map]. exists q. unfold rprod. cbn [fold_right].
    split; [f_equal; f_equal; ring|]. split; [reflexivity|]. intros; ring.
  - destruct junk as [|z0 z]; [discriminate|]. set (junk := z0 :: z) in *.
    cbn [fold_left]. unfold LP_step at 2. cbn [fst].
    destruct (LP_factor junk q xj v c) as [junk' [Lj E]]; [discriminate|assumption|].
    cbv zeta in E. rewrite <- Hlast in E. rewrite E.
    replace (length junk - 1)%nat with (length junk') by lia.
    assert (Lz : length junk = S (length junk')) by (unfold junk in *; cbn [length] in *; lia).
    destruct (IH junk' ((c * - xj) :: shift xj q) (den * (xi - xj)) (c * - xj) (shift xj q)) as [p [E1 [E2 E3]]].
    + reflexivity.
    + cbn [length] in Hl. lia.
    + cbn [length]. rewrite shift_length. lia.
    + exists p. split; [|split].
      * etransitivity; [exact E1|]. cbn [map fst]. unfold rprod. cbn [fold_right]. f_equal. f_equal. ring.
      * rewrite E2. cbn [length]. rewrite shift_length. lia.
      * intros x. rewrite E3. rewrite Hq, poly_shift. cbn [map fst]. unfold rprod. cbn [fold_right]. ring.
Qed.

Lemma LP_row_fold last i (xi : R) (table : list (R * R)) st :
  fold_left (LP_row (fl := RFlt) last i xi) (indexed table) st = fold_left (LP_step last xi) (remove_nth i table) st.
Proof.
  rewrite <- (skip_indexed (LP_step last xi) table i). apply fold_ext.
  intros [[prod den] n] [j [xj yj]]. cbn [fst snd]. unfold LP_row, LP_step. destruct (Nat.eqb i j); reflexivity.
Qed.

Lemma poly_combine yi den (x : R) : forall s p, length s = length p ->
  poly (map (fun '(sj, pj) => (sj + yi * pj / den)%R) (combine s p)) x = poly s x + yi * poly p x / den.
Proof.
  induction s as [|a s IH]; intros [|b p] H; try discriminate; cbn [combine map].
  - rewrite !poly_nil. unfold Rdiv. ring.
  - rewrite !poly_cons, IH by (cbn in H; lia). unfold Rdiv. ring.
Qed.

Lemma set_last (prod : list R) v : prod <> [] -> exists junk : list R, length junk = (length prod - 1)%nat /\
  set prod (length prod - 1) v = junk ++ [v].
Proof.
  intros H. destruct (exists_last H) as [junk [z ->]]. exists junk. rewrite app_length. cbn [length].
  replace (length junk + 1 - 1)%nat with (length junk) by lia. split; [reflexivity|]. apply set_app.
Qed.

Lemma LP_outer_spec (table : list (R * R)) i (xi yi : R) (sum prod : list R) :
  (i < length table)%nat -> length sum = length table -> length prod = length table ->
  exists sum' prod', LP_outer (fl := RFlt) table (sum, prod) (i, (xi, yi)) = (sum', prod') /\
   length sum' = length table /\ length prod' = length table /\
   forall x, poly sum' x = poly sum x +
     yi * rprod (fun xj => x - xj) (others table i) / rprod (fun xj => xi - xj) (others table i).
Proof.
  intros Hi Ls Lp. unfold LP_outer. cbv zeta.
  change (@length (@F RFlt * @F RFlt) table) with (@length (R * R) table). rewrite <- Lp.
  destruct (set_last prod (1 / 1)%R) as [junk [Lj Ej]]; [intros ->; cbn in *; lia|].
  change (fconst 1 1) with (1 / 1)%R.
  rewrite Ej.
  rewrite LP_row_fold.
  destruct (LP_fold (length prod - 1) xi (remove_nth i table) junk [1 / 1] (1 / 1) (1 / 1) []) as [p [E [L P]]].
  - reflexivity.
  - rewrite remove_nth_length by assumption. lia.
  - cbn [length]. lia.
  - rewrite Lj in E.
    match goal with |- context [fold_left ?f ?l ?s] => replace (fold_left f l s) with
      (p, (1 / 1 * rprod (fun xj => xi - xj) (map fst (remove_nth i table)))%R, 0%nat) by (symmetry; exact E) end.
    eexists. exists p. split; [reflexivity|].
    assert (Lpp : length p = length table) by (rewrite L; cbn [length]; lia).
    rewrite map_length, combine_length.
    split; [change (Nat.min (length sum) (length p) = length prod); lia|]. split; [change (length p = length prod); lia|].
    intros x. cbn [fdiv fmul fadd RFlt].
    rewrite (poly_combine yi _ x sum p) by lia. rewrite P. rewrite poly_cons, poly_nil.
    replace (1 / 1) with 1 by field. fold (others table i).
    replace (1 + x * 0) with 1 by ring. rewrite Rmult_1_r, Rmult_1_l. reflexivity.
Qed.

Definition lterm (table : list (R * R)) (x : R) (i : nat) (t : R * R) : R :=
  snd t * rprod (fun xj => x - xj) (others table i) / rprod (fun xj => fst t - xj) (others table i).
Definition lp (table : list (R * R)) (l : list (nat * (R * R))) (st : list R * list R) : list R * list R :=
  fold_left (LP_outer (fl := RFlt) table) l st.

Lemma LagrangePoly_spec (table : list (R * R)) :
  length (LagrangePoly (fl := RFlt) table) = length table /\
  forall x, poly (LagrangePoly (fl := RFlt) table) x =
    isum (lterm table x) table.
Proof.
  unfold LagrangePoly, isum, indexed.
  assert (G : forall (l : list (R * R)) a (sum prod : list R) (f : R -> R), (a + length l <= length table)%nat ->
    length sum = length table -> length prod = length table ->
    (forall x, poly sum x = f x) ->
    length (fst (lp table (combine (seq a (length l)) l) (sum, prod))) = length table /\
    forall x, poly (fst (lp table (combine (seq a (length l)) l) (sum, prod))) x =
      fold_left (fun s it => s + lterm table x (fst it) (snd it)) (combine (seq a (length l)) l) (f x)).
  { induction l as [|[xi yi] l IH]; intros a sum prod f Ha Ls Lp Hs.
    - cbn. auto.
    - cbn [length seq combine fold_left] in *.
      destruct (LP_outer_spec table a xi yi sum prod) as [sum' [prod' [E [L1 [L2 P]]]]]; [lia|auto|auto|].
      unfold lp. cbn [fold_left]. rewrite E. cbn [fst snd].
      apply (IH (S a) sum' prod' (fun x => f x + lterm table x a (xi, yi))); [lia|auto|auto|].
      intros x. now rewrite P, Hs. }
  assert (Z : forall n x, poly (repeat 0 n) x = 0).
  { induction n as [|n IHn]; intros x; cbn [repeat]; [apply poly_nil|]. rewrite poly_cons, IHn. ring. }
  change (fconst 0 1) with (0 / 1)%R. replace (0 / 1) with 0 by field.
  apply (G table 0%nat (repeat 0 (length table)) (repeat 0 (length table)) (fun _ => 0)).
  - lia.
  - apply repeat_length.
  - apply repeat_length.
  - intros x. apply Z.
Qed.

Lemma LagrangePoly_Lagrange (table : list (R * R)) (x : R) : NoDup (map fst table) ->
  poly (LagrangePoly (fl := RFlt) table) x = Lagrange (fl := RFlt) x table.
Proof.
  intros Hn. destruct (LagrangePoly_spec table) as [_ P]. rewrite P, Lagrange_isum. apply isum_ext.
  intros i Hi. rewrite (rprod_div (fun xj => x - xj) (fun xj => fst (nth i table (0, 0)) - xj)).
  - unfold lterm, Rdiv. ring.
  - intros a Ha. unfold others in Ha. rewrite <- remove_nth_map in Ha.
    apply (remove_nth_NoDup _ i 0) in Ha; [|assumption|now rewrite map_length].
    rewrite nth_fst in Ha. lra.
Qed.

Lemma LagrangePoly_length (table : list (R * R)) : length (LagrangePoly (fl := RFlt) table) = length table.
Proof. apply LagrangePoly_spec. Qed.

Lemma LagrangePoly_Horner (table : list (R * R)) (x : R) : NoDup (map fst table) -> table <> [] ->
  Horner (fl := RFlt) x (LagrangePoly (fl := RFlt) table) = Some (Lagrange (fl := RFlt) x table).
Proof.
  intros Hn Ht. rewrite Horner_poly.
  - exact (f_equal Some (LagrangePoly_Lagrange table x Hn)).
  - intros E. apply Ht. apply length_zero_iff_nil. rewrite <- LagrangePoly_length, E. reflexivity.
Qed.

(** Any polynomial of degree < n through the table is the one computed. *)
Lemma Lagrange_exact (table : list (R * R)) (f : R -> R) c : NoDup (map fst table) ->
  (length c <= length table)%nat -> (forall x, f x = poly c x) ->
  (forall x y, In (x, y) table -> y = f x) ->
  forall x : R, Lagrange (fl := RFlt) x table = f x.
Proof.
  intros Hn Hc Hf Ht x. rewrite <- LagrangePoly_Lagrange, Hf by auto.
  apply (poly_unique (map fst table)); auto; rewrite ?map_length, ?LagrangePoly_length; auto.
  intros r Hr. apply in_map_iff in Hr. destruct Hr as [[u v] [<- Huv]]. cbn [fst].
  rewrite LagrangePoly_Lagrange by auto. rewrite (Lagrange_node table u v) by auto.
  rewrite (Ht u v Huv). apply Hf.
Qed.

Lemma Lagrange_perm (table table' : list (R * R)) (x : R) : NoDup (map fst table) -> Permutation table table' ->
  Lagrange (fl := RFlt) x table = Lagrange (fl := RFlt) x table'.
Proof.
  intros Hn Hp.
  assert (Hn' : NoDup (map fst table')) by (apply (Permutation_NoDup (Permutation_map fst Hp)); auto).
  apply (Lagrange_exact table (fun x => Lagrange (fl := RFlt) x table') (LagrangePoly (fl := RFlt) table')); auto.
  - rewrite LagrangePoly_length, (Permutation_length Hp). auto.
  - intros. symmetry. apply LagrangePoly_Lagrange. auto.
  - intros u v Huv. symmetry. apply Lagrange_node; auto. apply (Permutation_in _ Hp). auto.
Qed.
