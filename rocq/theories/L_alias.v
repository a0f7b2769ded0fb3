(** Pointer lemmas: the result of the functions that document that their two
    struct arguments may be the same. *)
From Coq Require Import ZArith Reals List Lra Bool Arith.
From Flocq Require Import Core.
From Verif Require Import GoFloat GoMath M_base M_angle M_coord M_precess.
Local Open Scope R_scope.

Lemma store_same {A} (m : memory A) p v : store m p v p = v.
Proof. unfold store. rewrite Nat.eqb_refl. reflexivity. Qed.
Lemma store_other {A} (m : memory A) p v q : q <> p -> store m p v q = m q.
Proof. intros H. unfold store. apply Nat.eqb_neq in H. rewrite H. reflexivity. Qed.

Lemma setRA_dec m p v q : eqDec (setRA m p v q) = eqDec (m q).
Proof. unfold setRA, store. destruct (Nat.eqb_spec q p) as [->|]; reflexivity. Qed.

Ltac ptr t :=
  unfold setRA, setDec, setLon, setLat, setInc, setPeri, setNode; rewrite ?store_same; cbn [eqRA eqDec eclLon eclLat Inc Peri Node].

Definition writes {A} (m m' : memory A) (t : nat) (v : A) : Prop := m' t = v /\ forall q, q <> t -> m' q = m q.

Ltac others := intros q Hq; unfold setRA, setDec, setLon, setLat, setInc, setPeri, setNode; rewrite ?(store_other _ _ _ _ Hq); reflexivity.

Lemma Approx_writes m f t e1 e2 ma md : writes m (ApproxPosition_ptr m f t e1 e2 ma md) t (ApproxPosition (m f) e1 e2 ma md).
Proof.
  unfold ApproxPosition_ptr, ApproxPosition. destruct (ApproxAnnualPrecession (m f) e1 e2) as [da dd]. cbv zeta. split.
  - rewrite setRA_dec. ptr t. reflexivity.
  - others.
Qed.

Lemma Precess_writes p m f t : writes m (Precess_ptr p m f t) t (Precess p (m f)).
Proof.
  unfold Precess_ptr, Precess, poleSafe. cbv zeta. split.
  - case (Rlt_bool (Rabs _) _); [ptr t; reflexivity|]. case (Rlt_bool _ 0); ptr t; reflexivity.
  - case (Rlt_bool (Rabs _) _); [others|]. case (Rlt_bool _ 0); others.
Qed.

Lemma writes_trans {A} (m m' m'' : memory A) t v w : writes m m' t v -> writes m' m'' t w -> writes m m'' t w.
Proof. intros [_ O] [E O']. split; [exact E|]. intros q Hq. rewrite O', O by exact Hq. reflexivity. Qed.

Lemma Position_writes m f t e1 e2 ma md : writes m (Position_ptr m f t e1 e2 ma md) t (Position (m f) e1 e2 ma md).
Proof.
  unfold Position_ptr, Position. cbv zeta.
  assert (W : writes m (setDec (setRA m t (RAFromRad (eqRA (m f) + ma * (e2 - e1)))) t (eqDec (setRA m t (RAFromRad (eqRA (m f) + ma * (e2 - e1))) f) + md * (e2 - e1))) t
    (mkEq (RAFromRad (eqRA (m f) + ma * (e2 - e1))) (eqDec (m f) + md * (e2 - e1)))).
  { split; [|others]. rewrite setRA_dec. ptr t. reflexivity. }
  apply (writes_trans _ _ _ _ _ _ W). destruct W as [E _]. rewrite <- E. apply Precess_writes.
Qed.

Lemma EclPrecess_writes p m f t : writes m (EclPrecess_ptr p m f t) t (EclPrecess p (m f)).
Proof.
  unfold EclPrecess_ptr, EclPrecess, poleSafe. cbv zeta. split.
  - case (Rlt_bool (Rabs _) _); [ptr t; reflexivity|]. case (Rlt_bool _ 0); ptr t; reflexivity.
  - case (Rlt_bool (Rabs _) _); [others|]. case (Rlt_bool _ 0); others.
Qed.

Lemma store_copy {A} (m : memory A) f t : store m t (m f) f = m f.
Proof. unfold store. destruct (Nat.eqb f t); reflexivity. Qed.

Lemma EclipticPosition_writes m f t e1 e2 ma md :
  writes m (EclipticPosition_ptr m f t e1 e2 ma md) t (EclipticPosition (m f) e1 e2 ma md).
Proof.
  unfold EclipticPosition_ptr, EclipticPosition. cbv zeta. rewrite store_copy.
  case (negb (Req_bool ma 0) || negb (Req_bool md 0)).
  - destruct (eqProperMotionToEcl ma md e1 (m f)) as [ml mb]. eapply writes_trans; [|].
    2:{ set (m4 := setLat _ _ _). replace (mkEcl _ _) with (m4 t). - apply EclPrecess_writes.
        - unfold m4. ptr t. reflexivity. }
    split; [reflexivity|others].
  - apply (writes_trans _ (store m t (m f)) _ _ (m f)); [split; [apply store_same|intros q Hq; rewrite (store_other _ _ _ _ Hq); reflexivity]|].
    replace (EclPrecess _ (m f)) with (EclPrecess (NewEclipticPrecessor e1 e2) (store m t (m f) t)) by (rewrite store_same; reflexivity).
    apply EclPrecess_writes.
Qed.

Lemma ProperMotion3D_writes m f t e1 e2 r mr ma md :
  writes m (ProperMotion3D_ptr m f t e1 e2 r mr ma md) t (ProperMotion3D (m f) e1 e2 r mr ma md).
Proof. unfold ProperMotion3D_ptr, ProperMotion3D. cbv zeta. split; [ptr t; reflexivity|others]. Qed.

Lemma peri_read m f t v w : Peri (setNode (setInc m t v) t w f) = Peri (m f).
Proof. unfold setNode, setInc, store. rewrite Nat.eqb_refl. destruct (Nat.eqb_spec f t) as [->|]; reflexivity. Qed.

Lemma ReduceElements_writes p m f t : writes m (ReduceElements_ptr p m f t) t (ReduceElements p (m f)).
Proof. unfold ReduceElements_ptr, ReduceElements. cbv zeta. rewrite peri_read. split; [ptr t; reflexivity|others]. Qed.
Lemma ReduceB1950_writes m f t : writes m (ReduceB1950ToJ2000_ptr m f t) t (ReduceB1950ToJ2000 (m f)).
Proof. unfold ReduceB1950ToJ2000_ptr, ReduceB1950ToJ2000. cbv zeta. rewrite peri_read. split; [ptr t; reflexivity|others]. Qed.
Lemma ReduceFK_writes m f t : writes m (ReduceB1950FK4ToJ2000FK5_ptr m f t) t (ReduceB1950FK4ToJ2000FK5 (m f)).
Proof. unfold ReduceB1950FK4ToJ2000FK5_ptr, ReduceB1950FK4ToJ2000FK5. cbv zeta. rewrite peri_read. split; [ptr t; reflexivity|others]. Qed.

Lemma apparent_writes nut abr m f t e1 e2 ma md :
  writes m (apparentPosition_ptr nut abr m f t e1 e2 ma md) t (apparentPosition nut abr (m f) e1 e2 ma md).
Proof.
  unfold apparentPosition_ptr, apparentPosition. cbv zeta. destruct (Position_writes m f t e1 e2 ma md) as [E O].
  rewrite E. set (m1 := Position_ptr m f t e1 e2 ma md) in *. set (q := Position (m f) e1 e2 ma md) in *.
  destruct (nut (eqRA q) (eqDec q) _) as [a1 d1]. destruct (abr (eqRA q) (eqDec q) _) as [a2 d2]. split.
  - ptr t. rewrite E. reflexivity.
  - intros p Hp. ptr t. rewrite !(store_other _ _ _ _ Hp). apply O, Hp.
Qed.

Lemma RonVondrak_writes nut abr m f t e2 ma md :
  writes m (positionRonVondrak_ptr nut abr m f t e2 ma md) t (positionRonVondrak nut abr (m f) e2 ma md).
Proof.
  unfold positionRonVondrak_ptr, positionRonVondrak. cbv zeta. rewrite setRA_dec.
  set (m2 := setDec _ _ _).
  assert (E2 : m2 t = mkEq (RAAdd (eqRA (m f)) (ma * (e2 - 2000))) (eqDec (m f) + md * (e2 - 2000))) by (unfold m2; ptr t; reflexivity).
  assert (O2 : forall q, q <> t -> m2 q = m q) by (unfold m2; others).
  clearbody m2. rewrite E2. cbn [eqRA eqDec]. destruct (abr _ _ _) as [a d].
  set (m4 := setDec (setRA m2 t _) t _).
  assert (E4 : m4 t = mkEq (RAAdd (RAAdd (eqRA (m f)) (ma * (e2 - 2000))) a) (eqDec (m f) + md * (e2 - 2000) + d)).
  { unfold m4. rewrite setRA_dec. ptr t. rewrite E2. reflexivity. }
  assert (O4 : forall q, q <> t -> m4 q = m q). { intros q Hq. unfold m4. ptr t. rewrite !(store_other _ _ _ _ Hq). apply O2, Hq. }
  clearbody m4. clear E2 O2. destruct (Position_writes m4 t t 2000 e2 0 0) as [E5 O5]. rewrite E4 in E5. rewrite E5.
  set (m5 := Position_ptr m4 t t 2000 e2 0 0) in *. set (q5 := Position _ 2000 e2 0 0) in *.
  destruct (nut (eqRA q5) (eqDec q5) _) as [a1 d1]. split.
  - ptr t. rewrite E5. reflexivity.
  - intros p Hp. ptr t. rewrite !(store_other _ _ _ _ Hp), O5, O4 by exact Hp. reflexivity.
Qed.
