(** Lemmas for line.Time. *)
From Coq Require Import ZArith Reals Bool List Lra.
From Verif Require Import GoFloat GoMath S_base S_Sphere S_interp M_interp L_interp L_interp_zero M_angle L_trig L_angle.
Import ListNotations.
Local Open Scope R_scope.

Lemma gc_value r1 d1 r2 d2 r3 d3 : cos d1 <> 0 -> cos d2 <> 0 -> cos d3 <> 0 ->
  Time_gc r1 d1 r2 d2 r3 d3 = - dot (cross (dir r1 d1) (dir r2 d2)) (dir r3 d3) / (cos d1 * cos d2 * cos d3).
Proof. intros. rewrite gc_det by assumption. field. tauto. Qed.

Lemma Time_ok r1 d1 r2 d2 r3 d3 t1 t5 x Y : cos d1 <> 0 -> cos d2 <> 0 -> (forall d, In d d3 -> cos d <> 0) ->
  Time r1 d1 r2 d2 r3 d3 t1 t5 = Some (Ok x) ->
  let g := map (fun '(r, d) => - dot (cross (dir r1 d1) (dir r2 d2)) (dir r d) / (cos d1 * cos d2 * cos d)) (combine r3 d3) in
  (forall v, In v g -> Rabs v <= Y) ->
  exists f t, poly_degree_le 4 f /\ tabulates f t1 t5 g /\ length g = 5%nat /\ x = Fin t /\ between t1 t5 t /\
    Rabs (f t) <= 1 / 1000000000000 * Y.
Proof.
  intros H1 H2 H3 HT g HY. unfold Time in HT.
  destruct (_ && _)%bool eqn:EL; [|discriminate]. apply andb_prop in EL. destruct EL as [L1 L2].
  apply Nat.eqb_eq in L1, L2.
  assert (Eg : map (fun '(r, d) => Time_gc r1 d1 r2 d2 r d) (combine r3 d3) = g).
  { unfold g. apply map_ext_in. intros [r d] Hin. apply gc_value; [exact H1|exact H2|]. apply H3. eapply in_combine_r. exact Hin. }
  rewrite Eg in HT.
  assert (Lg : length g = 5%nat). { unfold g. rewrite map_length, combine_length, L1, L2. reflexivity. }
  destruct (NewLen5 _ _ _) as [dx|] eqn:Edx; [|discriminate].
  destruct (NewLen5_X _ _ _ _ Edx) as [Hx _].
  destruct (NewLen5_total t1 t5 g) as [_ [_ T]]. destruct (T Lg Hx) as [d Hd].
  injection HT as HT.
  destruct (Len5_Zero_ok t1 t5 g dx d false x Y Edx Hd HY HT) as [t [Et [Hb Hz]]].
  exists (Len5_InterpolateX (fl := RFlt) d), t.
  repeat split; try assumption; [apply (Len5_degree t1 t5 g d Hd)|apply (Len5_reproduces t1 t5 g d Hd)| |]; apply Hb.
Qed.

Lemma Time_lengths r1 d1 r2 d2 r3 d3 t1 t5 :
  Time r1 d1 r2 d2 r3 d3 t1 t5 = None <-> ~ (length r3 = 5%nat /\ length d3 = 5%nat).
Proof.
  unfold Time. destruct (_ && _)%bool eqn:EL.
  - apply andb_prop in EL. destruct EL as [L1 L2]. apply Nat.eqb_eq in L1, L2. split; [discriminate|tauto].
  - split; [|reflexivity]. intros _ [A B]. rewrite A, B in EL. discriminate.
Qed.
