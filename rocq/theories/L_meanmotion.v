(** Polynomials with rational coefficients evaluated at reals: composition and a bound, by computation. *)
From Coq Require Import ZArith QArith Qreals Qabs Reals List Lia Lra Bool.
From Verif Require Import S_solar S_moon.
Import ListNotations.
Local Open Scope R_scope.

Definition qeval (p : list Q) (x : R) : R := fold_right (fun c s => Q2R c + x * s) 0 p.
Fixpoint qadd (p q : list Q) : list Q :=
  match p, q with
  | [], _ => q
  | _, [] => p
  | a :: p', b :: q' => Qred (a + b) :: qadd p' q'
  end.
Definition qscale (a : Q) (p : list Q) : list Q := map (fun b => Qred (a * b)) p.
Fixpoint qmul (p q : list Q) : list Q :=
  match p with [] => [] | a :: p' => qadd (qscale a q) (0%Q :: qmul p' q) end.
Fixpoint qcomp (p q : list Q) : list Q :=
  match p with [] => [] | a :: p' => qadd [a] (qmul q (qcomp p' q)) end.
Definition qbound (p : list Q) (B : Q) : Q := fold_right (fun c s => Qred (Qabs c + B * s)) 0%Q p.

Lemma Q2R_red a : Q2R (Qred a) = Q2R a.
Proof. apply Qeq_eqR. apply Qred_correct. Qed.
Lemma qadd_eval p : forall q x, qeval (qadd p q) x = qeval p x + qeval q x.
Proof.
  induction p as [| a p IH]; intros [| b q] x; cbn [qadd]; [cbn; lra .. |].
  cbn [qeval fold_right]. fold (qeval (qadd p q) x) (qeval p x) (qeval q x). rewrite IH, Q2R_red, Q2R_plus. ring.
Qed.
Lemma qscale_eval a p x : qeval (qscale a p) x = Q2R a * qeval p x.
Proof.
  induction p as [| b p IH]; [cbn; ring |]. change (qscale a (b :: p)) with (Qred (a * b) :: qscale a p).
  change (qeval (Qred (a * b) :: qscale a p) x) with (Q2R (Qred (a * b)) + x * qeval (qscale a p) x). rewrite IH, Q2R_red, Q2R_mult. cbn. unfold qeval. ring.
Qed.
Lemma qmul_eval p : forall q x, qeval (qmul p q) x = qeval p x * qeval q x.
Proof.
  induction p as [| a p IH]; intros q x; cbn [qmul]; [cbn; ring |].
  rewrite qadd_eval, qscale_eval. change (qeval (0%Q :: qmul p q) x) with (Q2R 0 + x * qeval (qmul p q) x).
  change (qeval (a :: p) x) with (Q2R a + x * qeval p x). rewrite IH. replace (Q2R 0) with 0 by (unfold Q2R; cbn; lra). ring.
Qed.
Lemma qcomp_eval p q x : qeval (qcomp p q) x = qeval p (qeval q x).
Proof.
  induction p as [| a p IH]; cbn [qcomp]; [reflexivity |].
  rewrite qadd_eval, qmul_eval, IH. change (qeval (a :: p) (qeval q x)) with (Q2R a + qeval q x * qeval p (qeval q x)). change (qeval [a] x) with (Q2R a + x * 0). ring.
Qed.
Lemma Q2R_abs a : Q2R (Qabs a) = Rabs (Q2R a).
Proof.
  destruct (Qlt_le_dec a 0) as [H | H].
  - assert (E : Q2R (Qabs a) = Q2R (- a)) by (apply Qeq_eqR, Qabs_neg, Qlt_le_weak, H). rewrite E, Q2R_opp. apply Qlt_Rlt in H. rewrite Rabs_left; [reflexivity |]. unfold Q2R in *. cbn in *. lra.
  - assert (E : Q2R (Qabs a) = Q2R a) by (apply Qeq_eqR, Qabs_pos, H). rewrite E. apply Qle_Rle in H. rewrite Rabs_right; [reflexivity |]. unfold Q2R in *. cbn in *. lra.
Qed.
Lemma qbound_spec p B x : Rabs x <= Q2R B -> Rabs (qeval p x) <= Q2R (qbound p B).
Proof.
  intros H. induction p as [| a p IH]; [cbn; rewrite Rabs_R0; unfold Q2R; cbn; lra |].
  change (qeval (a :: p) x) with (Q2R a + x * qeval p x). change (qbound (a :: p) B) with (Qred (Qabs a + B * qbound p B)).
  rewrite Q2R_red, Q2R_plus, Q2R_mult, Q2R_abs. eapply Rle_trans; [apply Rabs_triang |]. rewrite Rabs_mult.
  apply Rplus_le_compat_l. apply Rmult_le_compat; try apply Rabs_pos; assumption.
Qed.

(** The check made by computation: P composed with J is C plus n turns (in degrees) up to b, for |x| <= B. *)
Definition qnear (P J C : list Q) (n : Z) (B b : Q) : bool :=
  Qle_bool (qbound (qadd (qcomp P J) (qscale (-1) (qadd C [inject_Z (360 * n)]))) B) b.
Lemma qnear_spec P J C n B b x : qnear P J C n B b = true -> Rabs x <= Q2R B ->
  Rabs (qeval P (qeval J x) - qeval C x - 360 * IZR n) <= Q2R b.
Proof.
  intros H Hx. apply Qle_bool_imp_le in H. apply Qle_Rle in H.
  pose proof (qbound_spec (qadd (qcomp P J) (qscale (-1) (qadd C [inject_Z (360 * n)]))) B x Hx) as K.
  rewrite qadd_eval, qscale_eval, qadd_eval, qcomp_eval in K. change (qeval [inject_Z (360 * n)] x) with (Q2R (inject_Z (360 * n)) + x * 0) in K.
  replace (Q2R (-1)) with (-1) in K by (unfold Q2R; cbn; lra). replace (Q2R (inject_Z (360 * n))) with (360 * IZR n) in K by (unfold Q2R, inject_Z; cbn [Qnum Qden]; rewrite mult_IZR; field).
  replace (qeval P (qeval J x) - qeval C x - 360 * IZR n) with (qeval P (qeval J x) + -1 * (qeval C x + (360 * IZR n + x * 0))) by ring. lra.
Qed.
Lemma qnear_turns P J C n B b x a c : qnear P J C n B b = true -> Rabs x <= Q2R B -> a = degrees (qeval P (qeval J x)) -> c = degrees (qeval C x) -> near_turns (a - c) (degrees (Q2R b)).
Proof.
  intros H Hx -> ->. pose proof (qnear_spec P J C n B b x H Hx) as K. exists n. unfold degrees.
  replace (qeval P (qeval J x) * (PI / 180) - qeval C x * (PI / 180) - IZR n * (2 * PI)) with ((qeval P (qeval J x) - qeval C x - 360 * IZR n) * (PI / 180)) by field.
  pose proof PI_RGT_0. rewrite Rabs_mult, (Rabs_right (PI / 180)) by lra. apply Rmult_le_compat_r; lra.
Qed.
