(** Property theorems: package iterate (C17, C18). *)
From Coq Require Import ZArith Bool List Reals Lra Lia.
From Flocq Require Import Core.
From Verif Require Import GoInt GoFloat M_iterate S_iterate L_iterate.
Local Open Scope R_scope.

(** ** C17 *)
Theorem C17_BinaryRoot_root : forall (f : R -> R) (lower upper : R),
  continuous_between f lower upper ->
  (f lower < 0 <= f upper \/ f upper <= 0 <= f lower) ->
  let r := BinaryRoot (fl := RFlt) f lower upper in
  between lower upper r /\
  exists x, between lower upper x /\ f x = 0 /\ Rabs (r - x) <= Rabs (upper - lower) / 2 ^ 52.
Proof. exact BinaryRoot_root. Qed.
Print Assumptions C17_BinaryRoot_root.

(** The one sign pattern the theorem leaves out, a root at [lower] with f positive at
    [upper], is not found although "a root exists between the given bounds". *)
Theorem C17_BinaryRoot_root_at_lower_refuted :
  let f := fun x : R => x in
  f 0 = 0 /\ (forall x, f x = 0 -> x = 0) /\ 1 / 2 <= BinaryRoot (fl := RFlt) f 0 1.
Proof.
  exact (conj (proj1 BinaryRoot_lower_root_missed) (conj (fun x H => H) (proj2 BinaryRoot_lower_root_missed))).
Qed.
Print Assumptions C17_BinaryRoot_root_at_lower_refuted.

Example C17_nonvacuous :
  let f := fun x : R => x * x - 2 in
  continuous_between f 0 2 /\ f 0 < 0 <= f 2 /\ continuous_between f 2 0 /\ f 0 <= 0 <= f 2.
Proof.
  cbv zeta. assert (H : forall x, continuity_pt (fun x => x * x - 2) x) by (intros; reg).
  split; [intros x _; apply H|]. split; [lra|]. split; [intros x _; apply H|lra].
Qed.

(** ** C18 *)
Theorem C18_DecimalPlaces_ok : forall (fl : Flt) (pow10 : Z -> F) (better : F -> F) (start : F) (places max : Z) (r : F),
  DecimalPlaces pow10 better start places max = Ok r <->
  exists k : nat, (Z.of_nat k < max)%Z /\ r = better (iter_n better k start) /\
    flt (fabs (fsub r (iter_n better k start))) (pow10 (- places)%Z) = true /\
    forall i, (i < k)%nat ->
      flt (fabs (fsub (iter_n better (S i) start) (iter_n better i start))) (pow10 (- places)%Z) = false.
Proof. exact @DecimalPlaces_ok. Qed.
Print Assumptions C18_DecimalPlaces_ok.

Theorem C18_DecimalPlaces_error : forall (fl : Flt) (pow10 : Z -> F) (better : F -> F) (start : F) (places max : Z),
  DecimalPlaces pow10 better start places max = MaxIterations <->
  forall i : nat, (Z.of_nat i < max)%Z ->
    flt (fabs (fsub (iter_n better (S i) start) (iter_n better i start))) (pow10 (- places)%Z) = false.
Proof. exact @DecimalPlaces_err. Qed.
Print Assumptions C18_DecimalPlaces_error.

Theorem C18_FullPrecision_ok : forall (fl : Flt) (better : F -> F) (start : F) (max : Z) (r : F),
  FullPrecision better start max = Ok r <->
  exists k : nat, (Z.of_nat k < max)%Z /\ r = better (iter_n better k start) /\
    flt (fabs (fdiv (fsub r (iter_n better k start)) r)) (fconst 1 1000000000000000) = true /\
    forall i, (i < k)%nat ->
      flt (fabs (fdiv (fsub (iter_n better (S i) start) (iter_n better i start)) (iter_n better (S i) start)))
        (fconst 1 1000000000000000) = false.
Proof. exact @FullPrecision_ok. Qed.
Print Assumptions C18_FullPrecision_ok.

Theorem C18_FullPrecision_error : forall (fl : Flt) (better : F -> F) (start : F) (max : Z),
  FullPrecision better start max = MaxIterations <->
  forall i : nat, (Z.of_nat i < max)%Z ->
      flt (fabs (fdiv (fsub (iter_n better (S i) start) (iter_n better i start)) (iter_n better (S i) start)))
        (fconst 1 1000000000000000) = false.
Proof. exact @FullPrecision_err. Qed.
Print Assumptions C18_FullPrecision_error.

(** For a contracting improvement the reported result is close to the fixed point. *)
Theorem C18_DecimalPlaces_fixpoint : forall (pow10 : Z -> R) (better : R -> R) (start : R) (places max : Z) (r q x : R),
  contraction better q -> better x = x -> 0 < pow10 (- places)%Z ->
  DecimalPlaces (fl := RFlt) pow10 better start places max = Ok r ->
  Rabs (r - x) <= q / (1 - q) * pow10 (- places)%Z.
Proof. exact DecimalPlaces_contraction. Qed.
Print Assumptions C18_DecimalPlaces_fixpoint.

(** The relative test of FullPrecision never accepts a limit of exactly zero, whatever
    the iteration limit, even when every iterate already equals it. *)
Theorem C18_FullPrecision_zero_limit_refuted : forall max : Z,
  FullPrecision (fl := XFlt) (fun _ => Fin 0) (Fin 1) max = MaxIterations.
Proof. exact FullPrecision_zero. Qed.
Print Assumptions C18_FullPrecision_zero_limit_refuted.

Example C18_nonvacuous :
  contraction (fun x => x / 2) (1 / 2) /\
  DecimalPlaces (fl := RFlt) (fun _ => 1) (fun x => x / 2) 3 0 5 = Ok (3 / 2 / 2).
Proof.
  split.
  - split; [lra|]. intros x y. replace (x / 2 - y / 2) with (1 / 2 * (x - y)) by field.
    rewrite Rabs_mult, (Rabs_right (1 / 2)) by lra. lra.
  - unfold DecimalPlaces. change (Z.to_nat 5) with 5%nat. cbn [DecimalPlaces_loop]. cbn -[Rabs IZR].
    rewrite (Rlt_bool_false (Rabs (3 / 2 - 3))) by (rewrite Rabs_left by lra; lra).
    rewrite (Rlt_bool_true (Rabs (3 / 2 / 2 - 3 / 2))) by (rewrite Rabs_left by lra; lra).
    reflexivity.
Qed.
