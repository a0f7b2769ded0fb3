(** Property theorems: package fit (C29 - C31). *)
From Coq Require Import ZArith Bool List Reals Lra Lia.
From Flocq Require Import Core.
From Verif Require Import GoInt GoFloat M_fit S_fit L_fit.
Import ListNotations.
Local Open Scope R_scope.

(** ** C29: no line does better, and only that line does as well. *)
Theorem C29_Linear_least_squares : forall (p : list (R * R)) (a b : R),
  two_x p -> Linear (fl := RFlt) p = (a, b) -> forall a' b',
  squared_residuals (fun x => a * x + b) p <= squared_residuals (fun x => a' * x + b') p /\
  (squared_residuals (fun x => a' * x + b') p <= squared_residuals (fun x => a * x + b) p -> a' = a /\ b' = b).
Proof. exact Linear_optimal. Qed.
Print Assumptions C29_Linear_least_squares.

Example C29_nonvacuous : two_x [(1, 2); (1, 3); (4, 4)].
Proof. exists 1, 2, 4, 4. cbn. repeat split; auto. lra. Qed.

(** ** C30 *)
Theorem C30_Quadratic_least_squares : forall (p : list (R * R)) (a b c : R),
  three_x p -> Quadratic (fl := RFlt) p = (a, b, c) -> forall a' b' c',
  squared_residuals (fun x => a * (x * x) + b * x + c) p <= squared_residuals (fun x => a' * (x * x) + b' * x + c') p /\
  (squared_residuals (fun x => a' * (x * x) + b' * x + c') p <= squared_residuals (fun x => a * (x * x) + b * x + c) p ->
   a' = a /\ b' = b /\ c' = c).
Proof. exact Quadratic_optimal. Qed.
Print Assumptions C30_Quadratic_least_squares.

Theorem C30_Func3_least_squares : forall (p : list (R * R)) (g0 g1 g2 : R -> R) (a b c : R),
  independent_on p g0 g1 g2 -> Func3 (fl := RFlt) p g0 g1 g2 = (a, b, c) -> forall a' b' c',
  squared_residuals (fun x => a * g0 x + b * g1 x + c * g2 x) p <=
    squared_residuals (fun x => a' * g0 x + b' * g1 x + c' * g2 x) p /\
  (squared_residuals (fun x => a' * g0 x + b' * g1 x + c' * g2 x) p <=
    squared_residuals (fun x => a * g0 x + b * g1 x + c * g2 x) p -> a' = a /\ b' = b /\ c' = c).
Proof. exact Func3_optimal. Qed.
Print Assumptions C30_Func3_least_squares.

Theorem C30_Func1_least_squares : forall (p : list (R * R)) (f : R -> R),
  (exists x y, In (x, y) p /\ f x <> 0) -> forall a',
  let a := Func1 (fl := RFlt) p f in
  squared_residuals (fun x => a * f x) p <= squared_residuals (fun x => a' * f x) p /\
  (squared_residuals (fun x => a' * f x) p <= squared_residuals (fun x => a * f x) p -> a' = a).
Proof. exact Func1_optimal. Qed.
Print Assumptions C30_Func1_least_squares.

Example C30_nonvacuous : three_x [(0, 1); (1, 2); (2, 5); (2, 7)] /\
  independent_on [(0, 1); (PI / 2, 2); (PI, 5)] sin cos (fun _ => 1).
Proof.
  split.
  - exists 0, 1, 1, 2, 2, 5. cbn. repeat split; auto; lra.
  - intros u v w H.
    pose proof (H 0 1 ltac:(cbn; auto)) as H1. pose proof (H (PI / 2) 2 ltac:(cbn; auto)) as H2.
    pose proof (H PI 5 ltac:(cbn; auto)) as H3. cbn beta in *.
    rewrite sin_0, cos_0 in H1. rewrite sin_PI2, cos_PI2 in H2. rewrite sin_PI, cos_PI in H3. lra.
Qed.

(** ** C31 *)
Theorem C31_correlation_range : forall p : list (R * R),
  two_x p -> two_y p -> -1 <= CorrelationCoefficient (fl := RFlt) p <= 1.
Proof. exact corr_range. Qed.
Print Assumptions C31_correlation_range.

Theorem C31_linear_data : forall (p : list (R * R)) m q,
  two_x p -> (forall x y, In (x, y) p -> y = m * x + q) ->
  (0 < m -> CorrelationCoefficient (fl := RFlt) p = 1%R) /\ (m < 0 -> CorrelationCoefficient (fl := RFlt) p = (-1)%R).
Proof. exact corr_linear. Qed.
Print Assumptions C31_linear_data.

Theorem C31_unit_correlation_is_linear : forall p : list (R * R),
  two_x p -> two_y p -> Rabs (CorrelationCoefficient (fl := RFlt) p) = 1 ->
  exists m q, m <> 0 /\ forall x y, In (x, y) p -> y = m * x + q.
Proof. exact corr_one_linear. Qed.
Print Assumptions C31_unit_correlation_is_linear.

Theorem C31_symmetric : forall p : list (R * R),
  CorrelationCoefficient (fl := RFlt) (map (fun q => (snd q, fst q)) p) = CorrelationCoefficient (fl := RFlt) p.
Proof. exact corr_swap. Qed.
Print Assumptions C31_symmetric.

Theorem C31_rescaling : forall (p : list (R * R)) (a b c d : R),
  two_x p -> two_y p -> 0 < a -> 0 < c ->
  CorrelationCoefficient (fl := RFlt) (map (fun q => (a * fst q + b, c * snd q + d)%R) p) =
  CorrelationCoefficient (fl := RFlt) p.
Proof. exact corr_affine. Qed.
Print Assumptions C31_rescaling.

Example C31_nonvacuous : let p := [(0, 1); (1, 3); (2, 5)] in two_x p /\ two_y p /\ forall x y, In (x, y) p -> y = 2 * x + 1.
Proof.
  cbv zeta. split; [exists 0, 1, 1, 3; cbn; repeat split; auto; lra|].
  split; [exists 0, 1, 1, 3; cbn; repeat split; auto; lra|].
  intros x y [E|[E|[E|[]]]]; injection E as <- <-; lra.
Qed.
