(** Lemmas for the mean lunar arguments. *)
From Coq Require Import ZArith Reals List Lra Lia Bool.
From Flocq Require Import Core.
From Verif Require Import GoMath M_precess M_light M_parallax M_moonconst S_moonconst L_trig L_vec L_precess L_light L_parallax.
Import ListNotations.
Local Open Scope R_scope.

Ltac arg := unfold docNode, docPerigee, docF, docD, docM, docM', poly4, nodeDeg, perigeeDeg, argF, argD, argM, argM';
  rewrite ?HornerR5, ?HornerR4, !intConst_0 by reflexivity; decimals; field.
Lemma args_error T :
  docNode T - nodeDeg T = T ^ 3 / 467441 - T ^ 4 / 60616000 /\
  docPerigee T - perigeeDeg T = - (T ^ 3) / 80053 + T ^ 4 / 18999000 /\
  docF T - argF T = - (T ^ 3) / 3526000 + T ^ 4 / 863310000 /\
  docD T - argD T = T ^ 3 / 545868 - T ^ 4 / 113065000 /\
  docM T - argM T = T ^ 3 / 24490000 /\
  docM' T - argM' T = T ^ 3 / 69699 - T ^ 4 / 14712000.
Proof. repeat split; arg. Qed.
Lemma pow_bound T n : -1 <= T <= 1 -> -1 <= T ^ n <= 1.
Proof. intros H. induction n as [|n IH]; cbn; nra. Qed.
Lemma args_small T : -1 <= T <= 1 ->
  Rabs (docNode T - nodeDeg T) <= 1 / 60000 /\ Rabs (docPerigee T - perigeeDeg T) <= 1 / 60000 /\ Rabs (docF T - argF T) <= 1 / 60000 /\
  Rabs (docD T - argD T) <= 1 / 60000 /\ Rabs (docM T - argM T) <= 1 / 60000 /\ Rabs (docM' T - argM' T) <= 1 / 60000.
Proof.
  intros H. destruct (args_error T) as (-> & -> & -> & -> & -> & ->). pose proof (pow_bound T 3 H). pose proof (pow_bound T 4 H).
  set (a := T ^ 3) in *. set (b := T ^ 4) in *. clearbody a b. repeat split; apply Rabs_le; lra.
Qed.
Lemma same_angle_deg a b : same_angle (AngleFromDeg a) (AngleFromDeg b) -> exists k : Z, a - b = 360 * IZR k.
Proof.
  intros [C S]. destruct (angle_eq _ _ S C) as [k K]. exists k. unfold AngleFromDeg in K. pose proof PI_RGT_0 as PP.
  apply Rmult_eq_reg_r with (PI / 180); lra.
Qed.
Lemma no_turn x (k : Z) : x = 360 * IZR k -> x <> 0 -> 360 <= Rabs x.
Proof.
  intros -> N. assert (k <> 0%Z) by (intros ->; apply N; ring). rewrite Rabs_mult, (Rabs_right 360) by lra. rewrite <- abs_IZR. assert (1 <= IZR (Z.abs k)) by (apply IZR_le; lia). lra.
Qed.
Lemma differ a b : a - b <> 0 -> Rabs (a - b) < 360 -> ~ same_angle (AngleFromDeg a) (AngleFromDeg b).
Proof. intros N L S. destruct (same_angle_deg _ _ S) as [k K]. pose proof (no_turn _ k K N). lra. Qed.
Lemma same_Mod1 a b : same_angle (Mod1 a) b -> same_angle a b.
Proof. unfold same_angle. now rewrite Mod1_cos, Mod1_sin. Qed.
Lemma same_sym a b : same_angle a b -> same_angle b a. Proof. intros [? ?]. now split. Qed.
Lemma century_of T : century (2451545 + 36525 * T) = T. Proof. unfold century. field. Qed.
(** In the year -1000. *)
Lemma Node_wrong : exists jde, ~ same_angle (Node jde) (AngleFromDeg (docNode (century jde))) /\
  Rabs (docNode (century jde) - nodeDeg (century jde)) > 7 / 100.
Proof.
  exists (2451545 + 36525 * -30). unfold Node. rewrite century_of. destruct (args_error (-30)) as (E & _).
  split; [intros S; apply same_Mod1, same_sym in S; revert S; apply differ|]; rewrite E; [lra|rewrite Rabs_left; lra|rewrite Rabs_left; lra].
Qed.
Lemma Perigee_wrong : exists jde, ~ same_angle (Perigee jde) (AngleFromDeg (docPerigee (century jde))) /\
  Rabs (docPerigee (century jde) - perigeeDeg (century jde)) > 37 / 100.
Proof.
  exists (2451545 + 36525 * -30). unfold Perigee. rewrite century_of. destruct (args_error (-30)) as (_ & E & _).
  split; [intros S; apply same_Mod1, same_sym in S; revert S; apply differ|]; rewrite E; [lra|rewrite Rabs_right; lra|rewrite Rabs_right; lra].
Qed.
Lemma illum_wrong : exists T,
  ~ same_angle (illumD T) (AngleFromDeg (docD T)) /\ ~ same_angle (illumM T) (AngleFromDeg (docM T)) /\ ~ same_angle (illumM' T) (AngleFromDeg (docM' T)).
Proof.
  exists (-30). destruct (args_error (-30)) as (_ & _ & _ & E1 & E2 & E3). unfold argD, argM, argM' in *.
  repeat split; intros S; apply same_Mod1, same_sym in S; revert S; apply differ; rewrite ?E1, ?E2, ?E3; try lra; rewrite Rabs_left; lra.
Qed.
Lemma Node_good jde : same_angle (Node jde) (AngleFromDeg (docNode (century jde) - (century jde ^ 3 / 467441 - century jde ^ 4 / 60616000))) /\ 0 <= Node jde < 2 * PI.
Proof.
  split; [|apply Mod1_bound]. destruct (args_error (century jde)) as (E & _). rewrite <- E. unfold Node, same_angle. rewrite Mod1_cos, Mod1_sin.
  replace (docNode (century jde) - (docNode (century jde) - nodeDeg (century jde))) with (nodeDeg (century jde)) by ring. split; reflexivity.
Qed.
Lemma Perigee_good jde : same_angle (Perigee jde) (AngleFromDeg (docPerigee (century jde) - (- (century jde ^ 3) / 80053 + century jde ^ 4 / 18999000))) /\ 0 <= Perigee jde < 2 * PI.
Proof.
  split; [|apply Mod1_bound]. destruct (args_error (century jde)) as (_ & E & _). rewrite <- E. unfold Perigee, same_angle. rewrite Mod1_cos, Mod1_sin.
  replace (docPerigee (century jde) - (docPerigee (century jde) - perigeeDeg (century jde))) with (perigeeDeg (century jde)) by ring. split; reflexivity.
Qed.
Lemma Moon_wrong : Moon = AngleFromSec 2 /\ AngleFromSec 2.396 < AngleFromSec (358473400 / 149597870).
Proof. split; [apply Moon_value|]. unfold AngleFromSec. pose proof PI_RGT_0. decimals. apply Rmult_lt_compat_r; lra. Qed.
