(** Lemmas for angle.MinSep and angle.MinSepRect. *)
From Coq Require Import ZArith Reals Bool List Lra Lia Psatz.
From Flocq Require Import Core.
From Verif Require Import GoInt GoFloat GoMath S_base S_Sphere S_interp S_minsep M_base M_interp M_angle M_minsep L_trig L_angle L_coord L_kepler L_interp L_interp_zero.
Import ListNotations.
Local Open Scope R_scope.

(** ** MinSep *)
Definition row_seps (r1 d1 r2 d2 : list R) : list R :=
  map (fun k => Sep (nth k r1 0) (nth k d1 0) (nth k r2 0) (nth k d2 0)) [0%nat; 1%nat; 2%nat].
Lemma MinSep_unfold jd1 jd3 r1 d1 r2 d2 : three r1 -> three d1 -> three r2 -> three d2 ->
  MinSep jd1 jd3 r1 d1 r2 d2 = match NewLen3 (fl := RFlt) jd1 jd3 (row_seps r1 d1 r2 d2) with Err e => Err e | Ok d => match Len3_Extremum (fl := RFlt) d with Err e => Err e | Ok (_, m) => Ok m end end.
Proof.
  unfold three. intros A B C D. destruct r1 as [|? [|? [|? [|? ?]]]]; try discriminate. destruct d1 as [|? [|? [|? [|? ?]]]]; try discriminate.
  destruct r2 as [|? [|? [|? [|? ?]]]]; try discriminate. destruct d2 as [|? [|? [|? [|? ?]]]]; try discriminate. reflexivity.
Qed.
Lemma MinSep_not3 jd1 jd3 r1 d1 r2 d2 : MinSep jd1 jd3 r1 d1 r2 d2 = Err ErrorNot3 <-> ~ (three r1 /\ three d1 /\ three r2 /\ three d2).
Proof.
  split.
  - intros H (A & B & C & D). rewrite (MinSep_unfold _ _ _ _ _ _ A B C D) in H. unfold row_seps in H. cbn [map] in H. unfold NewLen3 in H.
    destruct (feq (Flt := RFlt) jd3 jd1); [discriminate|]. unfold Len3_Extremum in H. destruct (feq _ _); [discriminate|]. destruct (_ || _); discriminate.
  - intros H. unfold MinSep. unfold three in H.
    destruct r1 as [|? [|? [|? [|? ?]]]]; try reflexivity. destruct d1 as [|? [|? [|? [|? ?]]]]; try reflexivity.
    destruct r2 as [|? [|? [|? [|? ?]]]]; try reflexivity. destruct d2 as [|? [|? [|? [|? ?]]]]; try reflexivity. exfalso. apply H. cbn. auto.
Qed.
Lemma MinSep_norange jd1 jd3 r1 d1 r2 d2 : three r1 -> three d1 -> three r2 -> three d2 ->
  MinSep jd1 jd3 r1 d1 r2 d2 = Err ErrorNoXRange <-> jd1 = jd3.
Proof.
  intros A B C D. rewrite (MinSep_unfold _ _ _ _ _ _ A B C D). unfold row_seps. cbn [map]. unfold NewLen3. cbn [feq RFlt]. case Req_bool_spec; intros E.
  - split; auto.
  - split; [|congruence]. unfold Len3_Extremum. destruct (feq _ _); [discriminate|]. destruct (_ || _); discriminate.
Qed.
Lemma MinSep_ok jd1 jd3 r1 d1 r2 d2 m : MinSep jd1 jd3 r1 d1 r2 d2 = Ok m ->
  forall f, poly_degree_le 2 f -> tabulates f jd1 jd3 (row_seps r1 d1 r2 d2) ->
  exists x, between jd1 jd3 x /\ m = f x /\
    let s k := Sep (nth k r1 0) (nth k d1 0) (nth k r2 0) (nth k d2 0) in
    (2 * s 1%nat < s 0%nat + s 2%nat -> is_minimum f x) /\ (s 0%nat + s 2%nat < 2 * s 1%nat -> is_maximum f x).
Proof.
  intros H f Hf Tf. assert (L : three r1 /\ three d1 /\ three r2 /\ three d2).
  { assert (G : {three r1 /\ three d1 /\ three r2 /\ three d2} + {~ (three r1 /\ three d1 /\ three r2 /\ three d2)}) by (unfold three; destruct (Nat.eq_dec (length r1) 3), (Nat.eq_dec (length d1) 3), (Nat.eq_dec (length r2) 3), (Nat.eq_dec (length d2) 3); (left; tauto) || (right; tauto)). destruct G as [G|G]; [exact G|]. apply (MinSep_not3 jd1 jd3) in G. congruence. }
  destruct L as (A & B & C & D). rewrite (MinSep_unfold _ _ _ _ _ _ A B C D) in H. destruct (NewLen3 (fl := RFlt) jd1 jd3 (row_seps r1 d1 r2 d2)) as [d|] eqn:E; [|discriminate].
  destruct (Len3_Extremum (fl := RFlt) d) as [[x v]|] eqn:X; [|discriminate]. injection H as <-. exists x.
  destruct (Len3_Extremum_ok _ _ _ _ E x v X) as (HB & HV & _ & HX). pose proof (Len3_exact _ _ _ _ E f Hf Tf) as EX. split; [exact HB|]. split; [rewrite HV; apply EX|]. cbv zeta.
  assert (N : jd1 <> jd3) by (destruct (NewLen3_Ok _ _ _ _ E) as [G _]; congruence).
  assert (SD : forall x, f (x + (jd3 - jd1) / 2) + f (x - (jd3 - jd1) / 2) - 2 * f x = nth 0 (row_seps r1 d1 r2 d2) 0 - 2 * nth 1 (row_seps r1 d1 r2 d2) 0 + nth 2 (row_seps r1 d1 r2 d2) 0).
  { intros z. rewrite <- !EX, !(Len3_curve _ _ _ _ E). cbv zeta. field. lra. }
  specialize (SD x). unfold row_seps in SD. cbn [map nth] in SD. split; intros G; (destruct HX as [K|K]; [|]).
  - exfalso. pose proof (K (x + (jd3 - jd1) / 2)) as K1. pose proof (K (x - (jd3 - jd1) / 2)) as K2. rewrite !EX in K1, K2. lra.
  - intros y. rewrite <- !EX. apply K.
  - intros y. rewrite <- !EX. apply K.
  - exfalso. pose proof (K (x + (jd3 - jd1) / 2)) as K1. pose proof (K (x - (jd3 - jd1) / 2)) as K2. rewrite !EX in K1, K2. lra.
Qed.
(** Two objects that separate and approach again: the result is the largest separation. *)
Lemma Sep_equator x : 1 / 100 <= x <= PI -> Sep 0 0 x 0 = x.
Proof.
  intros H. unfold Sep. rewrite sin_0, cos_0. replace (0 * 0 + 1 * 1 * cos (0 - x)) with (cos x) by (replace (0 - x) with (- x) by ring; rewrite cos_neg; ring).
  destruct (Rlt_dec (cos x) CosSmallAngle) as [L|L]; [apply acos_cos; lra|]. exfalso. apply L. unfold CosSmallAngle, SmallAngle, AngleFromMin. pose proof PI_bounds as P. apply cos_decreasing_1; lra.
Qed.
Lemma MinSep_maximum : MinSep 0 2 [0; 0; 0] [0; 0; 0] [1; 2; 1] [0; 0; 0] = Ok 2 /\ Sep 0 0 1 0 = 1 /\ Sep 0 0 2 0 = 2.
Proof.
  pose proof PI_bounds as P. assert (E1 := Sep_equator 1 ltac:(lra)). assert (E2 := Sep_equator 2 ltac:(lra)). split; [|split; assumption].
  unfold MinSep. rewrite E1, E2. unfold NewLen3. cbn [feq RFlt]. rewrite Req_bool_false by lra. unfold Len3_Extremum. cbn.
  rewrite Req_bool_false by lra. rewrite Rlt_bool_false by lra. rewrite Rlt_bool_false by lra. cbn. f_equal. lra.
Qed.

(** ** MinSepRect: the loop *)
Local Arguments Len3_InterpolateN : simpl never.
Definition l3x (y0 y1 y2 : R) : Len3 (fl := XFlt) :=
  mkLen3 (fl := XFlt) (Fin (-1 / 1)) (Fin (1 / 1)) (Fin y0) (Fin y1) (Fin y2) (Fin (y1 + - y0)) (Fin (y2 + - y1)) (Fin (y2 + - y1 + - (y1 + - y0)))
    (Fin (y1 + - y0 + (y2 + - y1))) (Fin (1 / 1 + -1 / 1)) (Fin (1 / 1 + - (-1 / 1))).
Lemma new_l3x y0 y1 y2 : NewLen3 (fl := XFlt) (fconst (-1) 1) (fconst 1 1) [Fin y0; Fin y1; Fin y2] = Ok (l3x y0 y1 y2).
Proof. unfold NewLen3. cbn. rewrite Req_bool_false by lra. reflexivity. Qed.
Lemma l3x_fin y0 y1 y2 n : Len3_InterpolateN (fl := XFlt) (l3x y0 y1 y2) (Fin n) = Fin (parabola y0 y1 y2 n).
Proof. unfold Len3_InterpolateN. cbn. f_equal. unfold parabola. field. Qed.
Lemma l3x_nan y0 y1 y2 : Len3_InterpolateN (fl := XFlt) (l3x y0 y1 y2) XNaN = XNaN.
Proof. reflexivity. Qed.
(** The slope of the parabola. *)
Definition slope (y0 y1 y2 n : R) : R := (y2 - y0) / 2 + n * (y0 + y2 - 2 * y1).
Lemma parabola_deriv y0 y1 y2 n : derivable_pt_lim (parabola y0 y1 y2) n (slope y0 y1 y2 n).
Proof.
  replace (slope y0 y1 y2 n) with (0 + (1 * ((y2 - y0) / 2) + n * 0) + ((1 * n + n * 1) * ((y0 - 2 * y1 + y2) / 2) + n * n * 0)) by (unfold slope; field).
  apply (derivable_pt_lim_ext (fun n => y1 + n * ((y2 - y0) / 2) + n * n * ((y0 - 2 * y1 + y2) / 2))).
  - intros t. unfold parabola. field.
  - apply (derivable_pt_lim_plus (fun n => y1 + n * ((y2 - y0) / 2)) (fun n => n * n * ((y0 - 2 * y1 + y2) / 2))).
    + apply (derivable_pt_lim_plus (fun _ => y1) (fun n => n * ((y2 - y0) / 2))); [apply derivable_pt_lim_const|].
      apply (derivable_pt_lim_mult id (fun _ => (y2 - y0) / 2)); [apply derivable_pt_lim_id|apply derivable_pt_lim_const].
    + apply (derivable_pt_lim_mult (fun n => n * n) (fun _ => (y0 - 2 * y1 + y2) / 2)); [|apply derivable_pt_lim_const].
      apply (derivable_pt_lim_mult id id); apply derivable_pt_lim_id.
Qed.

Section Rect.
Variables u0 u1 u2 v0 v1 v2 : R.
Let U := parabola u0 u1 u2.
Let V := parabola v0 v1 v2.
Let U' := slope u0 u1 u2.
Let V' := slope v0 v1 v2.
(** One round: a step of Newton's method for the squared distance, without its second derivatives. *)
Definition gn (n : R) : R := - (U n * U' n + V n * V' n) / (U' n * U' n + V' n * V' n).
Definition rloop := MinSepRect_loop (fl := XFlt) (l3x u0 u1 u2) (l3x v0 v1 v2) (Fin ((u2 + - u0) / (2 / 1))) (Fin ((v2 + - v0) / (2 / 1)))
  (Fin (u0 + u2 + - (2 / 1 * u1))) (Fin (v0 + v2 + - (2 / 1 * v1))).
Lemma xdn n : xdiv (xneg (xadd (xmul (Fin (U n)) (Fin (U' n))) (xmul (Fin (V n)) (Fin (V' n))))) (xadd (xmul (Fin (U' n)) (Fin (U' n))) (xmul (Fin (V' n)) (Fin (V' n)))) =
  if Req_bool (U' n * U' n + V' n * V' n) 0 then XNaN else Fin (gn n).
Proof.
  cbn. case Req_bool_spec; intros E; [|reflexivity]. assert (U' n = 0 /\ V' n = 0) as [-> ->] by (pose proof (Rle_0_sqr (U' n)); pose proof (Rle_0_sqr (V' n)); unfold Rsqr in *; split; nra).
  rewrite Req_bool_true by ring. reflexivity.
Qed.
Lemma rloop_S n dn k : rloop (Fin n) dn (S k) =
  if xlt (xabs dn) (Fin (1 / 100000)) then Some (Fin (U n), Fin (V n))
  else if Req_bool (U' n * U' n + V' n * V' n) 0 then rloop XNaN XNaN k else rloop (Fin (n + gn n)) (Fin (gn n)) k.
Proof.
  unfold rloop at 1. cbn [MinSepRect_loop]. rewrite !l3x_fin. fold U V. cbn [fabs fconst XFlt flt fadd fmul fdiv fneg].
  destruct (xlt (xabs dn) (Fin (1 / 100000))); [reflexivity|].
  assert (EU : xadd (Fin ((u2 + - u0) / (2 / 1))) (xmul (Fin n) (Fin (u0 + u2 + - (2 / 1 * u1)))) = Fin (U' n)) by (cbn; f_equal; unfold U', slope; field).
  assert (EV : xadd (Fin ((v2 + - v0) / (2 / 1))) (xmul (Fin n) (Fin (v0 + v2 + - (2 / 1 * v1)))) = Fin (V' n)) by (cbn; f_equal; unfold V', slope; field).
  rewrite EU, EV, xdn. destruct (Req_bool _ 0); reflexivity.
Qed.
Lemma rloop_nan k : rloop XNaN XNaN k = None.
Proof.
  induction k as [|k IH]; [reflexivity|]. unfold rloop. cbn [MinSepRect_loop]. rewrite !l3x_nan. cbn [fabs fconst XFlt flt fadd fmul fdiv fneg xabs xlt xadd xmul xneg xdiv]. exact IH.
Qed.
Lemma rmin_eq : MinSepRect_min (fl := XFlt) (Fin u0) (Fin u1) (Fin u2) (Fin v0) (Fin v1) (Fin v2) =
  if Req_bool (U' 0 * U' 0 + V' 0 * V' 0) 0 then None else rloop (Fin (0 + gn 0)) (Fin (gn 0)) 10.
Proof.
  unfold MinSepRect_min. rewrite !new_l3x. generalize 10%nat as k. intros k. cbn [fconst XFlt fsub fdiv fadd fmul fneg].
  assert (T : forall x, xdiv (Fin x) (Fin (2 / 1)) = Fin (x / (2 / 1))) by (intros x; cbn; rewrite Req_bool_false by lra; reflexivity).
  cbn [xneg xadd xmul]. rewrite !T. fold rloop.
  assert (EU : (u2 + - u0) / (2 / 1) = U' 0) by (unfold U', slope; field). assert (EV : (v2 + - v0) / (2 / 1) = V' 0) by (unfold V', slope; field).
  assert (E1 : u1 = U 0) by (unfold U, parabola; field). assert (E2 : v1 = V 0) by (unfold V, parabola; field).
  pose proof (xdn 0) as X. cbn [xneg xadd xmul] in X. rewrite EU, EV. cbn [xneg xadd xmul]. replace (u1 * U' 0 + v1 * V' 0) with (U 0 * U' 0 + V 0 * V' 0) by (rewrite <- E1, <- E2; reflexivity). rewrite X.
  destruct (Req_bool _ 0); [apply rloop_nan|]. rewrite Rplus_0_l. reflexivity.
Qed.
Lemma rloop_ok k : forall n0 n a b, U' n0 * U' n0 + V' n0 * V' n0 <> 0 -> n = n0 + gn n0 -> rloop (Fin n) (Fin (gn n0)) k = Some (a, b) ->
  exists m0, U' m0 * U' m0 + V' m0 * V' m0 <> 0 /\ Rabs (gn m0) < 1 / 100000 /\ a = Fin (U (m0 + gn m0)) /\ b = Fin (V (m0 + gn m0)).
Proof.
  induction k as [|k IH]; intros n0 n a b Hn En; [discriminate|]. rewrite rloop_S. cbn [xabs xlt]. case Rlt_bool_spec; intros L.
  - intros H. injection H as <- <-. exists n0. subst n. auto.
  - case Req_bool_spec; intros Q; [rewrite rloop_nan; discriminate|]. apply IH; [exact Q|reflexivity].
Qed.
Lemma rmin_ok a b : MinSepRect_min (fl := XFlt) (Fin u0) (Fin u1) (Fin u2) (Fin v0) (Fin v1) (Fin v2) = Some (a, b) ->
  exists m0, U' m0 * U' m0 + V' m0 * V' m0 <> 0 /\ Rabs (gn m0) < 1 / 100000 /\ a = Fin (U (m0 + gn m0)) /\ b = Fin (V (m0 + gn m0)).
Proof. rewrite rmin_eq. case Req_bool_spec; intros Q; [discriminate|]. apply rloop_ok; [exact Q|reflexivity]. Qed.
Lemma rmin_still : u0 = u2 -> v0 = v2 -> MinSepRect_min (fl := XFlt) (Fin u0) (Fin u1) (Fin u2) (Fin v0) (Fin v1) (Fin v2) = None.
Proof.
  intros E0 E1. rewrite rmin_eq. assert (A : U' 0 = 0) by (unfold U', slope; lra). assert (B : V' 0 = 0) by (unfold V', slope; lra).
  rewrite A, B, Req_bool_true by ring. reflexivity.
Qed.
(** Uniform motion. *)
Lemma rmin_uniform : u0 + u2 = 2 * u1 -> v0 + v2 = 2 * v1 -> u0 <> u2 \/ v0 <> v2 ->
  exists n, MinSepRect_min (fl := XFlt) (Fin u0) (Fin u1) (Fin u2) (Fin v0) (Fin v1) (Fin v2) = Some (Fin (U n), Fin (V n)) /\ closest U V n.
Proof.
  intros Eu Ev N. set (p := (u2 - u0) / 2). set (q := (v2 - v0) / 2).
  assert (PU : forall n, U n = u1 + n * p) by (intros n; unfold U, parabola, p; replace (u0 - 2 * u1 + u2) with 0 by lra; field). assert (PV : forall n, V n = v1 + n * q) by (intros n; unfold V, parabola, q; replace (v0 - 2 * v1 + v2) with 0 by lra; field).
  assert (SU : forall n, U' n = p) by (intros n; unfold U', slope, p; replace (u0 + u2 - 2 * u1) with 0 by lra; field). assert (SV : forall n, V' n = q) by (intros n; unfold V', slope, q; replace (v0 + v2 - 2 * v1) with 0 by lra; field).
  assert (Q : 0 < p * p + q * q). { pose proof (Rle_0_sqr p) as A. pose proof (Rle_0_sqr q) as B. unfold Rsqr in *. destruct N as [N|N]; [assert (p <> 0) by (unfold p; lra); assert (0 < p * p) by nra; lra|assert (q <> 0) by (unfold q; lra); assert (0 < q * q) by nra; lra]. }
  set (n := 0 + gn 0). assert (EN : n * (p * p + q * q) = - (u1 * p + v1 * q)) by (unfold n, gn; rewrite PU, PV, SU, SV; field; lra).
  assert (Z : gn n = 0). { unfold gn. rewrite PU, PV, SU, SV. replace ((u1 + n * p) * p + (v1 + n * q) * q) with (u1 * p + v1 * q + n * (p * p + q * q)) by ring. rewrite EN. field. lra. }
  exists n. split.
  - rewrite rmin_eq, SU, SV, Req_bool_false by lra. fold n. rewrite rloop_S. destruct (xlt _ _); [reflexivity|]. rewrite SU, SV, Req_bool_false by lra. rewrite Z, rloop_S. cbn [xabs xlt]. rewrite Rabs_R0, Rlt_bool_true by lra. rewrite Rplus_0_r. reflexivity.
  - intros m. unfold distance0. apply sqrt_le_1_alt. rewrite !PU, !PV. assert (G : 0 <= (m - n) * (m - n) * (p * p + q * q)) by (apply Rmult_le_pos; [apply Rle_0_sqr|lra]).
    assert (H : (u1 + m * p) * (u1 + m * p) + (v1 + m * q) * (v1 + m * q) - ((u1 + n * p) * (u1 + n * p) + (v1 + n * q) * (v1 + n * q)) = (m - n) * (m - n) * (p * p + q * q) + 2 * (m - n) * ((u1 * p + v1 * q) + n * (p * p + q * q))) by ring.
    rewrite EN in H. lra.
Qed.
End Rect.

(** ** MinSepRect: convergence for nearly uniform motion *)
Lemma dot_le x1 x2 y1 y2 A B : x1 * x1 + x2 * x2 <= A * A -> y1 * y1 + y2 * y2 <= B * B -> 0 <= A -> 0 <= B -> Rabs (x1 * y1 + x2 * y2) <= A * B.
Proof.
  intros H1 H2 HA HB. assert (P : 0 <= A * B) by (apply Rmult_le_pos; assumption). rewrite <- (Rabs_pos_eq (A * B)) by exact P. apply Rsqr_le_abs_0. unfold Rsqr.
  apply Rle_trans with ((x1 * x1 + x2 * x2) * (y1 * y1 + y2 * y2)); [pose proof (Rle_0_sqr (x1 * y2 - x2 * y1)) as Q; unfold Rsqr in Q; lra|].
  replace (A * B * (A * B)) with ((A * A) * (B * B)) by ring. apply Rmult_le_compat; try assumption; apply Rplus_le_le_0_compat; apply Rle_0_sqr.
Qed.
Lemma tri_le x1 x2 y1 y2 A B : x1 * x1 + x2 * x2 <= A * A -> y1 * y1 + y2 * y2 <= B * B -> 0 <= A -> 0 <= B -> (x1 + y1) * (x1 + y1) + (x2 + y2) * (x2 + y2) <= (A + B) * (A + B).
Proof. intros H1 H2 HA HB. pose proof (dot_le x1 x2 y1 y2 A B H1 H2 HA HB) as D. apply Rabs_le_inv in D. lra. Qed.
Lemma scale_le k x1 x2 A K : Rabs k <= K -> 0 <= A -> x1 * x1 + x2 * x2 <= A * A -> (k * x1) * (k * x1) + (k * x2) * (k * x2) <= (K * A) * (K * A).
Proof.
  intros HK HA H. assert (K2 : k * k <= K * K). { assert (E : Rabs k * Rabs k = k * k) by (rewrite <- Rabs_mult; apply Rabs_pos_eq, Rle_0_sqr). rewrite <- E. pose proof (Rabs_pos k). apply Rmult_le_compat; assumption. }
  replace (k * x1 * (k * x1) + k * x2 * (k * x2)) with ((k * k) * (x1 * x1 + x2 * x2)) by ring. replace (K * A * (K * A)) with ((K * K) * (A * A)) by ring.
  apply Rmult_le_compat; [apply Rle_0_sqr|apply Rplus_le_le_0_compat; apply Rle_0_sqr|exact K2|exact H].
Qed.

Section Converge.
Variables u0 u1 u2 v0 v1 v2 s : R.
Let U := parabola u0 u1 u2.
Let V := parabola v0 v1 v2.
Let U' := slope u0 u1 u2.
Let V' := slope v0 v1 v2.
Let g := gn u0 u1 u2 v0 v1 v2.
Let p := (u2 - u0) / 2.
Let q := (v2 - v0) / 2.
Let a := u0 - 2 * u1 + u2.
Let b := v0 - 2 * v1 + v2.
Hypothesis Hs : 0 < s.
Hypothesis Hv : p * p + q * q = s * s.
Hypothesis H1 : u1 * u1 + v1 * v1 <= s * s.
Hypothesis Ha : a * a + b * b <= (s / 20) * (s / 20).

Lemma cU n : U n = u1 + (n * p + n * n / 2 * a). Proof. unfold U, parabola, p, a. field. Qed.
Lemma cV n : V n = v1 + (n * q + n * n / 2 * b). Proof. unfold V, parabola, q, b. field. Qed.
Lemma cU' n : U' n = p + n * a. Proof. unfold U', slope, p, a. field. Qed.
Lemma cV' n : V' n = q + n * b. Proof. unfold V', slope, q, b. field. Qed.
Lemma pos_bound n : Rabs n <= 4 / 3 -> U n * U n + V n * V n <= (23778 / 10000 * s) * (23778 / 10000 * s).
Proof.
  intros Hn. rewrite cU, cV. assert (N2 : Rabs (n * n / 2) <= 8 / 9). { unfold Rdiv. rewrite !Rabs_mult, (Rabs_pos_eq (/ 2)) by lra. pose proof (Rabs_pos n). nra. }
  pose proof (scale_le n p q s (4 / 3) Hn ltac:(lra) ltac:(lra)) as A1. pose proof (scale_le (n * n / 2) a b (s / 20) (8 / 9) N2 ltac:(lra) Ha) as A2.
  pose proof (tri_le _ _ _ _ _ _ A1 A2 ltac:(lra) ltac:(lra)) as A3. pose proof (tri_le _ _ _ _ s _ H1 A3 ltac:(lra) ltac:(lra)) as A4. apply Rle_trans with (1 := A4). apply Rmult_le_compat; lra.
Qed.
Lemma vel_bound n : Rabs n <= 4 / 3 -> (14 / 15 * s) * (14 / 15 * s) <= U' n * U' n + V' n * V' n <= (16 / 15 * s) * (16 / 15 * s).
Proof.
  intros Hn. rewrite cU', cV'. pose proof (scale_le n a b (s / 20) (4 / 3) Hn ltac:(lra) Ha) as A2.
  pose proof (dot_le p q (n * a) (n * b) s (4 / 3 * (s / 20)) ltac:(lra) A2 ltac:(lra) ltac:(lra)) as D. apply Rabs_le_inv in D.
  split; [|pose proof (tri_le p q _ _ s _ ltac:(lra) A2 ltac:(lra) ltac:(lra)) as T; apply Rle_trans with (1 := T); apply Rmult_le_compat; lra].
  set (n1 := n * a) in *. set (n2 := n * b) in *. clearbody n1 n2.
  (* |p + x| >= |p| - |x| *)
  assert (X : sqrt (n1 * n1 + n2 * n2) <= s / 15). { rewrite <- (sqrt_square (s / 15)) by lra. apply sqrt_le_1_alt. lra. }
  set (x := sqrt (n1 * n1 + n2 * n2)) in *. assert (X2 : x * x = n1 * n1 + n2 * n2) by (apply sqrt_sqrt, Rplus_le_le_0_compat; apply Rle_0_sqr). assert (X0 : 0 <= x) by apply sqrt_pos. clearbody x.
  pose proof (dot_le p q n1 n2 s x ltac:(lra) ltac:(lra) ltac:(lra) X0) as D2. apply Rabs_le_inv in D2.
  assert (L : (s - x) * (s - x) <= (p + n1) * (p + n1) + (q + n2) * (q + n2)) by lra. apply Rle_trans with (2 := L). apply Rmult_le_compat; lra.
Qed.
Lemma g_eq n : Rabs n <= 4 / 3 -> U n * U' n + V n * V' n = - g n * (U' n * U' n + V' n * V' n).
Proof. intros Hn. destruct (vel_bound n Hn) as [A _]. assert (0 < 14 / 15 * s * (14 / 15 * s)) by nra. unfold g, gn. fold U V U' V'. field. lra. Qed.
Lemma wa_bound n : Rabs n <= 4 / 3 -> Rabs (U n * a + V n * b) <= 119 / 1000 * (s * s).
Proof. intros Hn. pose proof (dot_le _ _ _ _ _ _ (pos_bound n Hn) Ha ltac:(lra) ltac:(lra)) as D. apply Rle_trans with (1 := D). nra. Qed.
Lemma va_bound n : Rabs n <= 4 / 3 -> Rabs (U' n * a + V' n * b) <= 4 / 75 * (s * s).
Proof. intros Hn. pose proof (dot_le _ _ _ _ _ _ (proj2 (vel_bound n Hn)) Ha ltac:(lra) ltac:(lra)) as D. apply Rle_trans with (1 := D). nra. Qed.
Lemma g_next n : Rabs n <= 4 / 3 -> Rabs (g n) <= 1 -> Rabs (n + g n) <= 4 / 3 -> Rabs (g (n + g n)) <= Rabs (g n) / 4.
Proof.
  intros Hn Hg Hm. set (m := n + g n) in *. pose proof (g_eq m Hm) as E. pose proof (g_eq n Hn) as E0. destruct (vel_bound m Hm) as [VL _]. pose proof (wa_bound n Hn) as WA. pose proof (va_bound n Hn) as VA.
  set (G := g n) in *. set (D := U' m * U' m + V' m * V' m) in *. set (D0 := U' n * U' n + V' n * V' n) in *.
  assert (EM : U m * U' m + V m * V' m = G * (U n * a + V n * b) + 3 / 2 * (G * G) * (U' n * a + V' n * b) + G * G * G / 2 * (a * a + b * b)).
  { assert (K1 : U m = U n + G * U' n + G * G / 2 * a) by (rewrite !cU, cU'; unfold m; field). assert (K2 : V m = V n + G * V' n + G * G / 2 * b) by (rewrite !cV, cV'; unfold m; field).
    assert (K3 : U' m = U' n + G * a) by (rewrite !cU'; unfold m; field). assert (K4 : V' m = V' n + G * b) by (rewrite !cV'; unfold m; field). rewrite K1, K2, K3, K4. unfold D0 in E0.
    transitivity (U n * U' n + V n * V' n + G * (U' n * U' n + V' n * V' n) + G * (U n * a + V n * b) + 3 / 2 * (G * G) * (U' n * a + V' n * b) + G * G * G / 2 * (a * a + b * b)); [field|]. rewrite E0. ring. }
  rewrite E in EM. assert (S2 : 0 < s * s) by nra. assert (DL : 87 / 100 * (s * s) <= D) by lra. clear E E0 VL.
  assert (AB : 0 <= a * a + b * b <= s * s / 400) by (split; [apply Rplus_le_le_0_compat; apply Rle_0_sqr|lra]).
  set (wa := U n * a + V n * b) in *. set (va := U' n * a + V' n * b) in *. set (aa := a * a + b * b) in *. clearbody wa va aa D D0. clear D0.
  assert (T : Rabs (G * wa + 3 / 2 * (G * G) * va + G * G * G / 2 * aa) <= Rabs G * (201 / 1000 * (s * s))).
  { replace (G * wa + 3 / 2 * (G * G) * va + G * G * G / 2 * aa) with (G * (wa + 3 / 2 * G * va + G * G / 2 * aa)) by field. rewrite Rabs_mult. apply Rmult_le_compat_l; [apply Rabs_pos|].
    apply Rabs_le_inv in Hg. assert (T1 : Rabs (3 / 2 * G * va) <= 8 / 100 * (s * s)). { rewrite !Rabs_mult, (Rabs_pos_eq (3 / 2)) by lra. assert (Rabs G <= 1) by (apply Rabs_le; lra). pose proof (Rabs_pos va). pose proof (Rabs_pos G). nra. }
    assert (T2 : 0 <= G * G / 2 * aa <= s * s / 800) by (assert (0 <= G * G <= 1) by nra; split; [apply Rmult_le_pos; lra|nra]).
    apply Rabs_le_inv in WA, T1. apply Rabs_le. lra. }
  rewrite <- EM in T. rewrite Rabs_mult, Rabs_Ropp, (Rabs_pos_eq D) in T by lra. pose proof (Rabs_pos (g m)) as GP. pose proof (Rabs_pos G) as GP2.
  assert (Rabs (g m) * (87 / 100 * (s * s)) <= Rabs (g m) * D) by (apply Rmult_le_compat_l; lra).
  apply Rmult_le_reg_r with (87 / 100 * (s * s)); [lra|]. assert (0 <= Rabs G * (s * s)) by (apply Rmult_le_pos; lra). lra.
Qed.
Lemma g_start : Rabs (g 0) <= 1.
Proof.
  assert (Z : Rabs 0 <= 4 / 3) by (rewrite Rabs_R0; lra). pose proof (g_eq 0 Z) as E. rewrite cU, cV, cU', cV' in E. rewrite !Rmult_0_l, !Rplus_0_r in E. replace (0 / 2 * a) with 0 in E by field. replace (0 / 2 * b) with 0 in E by field.
  rewrite !Rplus_0_r in E. rewrite Hv in E. pose proof (dot_le u1 v1 p q s s H1 ltac:(lra) ltac:(lra) ltac:(lra)) as D. rewrite E, Rabs_mult, Rabs_Ropp, (Rabs_pos_eq (s * s)) in D by nra.
  apply Rmult_le_reg_r with (s * s); [nra|lra].
Qed.
Lemma conv_loop k : forall n dl, 0 <= dl <= 1 -> Rabs n <= 4 / 3 - 4 / 3 * dl -> Rabs (g n) <= dl -> dl < 1 / 100000 * 4 ^ k ->
  exists m, Rabs m <= 4 / 3 /\ Rabs (m + g m) <= 4 / 3 /\ Rabs (g m) < 1 / 100000 /\ rloop u0 u1 u2 v0 v1 v2 (Fin (n + g n)) (Fin (g n)) (S k) = Some (Fin (U (m + g m)), Fin (V (m + g m))).
Proof.
  induction k as [|k IH]; intros n dl Hd Hn Hg Hk; (assert (N1 : Rabs n <= 4 / 3) by lra); (assert (N2 : Rabs (n + g n) <= 4 / 3 - dl / 3) by (pose proof (Rabs_triang n (g n)); lra)); rewrite rloop_S; cbn [xabs xlt].
  - rewrite Rlt_bool_true by (cbn in Hk; lra). exists n. repeat split; lra.
  - case Rlt_bool_spec; intros L; [exists n; repeat split; lra|]. destruct (vel_bound (n + g n) ltac:(lra)) as [VB _]. assert (0 < 14 / 15 * s * (14 / 15 * s)) by nra. fold U' V'. rewrite Req_bool_false by lra.
    pose proof (g_next n N1 ltac:(lra) ltac:(lra)) as GN. fold g. apply (IH (n + g n) (dl / 4)); try lra. cbn [pow] in Hk. lra.
Qed.
Lemma conv : exists m, Rabs m <= 4 / 3 /\ Rabs (m + g m) <= 4 / 3 /\ Rabs (g m) < 1 / 100000 /\
  MinSepRect_min (fl := XFlt) (Fin u0) (Fin u1) (Fin u2) (Fin v0) (Fin v1) (Fin v2) = Some (Fin (U (m + g m)), Fin (V (m + g m))).
Proof.
  destruct (conv_loop 9 0 1 ltac:(lra) ltac:(rewrite Rabs_R0; lra) g_start ltac:(lra)) as (m & A & B & C & D). exists m. repeat split; try assumption. rewrite rmin_eq.
  destruct (vel_bound 0 ltac:(rewrite Rabs_R0; lra)) as [VB _]. assert (0 < 14 / 15 * s * (14 / 15 * s)) by nra. fold U' V'. rewrite Req_bool_false by lra. exact D.
Qed.
(** Almost the least distance. *)
Lemma conv_best m n : Rabs m <= 4 / 3 -> Rabs (m + g m) <= 4 / 3 -> Rabs (g m) < 1 / 100000 -> Rabs n <= 1 ->
  U (m + g m) * U (m + g m) + V (m + g m) * V (m + g m) <= U n * U n + V n * V n + 3 / 10 ^ 10 * (s * s).
Proof.
  intros Hm Hm2 Hg Hn. pose proof (g_eq m Hm) as E. destruct (vel_bound m Hm) as [VL VU]. pose proof (wa_bound m Hm) as WA. pose proof (va_bound m Hm) as VA. apply Rabs_le_inv in WA, VA.
  assert (X : forall h, U (m + h) * U (m + h) + V (m + h) * V (m + h) = U m * U m + V m * V m - 2 * h * g m * (U' m * U' m + V' m * V' m) + h * h * ((U' m * U' m + V' m * V' m) + (U m * a + V m * b)) + h * h * h * (U' m * a + V' m * b) + h * h * (h * h) / 4 * (a * a + b * b)).
  { intros h. assert (K1 : U (m + h) = U m + h * U' m + h * h / 2 * a) by (rewrite !cU, cU'; field). assert (K2 : V (m + h) = V m + h * V' m + h * h / 2 * b) by (rewrite !cV, cV'; field). rewrite K1, K2.
    transitivity (U m * U m + V m * V m + 2 * h * (U m * U' m + V m * V' m) + h * h * ((U' m * U' m + V' m * V' m) + (U m * a + V m * b)) + h * h * h * (U' m * a + V' m * b) + h * h * (h * h) / 4 * (a * a + b * b)); [field|]. rewrite E. ring. }
  pose proof (X (g m)) as X1. pose proof (X (n - m)) as X2. replace (m + (n - m)) with n in X2 by ring. clear X E.
  assert (AB : 0 <= a * a + b * b <= s * s / 400) by (split; [apply Rplus_le_le_0_compat; apply Rle_0_sqr|lra]). assert (S2 : 0 < s * s) by nra.
  set (F0 := U m * U m + V m * V m) in *. set (D := U' m * U' m + V' m * V' m) in *. set (wa := U m * a + V m * b) in *. set (va := U' m * a + V' m * b) in *. set (aa := a * a + b * b) in *. set (G := g m) in *. set (h := n - m) in *.
  assert (Hh : Rabs h <= 7 / 3) by (unfold h; pose proof (Rabs_triang n (- m)) as T; rewrite Rabs_Ropp in T; unfold Rminus; lra). rewrite X1, X2. clear X1 X2. set (t := s * s) in *.
  assert (DL : 871 / 1000 * t <= D <= 1138 / 1000 * t) by (unfold t; lra). clearbody F0 D wa va aa G h t. clear - WA VA AB S2 Hh DL Hg. apply Rabs_le_inv in Hh. assert (Hg' : - (1 / 100000) <= G <= 1 / 100000) by (apply Rabs_le_inv; lra).
  assert (GG : 0 <= G * G <= 1 / 10 ^ 10) by nra.
  (* the step goes down *)
  assert (P1 : - 2 * G * G * D + G * G * (D + wa) + G * G * G * va + G * G * (G * G) / 4 * aa <= 0).
  { replace (- 2 * G * G * D + G * G * (D + wa) + G * G * G * va + G * G * (G * G) / 4 * aa) with (G * G * (- D + wa + G * va + G * G / 4 * aa)) by field.
    assert (G * va <= t * (1 / 1000)) by nra. assert (G * G / 4 * aa <= t * (1 / 1000)) by nra. assert (- D + wa + G * va + G * G / 4 * aa <= 0) by lra. nra. }
  (* the parabola below *)
  assert (HV : - (7 / 3 * (4 / 75 * t)) <= h * va). { assert (Rabs (h * va) <= 7 / 3 * (4 / 75 * t)) as Q; [|apply Rabs_le_inv in Q; lra]. rewrite Rabs_mult. apply Rmult_le_compat; try apply Rabs_pos; apply Rabs_le; lra. }
  assert (HH : 0 <= h * h) by apply Rle_0_sqr. assert (C : 62 / 100 * t <= D + wa + h * va) by lra.
  assert (P2 : 0 <= h * h * (h * h) / 4 * aa) by (apply Rmult_le_pos; [|lra]; assert (0 <= h * h * (h * h)) by (apply Rmult_le_pos; exact HH); lra).
  assert (P3 : h * h * (62 / 100 * t) <= h * h * (D + wa + h * va)) by (apply Rmult_le_compat_l; lra).
  assert (P4 : - (3 / 10 ^ 10 * t) <= - 2 * h * G * D + h * h * (62 / 100 * t)).
  { assert (Q1 : Rabs (h * G * D) <= Rabs h * (1138 / 100000000 * t)). { rewrite !Rabs_mult, Rmult_assoc. apply Rmult_le_compat_l; [apply Rabs_pos|]. rewrite (Rabs_pos_eq D) by lra. pose proof (Rabs_pos G). nra. }
    apply Rabs_le_inv in Q1. assert (HA : Rabs h * Rabs h = h * h) by (rewrite <- Rabs_mult; apply Rabs_pos_eq, HH). rewrite <- HA. set (z := Rabs h) in *. clearbody z. clear - Q1 S2.
    assert (0 <= t * (62 / 100 * (z - 1138 / 62000000) * (z - 1138 / 62000000))) by (apply Rmult_le_pos; [lra|]; pose proof (Rle_0_sqr (z - 1138 / 62000000)) as Q; unfold Rsqr in Q; lra). lra. }
  lra.
Qed.
End Converge.

(** ** MinSepRect: the rectangular coordinates of one row *)
Lemma hypot_diff a b c d : Rabs (hypot a b - hypot c d) <= Rabs (a - c) + Rabs (b - d).
Proof.
  assert (G : forall a b c d, hypot a b <= hypot c d + (Rabs (a - c) + Rabs (b - d))).
  { clear. intros a b c d. assert (N : 0 <= Rabs (a - c) + Rabs (b - d)) by (pose proof (Rabs_pos (a - c)); pose proof (Rabs_pos (b - d)); lra).
    unfold hypot at 1. rewrite <- (sqrt_square (hypot c d + (Rabs (a - c) + Rabs (b - d)))) by (pose proof (hypot_pos c d); lra). apply sqrt_le_1_alt.
    assert (B : (a - c) * (a - c) + (b - d) * (b - d) <= (Rabs (a - c) + Rabs (b - d)) * (Rabs (a - c) + Rabs (b - d))).
    { assert (E1 : Rabs (a - c) * Rabs (a - c) = (a - c) * (a - c)) by (rewrite <- Rabs_mult; apply Rabs_pos_eq, Rle_0_sqr). assert (E2 : Rabs (b - d) * Rabs (b - d) = (b - d) * (b - d)) by (rewrite <- Rabs_mult; apply Rabs_pos_eq, Rle_0_sqr).
      pose proof (Rmult_le_pos _ _ (Rabs_pos (a - c)) (Rabs_pos (b - d))). lra. }
    pose proof (tri_le c d (a - c) (b - d) (hypot c d) _ ltac:(rewrite hypot_sqr; lra) B (hypot_pos c d) N) as T. replace (c + (a - c)) with a in T by ring. replace (d + (b - d)) with b in T by ring. exact T. }
  pose proof (G a b c d) as A. pose proof (G c d a b) as B. rewrite (Rabs_minus_sym c a), (Rabs_minus_sym d b) in B. apply Rabs_le. lra.
Qed.
Lemma versin_le x : 0 <= 1 - cos x <= x * x / 2.
Proof.
  split; [pose proof (COS_bound x); lra|]. replace (cos x) with (cos (2 * (x / 2))) by (f_equal; field). rewrite cos_2a_sin. pose proof (sin_abs_le (x / 2)) as S.
  assert (S2 : sin (x / 2) * sin (x / 2) <= x / 2 * (x / 2)). { apply Rsqr_le_abs_1 in S. exact S. } lra.
Qed.
Lemma uv_eq r1 d1 r2 d2 : 0 < cos (r2 - r1) -> cos d1 <> 0 ->
  MinSepRect_uv r1 d1 r2 d2 =
    (- (sin (r2 - r1) * (cos d1 - sin d1 * sin (d2 - d1)) / (1 - cos d1 * cos d1 * (1 - cos (r2 - r1)))),
     (cos (r2 - r1) * sin (d2 - d1) + sin d1 * cos d1 * (1 - cos (r2 - r1))) / (1 - cos d1 * cos d1 * (1 - cos (r2 - r1)))).
Proof.
  intros Hc Hd. unfold MinSepRect_uv. set (x := r2 - r1) in *. pose proof (sc1 d1) as E1.
  assert (N : 0 < 1 - cos d1 * cos d1 * (1 - cos x)). { pose proof (COS_bound x). pose proof (Rle_0_sqr (sin d1)) as P. pose proof (Rle_0_sqr (cos d1)) as P'. unfold Rsqr in *. nra. }
  assert (H2 : cos (x / 2) <> 0). { intros Z. assert (Q : cos x = 2 * (cos (x / 2) * cos (x / 2)) - 1) by (replace (cos x) with (cos (2 * (x / 2))) by (f_equal; field); rewrite cos_2a_cos; ring). rewrite Z in Q. lra. }
  assert (T : tan x * tan (x / 2) = (1 - cos x) / cos x).
  { unfold tan. assert (Q1 : sin x = 2 * (sin (x / 2) * cos (x / 2))) by (replace (sin x) with (sin (2 * (x / 2))) by (f_equal; field); rewrite sin_2a; ring). assert (Q2 : cos x = 1 - 2 * (sin (x / 2) * sin (x / 2))) by (replace (cos x) with (cos (2 * (x / 2))) by (f_equal; field); rewrite cos_2a_sin; ring).
    transitivity (sin x * sin (x / 2) / (cos x * cos (x / 2))); [field; split; [exact H2|lra]|]. rewrite Q1. transitivity (2 * (sin (x / 2) * sin (x / 2)) / cos x); [field; split; [lra|exact H2]|]. f_equal. lra. }
  assert (K : 1 / (1 + sin d1 * sin d1 * tan x * tan (x / 2)) = cos x / (1 - cos d1 * cos d1 * (1 - cos x))).
  { replace (sin d1 * sin d1 * tan x * tan (x / 2)) with (sin d1 * sin d1 * (tan x * tan (x / 2))) by ring. rewrite T. replace (sin d1 * sin d1) with (1 - cos d1 * cos d1) by lra. field. repeat split; lra. }
  rewrite K. f_equal.
  - unfold tan. field. repeat split; lra.
  - replace (sin d1 * cos d1 * tan x * tan (x / 2)) with (sin d1 * cos d1 * (tan x * tan (x / 2))) by ring. rewrite T. field. split; lra.
Qed.
Lemma row_accuracy r1 d1 r2 d2 th s : th <= 1 / 5 -> Rabs (r2 - r1) <= th -> Rabs (d2 - d1) <= th -> cos d1 <> 0 -> separation (dir r1 d1) (dir r2 d2) s ->
  Rabs (hypot (fst (MinSepRect_uv r1 d1 r2 d2)) (snd (MinSepRect_uv r1 d1 r2 d2)) - s) <= 2 * (th * th * th).
Proof.
  intros Ht Hr Hd Hc [Sb Sc]. rewrite dot_dir in Sc. rewrite <- (cos_neg (r1 - r2)) in Sc. replace (- (r1 - r2)) with (r2 - r1) in Sc by ring.
  assert (T0 : 0 <= th) by (pose proof (Rabs_pos (d2 - d1)); lra).
  set (x := r2 - r1) in *. set (y := d2 - d1) in *. assert (Ed : d2 = d1 + y) by (unfold y; ring). pose proof (versin_le x) as VX. pose proof (versin_le y) as VY.
  assert (X2 : x * x <= th * th) by (apply Rabs_le_inv in Hr; nra). assert (Y2 : y * y <= th * th) by (apply Rabs_le_inv in Hd; nra).
  assert (TT : th * th <= 1 / 25) by nra. rewrite uv_eq; fold x y; [|lra|exact Hc]. cbn [fst snd].
  pose proof (Rle_trans _ _ _ (sin_abs_le x) Hr) as SX. pose proof (Rle_trans _ _ _ (sin_abs_le y) Hd) as SY. clear Hr Hd.
  pose proof (sc1 d1) as E1. pose proof (sc1 d2) as E2. pose proof (sc1 x) as E3. pose proof (sc1 y) as E4. rewrite Ed, sin_plus, cos_plus in Sc. rewrite Ed, sin_plus, cos_plus in E2. clear Ed.
  assert (A1 : Rabs (sin d1) <= 1) by apply Rabs_le, SIN_bound. assert (A2 : Rabs (cos d1) <= 1) by apply Rabs_le, COS_bound.
  set (s1 := sin d1) in *. set (c1 := cos d1) in *. set (S := sin y) in *. set (C := cos y) in *. set (k := sin x) in *. set (c := cos x) in *. set (m := th * th) in *.
  clearbody s1 c1 S C k c. set (s2 := s1 * C + c1 * S) in *. set (c2 := c1 * C - s1 * S) in *.
  assert (C2 : Rabs c2 <= 1). { assert (- 1 <= c2 <= 1); [|apply Rabs_le; lra]. pose proof (Rle_0_sqr s2) as Q. unfold Rsqr in Q. nra. }
  set (X := k * c2). set (Y := c1 * s2 - s1 * c2 * c). set (N := 1 - c1 * c1 * (1 - c)).
  assert (CC : 0 <= c1 * c1 <= 1) by (pose proof (Rle_0_sqr s1) as Q; pose proof (Rle_0_sqr c1) as Q'; unfold Rsqr in *; lra).
  assert (NB : 98 / 100 <= N) by (unfold N; nra).
  assert (XB : Rabs X <= th) by (unfold X; rewrite Rabs_mult; pose proof (Rabs_pos k); pose proof (Rabs_pos c2); nra).
  assert (YS : Rabs (Y - S) <= m / 2).
  { replace (Y - S) with ((1 - c) * (s1 * c2) + (c1 * c1 + s1 * s1 - 1) * S) by (unfold Y, s2, c2; ring). replace (c1 * c1 + s1 * s1 - 1) with 0 by lra. rewrite Rmult_0_l, Rplus_0_r, !Rabs_mult, (Rabs_pos_eq (1 - c)) by lra.
    assert (Rabs s1 * Rabs c2 <= 1 * 1) by (apply Rmult_le_compat; try apply Rabs_pos; assumption). pose proof (Rmult_le_pos _ _ (Rabs_pos s1) (Rabs_pos c2)). nra. }
  assert (M0 : 0 <= m) by (apply Rle_0_sqr). assert (MT : m <= th / 5) by (unfold m; nra).
  assert (YB : Rabs Y <= 11 / 10 * th). { replace Y with (S + (Y - S)) by ring. pose proof (Rabs_triang S (Y - S)). lra. }
  (* the exact sine of the separation *)
  assert (SS : sin s = hypot X Y).
  { assert (P : 0 <= sin s) by (apply sin_ge_0; lra). rewrite <- (sqrt_square (sin s)) by exact P. unfold hypot. f_equal. pose proof (sc1 s) as Es. rewrite Sc in Es.
    transitivity (1 - (s1 * s2 + c1 * c2 * c) * (s1 * s2 + c1 * c2 * c)); [lra|]. unfold X, Y.
    transitivity ((s1 * s1 + c1 * c1) * (s2 * s2 + c2 * c2 * (k * k + c * c)) - (s1 * s2 + c1 * c2 * c) * (s1 * s2 + c1 * c2 * c)); [rewrite E1, E3, !Rmult_1_l, Rmult_1_r; lra|].
    transitivity ((k * c2) * (k * c2) * (s1 * s1 + c1 * c1) + (c1 * s2 - s1 * c2 * c) * (c1 * s2 - s1 * c2 * c)); [ring|]. rewrite E1. ring. }
  assert (H1 : sin s <= 1487 / 1000 * th).
  { rewrite SS. unfold hypot. rewrite <- (sqrt_square (1487 / 1000 * th)) by lra. apply sqrt_le_1_alt. apply Rabs_le_inv in XB, YB. assert (X * X <= th * th) by nra. assert (Y * Y <= (11 / 10 * th) * (11 / 10 * th)) by nra. assert (0 <= th * th) by exact M0. lra. }
  assert (Hs : s < 16 / 10).
  { destruct (Rlt_le_dec s (16 / 10)) as [L|L]; [exact L|exfalso]. assert (P2 : PI / 2 <= s) by (pose proof PI_bounds; lra).
    assert (cos s <= 0) by (apply cos_le_0; lra). rewrite Sc in H.
    assert (Q : s1 * s2 + c1 * c2 * c = C - c1 * c2 * (1 - c) + (s1 * s1 + c1 * c1 - 1) * C) by (unfold s2, c2; ring). rewrite E1 in Q. assert (B : Rabs (c1 * c2) <= 1) by (rewrite Rabs_mult; pose proof (Rabs_pos c1); pose proof (Rabs_pos c2); nra). apply Rabs_le_inv in B. nra. }
  assert (H2 : 0 <= s - sin s <= 64 / 100 * (m * th)).
  { pose proof (sin_cubic_pos s ltac:(lra)) as [L U]. split; [lra|]. assert (B1 : s <= 52 / 100) by nra. assert (B2 : s <= 156 / 100 * th) by nra. assert (s * s <= (156 / 100 * th) * (156 / 100 * th)) by nra. assert (s * s * s <= (156 / 100 * th) * (156 / 100 * th) * (156 / 100 * th)) by (apply Rmult_le_compat; try lra; apply Rle_0_sqr). assert (0 <= th * th * th) by (apply Rmult_le_pos; assumption). unfold m. lra. }
  assert (DU : Rabs (k * (c1 - s1 * S) / N - X) <= 1021 / 1000 * (m * th)).
  { replace (k * (c1 - s1 * S) / N - X) with ((k * c1 * (1 - C) + X * (c1 * c1) * (1 - c)) / N) by (unfold X, c2, N; field; fold N; lra). unfold Rdiv. rewrite Rabs_mult, Rabs_inv, (Rabs_pos_eq N) by lra.
    apply Rmult_le_reg_r with N; [lra|]. rewrite Rmult_assoc, Rinv_l, Rmult_1_r by lra. apply Rle_trans with (th * m / 2 + th * m / 2); [|assert (0 <= m * th) by (apply Rmult_le_pos; assumption); nra].
    apply Rle_trans with (1 := Rabs_triang _ _). rewrite !Rabs_mult, (Rabs_pos_eq (1 - C)), (Rabs_pos_eq (1 - c)) by lra. fold m in X2. apply Rplus_le_compat.
    - assert (Rabs k * Rabs c1 <= th * 1) by (apply Rmult_le_compat; try apply Rabs_pos; assumption). replace (th * m / 2) with (th * 1 * (m / 2)) by field. apply Rmult_le_compat; try lra. apply Rmult_le_pos; apply Rabs_pos.
    - assert (Rabs X * (Rabs c1 * Rabs c1) <= th * (1 * 1)). { apply Rmult_le_compat; [apply Rabs_pos|apply Rmult_le_pos; apply Rabs_pos|assumption|apply Rmult_le_compat; try apply Rabs_pos; assumption]. }
      replace (th * m / 2) with (th * (1 * 1) * (m / 2)) by field. apply Rmult_le_compat; try lra. apply Rmult_le_pos; [apply Rabs_pos|apply Rmult_le_pos; apply Rabs_pos]. }
  assert (DV : Rabs ((c * S + s1 * c1 * (1 - c)) / N - Y) <= 103 / 1000 * (m * th)).
  { assert (EQ : c * S + s1 * c1 * (1 - c) - N * Y = (1 - c) * (c1 * (s1 * (1 - C) + c1 * (Y - S))) + (1 - s1 * s1 - c1 * c1) * (c * S)) by (unfold N, Y, s2, c2; ring).
    replace ((c * S + s1 * c1 * (1 - c)) / N - Y) with ((c * S + s1 * c1 * (1 - c) - N * Y) / N) by (field; lra). rewrite EQ. replace (1 - s1 * s1 - c1 * c1) with 0 by lra. rewrite Rmult_0_l, Rplus_0_r.
    unfold Rdiv. rewrite Rabs_mult, Rabs_inv, (Rabs_pos_eq N) by lra. apply Rmult_le_reg_r with N; [lra|]. rewrite Rmult_assoc, Rinv_l, Rmult_1_r by lra. rewrite !Rabs_mult, (Rabs_pos_eq (1 - c)) by lra.
    assert (I : Rabs (s1 * (1 - C) + c1 * (Y - S)) <= m). { apply Rle_trans with (1 := Rabs_triang _ _). rewrite !Rabs_mult, (Rabs_pos_eq (1 - C)) by lra. fold m in Y2. pose proof (Rabs_pos s1). pose proof (Rabs_pos c1). pose proof (Rabs_pos (Y - S)). nra. }
    assert (J : Rabs c1 * Rabs (s1 * (1 - C) + c1 * (Y - S)) <= 1 * m) by (apply Rmult_le_compat; try apply Rabs_pos; assumption).
    assert (L : (1 - c) * (Rabs c1 * Rabs (s1 * (1 - C) + c1 * (Y - S))) <= m / 2 * (1 * m)). { fold m in X2. apply Rmult_le_compat; try lra. apply Rmult_le_pos; apply Rabs_pos. }
    apply Rle_trans with (1 := L). assert (m * m <= m * (th / 5)) by (apply Rmult_le_compat_l; lra). assert (0 <= m * th) by (apply Rmult_le_pos; assumption). nra. }
  pose proof (hypot_diff (k * (c1 - s1 * S) / N) ((c * S + s1 * c1 * (1 - c)) / N) X Y) as HD. rewrite <- SS in HD.
  assert (HE : hypot (- (k * (c1 - s1 * S) / N)) ((c * S + s1 * c1 * (1 - c)) / N) = hypot (k * (c1 - s1 * S) / N) ((c * S + s1 * c1 * (1 - c)) / N)) by (unfold hypot; f_equal; ring). rewrite HE.
  set (hh := hypot _ _) in *. clearbody hh. apply Rabs_le_inv in HD. fold m. apply Rabs_le. lra.
Qed.

(** ** MinSepRect *)
Lemma Rect_unfold jd1 jd3 r1 d1 r2 d2 : three r1 -> three d1 -> three r2 -> three d2 ->
  MinSepRect jd1 jd3 r1 d1 r2 d2 =
    match MinSepRect_min (fl := XFlt) (Fin (fst (row_uv r1 d1 r2 d2 0))) (Fin (fst (row_uv r1 d1 r2 d2 1))) (Fin (fst (row_uv r1 d1 r2 d2 2)))
        (Fin (snd (row_uv r1 d1 r2 d2 0))) (Fin (snd (row_uv r1 d1 r2 d2 1))) (Fin (snd (row_uv r1 d1 r2 d2 2))) with
    | None => RectNoConverge
    | Some (u, v) => RectOk (xhypot u v)
    end.
Proof.
  unfold three. intros A B C D. destruct r1 as [|? [|? [|? [|? ?]]]]; try discriminate. destruct d1 as [|? [|? [|? [|? ?]]]]; try discriminate.
  destruct r2 as [|? [|? [|? [|? ?]]]]; try discriminate. destruct d2 as [|? [|? [|? [|? ?]]]]; try discriminate. unfold MinSepRect, row_uv. cbn [nth].
  repeat match goal with |- context [MinSepRect_uv ?a ?b ?c ?d] => destruct (MinSepRect_uv a b c d) end. reflexivity.
Qed.
Lemma Rect_not3 jd1 jd3 r1 d1 r2 d2 : MinSepRect jd1 jd3 r1 d1 r2 d2 = RectNot3 <-> ~ (three r1 /\ three d1 /\ three r2 /\ three d2).
Proof.
  split.
  - intros H (A & B & C & D). rewrite (Rect_unfold _ _ _ _ _ _ A B C D) in H. destruct (MinSepRect_min _ _ _ _ _ _) as [[u v]|]; discriminate.
  - intros H. unfold MinSepRect. unfold three in H.
    destruct r1 as [|? [|? [|? [|? ?]]]]; try reflexivity. destruct d1 as [|? [|? [|? [|? ?]]]]; try reflexivity.
    destruct r2 as [|? [|? [|? [|? ?]]]]; try reflexivity. destruct d2 as [|? [|? [|? [|? ?]]]]; try reflexivity. exfalso. apply H. cbn. auto.
Qed.
Lemma Rect_three jd1 jd3 r1 d1 r2 d2 x : MinSepRect jd1 jd3 r1 d1 r2 d2 = RectOk x -> three r1 /\ three d1 /\ three r2 /\ three d2.
Proof.
  intros H. assert (G : {three r1 /\ three d1 /\ three r2 /\ three d2} + {~ (three r1 /\ three d1 /\ three r2 /\ three d2)}) by (unfold three; destruct (Nat.eq_dec (length r1) 3), (Nat.eq_dec (length d1) 3), (Nat.eq_dec (length r2) 3), (Nat.eq_dec (length d2) 3); (left; tauto) || (right; tauto)).
  destruct G as [G|G]; [exact G|]. apply (Rect_not3 jd1 jd3) in G. congruence.
Qed.
Lemma Rect_success jd1 jd3 r1 d1 r2 d2 x : MinSepRect jd1 jd3 r1 d1 r2 d2 = RectOk x ->
  let u := track_u r1 d1 r2 d2 in let v := track_v r1 d1 r2 d2 in
  exists n n0 du dv, x = Fin (distance0 u v n) /\ Rabs (n - n0) < 1 / 100000 /\ derivable_pt_lim u n0 du /\ derivable_pt_lim v n0 dv /\
    du * du + dv * dv <> 0 /\ (u n0 + (n - n0) * du) * du + (v n0 + (n - n0) * dv) * dv = 0.
Proof.
  intros H u v. destruct (Rect_three _ _ _ _ _ _ _ H) as (A & B & C & D). rewrite (Rect_unfold _ _ _ _ _ _ A B C D) in H.
  destruct (MinSepRect_min _ _ _ _ _ _) as [[a b]|] eqn:E; [|discriminate]. injection H as <-. destruct (rmin_ok _ _ _ _ _ _ _ _ E) as (m & N & G & -> & ->). set (g := gn _ _ _ _ _ _ m) in *.
  exists (m + g), m, (slope (fst (row_uv r1 d1 r2 d2 0)) (fst (row_uv r1 d1 r2 d2 1)) (fst (row_uv r1 d1 r2 d2 2)) m), (slope (snd (row_uv r1 d1 r2 d2 0)) (snd (row_uv r1 d1 r2 d2 1)) (snd (row_uv r1 d1 r2 d2 2)) m).
  split; [reflexivity|]. replace (m + g - m) with g by ring. split; [exact G|]. split; [apply parabola_deriv|]. split; [apply parabola_deriv|]. split; [exact N|].
  unfold g, gn. fold (track_u r1 d1 r2 d2). fold (track_v r1 d1 r2 d2). fold u v. field. exact N.
Qed.
Lemma Rect_still jd1 jd3 r1 d1 r2 d2 : three r1 -> three d1 -> three r2 -> three d2 -> row_uv r1 d1 r2 d2 0 = row_uv r1 d1 r2 d2 2 -> MinSepRect jd1 jd3 r1 d1 r2 d2 = RectNoConverge.
Proof. intros A B C D E. rewrite (Rect_unfold _ _ _ _ _ _ A B C D), E. rewrite rmin_still; reflexivity. Qed.
Lemma Rect_same_rows jd1 jd3 r1 d1 r2 d2 : three r1 -> three d1 -> three r2 -> three d2 ->
  nth 0 r1 0 = nth 2 r1 0 -> nth 0 d1 0 = nth 2 d1 0 -> nth 0 r2 0 = nth 2 r2 0 -> nth 0 d2 0 = nth 2 d2 0 -> MinSepRect jd1 jd3 r1 d1 r2 d2 = RectNoConverge.
Proof. intros A B C D E1 E2 E3 E4. apply Rect_still; try assumption. unfold row_uv. rewrite E1, E2, E3, E4. reflexivity. Qed.
Lemma par_m y0 y1 y2 : parabola y0 y1 y2 (-1) = y0. Proof. unfold parabola. field. Qed.
Lemma par_z y0 y1 y2 : parabola y0 y1 y2 0 = y1. Proof. unfold parabola. field. Qed.
Lemma par_p y0 y1 y2 : parabola y0 y1 y2 1 = y2. Proof. unfold parabola. field. Qed.
Lemma Rect_uniform jd1 jd3 r1 d1 r2 d2 : three r1 -> three d1 -> three r2 -> three d2 ->
  let u := track_u r1 d1 r2 d2 in let v := track_v r1 d1 r2 d2 in
  u (-1) + u 1 = 2 * u 0 -> v (-1) + v 1 = 2 * v 0 -> u (-1) <> u 1 \/ v (-1) <> v 1 ->
  exists n, MinSepRect jd1 jd3 r1 d1 r2 d2 = RectOk (Fin (distance0 u v n)) /\ closest u v n.
Proof.
  intros A B C D u v.
  intros Eu Ev N. unfold u, v, track_u, track_v in Eu, Ev, N. rewrite par_m, par_z, par_p in Eu. rewrite par_m, par_z, par_p in Ev. rewrite !par_m, !par_p in N.
  destruct (rmin_uniform _ _ _ _ _ _ Eu Ev N) as (n & E & Cl). exists n. split; [|exact Cl]. rewrite (Rect_unfold _ _ _ _ _ _ A B C D), E. reflexivity.
Qed.
Lemma Rect_converges jd1 jd3 r1 d1 r2 d2 s : three r1 -> three d1 -> three r2 -> three d2 ->
  let u := track_u r1 d1 r2 d2 in let v := track_v r1 d1 r2 d2 in nearly_uniform u v s ->
  exists n, Rabs n <= 4 / 3 /\ MinSepRect jd1 jd3 r1 d1 r2 d2 = RectOk (Fin (distance0 u v n)) /\
    forall n', Rabs n' <= 1 -> distance0 u v n <= distance0 u v n' + 2 / 100000 * s.
Proof.
  intros A B C D u v (Hs & Hv & H1 & Ha).
  assert (Q : u 0 * u 0 + v 0 * v 0 <= s * s). { unfold distance0 in H1. apply Rsqr_incr_1 in H1; [|apply sqrt_pos|lra]. unfold Rsqr in H1. rewrite sqrt_sqrt in H1; [exact H1|]. apply Rplus_le_le_0_compat; apply Rle_0_sqr. }
  clear H1. unfold u, v, track_u, track_v in Hv, Q, Ha. rewrite !par_m, !par_p in Hv. rewrite !par_m, !par_z, !par_p in Ha. rewrite !par_z in Q.
  destruct (conv _ _ _ _ _ _ s Hs Hv Q Ha) as (m & M1 & M2 & M3 & M4). set (g := gn _ _ _ _ _ _ m) in *. exists (m + g). split; [exact M2|]. split; [rewrite (Rect_unfold _ _ _ _ _ _ A B C D), M4; reflexivity|].
  intros n' Hn. pose proof (conv_best _ _ _ _ _ _ s Hs Hv Q Ha m n' M1 M2 M3 Hn) as K. fold g in K. fold (track_u r1 d1 r2 d2) in K. fold (track_v r1 d1 r2 d2) in K. fold u v in K. unfold distance0.
  assert (Z : 0 <= u n' * u n' + v n' * v n') by (apply Rplus_le_le_0_compat; apply Rle_0_sqr). pose proof (sqrt_pos (u n' * u n' + v n' * v n')) as SP. pose proof (sqrt_sqrt _ Z) as SS. set (w := sqrt _) in *.
  apply Rle_trans with (sqrt ((w + 2 / 100000 * s) * (w + 2 / 100000 * s))); [|rewrite sqrt_square; lra]. apply sqrt_le_1_alt. apply Rle_trans with (1 := K). rewrite <- SS. assert (0 <= w * s) by (apply Rmult_le_pos; lra). assert (0 < s * s) by nra. lra.
Qed.
Lemma track_rows r1 d1 r2 d2 k : (k < 3)%nat -> let n := INR k - 1 in track_u r1 d1 r2 d2 n = fst (row_uv r1 d1 r2 d2 k) /\ track_v r1 d1 r2 d2 n = snd (row_uv r1 d1 r2 d2 k).
Proof. intros H. destruct k as [|[|[|k]]]; [| | |lia]; cbn [INR]; unfold track_u, track_v, parabola; split; field. Qed.
Lemma Rect_row r1 d1 r2 d2 k th s : (k < 3)%nat -> th <= 1 / 5 -> Rabs (nth k r2 0 - nth k r1 0) <= th -> Rabs (nth k d2 0 - nth k d1 0) <= th -> cos (nth k d1 0) <> 0 ->
  separation (dir (nth k r1 0) (nth k d1 0)) (dir (nth k r2 0) (nth k d2 0)) s ->
  Rabs (distance0 (track_u r1 d1 r2 d2) (track_v r1 d1 r2 d2) (INR k - 1) - s) <= 2 * (th * th * th).
Proof.
  intros Hk Ht Hr Hd Hc Hs. unfold distance0. destruct (track_rows r1 d1 r2 d2 k Hk) as [E1 E2]. cbv zeta in E1, E2. rewrite E1, E2. apply row_accuracy; assumption.
Qed.
Lemma Rect_bound jd1 jd3 r1 d1 r2 d2 s th : three r1 -> three d1 -> three r2 -> three d2 -> nearly_uniform (track_u r1 d1 r2 d2) (track_v r1 d1 r2 d2) s -> th <= 1 / 5 ->
  (forall k, (k < 3)%nat -> Rabs (nth k r2 0 - nth k r1 0) <= th /\ Rabs (nth k d2 0 - nth k d1 0) <= th /\ cos (nth k d1 0) <> 0) ->
  exists m, MinSepRect jd1 jd3 r1 d1 r2 d2 = RectOk (Fin m) /\ 0 <= m /\
    forall k sp, (k < 3)%nat -> separation (dir (nth k r1 0) (nth k d1 0)) (dir (nth k r2 0) (nth k d2 0)) sp -> m <= sp + 2 * (th * th * th) + 2 / 100000 * s.
Proof.
  intros A B C D N Ht H. destruct (Rect_converges jd1 jd3 r1 d1 r2 d2 s A B C D N) as (n & _ & E & M). eexists. split; [exact E|]. split; [apply sqrt_pos|]. intros k sp Hk Hs. destruct (H k Hk) as (H1 & H2 & H3).
  pose proof (Rect_row r1 d1 r2 d2 k th sp Hk Ht H1 H2 H3 Hs) as R. apply Rabs_le_inv in R. assert (K : Rabs (INR k - 1) <= 1). { apply Rabs_le. destruct k as [|[|[|k]]]; [| | |lia]; cbn [INR]; lra. }
  specialize (M _ K). lra.
Qed.
(** A table that ends before, or begins after, the closest approach: MinSep reports an error, MinSepRect a distance outside the table. *)
Lemma uv_meridian d : MinSepRect_uv 0 0 0 d = (0, sin d).
Proof. unfold MinSepRect_uv. rewrite !Rminus_0_r. replace (0 / 2) with 0 by field. rewrite tan_0, sin_0, cos_0. f_equal; field. Qed.
Lemma sep_meridian d : 0 <= d <= PI -> separation (dir 0 0) (dir 0 d) d.
Proof. intros H. split; [exact H|]. rewrite dot_dir, Rminus_0_r, sin_0, !cos_0. ring. Qed.
Lemma Rect_outside : let z := [0; 0; 0] in let d := [asin (1 / 10); asin (2 / 10); asin (3 / 10)] in
  MinSepRect 0 2 z z z d = RectOk (Fin 0) /\
  (forall k, (k < 3)%nat -> separation (dir (nth k z 0) (nth k z 0)) (dir (nth k z 0) (nth k d 0)) (nth k d 0) /\ 1 / 10 <= nth k d 0) /\
  (forall n, -1 <= n <= 1 -> 1 / 10 <= distance0 (track_u z z z d) (track_v z z z d) n).
Proof.
  intros z d. assert (T3 : three z /\ three d) by (split; reflexivity). destruct T3 as [Tz Td].
  assert (Eu : forall n, track_u z z z d n = 0) by (intros n; unfold track_u, row_uv, parabola; cbn [nth z d]; rewrite !uv_meridian; cbn [fst]; field).
  assert (Ev : forall n, track_v z z z d n = (2 + n) / 10) by (intros n; unfold track_v, row_uv, parabola; cbn [nth z d]; rewrite !uv_meridian; cbn [snd]; rewrite !sin_asin by lra; field).
  split; [|split].
  - destruct (Rect_uniform 0 2 z z z d Tz Tz Tz Td) as (n & E & C); [rewrite !Eu; ring|rewrite !Ev; field|right; rewrite !Ev; lra|]. rewrite E. do 2 f_equal. specialize (C (-2)). unfold distance0 in C at 2. rewrite Eu, Ev in C. replace (0 * 0 + (2 + -2) / 10 * ((2 + -2) / 10)) with 0 in C by field. rewrite sqrt_0 in C.
    assert (0 <= distance0 (track_u z z z d) (track_v z z z d) n) by apply sqrt_pos. lra.
  - assert (G : forall x, 1 / 10 <= x <= 3 / 10 -> separation (dir 0 0) (dir 0 (asin x)) (asin x) /\ 1 / 10 <= asin x).
    { intros x Hx. pose proof (asin_bound x) as AB. pose proof PI_bounds. assert (x <= asin x). { destruct (Rle_dec 0 (asin x)) as [P|P]; [pose proof (sin_cubic_pos (asin x) ltac:(lra)) as Q; rewrite sin_asin in Q by lra; lra|]. exfalso. assert (sin (asin x) < 0) by (apply sin_lt_0_var; lra). rewrite sin_asin in H0 by lra. lra. }
      split; [apply sep_meridian|]; lra. }
    intros k Hk. destruct k as [|[|[|k]]]; [| | |lia]; cbn [nth z d]; apply G; lra.
  - intros n Hn. unfold distance0. rewrite Eu, Ev. replace (0 * 0 + (2 + n) / 10 * ((2 + n) / 10)) with ((2 + n) / 10 * ((2 + n) / 10)) by ring. rewrite sqrt_square by lra. lra.
Qed.

Lemma Rect_example : let z := [0; 0; 0] in let d := [asin (- (1 / 10)); asin (1 / 1000); asin (1 / 10)] in
  nearly_uniform (track_u z z z d) (track_v z z z d) (1 / 10) /\ track_v z z z d (-1) + track_v z z z d 1 <> 2 * track_v z z z d 0 /\
  (forall k, (k < 3)%nat -> Rabs (nth k z 0 - nth k z 0) <= 1 / 5 /\ Rabs (nth k d 0 - nth k z 0) <= 1 / 5 /\ cos (nth k z 0) <> 0).
Proof.
  intros z d.
  assert (Eu : forall n, track_u z z z d n = 0) by (intros n; unfold track_u, row_uv, parabola; cbn [nth z d]; rewrite !uv_meridian; cbn [fst]; field).
  assert (Ev : forall n, track_v z z z d n = 1 / 1000 + n / 10 - n * n / 1000) by (intros n; unfold track_v, row_uv, parabola; cbn [nth z d]; rewrite !uv_meridian; cbn [snd]; rewrite !sin_asin by lra; field).
  split; [|split].
  - unfold nearly_uniform, distance0. rewrite !Eu, !Ev. repeat split; try lra. rewrite <- (sqrt_square (1 / 10)) by lra. apply sqrt_le_1_alt. lra.
  - rewrite !Ev. lra.
  - assert (G : forall x, - (1 / 10) <= x <= 1 / 10 -> Rabs (asin x - 0) <= 1 / 5).
    { intros x Hx. pose proof (asin_bound x) as AB. pose proof PI_bounds. rewrite Rminus_0_r. pose proof (sin_cubic (asin x) ltac:(apply Rabs_le; lra)) as Q. rewrite sin_asin in Q by lra.
      assert (B : Rabs (asin x) <= 16 / 10) by (apply Rabs_le; lra). pose proof (Rabs_pos (asin x)) as P. set (a := Rabs (asin x)) in *.
      assert (a <= 1 / 10 + a * a * a / 6). { unfold a at 1. replace (asin x) with (x - (x - asin x)) by ring. assert (Rabs x <= 1 / 10) by (apply Rabs_le; lra). pose proof (Rabs_triang x (- (x - asin x))) as T. rewrite Rabs_Ropp in T. unfold Rminus at 1. lra. }
      clearbody a. clear Q. assert (A2 : a * a <= 256 / 100) by nra. assert (a * (a * a) <= a * (256 / 100)) by (apply Rmult_le_compat_l; lra). assert (a <= 18 / 100) by lra. lra. }
    intros k Hk. destruct k as [|[|[|k]]]; [| | |lia]; cbn [nth z d]; (split; [rewrite Rminus_0_r, Rabs_R0; lra|]; split; [apply G; lra|rewrite cos_0; lra]).
Qed.
