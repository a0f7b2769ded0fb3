(** Lemmas for package conjunction. *)
From Coq Require Import ZArith Bool List Reals Lra Lia.
From Flocq Require Import Core.
From Verif Require Import GoInt GoFloat M_base M_interp M_conjunction S_base S_interp L_base L_interp L_interp_zero.
Import ListNotations.
Local Open Scope R_scope.

(** The quartic in the normalised argument, and its derivative. *)
Definition fq (y0 y1 y2 y3 y4 n : R) : R :=
  y2 + n * (q1 y0 y1 y2 y3 y4 + n * (q2 y0 y1 y2 y3 y4 + n * (q3 y0 y1 y2 y3 y4 + n * q4 y0 y1 y2 y3 y4))).
Definition dfq (y0 y1 y2 y3 y4 n : R) : R :=
  q1 y0 y1 y2 y3 y4 + n * (2 * q2 y0 y1 y2 y3 y4 + n * (3 * q3 y0 y1 y2 y3 y4 + n * (4 * q4 y0 y1 y2 y3 y4))).

Lemma newton_step y0 y1 y2 y3 y4 x1 x5 a : dfq y0 y1 y2 y3 y4 a <> 0 ->
  Len5_Zero_step (fl := XFlt) (xl5 y0 y1 y2 y3 y4 x1 x5) true (Fin a) = Fin (a - fq y0 y1 y2 y3 y4 a / dfq y0 y1 y2 y3 y4 a).
Proof.
  intros D. unfold Len5_Zero_step. cbn [xl5 l5_k l5_h l5_j l5_f l5_b l5_c l5_y3]. cbn -[IZR horner xdiv xadd].
  xall.
  match goal with |- context [horner (fl := XFlt) (Fin a) [Fin y2; Fin ?v; Fin ?w; Fin ?p; Fin ?q]] =>
    change [Fin y2; Fin v; Fin w; Fin p; Fin q] with (map Fin [y2; v; w; p; q]) end.
  match goal with |- context [horner (fl := XFlt) (Fin a) [Fin ?v; Fin ?w; Fin ?p; Fin ?q]] =>
    change [Fin v; Fin w; Fin p; Fin q] with (map Fin [v; w; p; q]) end.
  rewrite !horner_fin by discriminate.
  match goal with |- context [xdiv (Fin ?p) (Fin ?q)] => 
    assert (E1 : p = fq y0 y1 y2 y3 y4 a) by (unfold horner, Horner, fq, q1, q2, q3, q4; cbn -[IZR]; field);
    assert (E2 : q = dfq y0 y1 y2 y3 y4 a) by (unfold horner, Horner, dfq, q1, q2, q3, q4; cbn -[IZR]; field);
    rewrite E1, E2 end.
  rewrite xdiv_const by exact D. cbn [xneg xadd]. reflexivity.
Qed.

(** Nearly uniform motion: second, third and fourth differences at most a hundredth of the
    central motion y3 - y1. *)
Lemma iterate_S n0 f fuel : iterate_loop (fl := XFlt) n0 f (S fuel) =
  let n1 := f n0 in if negb (ffin n1) then None
  else if flt (fabs (fdiv (fsub n1 n0) n0)) (fconst 1 1000000000000000) then Some n1 else iterate_loop n1 f fuel.
Proof. reflexivity. Qed.
Section Newton.
Variables y0 y1 y2 y3 y4 : R.
Let D := Rabs (y3 - y1).
Hypothesis D0 : 0 < D.
Hypothesis H2 : Rabs (y3 - 2 * y2 + y1) <= D / 100.
Hypothesis H3 : Rabs (y3 - 3 * y2 + 3 * y1 - y0) <= D / 100.
Hypothesis H3' : Rabs (y4 - 3 * y3 + 3 * y2 - y1) <= D / 100.
Hypothesis H4 : Rabs (y4 - 4 * y3 + 6 * y2 - 4 * y1 + y0) <= D / 100.
Let Q := q1 y0 y1 y2 y3 y4. Let P := q2 y0 y1 y2 y3 y4. Let N := q3 y0 y1 y2 y3 y4. Let M := q4 y0 y1 y2 y3 y4.

Lemma coeff_bounds : 49 / 100 * D <= Rabs Q /\ Rabs P <= 55 / 10000 * D /\ Rabs N <= 17 / 10000 * D /\ Rabs M <= 1 / 2000 * D.
Proof.
  apply Rabs_le_inv in H2, H3, H3', H4. unfold Q, P, N, M, q1, q2, q3, q4.
  split.
  - unfold D in *. revert H2 H3 H3' H4. unfold Rabs. destruct (Rcase_abs (y3 - y1)); destruct (Rcase_abs _); intros; lra.
  - repeat split; apply Rabs_le; lra.
Qed.

Lemma dfq_bound n : Rabs n <= 11 / 10 -> 46 / 100 * D <= Rabs (dfq y0 y1 y2 y3 y4 n).
Proof.
  intros Hn. destruct coeff_bounds as (BQ & BP & BN & BM).
  assert (Nn : 0 <= n * n <= 121 / 100) by (apply Rabs_le_inv in Hn; split; nra).
  assert (S : Rabs (P * (2 * n) + N * (3 * (n * n)) + M * (4 * (n * n) * n)) <= 55 / 10000 * D * (22 / 10) + 17 / 10000 * D * (4) + 1 / 2000 * D * 6).
  { apply sum3_bound; auto.
    - rewrite Rabs_mult, (Rabs_right 2) by lra. lra.
    - rewrite Rabs_right by lra. lra.
    - rewrite !Rabs_mult, (Rabs_right 4) by lra. rewrite <- Rabs_mult, (Rabs_right (n * n)) by lra. pose proof (Rabs_pos n). nra. }
  replace (dfq y0 y1 y2 y3 y4 n) with (Q + (P * (2 * n) + N * (3 * (n * n)) + M * (4 * (n * n) * n))) by (unfold dfq; fold Q P N M; ring).
  set (s := P * (2 * n) + N * (3 * (n * n)) + M * (4 * (n * n) * n)) in *. pose proof (Rabs_triang_inv Q (- s)) as T.
  rewrite Rabs_Ropp in T. replace (Q - - s) with (Q + s) in T by ring. lra.
Qed.

Variable r : R.
Hypothesis Hr : fq y0 y1 y2 y3 y4 r = 0.
Hypothesis Rr : Rabs r <= 1.

Lemma newton_error n : Rabs n <= 11 / 10 -> 
  Rabs (n - fq y0 y1 y2 y3 y4 n / dfq y0 y1 y2 y3 y4 n - r) <= (n - r) * (n - r) / 30.
Proof.
  intros Hn. pose proof (dfq_bound n Hn) as DB. destruct coeff_bounds as (BQ & BP & BN & BM).
  assert (NZ : dfq y0 y1 y2 y3 y4 n <> 0) by (intros Z; rewrite Z, Rabs_R0 in DB; lra).
  set (T := P * 1 + N * (2 * n + r) + M * (3 * (n * n) + 2 * (n * r) + r * r)).
  assert (E : n - fq y0 y1 y2 y3 y4 n / dfq y0 y1 y2 y3 y4 n - r = (n - r) * (n - r) * (T / dfq y0 y1 y2 y3 y4 n)).
  { apply (Rmult_eq_reg_r (dfq y0 y1 y2 y3 y4 n)); [|exact NZ].
    transitivity (dfq y0 y1 y2 y3 y4 n * (n - r) - fq y0 y1 y2 y3 y4 n + fq y0 y1 y2 y3 y4 r); [rewrite Hr; field; exact NZ|].
    transitivity ((n - r) * (n - r) * T); [|field; exact NZ].
    unfold T, dfq, fq. fold Q P N M. ring. }
  rewrite E. 
  assert (TB : Rabs T <= 55 / 10000 * D * 1 + 17 / 10000 * D * (32 / 10) + 1 / 2000 * D * 7).
  { apply Rabs_le_inv in Hn. pose proof (Rabs_le_inv _ _ Rr). assert (0 <= n * n <= 121 / 100) by nra. assert (0 <= r * r <= 1) by nra. assert (-11 / 10 <= n * r <= 11 / 10) by nra.
    unfold T. apply sum3_bound; auto; apply Rabs_le; lra. }
  pose proof (Rle_0_sqr (n - r)) as SQ. unfold Rsqr in SQ. rewrite Rabs_mult, (Rabs_right ((n - r) * (n - r))) by lra. unfold Rdiv at 2. apply Rmult_le_compat_l; [lra|].
  unfold Rdiv. rewrite Rabs_mult, Rabs_inv. apply (Rmult_le_reg_r (Rabs (dfq y0 y1 y2 y3 y4 n))); [lra|].
  rewrite Rmult_assoc, Rinv_l by lra. lra.
Qed.

Hypothesis R0 : r <> 0.
Variables x1 x5 : R.
Let step := Len5_Zero_step (fl := XFlt) (xl5 y0 y1 y2 y3 y4 x1 x5) true.

Lemma newton_near a ep : 0 <= ep <= 1 / 30 -> Rabs (a - r) <= ep * Rabs r ->
  exists b, step (Fin a) = Fin b /\ Rabs (b - r) <= ep * ep / 30 * Rabs r /\ Rabs (b - r) <= Rabs (a - r) / 900.
Proof.
  intros He Ha. pose proof (Rabs_pos r). pose proof (Rabs_pos (a - r)).
  assert (A1 : Rabs a <= 11 / 10).
  { replace a with ((a - r) + r) by ring. eapply Rle_trans; [apply Rabs_triang|]. nra. }
  pose proof (dfq_bound a A1) as DB.
  assert (NZ : dfq y0 y1 y2 y3 y4 a <> 0) by (intros Z; rewrite Z, Rabs_R0 in DB; lra).
  eexists. split; [apply newton_step, NZ|]. pose proof (newton_error a A1) as E.
  assert (SQ : (a - r) * (a - r) = Rabs (a - r) * Rabs (a - r)) by (rewrite <- Rabs_mult, Rabs_right; [reflexivity|apply Rle_ge, Rle_0_sqr]).
  rewrite SQ in E. split; (eapply Rle_trans; [exact E|]).
  - assert (Rabs (a - r) * Rabs (a - r) <= ep * Rabs r * (ep * Rabs r)) by (apply Rmult_le_compat; auto).
    assert (0 <= ep * ep * Rabs r) by (apply Rmult_le_pos; [nra|lra]). assert (ep * ep * Rabs r * Rabs r <= ep * ep * Rabs r * 1) by (apply Rmult_le_compat_l; lra). lra.
  - assert (Rabs (a - r) <= 1 / 30) by nra. nra.
Qed.

Lemma loop_near fuel a ep : 0 <= ep <= 1 / 30 -> Rabs (a - r) <= ep * Rabs r ->
  exists b, Rabs (b - r) <= ep * ep / 30 * Rabs r /\
  ((iterate_loop (fl := XFlt) (Fin a) step (S fuel) = Some (Fin b) /\ Rabs (b - r) <= 1 / 1000000000000000 * Rabs r) \/
   (iterate_loop (fl := XFlt) (Fin a) step (S fuel) = iterate_loop (fl := XFlt) (Fin b) step fuel /\ 9 / 10 / 1000000000000000 <= ep)).
Proof.
  intros He Ha. destruct (newton_near a ep He Ha) as (b & E & B1 & B2). exists b. split; [exact B1|].
  pose proof (Rabs_pos_lt r R0) as RP. pose proof (Rabs_pos (a - r)).
  assert (AN : 29 / 30 * Rabs r <= Rabs a).
  { replace r with (a - (a - r)) at 1 by ring. eapply Rle_trans; [apply Rmult_le_compat_l; [lra|apply Rabs_triang]|].
    rewrite Rabs_Ropp. assert (Rabs r <= Rabs a + Rabs (a - r)). { replace r with (a + - (a - r)) at 1 by ring. eapply Rle_trans; [apply Rabs_triang|]. rewrite Rabs_Ropp. lra. } nra. }
  assert (A0 : a <> 0) by (intros ->; rewrite Rabs_R0 in AN; lra).
  assert (AP : 0 < Rabs a) by lra.
  cbn [iterate_loop]. rewrite E. cbn -[iterate_loop xdiv xlt IZR]. change (xadd (Fin b) (Fin (- a))) with (Fin (b + - a)).
  rewrite xdiv_const by exact A0. cbn [xabs xlt].
  assert (AR : Rabs ((b + - a) / a) = Rabs (b - a) / Rabs a) by (unfold Rdiv; rewrite Rabs_mult, Rabs_inv; reflexivity).
  rewrite AR.
  assert (BA : Rabs (b - a) <= Rabs (a - r) * (901 / 900)).
  { replace (b - a) with ((b - r) + - (a - r)) by ring. eapply Rle_trans; [apply Rabs_triang|]. rewrite Rabs_Ropp. lra. }
  assert (AB : Rabs (a - r) * (899 / 900) <= Rabs (b - a)).
  { assert (Rabs (a - r) <= Rabs (b - r) + Rabs (b - a)). { replace (a - r) with ((b - r) + - (b - a)) by ring. eapply Rle_trans; [apply Rabs_triang|]. rewrite Rabs_Ropp. lra. } lra. }
  case Rlt_bool_spec; intros L.
  - left. split; [reflexivity|].
    assert (L' : Rabs (b - a) < 1 / 1000000000000000 * Rabs a).
    { apply (Rmult_lt_compat_r (Rabs a)) in L; [|exact AP]. unfold Rdiv in L at 1. rewrite Rmult_assoc, Rinv_l, Rmult_1_r in L by lra. exact L. }
    assert (Rabs a <= Rabs r * (31 / 30)). { replace a with ((a - r) + r) at 1 by ring. eapply Rle_trans; [apply Rabs_triang|]. nra. }
    lra.
  - right. split; [reflexivity|].
    assert (L' : 1 / 1000000000000000 * Rabs a <= Rabs (b - a)).
    { apply (Rmult_le_compat_r (Rabs a)) in L; [|lra]. unfold Rdiv in L at 2. rewrite Rmult_assoc, Rinv_l, Rmult_1_r in L by lra. exact L. }
    assert (1 / 1000000000000000 * (29 / 30 * Rabs r) <= ep * Rabs r * (901 / 900)) by lra.
    apply (Rmult_le_reg_r (Rabs r)); [exact RP|]. lra.
Qed.

Lemma newton_converges : exists n, iterate (fl := XFlt) (Fin 0) step = Some (Fin n) /\ Rabs (n - r) <= 1 / 1000000000000000 * Rabs r.
Proof.
  unfold iterate. pose proof (Rabs_pos_lt r R0) as RP.
  assert (Z1 : Rabs 0 <= 11 / 10) by (rewrite Rabs_R0; lra).
  pose proof (dfq_bound 0 Z1) as DB. assert (NZ : dfq y0 y1 y2 y3 y4 0 <> 0) by (intros Z; rewrite Z, Rabs_R0 in DB; lra).
  pose proof (newton_error 0 Z1) as E. replace ((0 - r) * (0 - r)) with (Rabs r * Rabs r) in E by (rewrite <- Rabs_mult, Rabs_right; [ring|apply Rle_ge, Rle_0_sqr]).
  assert (S0 : step (Fin 0) = Fin (0 - fq y0 y1 y2 y3 y4 0 / dfq y0 y1 y2 y3 y4 0)) by (unfold step; apply newton_step, NZ).
  set (b := 0 - fq y0 y1 y2 y3 y4 0 / dfq y0 y1 y2 y3 y4 0) in *. clearbody b.
  assert (B1 : Rabs (b - r) <= 1 / 30 * Rabs r) by nra.
  assert (B0 : b <> 0). { intros ->. replace (0 - r) with (- r) in B1 by ring. rewrite Rabs_Ropp in B1. lra. }
  assert (XD : xdiv (Fin (b + - 0)) (Fin 0) = XInf (Rlt_bool (b + - 0) 0)) by (unfold xdiv; rewrite (Req_bool_true 0 0) by reflexivity; rewrite Req_bool_false by lra; reflexivity).
  assert (L1 : iterate_loop (fl := XFlt) (Fin 0) step 50 = iterate_loop (fl := XFlt) (Fin b) step 49).
  { rewrite (iterate_S _ _ 49), S0. cbv zeta. cbn [ffin XFlt negb fsub fdiv fabs flt fconst]. cbn [xneg xadd]. rewrite XD. cbn [xabs xlt]. reflexivity. }
  rewrite L1.
  destruct (loop_near 48 b (1 / 30) ltac:(lra) B1) as (b2 & B2 & [[E2 C2]|[E2 _]]); [exists b2; split; [exact E2|exact C2]|].
  rewrite E2.
  destruct (loop_near 47 b2 (1 / 30 * (1 / 30) / 30) ltac:(lra) B2) as (b3 & B3 & [[E3 C3]|[E3 _]]); [exists b3; split; [exact E3|exact C3]|].
  rewrite E3.
  destruct (loop_near 46 b3 ((1 / 30 * (1 / 30) / 30) * (1 / 30 * (1 / 30) / 30) / 30) ltac:(lra) B3) as (b4 & B4 & [[E4 C4]|[E4 _]]); [exists b4; split; [exact E4|exact C4]|].
  rewrite E4.
  destruct (loop_near 45 b4 (((1 / 30 * (1 / 30) / 30) * (1 / 30 * (1 / 30) / 30) / 30) * ((1 / 30 * (1 / 30) / 30) * (1 / 30 * (1 / 30) / 30) / 30) / 30) ltac:(lra) B4) as (b5 & B5 & [[E5 C5]|[E5 C5]]); [exists b5; split; [exact E5|exact C5]|].
  exfalso. lra.
Qed.
End Newton.

(** ** The interpolating quartic in terms of the tabulated function *)
Lemma tab_fq f x1 x5 y0 y1 y2 y3 y4 : x1 <> x5 -> poly_degree_le 4 f -> tabulates f x1 x5 [y0; y1; y2; y3; y4] ->
  forall x, f x = fq y0 y1 y2 y3 y4 ((4 * x - 2 * (x5 + x1)) / (x5 - x1)).
Proof.
  intros Hx Hf Ht x. destruct (NewLen5_total x1 x5 [y0; y1; y2; y3; y4]) as (_ & _ & T). destruct (T eq_refl Hx) as [d Hd].
  rewrite <- (Len5_exact _ _ _ _ Hd f Hf Ht x), (Len5_X_N _ _ _ _ Hd), (NewLen5_R _ _ _ _ _ _ _ _ Hd). reflexivity.
Qed.

Lemma XStrict_X x1 x5 y0 y1 y2 y3 y4 x : x1 <> x5 ->
  Len5_InterpolateXStrict (fl := XFlt) (xl5 y0 y1 y2 y3 y4 x1 x5) (Fin x) =
  (let n := (4 * x - 2 * (x5 + x1)) / (x5 - x1) in
   if Rlt_bool n (-1) || Rlt_bool 1 n then Err ErrorXOutOfRange else Ok (Fin (fq y0 y1 y2 y3 y4 n))).
Proof.
  intros Hx. unfold Len5_InterpolateXStrict, Len5_InterpolateNStrict. cbv zeta. cbn [xl5 l5_xSum l5_xDiff l5_coeff fconst fmul fsub fdiv flt XFlt]. cbn [xmul xneg xadd].
  rewrite xdiv_const by lra. replace (4 / 1 * x + - (2 / 1 * (x5 + x1))) with (4 * x - 2 * (x5 + x1)) by field. replace (x5 + - x1) with (x5 - x1) by ring.
  set (n := (4 * x - 2 * (x5 + x1)) / (x5 - x1)). cbn [xlt]. replace (-1 / 1) with (-1) by field. replace (1 / 1) with 1 by field.
  destruct (Rlt_bool n (-1) || Rlt_bool 1 n); [reflexivity|].
  match goal with |- context [horner (fl := XFlt) (Fin n) [Fin y2; Fin ?v; Fin ?w; Fin ?p; Fin ?q]] =>
    change [Fin y2; Fin v; Fin w; Fin p; Fin q] with (map Fin [y2; v; w; p; q]) end.
  rewrite horner_fin by discriminate. do 2 f_equal. unfold horner, Horner, fq, q1, q2, q3, q4; cbn -[IZR]. field.
Qed.

Lemma NewLen5_XOk x1 x5 y0 y1 y2 y3 y4 : x1 <> x5 ->
  NewLen5 (fl := XFlt) (Fin x1) (Fin x5) [Fin y0; Fin y1; Fin y2; Fin y3; Fin y4] = Ok (xl5 y0 y1 y2 y3 y4 x1 x5).
Proof.
  intros Hx. assert (E : exists d, NewLen5 (fl := XFlt) (Fin x1) (Fin x5) [Fin y0; Fin y1; Fin y2; Fin y3; Fin y4] = Ok d).
  { unfold NewLen5. cbn [feq XFlt xeq]. rewrite Req_bool_false by congruence. eexists. reflexivity. }
  destruct E as [d E]. rewrite E. destruct (NewLen5_X x1 x5 [y0; y1; y2; y3; y4] d E) as (_ & a & b & c & e & f & Y & ->).
  injection Y as <- <- <- <- <-. reflexivity.
Qed.

Lemma fc0 : fconst (Flt := XFlt) 0 1 = Fin 0.
Proof. cbn. f_equal. field. Qed.
(** conj, from the zero in the normalised argument. *)
Definition cresult := (xreal * xreal * option cerror)%type.
Lemma Zero_iter x1 x5 y0 y1 y2 y3 y4 :
  Len5_Zero (fl := XFlt) (xl5 y0 y1 y2 y3 y4 x1 x5) true =
  match iterate (fl := XFlt) (Fin 0) (Len5_Zero_step (fl := XFlt) (xl5 y0 y1 y2 y3 y4 x1 x5) true) with
  | Some (Fin n) =>
      if Rlt_bool 2 n || Rlt_bool n (-2) then Err ErrorZeroOutside
      else Ok (Fin ((x1 + x5) / 2 + n * (x5 - x1) / 4))
  | _ => Err ErrorNoConverge
  end.
Proof.
  unfold Len5_Zero. rewrite fc0. pose proof (iterate_Some (Len5_Zero_step (fl := XFlt) (xl5 y0 y1 y2 y3 y4 x1 x5) true) 50 0) as IS.
  unfold iterate. destruct (iterate_loop _ _ _) as [n|]; [|reflexivity].
  destruct (IS n eq_refl) as (a & b & -> & _). clear IS.
  cbn [flt fconst XFlt xlt]. replace (2 / 1) with 2 by field. replace (-2 / 1) with (-2) by field.
  destruct (Rlt_bool 2 b || Rlt_bool b (-2)); [reflexivity|].
  cbn [xl5 l5_xSum l5_xDiff fmul fadd XFlt]. cbn [xmul xadd]. do 2 f_equal. field.
Qed.
Lemma conj_iter x1 x5 y0 y1 y2 y3 y4 z0 z1 z2 z3 z4 : x1 <> x5 ->
  conj (fl := XFlt) (Fin x1) (Fin x5) [Fin y0; Fin y1; Fin y2; Fin y3; Fin y4] [Fin z0; Fin z1; Fin z2; Fin z3; Fin z4] =
  match iterate (fl := XFlt) (Fin 0) (Len5_Zero_step (fl := XFlt) (xl5 y0 y1 y2 y3 y4 x1 x5) true) with
  | Some (Fin n) =>
      if Rlt_bool 2 n || Rlt_bool n (-2) then (Fin 0, Fin 0, Some (ErrorInterp ErrorZeroOutside))
      else let t := (x1 + x5) / 2 + n * (x5 - x1) / 4 in
      if Rlt_bool n (-1) || Rlt_bool 1 n then (Fin t, Fin 0, Some (ErrorInterp ErrorXOutOfRange))
      else (Fin t, Fin (fq z0 z1 z2 z3 z4 n), None)
  | _ => (Fin 0, Fin 0, Some (ErrorInterp ErrorNoConverge))
  end.
Proof.
  intros Hx. unfold conj. rewrite !NewLen5_XOk by exact Hx. rewrite Zero_iter, fc0.
  destruct (iterate _ _) as [[n| | ]|]; try reflexivity.
  destruct (Rlt_bool 2 n || Rlt_bool n (-2)); [reflexivity|].
  rewrite XStrict_X by exact Hx. cbv zeta.
  replace ((4 * ((x1 + x5) / 2 + n * (x5 - x1) / 4) - 2 * (x5 + x1)) / (x5 - x1)) with n by (field; lra).
  destruct (Rlt_bool n (-1) || Rlt_bool 1 n); reflexivity.
Qed.

Lemma conj_sound x1 x5 y0 y1 y2 y3 y4 z0 z1 z2 z3 z4 t d Y : x1 <> x5 ->
  (forall v, In v [y0; y1; y2; y3; y4] -> Rabs v <= Y) ->
  conj (fl := XFlt) (Fin x1) (Fin x5) [Fin y0; Fin y1; Fin y2; Fin y3; Fin y4] [Fin z0; Fin z1; Fin z2; Fin z3; Fin z4] = (t, d, None) ->
  exists n, -1 <= n <= 1 /\ t = Fin ((x1 + x5) / 2 + n * (x5 - x1) / 4) /\ d = Fin (fq z0 z1 z2 z3 z4 n) /\ Rabs (fq y0 y1 y2 y3 y4 n) <= 1 / 1000000000000 * Y.
Proof.
  intros Hx HY E. rewrite conj_iter in E by exact Hx.
  pose proof (NewLen5_XOk x1 x5 y0 y1 y2 y3 y4 Hx) as HX.
  destruct (NewLen5_total x1 x5 [y0; y1; y2; y3; y4]) as (_ & _ & T). destruct (T eq_refl Hx) as [dl Hd].
  assert (Z := Len5_Zero_ok x1 x5 [y0; y1; y2; y3; y4] (xl5 y0 y1 y2 y3 y4 x1 x5) dl true).
  destruct (iterate _ _) as [[n| | ]|] eqn:I; try discriminate.
  revert E. destruct (Rlt_bool 2 n || Rlt_bool n (-2)) eqn:B2; [discriminate|]. cbv zeta. case Rlt_bool_spec; intros B3; [discriminate|]. case Rlt_bool_spec; intros B4; [discriminate|].
  cbn [orb]. intros E. injection E as <- <-. exists n. split; [lra|]. split; [reflexivity|]. split; [reflexivity|].
  specialize (Z (Fin ((x1 + x5) / 2 + n * (x5 - x1) / 4)) Y HX Hd HY).
  destruct Z as (r & Er & _ & Br).
  - rewrite Zero_iter, I, B2. reflexivity.
  - injection Er as <-. rewrite (Len5_X_N _ _ _ _ Hd), (NewLen5_R _ _ _ _ _ _ _ _ Hd) in Br.
    replace ((4 * ((x1 + x5) / 2 + n * (x5 - x1) / 4) - 2 * (x5 + x1)) / (x5 - x1)) with n in Br by (field; lra). exact Br.
Qed.

(** Uniform motion. *)
Lemma linear_zero A B x1 x5 : B <> 0 -> A <> 0 ->
  iterate (fl := XFlt) (Fin 0) (Len5_Zero_step (fl := XFlt) (xl5 (A - 2 * B) (A - B) A (A + B) (A + 2 * B) x1 x5) true) = Some (Fin (- A / B)).
Proof.
  intros HB HA. set (step := Len5_Zero_step _ true).
  assert (S : forall a, step (Fin a) = Fin (- A / B)).
  { intros a. unfold step. assert (DF : dfq (A - 2 * B) (A - B) A (A + B) (A + 2 * B) a = B) by (unfold dfq, q1, q2, q3, q4; field).
    rewrite newton_step by (rewrite DF; exact HB). rewrite DF. f_equal. unfold fq, q1, q2, q3, q4. field. exact HB. }
  clearbody step. set (n := - A / B) in *. assert (N0 : n <> 0). { unfold n. intros Z. apply HA. apply (Rmult_eq_reg_r (/ B)); [|now apply Rinv_neq_0_compat]. unfold Rdiv in Z. lra. }
  clearbody n. unfold iterate. rewrite (iterate_S _ _ 49), S. cbv zeta. cbn [ffin XFlt negb fsub fdiv fabs flt fconst]. cbn [xneg xadd].
  assert (XD : xdiv (Fin (n + - 0)) (Fin 0) = XInf (Rlt_bool (n + - 0) 0)) by (unfold xdiv; rewrite (Req_bool_true 0 0) by reflexivity; rewrite Req_bool_false by lra; reflexivity). rewrite XD. cbn [xabs xlt].
  rewrite (iterate_S _ _ 48), S. cbv zeta. cbn [ffin XFlt negb fsub fdiv fabs flt fconst]. cbn [xneg xadd]. rewrite xdiv_const by exact N0. cbn [xabs xlt].
  rewrite Rlt_bool_true; [reflexivity|]. replace ((n + - n) / n) with 0 by (field; exact N0). rewrite Rabs_R0. lra.
Qed.

From Verif Require Import S_conjunction.
Lemma fq_sub a0 a1 a2 a3 a4 b0 b1 b2 b3 b4 n : fq a0 a1 a2 a3 a4 n - fq b0 b1 b2 b3 b4 n = fq (a0 + - b0) (a1 + - b1) (a2 + - b2) (a3 + - b3) (a4 + - b4) n.
Proof. unfold fq, q1, q2, q3, q4. field. Qed.

Lemma five_ok l : five (fl := XFlt) (map Fin l) = true -> exists a b c d e : R, l = [a; b; c; d; e].
Proof.
  unfold five. rewrite map_length. destruct l as [|a [|b [|c [|d [|e [|? ?]]]]]]; try discriminate. intros _. now exists a, b, c, d, e.
Qed.
Lemma Planetary_five t1 t5 a0 a1 a2 a3 a4 b0 b1 b2 b3 b4 c0 c1 c2 c3 c4 d0 d1 d2 d3 d4 :
  Planetary (fl := XFlt) (Fin t1) (Fin t5) (map Fin [a0; a1; a2; a3; a4]) (map Fin [b0; b1; b2; b3; b4]) (map Fin [c0; c1; c2; c3; c4]) (map Fin [d0; d1; d2; d3; d4]) =
  conj (fl := XFlt) (Fin t1) (Fin t5) [Fin (c0 + - a0); Fin (c1 + - a1); Fin (c2 + - a2); Fin (c3 + - a3); Fin (c4 + - a4)] [Fin (d0 + - b0); Fin (d1 + - b1); Fin (d2 + - b2); Fin (d3 + - b3); Fin (d4 + - b4)].
Proof. reflexivity. Qed.

Lemma Planetary_errors t1 t5 r1 d1 r2 d2 :
  let all5 := length r1 = 5%nat /\ length d1 = 5%nat /\ length r2 = 5%nat /\ length d2 = 5%nat in
  let res := Planetary (fl := XFlt) (Fin t1) (Fin t5) (map Fin r1) (map Fin d1) (map Fin r2) (map Fin d2) in
  (~ all5 -> snd res = Some ErrorRows) /\ (all5 -> t1 = t5 -> snd res = Some (ErrorInterp ErrorNoXRange)).
Proof.
  cbv zeta. unfold Planetary. split.
  - intros H. destruct (five (fl := XFlt) (map Fin r1)) eqn:E1; [|reflexivity]. destruct (five (fl := XFlt) (map Fin d1)) eqn:E2; [|reflexivity].
    destruct (five (fl := XFlt) (map Fin r2)) eqn:E3; [|reflexivity]. destruct (five (fl := XFlt) (map Fin d2)) eqn:E4; [|reflexivity].
    exfalso. apply H. unfold five in *. rewrite map_length in *. repeat split; now apply Nat.eqb_eq.
  - intros (L1 & L2 & L3 & L4) <-. unfold five. rewrite !map_length, L1, L2, L3, L4. cbn [Nat.eqb negb orb].
    destruct r1 as [|? [|? [|? [|? [|? [|? ?]]]]]]; try discriminate. destruct r2 as [|? [|? [|? [|? [|? [|? ?]]]]]]; try discriminate.
    unfold conj, diffs, NewLen5. cbn [map combine fst snd]. cbn [feq XFlt xeq]. rewrite Req_bool_true by reflexivity. reflexivity.
Qed.

Lemma Planetary_sound t1 t5 r1 d1 r2 d2 f1 g1 f2 g2 t d Y :
  quartic f1 t1 t5 r1 -> quartic g1 t1 t5 d1 -> quartic f2 t1 t5 r2 -> quartic g2 t1 t5 d2 ->
  (forall k, (k < 5)%nat -> Rabs (diff r2 r1 k) <= Y) ->
  Planetary (fl := XFlt) (Fin t1) (Fin t5) (map Fin r1) (map Fin d1) (map Fin r2) (map Fin d2) = (t, d, None) ->
  exists x, t = Fin x /\ within t1 t5 (1 / 4) (3 / 4) x /\ Rabs (f2 x - f1 x) <= 1 / 1000000000000 * Y /\ d = Fin (g2 x - g1 x).
Proof.
  intros [F1 T1] [G1 U1] [F2 T2] [G2 U2] HY E.
  assert (Hx : t1 <> t5).
  { intros Eq. destruct (Planetary_errors t1 t5 r1 d1 r2 d2) as [P1 P2].
    destruct (list_eq_dec Nat.eq_dec [length r1; length d1; length r2; length d2] [5; 5; 5; 5]%nat) as [L|L].
    - injection L as L1 L2 L3 L4. specialize (P2 ltac:(auto) Eq). rewrite E in P2. discriminate.
    - assert (N : ~ (length r1 = 5%nat /\ length d1 = 5%nat /\ length r2 = 5%nat /\ length d2 = 5%nat)) by (intros (K1 & K2 & K3 & K4); apply L; now rewrite K1, K2, K3, K4).
      specialize (P1 N). rewrite E in P1. discriminate. }
  assert (L5 : length r1 = 5%nat /\ length d1 = 5%nat /\ length r2 = 5%nat /\ length d2 = 5%nat).
  { unfold Planetary in E. destruct (five (fl := XFlt) (map Fin r1)) eqn:E1; [|discriminate]. destruct (five (fl := XFlt) (map Fin d1)) eqn:E2; [|discriminate].
    destruct (five (fl := XFlt) (map Fin r2)) eqn:E3; [|discriminate]. destruct (five (fl := XFlt) (map Fin d2)) eqn:E4; [|discriminate].
    unfold five in *. rewrite map_length in *. repeat split; now apply Nat.eqb_eq. }
  destruct L5 as (L1 & L2 & L3 & L4).
  destruct r1 as [|a0 [|a1 [|a2 [|a3 [|a4 [|? ?]]]]]]; try discriminate. destruct d1 as [|b0 [|b1 [|b2 [|b3 [|b4 [|? ?]]]]]]; try discriminate.
  destruct r2 as [|c0 [|c1 [|c2 [|c3 [|c4 [|? ?]]]]]]; try discriminate. destruct d2 as [|e0 [|e1 [|e2 [|e3 [|e4 [|? ?]]]]]]; try discriminate.
  rewrite Planetary_five in E. 
  apply (conj_sound _ _ _ _ _ _ _ _ _ _ _ _ _ _ Y Hx) in E.
  - destruct E as (n & Bn & -> & -> & B). eexists. split; [reflexivity|]. split; [exists (1 / 2 + n / 4); split; [lra|field]|].
    rewrite (tab_fq f1 _ _ _ _ _ _ _ Hx F1 T1), (tab_fq f2 _ _ _ _ _ _ _ Hx F2 T2), (tab_fq g1 _ _ _ _ _ _ _ Hx G1 U1), (tab_fq g2 _ _ _ _ _ _ _ Hx G2 U2).
    replace ((4 * ((t1 + t5) / 2 + n * (t5 - t1) / 4) - 2 * (t5 + t1)) / (t5 - t1)) with n by (field; lra).
    rewrite !fq_sub. split; [exact B|reflexivity].
  - intros v [<-|[<-|[<-|[<-|[<-|[]]]]]]; [apply (HY 0%nat)|apply (HY 1%nat)|apply (HY 2%nat)|apply (HY 3%nat)|apply (HY 4%nat)]; lia.
Qed.

Lemma Planetary_complete t1 t5 r1 d1 r2 d2 f1 g1 f2 g2 x : t1 <> t5 ->
  length r1 = 5%nat -> length d1 = 5%nat -> length r2 = 5%nat -> length d2 = 5%nat ->
  quartic f1 t1 t5 r1 -> quartic g1 t1 t5 d1 -> quartic f2 t1 t5 r2 -> quartic g2 t1 t5 d2 ->
  nearly_uniform (diff r2 r1) ->
  f1 x = f2 x -> within t1 t5 (1 / 4 + 1 / 1000) (3 / 4 - 1 / 1000) x -> x <> (t1 + t5) / 2 ->
  exists t, Planetary (fl := XFlt) (Fin t1) (Fin t5) (map Fin r1) (map Fin d1) (map Fin r2) (map Fin d2) = (Fin t, Fin (g2 t - g1 t), None) /\
    Rabs (t - x) <= 1 / 1000000000000000 * Rabs (t5 - t1).
Proof.
  intros Hx L1 L2 L3 L4 [F1 T1] [G1 U1] [F2 T2] [G2 U2] (D0 & H2 & H3 & H3' & H4) Z (s & Bs & ->) NM.
  destruct r1 as [|a0 [|a1 [|a2 [|a3 [|a4 [|? ?]]]]]]; try discriminate. destruct d1 as [|b0 [|b1 [|b2 [|b3 [|b4 [|? ?]]]]]]; try discriminate.
  destruct r2 as [|c0 [|c1 [|c2 [|c3 [|c4 [|? ?]]]]]]; try discriminate. destruct d2 as [|e0 [|e1 [|e2 [|e3 [|e4 [|? ?]]]]]]; try discriminate.
  unfold diff in *. cbn [nth] in *. rewrite Planetary_five, conj_iter by exact Hx.
  set (r := 4 * s - 2). assert (Er : t1 + s * (t5 - t1) = (t1 + t5) / 2 + r * (t5 - t1) / 4) by (unfold r; field).
  assert (R0 : r <> 0) by (intros E0; apply NM; rewrite Er, E0; field).
  assert (Rr : Rabs r <= 1) by (apply Rabs_le; unfold r; lra).
  assert (Br : Rabs r <= 1 - 4 / 1000) by (apply Rabs_le; unfold r; lra).
  assert (FR : forall n, (4 * ((t1 + t5) / 2 + n * (t5 - t1) / 4) - 2 * (t5 + t1)) / (t5 - t1) = n) by (intros; field; lra).
  assert (Hr : fq (c0 + - a0) (c1 + - a1) (c2 + - a2) (c3 + - a3) (c4 + - a4) r = 0).
  { rewrite <- fq_sub, <- (FR r), <- Er, <- (tab_fq f1 _ _ _ _ _ _ _ Hx F1 T1), <- (tab_fq f2 _ _ _ _ _ _ _ Hx F2 T2), Z. ring. }
  destruct (newton_converges _ _ _ _ _ D0 H2 H3 H3' H4 r Hr Rr R0 t1 t5) as (n & In & Bn). unfold Rminus in In. rewrite In.
  assert (An : Rabs n <= 1 - 3 / 1000). { replace n with (n - r + r) by ring. eapply Rle_trans; [apply Rabs_triang|]. lra. }
  apply Rabs_le_inv in An. rewrite !Rlt_bool_false by lra. cbn [orb]. cbv zeta.
  eexists. split; [apply f_equal2; [apply f_equal2; [reflexivity|]|reflexivity]|].
  - rewrite (tab_fq g1 _ _ _ _ _ _ _ Hx G1 U1), (tab_fq g2 _ _ _ _ _ _ _ Hx G2 U2), !FR, fq_sub. reflexivity.
  - rewrite Er. replace ((t1 + t5) / 2 + n * (t5 - t1) / 4 - ((t1 + t5) / 2 + r * (t5 - t1) / 4)) with ((n - r) / 4 * (t5 - t1)) by field.
    rewrite Rabs_mult. apply Rmult_le_compat_r; [apply Rabs_pos|]. unfold Rdiv at 1. rewrite Rabs_mult, (Rabs_right (/ 4)) by lra. lra.
Qed.

Lemma Stellar_Planetary {fl : Flt} t1 t5 r1 d1 r2 d2 : Stellar t1 t5 r1 d1 r2 d2 = Planetary t1 t5 (repeat r1 5) (repeat d1 5) r2 d2.
Proof.
  unfold Stellar, Planetary. change (five (repeat r1 5)) with true. change (five (repeat d1 5)) with true. cbn [negb orb].
  destruct (five r2) eqn:E1; [|reflexivity]. destruct (five d2) eqn:E2; [|reflexivity]. cbn [negb orb].
  unfold five in *. apply Nat.eqb_eq in E1, E2.
  destruct r2 as [|? [|? [|? [|? [|? [|? ?]]]]]]; try discriminate. destruct d2 as [|? [|? [|? [|? [|? [|? ?]]]]]]; try discriminate. reflexivity.
Qed.

(** Uniform motion relative to a star. *)
Lemma Stellar_uniform t1 t5 r1 d1 A B e0 e1 e2 e3 e4 : t1 <> t5 -> A <> 0 -> B <> 0 ->
  let n := - A / B in let t := (t1 + t5) / 2 + n * (t5 - t1) / 4 in
  Stellar (fl := XFlt) (Fin t1) (Fin t5) (Fin r1) (Fin d1) (map Fin (column r1 A B)) (map Fin [e0; e1; e2; e3; e4]) =
  if Rlt_bool 2 n || Rlt_bool n (-2) then (Fin 0, Fin 0, Some (ErrorInterp ErrorZeroOutside))
  else if Rlt_bool n (-1) || Rlt_bool 1 n then (Fin t, Fin 0, Some (ErrorInterp ErrorXOutOfRange))
  else (Fin t, Fin (fq (e0 + - d1) (e1 + - d1) (e2 + - d1) (e3 + - d1) (e4 + - d1) n), None).
Proof.
  intros Hx HA HB n t. rewrite Stellar_Planetary. change (repeat (Fin r1) 5) with (map Fin [r1; r1; r1; r1; r1]). change (repeat (Fin d1) 5) with (map Fin [d1; d1; d1; d1; d1]).
  unfold column. rewrite Planetary_five, conj_iter by exact Hx.
  replace (r1 + (A - 2 * B) + - r1) with (A - 2 * B) by ring. replace (r1 + (A - B) + - r1) with (A - B) by ring. replace (r1 + A + - r1) with A by ring.
  replace (r1 + (A + B) + - r1) with (A + B) by ring. replace (r1 + (A + 2 * B) + - r1) with (A + 2 * B) by ring.
  rewrite linear_zero by assumption. fold n. cbv zeta. fold t. reflexivity.
Qed.
Lemma column_line t1 t5 r1 A B : t1 <> t5 -> quartic (fun t => r1 + A + B * (4 * (t - (t1 + t5) / 2) / (t5 - t1))) t1 t5 (column r1 A B).
Proof.
  intros Hx. split.
  - exists [r1 + A - B * (2 * (t1 + t5) / (t5 - t1)); 4 * B / (t5 - t1)]. split; [cbn; lia|]. intros t. rewrite !poly_cons, poly_nil. field. lra.
  - intros k Hk. unfold abscissa, column in *. cbn [length] in *. destruct k as [|[|[|[|[|k]]]]]; [| | | | |lia]; cbn [nth]; cbn -[IZR]; field; lra.
Qed.
Lemma Stellar_outer t1 t5 r1 d1 A B d2 : t1 <> t5 -> length d2 = 5%nat -> Rabs B < Rabs A <= 2 * Rabs B ->
  exists f t, quartic f t1 t5 (column r1 A B) /\ within t1 t5 0 1 t /\ f t = r1 /\
  Stellar (fl := XFlt) (Fin t1) (Fin t5) (Fin r1) (Fin d1) (map Fin (column r1 A B)) (map Fin d2) = (Fin t, Fin 0, Some (ErrorInterp ErrorXOutOfRange)).
Proof.
  intros Hx L HAB. assert (B0 : B <> 0) by (intros ->; rewrite Rabs_R0 in HAB; lra). assert (A0 : A <> 0) by (intros ->; rewrite Rabs_R0 in HAB; pose proof (Rabs_pos B); lra).
  set (n := - A / B). assert (AN : 1 < Rabs n <= 2).
  { unfold n, Rdiv. rewrite Rabs_mult, Rabs_Ropp, Rabs_inv. pose proof (Rabs_pos_lt B B0) as BP. split.
    - apply (Rmult_lt_reg_r (Rabs B)); [exact BP|]. rewrite Rmult_assoc, Rinv_l by lra. lra.
    - apply (Rmult_le_reg_r (Rabs B)); [exact BP|]. rewrite Rmult_assoc, Rinv_l by lra. lra. }
  exists (fun t => r1 + A + B * (4 * (t - (t1 + t5) / 2) / (t5 - t1))), ((t1 + t5) / 2 + n * (t5 - t1) / 4).
  split; [now apply column_line|]. split; [exists (1 / 2 + n / 4); split; [destruct AN as [_ AN]; apply Rabs_le_inv in AN; lra|field]|].
  split; [unfold n; field; split; lra|].
  destruct d2 as [|e0 [|e1 [|e2 [|e3 [|e4 [|? ?]]]]]]; try discriminate. rewrite Stellar_uniform by assumption. cbv zeta. fold n.
  destruct AN as [AN1 AN2]. apply Rabs_le_inv in AN2. rewrite (Rlt_bool_false 2 n), (Rlt_bool_false n (-2)) by lra. cbn [orb].
  assert (Rlt_bool n (-1) || Rlt_bool 1 n = true) as ->; [|reflexivity].
  revert AN1. unfold Rabs. destruct (Rcase_abs n); intros; apply orb_true_iff; [left|right]; apply Rlt_bool_true; lra.
Qed.

Lemma Stellar_middle t1 t5 r1 d1 r2 d2 : t1 <> t5 -> length r2 = 5%nat -> length d2 = 5%nat -> nth 2 r2 0 = r1 ->
  snd (Stellar (fl := XFlt) (Fin t1) (Fin t5) (Fin r1) (Fin d1) (map Fin r2) (map Fin d2)) = Some (ErrorInterp ErrorNoConverge).
Proof.
  intros Hx L1 L2 M. destruct r2 as [|c0 [|c1 [|c2 [|c3 [|c4 [|? ?]]]]]]; try discriminate. destruct d2 as [|e0 [|e1 [|e2 [|e3 [|e4 [|? ?]]]]]]; try discriminate.
  cbn [nth] in M. subst c2. rewrite Stellar_Planetary. change (repeat (Fin r1) 5) with (map Fin [r1; r1; r1; r1; r1]). change (repeat (Fin d1) 5) with (map Fin [d1; d1; d1; d1; d1]).
  rewrite Planetary_five. unfold conj. pose proof (NewLen5_XOk t1 t5 (c0 + - r1) (c1 + - r1) 0 (c3 + - r1) (c4 + - r1) Hx) as N.
  replace (r1 + - r1) with 0 by ring. rewrite N. rewrite (Len5_Zero_middle _ _ _ _ _ _ _ true N). reflexivity.
Qed.

Lemma Stellar_wrap t1 t5 r1 d1 A B d2 : t1 <> t5 -> length d2 = 5%nat -> 0 < Rabs A <= Rabs B -> Rabs B <= 1 ->
  snd (Stellar (fl := XFlt) (Fin t1) (Fin t5) (Fin r1) (Fin d1) (map Fin (column r1 A B)) (map Fin d2)) = None /\
  snd (Stellar (fl := XFlt) (Fin t1) (Fin t5) (Fin r1) (Fin d1) (map Fin (map (fun r => r + 2 * PI) (column r1 A B))) (map Fin d2)) = Some (ErrorInterp ErrorZeroOutside).
Proof.
  intros Hx L HA HB. assert (B0 : B <> 0) by (intros ->; rewrite Rabs_R0 in HA; lra). assert (A0 : A <> 0) by (intros ->; rewrite Rabs_R0 in HA; lra).
  destruct d2 as [|e0 [|e1 [|e2 [|e3 [|e4 [|? ?]]]]]]; try discriminate. pose proof (Rabs_pos_lt B B0) as BP. split.
  - rewrite Stellar_uniform by assumption. cbv zeta. set (n := - A / B).
    assert (AN : Rabs n <= 1).
    { unfold n, Rdiv. rewrite Rabs_mult, Rabs_Ropp, Rabs_inv. apply (Rmult_le_reg_r (Rabs B)); [exact BP|]. rewrite Rmult_assoc, Rinv_l by lra. lra. }
    apply Rabs_le_inv in AN. rewrite !Rlt_bool_false by lra. reflexivity.
  - replace (map (fun r => r + 2 * PI) (column r1 A B)) with (column r1 (A + 2 * PI) B).
    2:{ unfold column. cbn [map]. repeat (apply f_equal2; [ring|]). reflexivity. }
    pose proof PI_4 as P4. pose proof PI2_3_2 as P3. assert (AA : 5 <= A + 2 * PI). { assert (Rabs A <= 1) as A1 by lra. apply Rabs_le_inv in A1. lra. }
    rewrite Stellar_uniform by (assumption || lra). cbv zeta. set (n := - (A + 2 * PI) / B).
    assert (AN : 2 < Rabs n).
    { unfold n, Rdiv. rewrite Rabs_mult, Rabs_Ropp, Rabs_inv, (Rabs_right (A + 2 * PI)) by lra. apply (Rmult_lt_reg_r (Rabs B)); [exact BP|]. rewrite Rmult_assoc, Rinv_l by lra. lra. }
    assert (Rlt_bool 2 n || Rlt_bool n (-2) = true) as ->; [|reflexivity].
    revert AN. unfold Rabs. destruct (Rcase_abs n); intros; apply orb_true_iff; [right|left]; apply Rlt_bool_true; lra.
Qed.
