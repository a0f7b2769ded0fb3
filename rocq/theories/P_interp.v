(** Property theorems: package interp (C19 - C28). *)
From Coq Require Import ZArith Bool List Reals Lra Lia Permutation.
From Flocq Require Import Core.
From Verif Require Import GoInt GoFloat M_base M_interp S_base S_interp L_interp L_interp_zero L_interp_row L_lagrange.
Import ListNotations.
Local Open Scope R_scope.

(** ** C19 *)
Theorem C19_NewLen3_errors : forall (x1 x3 : R) (y : list R),
  (length y <> 3%nat -> NewLen3 (fl := RFlt) x1 x3 y = Err ErrorNot3) /\
  (length y = 3%nat -> x1 = x3 -> NewLen3 (fl := RFlt) x1 x3 y = Err ErrorNoXRange) /\
  (length y = 3%nat -> x1 <> x3 -> exists d, NewLen3 (fl := RFlt) x1 x3 y = Ok d).
Proof. exact NewLen3_total. Qed.
Print Assumptions C19_NewLen3_errors.

Theorem C19_Len3_reproduces_table : forall (x1 x3 : R) (y : list R) d,
  NewLen3 (fl := RFlt) x1 x3 y = Ok d ->
  tabulates (Len3_InterpolateX (fl := RFlt) d) x1 x3 y /\ poly_degree_le 2 (Len3_InterpolateX (fl := RFlt) d).
Proof. exact (fun x1 x3 y d H => conj (Len3_reproduces x1 x3 y d H) (Len3_degree x1 x3 y d H)). Qed.
Print Assumptions C19_Len3_reproduces_table.

Theorem C19_Len3_exact_for_quadratics : forall (x1 x3 : R) (y : list R) d,
  NewLen3 (fl := RFlt) x1 x3 y = Ok d ->
  forall f : R -> R, poly_degree_le 2 f -> tabulates f x1 x3 y ->
  forall x : R, Len3_InterpolateX (fl := RFlt) d x = f x.
Proof. exact Len3_exact. Qed.
Print Assumptions C19_Len3_exact_for_quadratics.

Theorem C19_Len3_normalized_argument : forall (x1 x3 : R) (y : list R) d,
  NewLen3 (fl := RFlt) x1 x3 y = Ok d ->
  forall n : R, Len3_InterpolateN (fl := RFlt) d n = Len3_InterpolateX (fl := RFlt) d ((x1 + x3) / 2 + n * (x3 - x1) / 2)%R.
Proof. exact Len3_N_X. Qed.
Print Assumptions C19_Len3_normalized_argument.

Example C19_nonvacuous : exists d, NewLen3 (fl := RFlt) 7%R 9%R [49; 64; 81] = Ok d /\
  poly_degree_le 2 (fun x => x * x) /\ tabulates (fun x => x * x) 7 9 [49; 64; 81].
Proof.
  destruct (NewLen3_total 7 9 [49; 64; 81]) as [_ [_ T]]. destruct T as [d Hd]; [reflexivity|lra|].
  exists d. split; [exact Hd|]. split.
  - exists [0; 0; 1]. split; [cbn; lia|]. intros. unfold poly. cbn. ring.
  - intros k Hk. unfold abscissa. cbn [length] in *.
    destruct k as [|[|[|k]]]; [| | |lia]; cbn [nth]; cbn -[IZR]; field.
Qed.

(** ** C20 *)
Theorem C20_Len3_strict_x : forall (x1 x3 : R) (y : list R) d,
  NewLen3 (fl := RFlt) x1 x3 y = Ok d -> forall x : R,
  (between x1 x3 x -> Len3_InterpolateXStrict (fl := RFlt) d x = Ok (Len3_InterpolateX (fl := RFlt) d x)) /\
  (~ between x1 x3 x -> Len3_InterpolateXStrict (fl := RFlt) d x = Err ErrorXOutOfRange).
Proof. exact Len3_XStrict. Qed.
Print Assumptions C20_Len3_strict_x.

Theorem C20_Len3_strict_n : forall (d : Len3 (fl := RFlt)) (n : R),
  (-1 <= n <= 1 -> Len3_InterpolateNStrict (fl := RFlt) d n = Ok (Len3_InterpolateN (fl := RFlt) d n)) /\
  (~ -1 <= n <= 1 -> Len3_InterpolateNStrict (fl := RFlt) d n = Err ErrorNOutOfRange).
Proof. exact Len3_NStrict. Qed.
Print Assumptions C20_Len3_strict_n.

(** Len5: the accepted range is the middle half of the table, ... *)
Theorem C20_Len5_strict_x_partial : forall (x1 x5 : R) (y : list R) d,
  NewLen5 (fl := RFlt) x1 x5 y = Ok d -> forall x : R,
  (between ((3 * x1 + x5) / 4) ((x1 + 3 * x5) / 4) x ->
     Len5_InterpolateXStrict (fl := RFlt) d x = Ok (Len5_InterpolateX (fl := RFlt) d x)) /\
  (~ between ((3 * x1 + x5) / 4) ((x1 + 3 * x5) / 4) x ->
     Len5_InterpolateXStrict (fl := RFlt) d x = Err ErrorXOutOfRange).
Proof. exact Len5_XStrict. Qed.
Print Assumptions C20_Len5_strict_x_partial.

(** ... not the documented range x1 to x5: every table rejects its own end points. *)
Theorem C20_Len5_strict_x_refuted : forall (x1 x5 : R) (y : list R) d,
  NewLen5 (fl := RFlt) x1 x5 y = Ok d ->
  between x1 x5 x1 /\ Len5_InterpolateXStrict (fl := RFlt) d x1 = Err ErrorXOutOfRange /\
  between x1 x5 x5 /\ Len5_InterpolateXStrict (fl := RFlt) d x5 = Err ErrorXOutOfRange.
Proof. exact Len5_XStrict_ends. Qed.
Print Assumptions C20_Len5_strict_x_refuted.

Example C20_nonvacuous : (exists d, NewLen5 (fl := RFlt) 1%R 5%R [1; 2; 3; 4; 5] = Ok d) /\
  between 1 5 2 /\ between 5 1 2 /\ ~ between 1 5 6.
Proof.
  split; [apply (NewLen5_total 1 5 [1; 2; 3; 4; 5]); [reflexivity|lra]|].
  unfold between, Rmin, Rmax. destruct (Rle_dec 1 5), (Rle_dec 5 1); lra.
Qed.

(** ** C21 *)
Theorem C21_Len3_Extremum : forall (x1 x3 : R) (y : list R) d,
  NewLen3 (fl := RFlt) x1 x3 y = Ok d ->
  forall x v : R, Len3_Extremum (fl := RFlt) d = Ok (x, v) ->
  let f := Len3_InterpolateX (fl := RFlt) d in
  between x1 x3 x /\ v = f x /\ stationary f x /\ (is_maximum f x \/ is_minimum f x).
Proof. exact Len3_Extremum_ok. Qed.
Print Assumptions C21_Len3_Extremum.

Theorem C21_Len3_Extremum_errors : forall (x1 x3 : R) (y : list R) d,
  NewLen3 (fl := RFlt) x1 x3 y = Ok d ->
  let f := Len3_InterpolateX (fl := RFlt) d in
  let second_difference := nth 2 y 0 - 2 * nth 1 y 0 + nth 0 y 0 in
  (Len3_Extremum (fl := RFlt) d = Err ErrorNoExtremum <-> second_difference = 0) /\
  (Len3_Extremum (fl := RFlt) d = Err ErrorExtremumOutside <->
     second_difference <> 0 /\ forall x, stationary f x -> ~ between x1 x3 x).
Proof. exact Len3_Extremum_err. Qed.
Print Assumptions C21_Len3_Extremum_errors.

Example C21_nonvacuous : exists d v, NewLen3 (fl := RFlt) 0%R 2%R [1; 0; 1] = Ok d /\
  Len3_Extremum (fl := RFlt) d = Ok (1%R, v).
Proof.
  destruct (NewLen3_total 0 2 [1; 0; 1]) as [_ [_ T]]. destruct T as [d Hd]; [reflexivity|lra|].
  exists d. destruct (NewLen3_Ok _ _ _ _ Hd) as [_ [y0 [y1 [y2 [E ->]]]]]. injection E as <- <- <-.
  eexists. split; [exact Hd|]. unfold Len3_Extremum. cbn -[IZR].
  rewrite Req_bool_false by lra.
  match goal with |- context [Rlt_bool ?n (-1 / 1)] => replace n with (IZR 0) by (toR; field) end.
  rewrite !Rlt_bool_false by lra. cbn [orb]. apply f_equal. apply f_equal2; [toR; field|reflexivity].
Qed.

(** ** C22

    In exact arithmetic with IEEE division by zero.  [Y] bounds the table values. *)
Theorem C22_Len3_Zero : forall x1 x3 y dx d strong x Y,
  NewLen3 (fl := XFlt) (Fin x1) (Fin x3) (map Fin y) = Ok dx ->
  NewLen3 (fl := RFlt) x1 x3 y = Ok d ->
  (forall v, In v y -> Rabs v <= Y) ->
  Len3_Zero (fl := XFlt) dx strong = Ok x ->
  exists r, x = Fin r /\ between x1 x3 r /\
    Rabs (Len3_InterpolateX (fl := RFlt) d r) <= 1 / 100000000000000 * Y.
Proof. exact Len3_Zero_ok. Qed.
Print Assumptions C22_Len3_Zero.

Theorem C22_Len5_Zero : forall x1 x5 y dx d strong x Y,
  NewLen5 (fl := XFlt) (Fin x1) (Fin x5) (map Fin y) = Ok dx ->
  NewLen5 (fl := RFlt) x1 x5 y = Ok d ->
  (forall v, In v y -> Rabs v <= Y) ->
  Len5_Zero (fl := XFlt) dx strong = Ok x ->
  exists r, x = Fin r /\ between x1 x5 r /\
    Rabs (Len5_InterpolateX (fl := RFlt) d r) <= 1 / 1000000000000 * Y.
Proof. exact Len5_Zero_ok. Qed.
Print Assumptions C22_Len5_Zero.

(** A table whose middle value is exactly zero never yields its zero: the
    relative convergence test divides by the starting value 0. *)
Theorem C22_Len3_Zero_middle_refuted : forall x1 x3 y0 y2 dx strong,
  NewLen3 (fl := XFlt) (Fin x1) (Fin x3) [Fin y0; Fin 0; Fin y2] = Ok dx ->
  Len3_Zero (fl := XFlt) dx strong = Err ErrorNoConverge.
Proof. exact Len3_Zero_middle. Qed.
Print Assumptions C22_Len3_Zero_middle_refuted.

Theorem C22_Len5_Zero_middle_refuted : forall x1 x5 y0 y1 y3 y4 dx strong,
  NewLen5 (fl := XFlt) (Fin x1) (Fin x5) [Fin y0; Fin y1; Fin 0; Fin y3; Fin y4] = Ok dx ->
  Len5_Zero (fl := XFlt) dx strong = Err ErrorNoConverge.
Proof. exact Len5_Zero_middle. Qed.
Print Assumptions C22_Len5_Zero_middle_refuted.

Example C22_nonvacuous : exists dx, NewLen3 (fl := XFlt) (Fin 0) (Fin 2) (map Fin [-1; 1; 3]) = Ok dx /\
  Len3_Zero (fl := XFlt) dx false = Ok (Fin (1 / 2)).
Proof. exact Len3_Zero_example. Qed.

(** ** C23 *)
Theorem C23_NewLen5_errors : forall (x1 x5 : R) (y : list R),
  (length y <> 5%nat -> NewLen5 (fl := RFlt) x1 x5 y = Err ErrorNot5) /\
  (length y = 5%nat -> x1 = x5 -> NewLen5 (fl := RFlt) x1 x5 y = Err ErrorNoXRange) /\
  (length y = 5%nat -> x1 <> x5 -> exists d, NewLen5 (fl := RFlt) x1 x5 y = Ok d).
Proof. exact NewLen5_total. Qed.
Print Assumptions C23_NewLen5_errors.

Theorem C23_Len5_reproduces_table : forall (x1 x5 : R) (y : list R) d,
  NewLen5 (fl := RFlt) x1 x5 y = Ok d ->
  tabulates (Len5_InterpolateX (fl := RFlt) d) x1 x5 y /\ poly_degree_le 4 (Len5_InterpolateX (fl := RFlt) d).
Proof. exact (fun x1 x5 y d H => conj (Len5_reproduces x1 x5 y d H) (Len5_degree x1 x5 y d H)). Qed.
Print Assumptions C23_Len5_reproduces_table.

Theorem C23_Len5_exact_for_quartics : forall (x1 x5 : R) (y : list R) d,
  NewLen5 (fl := RFlt) x1 x5 y = Ok d ->
  forall f : R -> R, poly_degree_le 4 f -> tabulates f x1 x5 y ->
  forall x : R, Len5_InterpolateX (fl := RFlt) d x = f x.
Proof. exact Len5_exact. Qed.
Print Assumptions C23_Len5_exact_for_quartics.

Theorem C23_Len5_normalized_argument : forall (x1 x5 : R) (y : list R) d,
  NewLen5 (fl := RFlt) x1 x5 y = Ok d ->
  forall n : R, Len5_InterpolateN (fl := RFlt) d n = Len5_InterpolateX (fl := RFlt) d ((x1 + x5) / 2 + n * (x5 - x1) / 4)%R.
Proof. exact Len5_N_X. Qed.
Print Assumptions C23_Len5_normalized_argument.

Example C23_nonvacuous : exists d, NewLen5 (fl := RFlt) 0%R 4%R [0; 1; 16; 81; 256] = Ok d /\
  poly_degree_le 4 (fun x => x * x * x * x) /\ tabulates (fun x => x * x * x * x) 0 4 [0; 1; 16; 81; 256].
Proof.
  destruct (NewLen5_total 0 4 [0; 1; 16; 81; 256]) as [_ [_ T]]. destruct T as [d Hd]; [reflexivity|lra|].
  exists d. split; [exact Hd|]. split.
  - exists [0; 0; 0; 0; 1]. split; [cbn; lia|]. intros. unfold poly. cbn. ring.
  - intros k Hk. unfold abscissa. cbn [length] in *.
    destruct k as [|[|[|[|[|k]]]]]; [| | | | |lia]; cbn [nth]; cbn -[IZR]; field.
Qed.

(** ** C24

    The derivative of the quartic (in the normalized argument n) at the reported point is,
    up to the convergence tolerance, h n^2 / 4 where h is the first third difference of the
    table: the result is stationary only when h (or n) vanishes. *)
Theorem C24_Len5_Extremum_partial : forall x1 x5 y dx d x v Y,
  NewLen5 (fl := XFlt) (Fin x1) (Fin x5) (map Fin y) = Ok dx ->
  NewLen5 (fl := RFlt) x1 x5 y = Ok d ->
  (forall v, In v y -> Rabs v <= Y) ->
  Len5_Extremum (fl := XFlt) dx = Ok (x, v) ->
  exists n D, x = Fin ((x1 + x5) / 2 + n * (x5 - x1) / 4) /\ -2 <= n <= 2 /\
    v = Fin (Len5_InterpolateN (fl := RFlt) d n) /\
    derivable_pt_lim (Len5_InterpolateN (fl := RFlt) d) n D /\
    Rabs (D - (nth 3 y 0 - 3 * nth 2 y 0 + 3 * nth 1 y 0 - nth 0 y 0) / 4 * (n * n)) <= 1 / 1000000000000 * Y.
Proof. exact Len5_Extremum_ok. Qed.
Print Assumptions C24_Len5_Extremum_partial.

Theorem C24_Len5_Extremum_refuted : forall dx d,
  NewLen5 (fl := XFlt) (Fin (-2)) (Fin 2) (map Fin [17 / 3; 1 / 3; 0; - (1 / 3); - (8 / 3)]) = Ok dx ->
  NewLen5 (fl := RFlt) (-2)%R 2%R [17 / 3; 1 / 3; 0; - (1 / 3); - (8 / 3)] = Ok d ->
  exists v, Len5_Extremum (fl := XFlt) dx = Ok (Fin 1, v) /\
    derivable_pt_lim (Len5_InterpolateX (fl := RFlt) d) 1 (- (5 / 4)).
Proof. exact Len5_Extremum_bad. Qed.
Print Assumptions C24_Len5_Extremum_refuted.

Example C24_nonvacuous :
  (exists dx, NewLen5 (fl := XFlt) (Fin (-2)) (Fin 2) (map Fin [17 / 3; 1 / 3; 0; - (1 / 3); - (8 / 3)]) = Ok dx) /\
  (exists d, NewLen5 (fl := RFlt) (-2)%R 2%R [17 / 3; 1 / 3; 0; - (1 / 3); - (8 / 3)] = Ok d).
Proof.
  split.
  - unfold NewLen5. cbn [map]. cbn [feq XFlt xeq]. rewrite Req_bool_false by lra. eexists. reflexivity.
  - apply (NewLen5_total (-2) 2 [17 / 3; 1 / 3; 0; - (1 / 3); - (8 / 3)]); [reflexivity|lra].
Qed.

(** ** C25 *)
Theorem C25_Len3ForInterpolateX : forall unspec (x x1 xn : R) (y : list R),
  (3 <= length y)%nat -> (Z.of_nat (length y) < 4611686018427387904)%Z -> x1 <> xn ->
  let n := Z.of_nat (length y) in
  exists k d, (1 <= k)%nat /\ (k + 2 <= length y)%nat /\
    Len3ForInterpolateX (fl := RFlt) unspec x x1 xn y = Ok d /\
    NewLen3 (fl := RFlt) (abscissa x1 xn n (Z.of_nat k - 1)) (abscissa x1 xn n (Z.of_nat k + 1))
      [nth (k - 1) y 0; nth k y 0; nth (k + 1) y 0] = Ok d /\
    (between x1 xn x -> forall j, (1 <= j)%nat -> (j + 2 <= length y)%nat ->
      Rabs (x - abscissa x1 xn n (Z.of_nat k)) <= Rabs (x - abscissa x1 xn n (Z.of_nat j))).
Proof. exact Len3For_spec. Qed.
Print Assumptions C25_Len3ForInterpolateX.

Theorem C25_Len3ForInterpolateX_errors : forall unspec (x x1 xn : R) (y : list R),
  ((length y < 3)%nat -> Len3ForInterpolateX (fl := RFlt) unspec x x1 xn y = Err ErrorNot3) /\
  ((3 <= length y)%nat -> x1 = xn -> Len3ForInterpolateX (fl := RFlt) unspec x x1 xn y = Err ErrorNoXRange).
Proof. exact Len3For_errors. Qed.
Print Assumptions C25_Len3ForInterpolateX_errors.

Theorem C25_table_abscissae_reproduce_values : forall unspec (x1 xn : R) (y : list R) i d,
  (3 <= length y)%nat -> (Z.of_nat (length y) < 4611686018427387904)%Z -> x1 <> xn -> (i < length y)%nat ->
  let x := abscissa x1 xn (Z.of_nat (length y)) (Z.of_nat i) in
  Len3ForInterpolateX (fl := RFlt) unspec x x1 xn y = Ok d ->
  Len3_InterpolateX (fl := RFlt) d x = nth i y 0.
Proof. exact Len3For_reproduces. Qed.
Print Assumptions C25_table_abscissae_reproduce_values.

Example C25_nonvacuous : let y := [1; 2; 4; 8; 16] in
  (3 <= length y)%nat /\ (Z.of_nat (length y) < 4611686018427387904)%Z /\ between 0 4 1 /\
  abscissa 0 4 5 3 = 3.
Proof.
  cbv zeta. split; [cbn; lia|]. split; [cbn; lia|]. split.
  - unfold between, Rmin, Rmax. destruct (Rle_dec 0 4); lra.
  - unfold abscissa. cbn -[IZR]. field.
Qed.

(** ** C26 *)
Theorem C26_Len4Half_exact_for_cubics : forall (f : R -> R) (x0 h : R) (y : list R),
  poly_degree_le 3 f -> length y = 4%nat ->
  (forall k, (k < 4)%nat -> nth k y 0 = f (x0 + INR k * h)) ->
  Len4Half (fl := RFlt) y = Ok (f (x0 + 3 / 2 * h)).
Proof. exact Len4Half_exact. Qed.
Print Assumptions C26_Len4Half_exact_for_cubics.

Theorem C26_Len4Half_error : forall y : list R, length y <> 4%nat <-> Len4Half (fl := RFlt) y = Err ErrorNot4.
Proof. exact Len4Half_err. Qed.
Print Assumptions C26_Len4Half_error.

Example C26_nonvacuous : let f := fun x => x * x * x in
  poly_degree_le 3 f /\ forall k, (k < 4)%nat -> nth k [1; 27; 125; 343] 0 = f (1 + INR k * 2).
Proof.
  split.
  - exists [0; 0; 0; 1]. split; [cbn; lia|]. intros. unfold poly. cbn. ring.
  - intros k Hk. destruct k as [|[|[|[|k]]]]; [| | | |lia]; cbn; ring.
Qed.

(** ** C27 *)
Theorem C27_Lagrange_through_points : forall (table : list (R * R)) x y,
  NoDup (map fst table) -> In (x, y) table -> Lagrange (fl := RFlt) x table = y.
Proof. exact Lagrange_node. Qed.
Print Assumptions C27_Lagrange_through_points.

Theorem C27_Lagrange_exact : forall (table : list (R * R)) (f : R -> R) c,
  NoDup (map fst table) -> (length c <= length table)%nat -> (forall x, f x = poly c x) ->
  (forall x y, In (x, y) table -> y = f x) ->
  forall x : R, Lagrange (fl := RFlt) x table = f x.
Proof. exact Lagrange_exact. Qed.
Print Assumptions C27_Lagrange_exact.

Theorem C27_Lagrange_row_order : forall (table table' : list (R * R)) (x : R),
  NoDup (map fst table) -> Permutation table table' ->
  Lagrange (fl := RFlt) x table = Lagrange (fl := RFlt) x table'.
Proof. exact Lagrange_perm. Qed.
Print Assumptions C27_Lagrange_row_order.

Example C27_nonvacuous : let t := [(3, 9); (1, 1); (2, 4)] in
  NoDup (map fst t) /\ (length [0; 0; 1] <= length t)%nat /\ (forall x y, In (x, y) t -> y = x * x).
Proof.
  cbv zeta. split; [|split].
  - cbn [map fst]. repeat constructor; cbn; lra.
  - cbn. lia.
  - intros x y [E|[E|[E|[]]]]; injection E as <- <-; ring.
Qed.

(** ** C28 *)
Theorem C28_LagrangePoly_Horner : forall (table : list (R * R)) (x : R),
  NoDup (map fst table) -> table <> [] ->
  Horner (fl := RFlt) x (LagrangePoly (fl := RFlt) table) = Some (Lagrange (fl := RFlt) x table).
Proof. exact LagrangePoly_Horner. Qed.
Print Assumptions C28_LagrangePoly_Horner.

Theorem C28_LagrangePoly_length : forall table : list (R * R),
  length (LagrangePoly (fl := RFlt) table) = length table.
Proof. exact LagrangePoly_length. Qed.
Print Assumptions C28_LagrangePoly_length.

Example C28_nonvacuous : let t := [(3, 9); (1, 1); (2, 4)] in NoDup (map fst t) /\ t <> [].
Proof. cbv zeta. split; [cbn [map fst]; repeat constructor; cbn; lra | discriminate]. Qed.
