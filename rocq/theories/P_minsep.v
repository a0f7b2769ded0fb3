(** C110: the minimum separation of two moving objects (angle.MinSep, angle.MinSepRect). *)
From Coq Require Import ZArith Reals Bool List.
From Verif Require Import GoInt GoFloat GoMath S_base S_Sphere S_interp S_minsep M_base M_interp M_angle M_minsep L_minsep.
Import ListNotations.
Local Open Scope R_scope.

(** Errors of MinSep: not three rows, no interval. *)
Theorem C110_MinSep_errors : forall jd1 jd3 r1 d1 r2 d2,
  (MinSep jd1 jd3 r1 d1 r2 d2 = Err ErrorNot3 <-> ~ (three r1 /\ three d1 /\ three r2 /\ three d2)) /\
  (three r1 -> three d1 -> three r2 -> three d2 -> (MinSep jd1 jd3 r1 d1 r2 d2 = Err ErrorNoXRange <-> jd1 = jd3)).
Proof. intros jd1 jd3 r1 d1 r2 d2. exact (conj (MinSep_not3 jd1 jd3 r1 d1 r2 d2) (MinSep_norange jd1 jd3 r1 d1 r2 d2)). Qed.
Print Assumptions C110_MinSep_errors.

(** A result of MinSep is the extremum, inside the table, of the parabola f through the separations of
    the three rows; it is the minimum of f if the middle row is below the mean of the others. *)
Theorem C110_MinSep_partial : forall jd1 jd3 r1 d1 r2 d2 m, MinSep jd1 jd3 r1 d1 r2 d2 = Ok m ->
  forall f, poly_degree_le 2 f ->
  tabulates f jd1 jd3 (map (fun k => Sep (nth k r1 0) (nth k d1 0) (nth k r2 0) (nth k d2 0)) [0%nat; 1%nat; 2%nat]) ->
  exists x, between jd1 jd3 x /\ m = f x /\
    let s k := Sep (nth k r1 0) (nth k d1 0) (nth k r2 0) (nth k d2 0) in
    (2 * s 1%nat < s 0%nat + s 2%nat -> is_minimum f x) /\ (s 0%nat + s 2%nat < 2 * s 1%nat -> is_maximum f x).
Proof. exact MinSep_ok. Qed.
Print Assumptions C110_MinSep_partial.

(** It need not be a minimum: separations 1, 2, 1 give 2. *)
Theorem C110_MinSep_refuted : MinSep 0 2 [0; 0; 0] [0; 0; 0] [1; 2; 1] [0; 0; 0] = Ok 2 /\ Sep 0 0 1 0 = 1 /\ Sep 0 0 2 0 = 2.
Proof. exact MinSep_maximum. Qed.
Print Assumptions C110_MinSep_refuted.

(** MinSepRect replaces the separations by distances in a plane: the error at each row is at most
    2 th^3 if the coordinates differ by at most th <= 1/5:
    2.2 arc seconds for one degree. *)
Theorem C110_MinSepRect_rows : forall r1 d1 r2 d2 k th s, (k < 3)%nat -> th <= 1 / 5 ->
  Rabs (nth k r2 0 - nth k r1 0) <= th -> Rabs (nth k d2 0 - nth k d1 0) <= th -> cos (nth k d1 0) <> 0 ->
  separation (dir (nth k r1 0) (nth k d1 0)) (dir (nth k r2 0) (nth k d2 0)) s ->
  Rabs (distance0 (track_u r1 d1 r2 d2) (track_v r1 d1 r2 d2) (INR k - 1) - s) <= 2 * (th * th * th).
Proof. exact Rect_row. Qed.
Print Assumptions C110_MinSepRect_rows.

(** The error for slices of another length. *)
Theorem C110_MinSepRect_errors : forall jd1 jd3 r1 d1 r2 d2,
  MinSepRect jd1 jd3 r1 d1 r2 d2 = RectNot3 <-> ~ (three r1 /\ three d1 /\ three r2 /\ three d2).
Proof. exact Rect_not3. Qed.
Print Assumptions C110_MinSepRect_errors.

(** Every result of MinSepRect is the distance at a time n of the path (u, v) through the three rows,
    where n is within 1e-5 rows of a time n0 and is the foot of the perpendicular on the tangent at n0. *)
Theorem C110_MinSepRect_result : forall jd1 jd3 r1 d1 r2 d2 x, MinSepRect jd1 jd3 r1 d1 r2 d2 = RectOk x ->
  let u := track_u r1 d1 r2 d2 in let v := track_v r1 d1 r2 d2 in
  exists n n0 du dv, x = Fin (distance0 u v n) /\ Rabs (n - n0) < 1 / 100000 /\ derivable_pt_lim u n0 du /\ derivable_pt_lim v n0 dv /\
    du * du + dv * dv <> 0 /\ (u n0 + (n - n0) * du) * du + (v n0 + (n - n0) * dv) * dv = 0.
Proof. exact Rect_success. Qed.
Print Assumptions C110_MinSepRect_result.

(** For uniform motion in the plane the result is exactly the least distance. *)
Theorem C110_MinSepRect_uniform : forall jd1 jd3 r1 d1 r2 d2, three r1 -> three d1 -> three r2 -> three d2 ->
  let u := track_u r1 d1 r2 d2 in let v := track_v r1 d1 r2 d2 in
  u (-1) + u 1 = 2 * u 0 -> v (-1) + v 1 = 2 * v 0 -> u (-1) <> u 1 \/ v (-1) <> v 1 ->
  exists n, MinSepRect jd1 jd3 r1 d1 r2 d2 = RectOk (Fin (distance0 u v n)) /\ closest u v n.
Proof. exact Rect_uniform. Qed.
Print Assumptions C110_MinSepRect_uniform.

(** For nearly uniform motion the loop converges, and the result exceeds no distance on the path
    inside the table by more than 2e-5 of the motion per row. *)
Theorem C110_MinSepRect_converges : forall jd1 jd3 r1 d1 r2 d2 s, three r1 -> three d1 -> three r2 -> three d2 ->
  let u := track_u r1 d1 r2 d2 in let v := track_v r1 d1 r2 d2 in nearly_uniform u v s ->
  exists n, Rabs n <= 4 / 3 /\ MinSepRect jd1 jd3 r1 d1 r2 d2 = RectOk (Fin (distance0 u v n)) /\
    forall n', Rabs n' <= 1 -> distance0 u v n <= distance0 u v n' + 2 / 100000 * s.
Proof. exact Rect_converges. Qed.
Print Assumptions C110_MinSepRect_converges.

(** The result therefore exceeds no separation of the table by more than that and 2 th^3. *)
Theorem C110_MinSepRect_partial : forall jd1 jd3 r1 d1 r2 d2 s th, three r1 -> three d1 -> three r2 -> three d2 ->
  nearly_uniform (track_u r1 d1 r2 d2) (track_v r1 d1 r2 d2) s -> th <= 1 / 5 ->
  (forall k, (k < 3)%nat -> Rabs (nth k r2 0 - nth k r1 0) <= th /\ Rabs (nth k d2 0 - nth k d1 0) <= th /\ cos (nth k d1 0) <> 0) ->
  exists m, MinSepRect jd1 jd3 r1 d1 r2 d2 = RectOk (Fin m) /\ 0 <= m /\
    forall k sp, (k < 3)%nat -> separation (dir (nth k r1 0) (nth k d1 0)) (dir (nth k r2 0) (nth k d2 0)) sp ->
      m <= sp + 2 * (th * th * th) + 2 / 100000 * s.
Proof. exact Rect_bound. Qed.
Print Assumptions C110_MinSepRect_partial.

(** Objects whose first and third rows agree: no result. *)
Theorem C110_MinSepRect_still : forall jd1 jd3 r1 d1 r2 d2, three r1 -> three d1 -> three r2 -> three d2 ->
  nth 0 r1 0 = nth 2 r1 0 -> nth 0 d1 0 = nth 2 d1 0 -> nth 0 r2 0 = nth 2 r2 0 -> nth 0 d2 0 = nth 2 d2 0 ->
  MinSepRect jd1 jd3 r1 d1 r2 d2 = RectNoConverge.
Proof. exact Rect_same_rows. Qed.
Print Assumptions C110_MinSepRect_still.

(** The closest approach may lie outside the table, which MinSepRect does not report: the result is 0
    although the separations, and the path between them, stay at 0.1 or more. *)
Theorem C110_MinSepRect_refuted : let z := [0; 0; 0] in let d := [asin (1 / 10); asin (2 / 10); asin (3 / 10)] in
  MinSepRect 0 2 z z z d = RectOk (Fin 0) /\
  (forall k, (k < 3)%nat -> separation (dir (nth k z 0) (nth k z 0)) (dir (nth k z 0) (nth k d 0)) (nth k d 0) /\ 1 / 10 <= nth k d 0) /\
  (forall n, -1 <= n <= 1 -> 1 / 10 <= distance0 (track_u z z z d) (track_v z z z d) n).
Proof. exact Rect_outside. Qed.
Print Assumptions C110_MinSepRect_refuted.

(** A table that meets the conditions of C110_MinSepRect_partial and is not uniform. *)
Example C110_nonvacuous : let z := [0; 0; 0] in let d := [asin (- (1 / 10)); asin (1 / 1000); asin (1 / 10)] in
  nearly_uniform (track_u z z z d) (track_v z z z d) (1 / 10) /\ track_v z z z d (-1) + track_v z z z d 1 <> 2 * track_v z z z d 0 /\
  (forall k, (k < 3)%nat -> Rabs (nth k z 0 - nth k z 0) <= 1 / 5 /\ Rabs (nth k d 0 - nth k z 0) <= 1 / 5 /\ cos (nth k z 0) <> 0).
Proof. exact Rect_example. Qed.
