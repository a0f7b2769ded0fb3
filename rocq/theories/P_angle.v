(** Properties C32-C34: angular separation, alignment, smallest circle. *)
From Coq Require Import ZArith Reals Bool List Lra.
From Verif Require Import GoFloat GoMath S_base S_Sphere S_Plane S_interp M_interp M_angle L_trig L_angle L_line L_circle.
Import ListNotations.
Local Open Scope R_scope.

(** ** C32 *)
Theorem C32_SepHav : forall r1 d1 r2 d2, separation (dir r1 d1) (dir r2 d2) (SepHav r1 d1 r2 d2).
Proof. exact SepHav_sep. Qed.
Print Assumptions C32_SepHav.

Theorem C32_SepPauwels : forall r1 d1 r2 d2, separation (dir r1 d1) (dir r2 d2) (SepPauwels r1 d1 r2 d2).
Proof. exact SepPauwels_sep. Qed.
Print Assumptions C32_SepPauwels.

(** [Sep] is the separation wherever it is more than ten minutes of arc.  Missing:
    closer directions, where the property fails (next theorems). *)
Theorem C32_Sep_partial : forall r1 d1 r2 d2,
  dot (dir r1 d1) (dir r2 d2) < cos (10 * (PI / 180 / 60)) ->
  separation (dir r1 d1) (dir r2 d2) (Sep r1 d1 r2 d2).
Proof. exact Sep_partial. Qed.
Print Assumptions C32_Sep_partial.

(** Directions on either side of longitude zero. *)
Theorem C32_Sep_wrap_refuted : Sep 0 0 (2 * PI) 0 = 2 * PI /\ separation (dir 0 0) (dir (2 * PI) 0) 0.
Proof. exact Sep_wrap. Qed.
Print Assumptions C32_Sep_wrap_refuted.

Theorem C32_Sep_symmetry_refuted : exists r1 d1 r2 d2, - (PI / 2) <= d1 <= PI / 2 /\ - (PI / 2) <= d2 <= PI / 2 /\
  Sep r1 d1 r2 d2 <> Sep r2 d2 r1 d1.
Proof. exact Sep_asym. Qed.
Print Assumptions C32_Sep_symmetry_refuted.

(** Symmetry, and independence of full turns. *)
Theorem C32_symmetric : forall r1 d1 r2 d2,
  SepHav r1 d1 r2 d2 = SepHav r2 d2 r1 d1 /\ SepPauwels r1 d1 r2 d2 = SepPauwels r2 d2 r1 d1.
Proof. exact seps_sym. Qed.
Print Assumptions C32_symmetric.

Theorem C32_full_turns : forall r1 d1 r2 d2 k1 k2,
  SepHav (r1 + IZR k1 * (2 * PI)) d1 (r2 + IZR k2 * (2 * PI)) d2 = SepHav r1 d1 r2 d2 /\
  SepPauwels (r1 + IZR k1 * (2 * PI)) d1 (r2 + IZR k2 * (2 * PI)) d2 = SepPauwels r1 d1 r2 d2.
Proof. exact seps_turns. Qed.
Print Assumptions C32_full_turns.

Example C32_nonvacuous : dot (dir 0 0) (dir (PI / 2) 0) < cos (10 * (PI / 180 / 60)) /\
  SepHav 0 0 (PI / 2) 0 = PI / 2 /\ SepPauwels 0 0 (PI / 2) 0 = PI / 2 /\ Sep 0 0 (PI / 2) 0 = PI / 2.
Proof. exact seps_example. Qed.

(** ** C33 *)

(** [RelativePosition] is, up to sign, the position angle of body 1 seen from
    body 2.  Missing: the sign, which is wrong (next theorem). *)
Theorem C33_RelativePosition_partial : forall r1 d1 r2 d2,
  - (PI / 2) < d1 < PI / 2 -> cross (dir r2 d2) (dir r1 d1) <> vzero ->
  position_angle r2 d2 (dir r1 d1) (- RelativePosition r1 d1 r2 d2).
Proof. exact rel_pos_sphere. Qed.
Print Assumptions C33_RelativePosition_partial.

(** A body due east has position angle 90 degrees; the function returns -90. *)
Theorem C33_RelativePosition_refuted :
  position_angle 0 0 (dir (PI / 4) 0) (PI / 2) /\ RelativePosition (PI / 4) 0 0 0 = - (PI / 2).
Proof. exact rel_refuted. Qed.
Print Assumptions C33_RelativePosition_refuted.

(** The angle of the great circles at the middle point. *)
Theorem C33_line_Angle : forall r1 d1 r2 d2 r3 d3, - (PI / 2) < d1 < PI / 2 -> - (PI / 2) < d3 < PI / 2 ->
  let p1 := dir r1 d1 in let p2 := dir r2 d2 in let p3 := dir r3 d3 in
  cross p2 p1 <> vzero -> cross p2 p3 <> vzero ->
  cos (Angle r1 d1 r2 d2 r3 d3) * (norm (cross p2 p1) * norm (cross p2 p3)) = dot (cross p2 p1) (cross p2 p3) /\
  sin (Angle r1 d1 r2 d2 r3 d3) * (norm (cross p2 p1) * norm (cross p2 p3)) = dot p2 (cross p3 p1).
Proof. exact Angle_sphere. Qed.
Print Assumptions C33_line_Angle.

(** The distance from the great circle; its sign is that of the side of the circle
    only for right ascensions with positive cosine. *)
Theorem C33_line_Error : forall r1 d1 r2 d2 r0 d0, cos r0 <> 0 -> - (PI / 2) < d0 < PI / 2 ->
  cross (dir r1 d1) (dir r2 d2) <> vzero ->
  distance_to_circle (dir r1 d1) (dir r2 d2) (dir r0 d0) (Rabs (Error r1 d1 r2 d2 r0 d0)) /\
  (0 < cos r0 -> sin (Error r1 d1 r2 d2 r0 d0) * norm (cross (dir r1 d1) (dir r2 d2)) =
     dot (cross (dir r1 d1) (dir r2 d2)) (dir r0 d0)) /\
  (cos r0 < 0 -> sin (Error r1 d1 r2 d2 r0 d0) * norm (cross (dir r1 d1) (dir r2 d2)) =
     - dot (cross (dir r1 d1) (dir r2 d2)) (dir r0 d0)).
Proof. exact Error_sphere. Qed.
Print Assumptions C33_line_Error.

Theorem C33_line_AngleError : forall r1 d1 r2 d2 r3 d3,
  let p1 := dir r1 d1 in let p2 := dir r2 d2 in let p3 := dir r3 d3 in
  cross p1 p2 <> vzero -> cross p2 p3 <> vzero -> cross p1 p3 <> vzero ->
  let '(psi, omega) := AngleError r1 d1 r2 d2 r3 d3 in
  0 <= psi <= PI /\ cos psi * (norm (cross p1 p2) * norm (cross p2 p3)) = dot (cross p1 p2) (cross p2 p3) /\
  distance_to_circle p1 p3 p2 (Rabs omega) /\ sin omega * norm (cross p1 p3) = dot (cross p1 p3) p2.
Proof. exact AngleError_spec. Qed.
Print Assumptions C33_line_AngleError.

(** [line.Time] returns a zero of the quartic through the five values of a
    quantity that vanishes exactly when the three bodies are on a great circle. *)
Theorem C33_line_Time : forall r1 d1 r2 d2 r3 d3 t1 t5 x Y,
  cos d1 <> 0 -> cos d2 <> 0 -> (forall d, In d d3 -> cos d <> 0) ->
  Time r1 d1 r2 d2 r3 d3 t1 t5 = Some (Ok x) ->
  let g := map (fun '(r, d) => - dot (cross (dir r1 d1) (dir r2 d2)) (dir r d) / (cos d1 * cos d2 * cos d)) (combine r3 d3) in
  (forall v, In v g -> Rabs v <= Y) ->
  exists f t, poly_degree_le 4 f /\ tabulates f t1 t5 g /\ length g = 5%nat /\ x = Fin t /\ between t1 t5 t /\
    Rabs (f t) <= 1 / 1000000000000 * Y.
Proof. exact Time_ok. Qed.
Print Assumptions C33_line_Time.

Theorem C33_line_Time_lengths : forall r1 d1 r2 d2 r3 d3 t1 t5,
  Time r1 d1 r2 d2 r3 d3 t1 t5 = None <-> ~ (length r3 = 5%nat /\ length d3 = 5%nat).
Proof. exact Time_lengths. Qed.
Print Assumptions C33_line_Time_lengths.

Example C33_nonvacuous : cross (dir 0 0) (dir (PI / 2) 0) <> vzero /\ cross (dir (PI / 2) 0) (dir 0 (PI / 4)) <> vzero /\
  cross (dir 0 0) (dir 0 (PI / 4)) <> vzero.
Proof. exact cross_example. Qed.

(** ** C34 *)

(** For planar points with the same mutual distances, half the returned diameter
    is the radius of the smallest circle around them. *)
Theorem C34_smallest_circle : forall r1 d1 r2 d2 r3 d3 s12 s23 s31 A B C,
  separation (dir r1 d1) (dir r2 d2) s12 -> separation (dir r2 d2) (dir r3 d3) s23 -> separation (dir r3 d3) (dir r1 d1) s31 ->
  pdist A B = s12 -> pdist B C = s23 -> pdist C A = s31 ->
  smallest_enclosing (fst (Smallest r1 d1 r2 d2 r3 d3) / 2) A B C.
Proof. exact Smallest_spec. Qed.
Print Assumptions C34_smallest_circle.

(** The two orders generate all six. *)
Theorem C34_order_independent : forall r1 d1 r2 d2 r3 d3,
  Smallest r1 d1 r2 d2 r3 d3 = Smallest r2 d2 r1 d1 r3 d3 /\ Smallest r1 d1 r2 d2 r3 d3 = Smallest r2 d2 r3 d3 r1 d1.
Proof. exact Smallest_perm. Qed.
Print Assumptions C34_order_independent.

Theorem C34_at_least_each_separation : forall r1 d1 r2 d2 r3 d3 s12 s23 s31,
  separation (dir r1 d1) (dir r2 d2) s12 -> separation (dir r2 d2) (dir r3 d3) s23 -> separation (dir r3 d3) (dir r1 d1) s31 ->
  let D := fst (Smallest r1 d1 r2 d2 r3 d3) in s12 <= D /\ s23 <= D /\ s31 <= D.
Proof. exact Smallest_ge. Qed.
Print Assumptions C34_at_least_each_separation.

(** Type I exactly when the triangle of the separations is not acute; the diameter is then the longest side. *)
Theorem C34_type : forall r1 d1 r2 d2 r3 d3 s12 s23 s31,
  separation (dir r1 d1) (dir r2 d2) s12 -> separation (dir r2 d2) (dir r3 d3) s23 -> separation (dir r3 d3) (dir r1 d1) s31 ->
  let m := Rmax s12 (Rmax s23 s31) in
  (snd (Smallest r1 d1 r2 d2 r3 d3) = true <-> s12 * s12 + s23 * s23 + s31 * s31 <= 2 * (m * m)) /\
  (snd (Smallest r1 d1 r2 d2 r3 d3) = true -> fst (Smallest r1 d1 r2 d2 r3 d3) = m).
Proof. exact Smallest_type. Qed.
Print Assumptions C34_type.

(** An acute case: the octant triangle, whose sides are all a quarter turn. *)
Example C34_nonvacuous : let D := fst (Smallest 0 0 (PI / 2) 0 0 (PI / 2)) in
  snd (Smallest 0 0 (PI / 2) 0 0 (PI / 2)) = false /\ D * D = PI * PI / 3.
Proof. exact Smallest_example. Qed.
