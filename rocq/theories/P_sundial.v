(** Property theorems: sundials (C53). *)
From Coq Require Import ZArith Reals List Lra Lia.
From Verif Require Import M_sundial S_Sphere S_sundial L_precess L_sundial.
Import ListNotations.
Local Open Scope R_scope.

(** Every point returned is the shadow of the tip of the stylus at its hour, for a
    declination of the Sun that is drawn, with the Sun up and in front of the dial; it is
    not finite exactly when the Sun is in the plane of the dial. *)
Theorem C53_general_points : forall phi D a z, temperate phi -> 0 < a ->
  forall i p, (exists ps, In (i, ps) (fst (fst (fst (General phi D a z)))) /\ In p ps) ->
  (0 <= i < 24)%Z /\ exists d, drawn_declination d /\
  let s := sun phi (rad d) (hour_angle_of i) in
  up s /\ faces D z s /\
  (0 < dot s (stylus D z) -> exists x y, p = (Some x, Some y) /\ shadow D z a s x y) /\
  (dot s (stylus D z) = 0 -> p = (None, None)).
Proof. exact (fun phi D a z T => General_points phi D a z (nonpolar_latitude phi T)). Qed.
Print Assumptions C53_general_points.

(** None is missing. *)
Theorem C53_general_complete : forall phi D a z, temperate phi -> 0 < a ->
  forall i d, (0 <= i < 24)%Z -> drawn_declination d ->
  let s := sun phi (rad d) (hour_angle_of i) in
  up s -> 0 < dot s (stylus D z) ->
  exists ps x y, In (i, ps) (fst (fst (fst (General phi D a z)))) /\ In (Some x, Some y) ps /\ shadow D z a s x y.
Proof. exact (fun phi D a z T => General_complete phi D a z (nonpolar_latitude phi T)). Qed.
Print Assumptions C53_general_complete.
Theorem C53_shadow_unique : forall D z a s x y x' y', 0 < dot s (stylus D z) ->
  shadow D z a s x y -> shadow D z a s x' y' -> x = x' /\ y = y'.
Proof. exact shadow_unique. Qed.
Print Assumptions C53_shadow_unique.
Theorem C53_hours_once : forall phi D a z, NoDup (map fst (fst (fst (fst (General phi D a z))))).
Proof. exact (fun phi D a z => lines_nodup (genPoint phi D a z)). Qed.
Print Assumptions C53_hours_once.

(** The centre is where the polar stylus, through the tip, meets the dial; u is its length
    and psi its angle with the dial. *)
Theorem C53_general_center : forall phi D a z, 0 < a -> dot (pole phi) (stylus D z) <> 0 ->
  exists cx cy u,
    let '(_, c, uo, psi) := General phi D a z in c = (Some cx, Some cy) /\ uo = Some u /\
    (exists k, vadd (on_plane D z cx cy) (scale k (pole phi)) = scale a (stylus D z)) /\
    u = norm (vsub (scale a (stylus D z)) (on_plane D z cx cy)) /\
    0 <= psi <= PI / 2 /\ sin psi = Rabs (dot (pole phi) (stylus D z)).
Proof. exact General_center_pole. Qed.
Print Assumptions C53_general_center.
(** The points of one hour are on one straight line through the centre. *)
Theorem C53_hour_lines_meet : forall phi D a z, dot (pole phi) (stylus D z) <> 0 ->
  forall cx cy, snd (fst (fst (General phi D a z))) = (Some cx, Some cy) ->
  forall i ps x y x' y', In (i, ps) (fst (fst (fst (General phi D a z)))) -> In (Some x, Some y) ps -> In (Some x', Some y') ps ->
  (x - cx) * (y' - cy) = (x' - cx) * (y - cy).
Proof. exact hour_lines_meet. Qed.
Print Assumptions C53_hour_lines_meet.

(** Special cases. *)
Theorem C53_vertical : forall phi D a, cos phi <> 0 ->
  General phi D a (PI / 2) = (fst (fst (Vertical phi D a)), snd (fst (Vertical phi D a)), snd (Vertical phi D a), asin (Rabs (cos phi * cos D))).
Proof. exact General_Vertical. Qed.
Print Assumptions C53_vertical.
Theorem C53_horizontal_partial : forall phi a, temperate phi -> phi <> 0 ->
  General phi 0 a 0 = (fst (fst (Horizontal phi a)), snd (fst (Horizontal phi a)), snd (Horizontal phi a), asin (Rabs (sin phi))).
Proof. exact General_Horizontal_temperate. Qed.
Print Assumptions C53_horizontal_partial.
(** The equatorial dial: its north face points to the pole, its south face away from it. *)
Theorem C53_equatorial_north : forall phi a, fst (Equatorial phi a) = fst (fst (fst (General phi PI a (PI / 2 - phi)))).
Proof. exact Equatorial_north. Qed.
Print Assumptions C53_equatorial_north.
Theorem C53_equatorial_south : forall phi a, temperate phi -> 0 < a ->
  forall i p, (exists ps, In (i, ps) (snd (Equatorial phi a)) /\ In p ps) ->
  (0 <= i < 24)%Z /\ exists d x y, drawn_declination d /\ d < 0 /\ p = (Some x, Some y) /\
  let s := sun phi (rad d) (hour_angle_of i) in up s /\ shadow 0 (PI / 2 + phi) a s x y.
Proof. exact (fun phi a T => Equatorial_south phi a (nonpolar_latitude phi T)). Qed.
Print Assumptions C53_equatorial_south.

(** Points that are not finite: 6 and 18 hours at the equinox on a horizontal dial; every
    hour at the equinox on the north face of an equatorial one. *)
Theorem C53_horizontal_infinite_refuted : forall phi a, exists ps, In (18%Z, ps) (fst (fst (Horizontal phi a))) /\ In (None, None) ps.
Proof. exact Horizontal_infinite. Qed.
Print Assumptions C53_horizontal_infinite_refuted.
Theorem C53_equatorial_infinite_refuted : forall phi a i, (6 <= i <= 18)%Z -> exists ps, In (i, ps) (fst (Equatorial phi a)) /\ In (None, None) ps.
Proof. exact Equatorial_infinite. Qed.
Print Assumptions C53_equatorial_infinite_refuted.
(** Beyond the polar circle a horizontal dial is given points where no shadow falls. *)
Theorem C53_polar_night_refuted : forall a, 0 < a -> exists phi ps x y, 0 < phi < PI / 2 /\
  In (12%Z, ps) (fst (fst (Horizontal phi a))) /\ In (Some x, Some y) ps /\
  forall d, drawn_declination d -> ~ shadow 0 0 a (sun phi (rad d) (hour_angle_of 12)) x y.
Proof. exact Horizontal_night. Qed.
Print Assumptions C53_polar_night_refuted.

(** Beyond the polar circles as well: the points are those with the Sun up, and, on the days
    it does not rise, all those on the side of the dial it would be. *)
Theorem C53_general_points_everywhere : forall phi D a z, - (PI / 2) < phi < PI / 2 -> 0 < a ->
  forall i p, (exists ps, In (i, ps) (fst (fst (fst (General phi D a z)))) /\ In p ps) ->
  (0 <= i < 24)%Z /\ exists d, drawn_declination d /\
  let s := sun phi (rad d) (hour_angle_of i) in
  (up s \/ polar_night phi d) /\ faces D z s /\
  (0 < dot s (stylus D z) -> exists x y, p = (Some x, Some y) /\ shadow D z a s x y) /\
  (dot s (stylus D z) = 0 -> p = (None, None)).
Proof. exact General_points_any. Qed.
Print Assumptions C53_general_points_everywhere.
Theorem C53_general_complete_everywhere : forall phi D a z, - (PI / 2) < phi < PI / 2 -> 0 < a ->
  forall i d, (0 <= i < 24)%Z -> drawn_declination d ->
  let s := sun phi (rad d) (hour_angle_of i) in
  up s \/ polar_night phi d -> 0 < dot s (stylus D z) ->
  exists ps x y, In (i, ps) (fst (fst (fst (General phi D a z)))) /\ In (Some x, Some y) ps /\ shadow D z a s x y.
Proof. exact General_complete_any. Qed.
Print Assumptions C53_general_complete_everywhere.
(** A horizontal dial is right but for the points of the polar night. *)
Theorem C53_horizontal_points_everywhere : forall phi a, - (PI / 2) < phi < PI / 2 -> 0 < a ->
  forall i p, (exists ps, In (i, ps) (fst (fst (Horizontal phi a))) /\ In p ps) ->
  (0 <= i < 24)%Z /\ exists d, drawn_declination d /\
  let s := sun phi (rad d) (hour_angle_of i) in
  (up s /\ (0 < dot s zenith -> exists x y, p = (Some x, Some y) /\ shadow 0 0 a s x y) /\ (dot s zenith = 0 -> p = (None, None))) \/ polar_night phi d.
Proof. exact Horizontal_points_any. Qed.
Print Assumptions C53_horizontal_points_everywhere.
Theorem C53_horizontal_complete_everywhere : forall phi a, - (PI / 2) < phi < PI / 2 -> 0 < a ->
  forall i d, (0 <= i < 24)%Z -> drawn_declination d ->
  let s := sun phi (rad d) (hour_angle_of i) in 0 < dot s zenith ->
  exists ps x y, In (i, ps) (fst (fst (Horizontal phi a))) /\ In (Some x, Some y) ps /\ shadow 0 0 a s x y.
Proof. exact Horizontal_complete_any. Qed.
Print Assumptions C53_horizontal_complete_everywhere.
Theorem C53_equatorial_south_everywhere : forall phi a, - (PI / 2) < phi < PI / 2 -> 0 < a ->
  forall i p, (exists ps, In (i, ps) (snd (Equatorial phi a)) /\ In p ps) ->
  (0 <= i < 24)%Z /\ exists d x y, drawn_declination d /\ d < 0 /\ p = (Some x, Some y) /\
  let s := sun phi (rad d) (hour_angle_of i) in (up s \/ polar_night phi d) /\ shadow 0 (PI / 2 + phi) a s x y.
Proof. exact Equatorial_south_any. Qed.
Print Assumptions C53_equatorial_south_everywhere.

Example C53_nonvacuous : temperate (PI / 4) /\ dot (pole (PI / 4)) (stylus 0 (PI / 2)) <> 0 /\
  up (sun (PI / 4) (rad 0) (hour_angle_of 12)) /\ 0 < dot (sun (PI / 4) (rad 0) (hour_angle_of 12)) (stylus 0 (PI / 2)).
Proof.
  pose proof PI_RGT_0 as P. assert (C : 0 < cos (PI / 4)) by (apply cos_gt_0; lra). assert (S : 0 < sin (PI / 4)) by (apply sin_gt_0; lra).
  unfold temperate, rad, up, sun, pole, stylus, zenith, dot, hour_angle_of. cbn [vx vy vz]. replace ((12 - 12) * (PI / 12)) with 0 by field. replace (0 * PI / 180) with 0 by field.
  rewrite sin_0, cos_0, sin_PI2, cos_PI2. split; [decimals; lra|]. repeat split; lra.
Qed.
Example C53_polar_nonvacuous : exists phi d, 0 < phi < PI / 2 /\ drawn_declination d /\ polar_night phi d.
Proof. exact polar_night_exists. Qed.
