(** Geometry of a planar sundial.  Axes: south, west, zenith. *)
From Coq Require Import ZArith Reals List.
From Verif Require Import S_Sphere.
Local Open Scope R_scope.

(** The Sun of declination de at hour angle H, for latitude phi. *)
Definition sun (phi de H : R) : vec :=
  mkvec (cos de * cos H * sin phi - sin de * cos phi) (cos de * sin H) (cos de * cos H * cos phi + sin de * sin phi).
Definition pole (phi : R) : vec := mkvec (- cos phi) 0 (sin phi).
Definition zenith : vec := mkvec 0 0 1.
(** The stylus of a dial points to azimuth D (from south to west) at zenith distance z. *)
Definition stylus (D z : R) : vec := mkvec (sin z * cos D) (sin z * sin D) (cos z).
(** Axes of the plane of the dial, for someone facing it: x horizontal to the right, y upwards. *)
Definition axis_x (D z : R) : vec := mkvec (sin D) (- cos D) 0.
Definition axis_y (D z : R) : vec := mkvec (- cos z * cos D) (- cos z * sin D) (sin z).
Definition on_plane (D z x y : R) : vec := vadd (scale x (axis_x D z)) (scale y (axis_y D z)).
(** (x, y) is the shadow of the tip of a stylus of length a: from it, the tip is seen in
    the direction of the Sun. *)
Definition shadow (D z a : R) (s : vec) (x y : R) : Prop :=
  exists t, 0 < t /\ vadd (on_plane D z x y) (scale t s) = scale a (stylus D z).
(** The Sun is up, and shines on the face of the dial. *)
Definition up (s : vec) : Prop := 0 <= dot s zenith.
Definition faces (D z : R) (s : vec) : Prop := 0 <= dot s (stylus D z).
(** Declinations and hours drawn. *)
Definition drawn_declination (d : R) : Prop := d = 0 \/ d = 11.47 \/ d = - 11.47 \/ d = 20.15 \/ d = - 20.15 \/ d = 23.44 \/ d = - 23.44.
Definition hour_angle_of (i : Z) : R := (IZR i - 12) * (PI / 12).
(** Degrees to radians. *)
Definition rad (d : R) : R := d * PI / 180.
(** Latitudes without polar day or night. *)
Definition temperate (phi : R) : Prop := - (PI / 2 - rad 23.44) <= phi <= PI / 2 - rad 23.44.
(** The Sun of declination d stays below the horizon all day. *)
Definition polar_night (phi d : R) : Prop := forall H, ~ up (sun phi (rad d) H).
