(** Property theorems: the accuracy of globe.Ellipsoid.Distance (C118). *)
From Coq Require Import Reals Lra.
From Verif Require Import GoFloat S_Sphere S_globe M_coord L_globe L_distance.
Local Open Scope R_scope.

(** Along the equator: the radius times the difference of longitudes, exactly. *)
Theorem C118_equator : forall e l1 l2, l2 < l1 < l2 + PI ->
  Distance e (mkCoord 0 l1) (mkCoord 0 l2) = Fin (Er e * (l1 - l2)).
Proof. exact equator. Qed.
Print Assumptions C118_equator.

(** Along a meridian: the length of the meridian ellipse, with a relative error of twice the
    square of the flattening (for the Earth, 1/44000). *)
Theorem C118_meridian : forall e arc l p1 p2, 0 < Er e -> 0 <= Fl e <= 1 / 100 ->
  meridian_length (Er e) (Fl e) arc -> - (PI / 2) <= p1 < p2 -> p2 <= PI / 2 -> p2 - p1 < PI ->
  exists d, Distance e (mkCoord p1 l) (mkCoord p2 l) = Fin d /\
    Rabs (d - (arc p2 - arc p1)) <= 2 * (Fl e * Fl e) * (Er e * (p2 - p1)).
Proof. exact meridian_error. Qed.
Print Assumptions C118_meridian.

Theorem C118_meridian_has_length : forall a f, 0 < a -> 0 <= f < 1 -> exists arc, meridian_length a f arc.
Proof. exact meridian_length_exists. Qed.
Print Assumptions C118_meridian_has_length.

(** Between any two places neither equal nor opposite: within 0.75 per cent of what
    ApproxLinearDistance gives for the angle whose cosine is ApproxAngularDistance. *)
Theorem C118_approximate : forall c1 c2, -1 < dot (dir (Lon c1) (Lat c1)) (dir (Lon c2) (Lat c2)) < 1 ->
  exists th d, (0 <= th <= PI /\ cos th = ApproxAngularDistance c1 c2) /\ Distance Earth76 c1 c2 = Fin d /\
    Rabs (d - ApproxLinearDistance th) <= 3 / 400 * ApproxLinearDistance th.
Proof. exact earth_error. Qed.
Print Assumptions C118_approximate.

Example C118_nonvacuous : 0 < Er Earth76 /\ 0 <= Fl Earth76 <= 1 / 100 /\
  (exists arc, meridian_length (Er Earth76) (Fl Earth76) arc) /\ - (PI / 2) <= 0 < PI / 3 /\
  -1 < dot (dir 0 0) (dir (PI / 2) 0) < 1.
Proof.
  pose proof PI_RGT_0. destruct globe_example as (A & B & C). split; [exact A|]. split; [unfold Earth76; cbn [Fl]; lra|].
  split; [apply meridian_length_exists; assumption|]. split; [lra|exact C].
Qed.
