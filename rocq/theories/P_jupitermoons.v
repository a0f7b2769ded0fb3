(** Property theorems: satellites of Jupiter (C91, C92). *)
From Coq Require Import ZArith Reals List.
From Verif Require Import GoFloat GoMath S_Sphere S_precess S_physical S_solar S_moon S_saturnmoons S_jupitermoons M_base M_coord M_precess M_vsop M_solar M_physical M_planetelements M_jupitermoons
  L_planetelements L_jupitermoons L_jupitermoons2 L_jupitermoons3.
Import ListNotations.
Local Open Scope R_scope.

(** ** C91: Positions *)
(** Each satellite is returned, in order, as the projection of its place in the plane of the equator on the
    sky: X = r sin u, Y = - r cos u sin D_E, where D_E is the latitude of the Earth that jupiter.Physical2 gives. *)
Theorem C91_view : forall jde, let DE := snd (fst (fst (JupiterPhysical2 jde))) in g_DE (jm_geometry jde) = DE /\
  Forall2 (fun ur xy => let '(u, r) := ur in let '(X, Y) := xy in X = r * sin u /\ Y = - (r * cos u * sin (g_DE (jm_geometry jde))) /\ X * X <= r * r /\ Rabs Y <= Rabs r * sin (degrees 3.92)) (jm_polar jde) (JupiterPositions jde).
Proof. exact (fun jde => conj (proj2 (proj2 (proj2 (proj2 (proj2 (proj2 (proj2 (jm_same jde)))))))) (JupiterPositions_view jde)). Qed.
Print Assumptions C91_view.
(** The satellites keep their order of distance. *)
Theorem C91_order : forall jde, exists u1 r1 u2 r2 u3 r3 u4 r4, jm_polar jde = [(u1, r1); (u2, r2); (u3, r3); (u4, r4)] /\
  5.8813 <= r1 /\ r1 <= 5.9301 /\ 9.3084 <= r2 /\ r2 <= 9.4848 /\ 14.9667 <= r3 /\ r3 <= 15.0099 /\ 26.1688 <= r4 /\ r4 <= 26.5566.
Proof. exact jm_range. Qed.
Print Assumptions C91_order.
(** The Sun, the Earth and Jupiter form a triangle with sides R, r, D. *)
Theorem C91_triangle : forall jde, let g := jm_geometry jde in 0.98 <= g_R g <= 1.018 /\ 4.95 <= g_r g <= 5.468 /\ 3.9 <= g_D g <= 6.5 /\
  g_D g ^ 2 = g_r g ^ 2 + g_R g ^ 2 - 2 * g_r g * g_R g * cos (g_K g) /\ - (PI / 2) <= g_psi g <= PI / 2 /\ g_D g * sin (g_psi g) = g_R g * sin (g_K g) /\ g_D g * cos (g_psi g) = g_r g - g_R g * cos (g_K g).
Proof. exact jm_triangle. Qed.
Print Assumptions C91_triangle.
(** The Laplace relation of the first three satellites, for the mean and for the true longitudes, for two
    thousand years around 2000. *)
Theorem C91_laplace : forall jde, Rabs (jde - 2451545) <= 730500 -> let '(u1, u2, u3, u4) := jm_u jde in near_turns (u1 - 3 * u2 + 2 * u3 - PI) (degrees 0.08).
Proof. exact jm_laplace. Qed.
Print Assumptions C91_laplace.
Theorem C91_laplace_true : forall jde, Rabs (jde - 2451545) <= 730500 -> exists u1 r1 u2 r2 u3 r3 u4 r4, jm_polar jde = [(u1, r1); (u2, r2); (u3, r3); (u4, r4)] /\ near_turns (u1 - 3 * u2 + 2 * u3 - PI) (degrees 4.08).
Proof. exact jm_laplace_true. Qed.
Print Assumptions C91_laplace_true.
(** Hence they are never all in the same direction from the planet. *)
Theorem C91_never_aligned : forall jde, Rabs (jde - 2451545) <= 730500 -> exists u1 r1 u2 r2 u3 r3 u4 r4, jm_polar jde = [(u1, r1); (u2, r2); (u3, r3); (u4, r4)] /\ ~ (same_angle u1 u2 /\ same_angle u2 u3).
Proof. exact jm_not_aligned. Qed.
Print Assumptions C91_never_aligned.
(** Positions and E5 place the four satellites, before the periodic terms, in the same longitudes within
    .36 degrees for three centuries around 2000: .329 of them are a term of the longitude of Jupiter; .698 degrees
    is the precession from the equinox of 1950 to that of 2000. *)
Theorem C91_agrees_with_E5 : forall jde, Rabs (jde - 2451545) <= 109575 -> let g := jm_geometry jde in let q := e5_args (jde - 2443000.5 - g_D g / 173) in let P0 := degrees 0.698 in
  let '(u1, u2, u3, u4) := jm_u jde in let lon u := u + PI + g_lam g - g_psi g in
  near_turns (lon u1 - (e_l1 q + P0)) (degrees 0.36) /\ near_turns (lon u2 - (e_l2 q + P0)) (degrees 0.36) /\ near_turns (lon u3 - (e_l3 q + P0)) (degrees 0.36) /\ near_turns (lon u4 - (e_l4 q + P0)) (degrees 0.36).
Proof. exact jm_agree. Qed.
Print Assumptions C91_agrees_with_E5.
(** ** C92: E5 *)
(** Four longitudes, latitudes and distances for any values of the arguments: the sums of periodic terms stay small, the orbits do not meet. *)
Theorem C92_ranges : forall q, exists L1 B1 r1 L2 B2 r2 L3 B3 r3 L4 B4 r4, e5_moons q = [(L1, B1, r1); (L2, B2, r2); (L3, B3, r3); (L4, B4, r4)] /\
  (Rabs (L1 - e_l1 q) <= degrees 0.57214 /\ Rabs (L2 - e_l2 q) <= degrees 1.30761 /\ Rabs (L3 - e_l3 q) <= degrees 0.44997 /\ Rabs (L4 - e_l4 q) <= degrees 1.01417) /\
  (- (PI / 2) < B1 < PI / 2 /\ - (PI / 2) < B2 < PI / 2 /\ - (PI / 2) < B3 < PI / 2 /\ - (PI / 2) < B4 < PI / 2) /\
  (Rabs (tan B1) <= 0.0009072 /\ Rabs (tan B2) <= 0.0090582 /\ Rabs (tan B3) <= 0.0059507 /\ Rabs (tan B4) <= 0.012693) /\
  (5.88 <= r1 /\ r1 <= 5.931 /\ 9.3 <= r2 /\ r2 <= 9.493 /\ 14.94 <= r3 /\ r3 <= 15.036 /\ 26.156 <= r4 /\ r4 <= 26.57).
Proof. exact e5_ranges. Qed.
Print Assumptions C92_ranges.
(** The Laplace relation, for 2700 years around 1976. *)
Theorem C92_laplace : forall t, Rabs t <= 1000000 -> let q := e5_args t in near_turns (e_l1 q - 3 * e_l2 q + 2 * e_l3 q - PI) (degrees 0.0011).
Proof. exact e5_laplace. Qed.
Print Assumptions C92_laplace.
Theorem C92_laplace_true : forall t, Rabs t <= 1000000 -> exists L1 B1 r1 L2 B2 r2 L3 B3 r3 L4 B4 r4, e5_moons (e5_args t) = [(L1, B1, r1); (L2, B2, r2); (L3, B3, r3); (L4, B4, r4)] /\
  near_turns (L1 - 3 * L2 + 2 * L3 - PI) (degrees 5.4).
Proof. exact e5_laplace_true. Qed.
Print Assumptions C92_laplace_true.
(** The theory does not depend on the origin of longitudes: if all longitudes (mean longitudes, perijoves, nodes,
    node of the equator, perihelion of Jupiter) grow by x, the longitudes of the satellites grow by x, latitudes
    and distances are the same. *)
Theorem C92_origin : forall l1 l2 l3 l4 p1 p2 p3 p4 w1 w2 w3 w4 Phi psi G G' Pi x,
  e5_moons (mke5 (l1 + x) (l2 + x) (l3 + x) (l4 + x) (p1 + x) (p2 + x) (p3 + x) (p4 + x) (w1 + x) (w2 + x) (w3 + x) (w4 + x) Phi (psi + x) G G' (Pi + x)) =
  map (fun m => let '(L, B, r) := m in (L + x, B, r)) (e5_moons (mke5 l1 l2 l3 l4 p1 p2 p3 p4 w1 w2 w3 w4 Phi psi G G' Pi)).
Proof. exact (fun l1 l2 l3 l4 p1 p2 p3 p4 w1 w2 w3 w4 Phi psi G G' Pi x => e5_moons_shift (mke5 l1 l2 l3 l4 p1 p2 p3 p4 w1 w2 w3 w4 Phi psi G G' Pi) x). Qed.
Print Assumptions C92_origin.
(** The direction and distance of the planet are those of its place when the light left it; the satellites are
    computed for that time. *)
Theorem C92_light_time : forall jde earth jupiter, let '(s, b, R0) := TrueVSOP87 earth jde in let sun := mkvec (R0 * cos s) (R0 * sin s) (R0 * sin b) in
  let place D v := exists l b r, PlanetPosition jupiter (jde - LightTime D) = (l, b, r) /\ v = vadd sun (scale r (dir l b)) in
  let '(l0, b0, Delta, t) := e5_direction jde earth jupiter in
  exists v1 v2, place 5 v1 /\ place (norm v1) v2 /\ Delta = norm v2 /\ t = jde - 2443000.5 - LightTime Delta /\ - (PI / 2) < b0 < PI / 2 /\ (vx v2 <> 0 \/ vy v2 <> 0 -> dir l0 b0 = unit_of v2).
Proof. exact e5_direction_value. Qed.
Print Assumptions C92_light_time.
(** What E5 returns for the four satellites: the offset in the sky towards the west and along the projected
    pole of the equator of Jupiter, in perspective from the Earth, X advanced by the differential light time.
    The equator is placed by its inclination and node on the mean orbit of the date. *)
Theorem C92_view : forall jde earth jupiter, let '(l0, b0, Delta, t) := e5_direction jde earth jupiter in Rabs ((jde - 2451545) / 36525) <= 20 -> Rabs (sin b0) < 0.5 -> 1 <= Delta ->
  exists e pos, Mean Jupiter jde = Some e /\ E5 jde earth jupiter = Some pos /\ let q := e5_args t in
    let frame := equator_to_ecliptic (e5_I jde) (e_psi q + e5_P jde - eNode e) (eInc e) (eNode e) in
    Forall2 (fun (mk : R * R * R * R) (xy : R * R) => let '(L, B, r, k) := mk in let place := frame (scale r (dir (L - e_psi q) B)) in
      exists h X Y Z W X', 0 < h /\ sky_axes l0 b0 (frame (mkvec 0 0 1)) place h X Y Z /\ xy = (X' * W, Y * W) /\ W * (Delta + Z / 2095) = Delta /\ 0 < W /\
        X' = X + Rabs Z / k * sqrt (1 - X / r * (X / r)) /\ 0 <= 1 - X / r * (X / r) /\ X <= X' <= X + r / k)
      (combine (e5_moons q) [17295; 21819; 27558; 36548]) pos.
Proof. exact E5_view. Qed.
Print Assumptions C92_view.
(** The hypotheses of the view are met by an Earth and a Jupiter at rest at distances 1 and 5. *)
Example C92_nonvacuous : forall L, let '(l0, b0, Delta, t) := e5_direction 2451545 (fixed L 1) (fixed 0 5) in Rabs ((2451545 - 2451545) / 36525) <= 20 /\ Rabs (sin b0) < 0.5 /\ 1 <= Delta.
Proof. exact fixed_jupiter. Qed.
