(** Lemmas for package jupitermoons. *)
From Coq Require Import ZArith Reals List Lra Lia Psatz Nsatz.
From Flocq Require Import Core.
From Verif Require Import GoFloat GoMath S_Sphere S_precess S_physical S_solar S_moon S_saturnmoons S_jupitermoons M_base M_coord M_precess M_vsop M_solar M_physical M_planetelements M_jupitermoons
  L_trig L_angle L_vec L_coord L_precess L_elements L_light L_solar L_refraction L_physical L_physical2 L_physical3 L_moon L_moon3 L_planetelements L_pluto L_saturnmoons.
From Verif Require Import S_moon S_solar.
Import ListNotations.
Local Open Scope R_scope.

(** ** Low accuracy *)
Lemma jm_same jde : let g := jm_geometry jde in let j := jup2_args jde in
  g_B g = j_B j /\ g_K g = j_K j /\ g_R g = j_R j /\ g_r g = j_r j /\ g_D g = j_D j /\ g_psi g = j_psi j /\ g_lam g = j_lam j /\ g_DE g = snd (fst (fst (JupiterPhysical2 jde))).
Proof. cbv zeta. unfold jm_geometry, JupiterPhysical2, jup2_args. cbv zeta. cbn [g_B g_K g_R g_r g_D g_psi g_lam g_DE j_B j_K j_R j_r j_D j_psi j_lam fst snd]. unfold deg. decimals. repeat split. Qed.
Lemma jm_DE jde : Rabs (g_DE (jm_geometry jde)) <= degrees 3.92.
Proof.
  destruct (jm_same jde) as (_ & _ & _ & _ & _ & _ & _ & E). pose proof (jup2_value jde) as H. rewrite E. destruct (JupiterPhysical2 jde) as [[[DS DE] w1] w2]. cbn [fst snd]. destruct H as (A & B & _). unfold degrees in *. decimals_in A. decimals_in B. decimals. apply Rabs_le_inv in A. apply Rabs_le_inv in B. apply Rabs_le. lra.
Qed.
Lemma jm_triangle jde : let g := jm_geometry jde in 0.98 <= g_R g <= 1.018 /\ 4.95 <= g_r g <= 5.468 /\ 3.9 <= g_D g <= 6.5 /\
  g_D g ^ 2 = g_r g ^ 2 + g_R g ^ 2 - 2 * g_r g * g_R g * cos (g_K g) /\ - (PI / 2) <= g_psi g <= PI / 2 /\ g_D g * sin (g_psi g) = g_R g * sin (g_K g) /\ g_D g * cos (g_psi g) = g_r g - g_R g * cos (g_K g).
Proof.
  destruct (jm_same jde) as (_ & EK & ER & Er & ED & EP & _). cbv zeta. rewrite EK, ER, Er, ED, EP. destruct (jup2_ranges jde) as (H1 & H2 & H3 & H4 & H5 & H6 & _). repeat (split; [assumption|]).
  set (j := jup2_args jde) in *. clearbody j. decimals_in H1. decimals_in H2. decimals_in H3. pose proof (sc1 (j_psi j)) as S1. pose proof (sc1 (j_K j)) as S2. pose proof (COS_bound (j_K j)) as C2. assert (C1 : 0 <= cos (j_psi j)) by (apply cos_ge_0; lra).
  set (D := j_D j) in *. set (r := j_r j) in *. set (R0 := j_R j) in *. set (sp := sin (j_psi j)) in *. set (cp := cos (j_psi j)) in *. set (sk := sin (j_K j)) in *. set (ck := cos (j_K j)) in *. clearbody D r R0 sp cp sk ck.
  assert (P : 0 < r - R0 * ck) by nra. assert (Q : 0 <= D * cp) by (apply Rmult_le_pos; lra). assert (SQ : (D * cp) * (D * cp) = (r - R0 * ck) * (r - R0 * ck)).
  { assert (A : D * cp * (D * cp) = D ^ 2 - (D * sp) * (D * sp)) by (replace (D ^ 2) with (D * D * (sp * sp + cp * cp)) by (rewrite S1; ring); ring). rewrite A, H4, H6. replace (R0 * sk * (R0 * sk)) with (R0 * R0 * (1 - ck * ck)) by (rewrite <- S2; ring). ring. }
  apply Rsqr_inj; [exact Q|lra|exact SQ].
Qed.
Lemma jm_range jde : exists u1 r1 u2 r2 u3 r3 u4 r4, jm_polar jde = [(u1, r1); (u2, r2); (u3, r3); (u4, r4)] /\ 5.8813 <= r1 /\ r1 <= 5.9301 /\ 9.3084 <= r2 /\ r2 <= 9.4848 /\ 14.9667 <= r3 /\ r3 <= 15.0099 /\ 26.1688 <= r4 /\ r4 <= 26.5566.
Proof.
  unfold jm_polar. cbv zeta. destruct (jm_u jde) as [[[u1 u2] u3] u4]. set (dd := jde - 2451545 - _). do 8 eexists. split; [reflexivity|]. set (G := 331.18 * _ + _). set (H := 87.45 * _ + _).
  pose proof (COS_bound (2 * (u1 - u2))). pose proof (COS_bound (2 * (u2 - u3))). pose proof (COS_bound G). pose proof (COS_bound H). decimals. repeat split; lra.
Qed.
Lemma JupiterPositions_view jde : Forall2 (fun ur xy => let '(u, r) := ur in let '(X, Y) := xy in X = r * sin u /\ Y = - (r * cos u * sin (g_DE (jm_geometry jde))) /\ X * X <= r * r /\ Rabs Y <= Rabs r * sin (degrees 3.92)) (jm_polar jde) (JupiterPositions jde).
Proof.
  unfold JupiterPositions. cbv zeta. set (DE := g_DE (jm_geometry jde)). pose proof (jm_DE jde) as HD. fold DE in HD. clearbody DE. pose proof PI_fine as HP.
  assert (SD : Rabs (sin DE) <= sin (degrees 3.92)).
  { apply Rabs_le_inv in HD. unfold degrees in *. decimals_in HD. decimals. apply Rabs_le. rewrite <- sin_neg. split; apply sin_incr_1; lra. }
  assert (S0 : 0 <= sin (degrees 3.92)) by (pose proof (Rabs_pos (sin DE)); lra).
  induction (jm_polar jde) as [|[u r] l IH]; cbn [map]; constructor; [|exact IH]. pose proof (SIN_bound u) as A. pose proof (COS_bound u) as B. split; [reflexivity|]. split; [ring|]. split; [pose proof (sc1 u) as K; pose proof (Rle_0_sqr (r * cos u)) as Q; unfold Rsqr in Q; replace (r * r) with (r * r * (sin u * sin u + cos u * cos u)) by (rewrite K; ring); lra|].
  replace (- r * cos u * sin DE) with (- (r * (cos u * sin DE))) by ring. rewrite Rabs_Ropp, Rabs_mult. apply Rmult_le_compat_l; [apply Rabs_pos|]. rewrite Rabs_mult. assert (Rabs (cos u) <= 1) by (apply Rabs_le; lra). pose proof (Rabs_pos (cos u)). pose proof (Rabs_pos (sin DE)). nra.
Qed.
Lemma jm_laplace jde : Rabs (jde - 2451545) <= 730500 -> let '(u1, u2, u3, u4) := jm_u jde in near_turns (u1 - 3 * u2 + 2 * u3 - PI) (degrees 0.08).
Proof.
  intros H. unfold jm_u. cbv zeta. destruct (jm_triangle jde) as (_ & _ & HD & _). set (g := jm_geometry jde) in *. clearbody g. decimals_in HD. apply Rabs_le_inv in H. exists (-3)%Z. set (d := jde - 2451545) in *. clearbody d. pose proof PI_fine.
  match goal with |- Rabs ?x <= _ => replace x with ((0.0001 + 0.0000001 * (d - g_D g / 173)) * (PI / 180)) by (decimals; field) end. unfold degrees. decimals. apply Rabs_le. split; nra.
Qed.
Lemma jm_laplace_true jde : Rabs (jde - 2451545) <= 730500 -> exists u1 r1 u2 r2 u3 r3 u4 r4, jm_polar jde = [(u1, r1); (u2, r2); (u3, r3); (u4, r4)] /\ near_turns (u1 - 3 * u2 + 2 * u3 - PI) (degrees 4.08).
Proof.
  intros H. pose proof (jm_laplace jde H) as L. unfold jm_polar. cbv zeta. destruct (jm_u jde) as [[[u1 u2] u3] u4]. set (dd := jde - 2451545 - _). do 8 eexists. split; [reflexivity|]. set (G := 331.18 * _ + _).
  replace (degrees 4.08) with (degrees 0.08 + degrees 4) by (unfold degrees; decimals; field).
  match goal with |- near_turns ?x _ => replace x with ((u1 - 3 * u2 + 2 * u3 - PI) + (PI / 180) * (0.473 * sin (2 * (u1 - u2)) - 3 * 1.065 * sin (2 * (u2 - u3)) + 2 * 0.165 * sin G)) by ring end. apply near_add; [exact L|].
  pose proof (SIN_bound (2 * (u1 - u2))). pose proof (SIN_bound (2 * (u2 - u3))). pose proof (SIN_bound G). pose proof PI_fine. set (a := sin (2 * (u1 - u2))) in *. set (b := sin (2 * (u2 - u3))) in *. set (c := sin G) in *. clearbody a b c. unfold degrees. decimals. rewrite Rabs_mult, Rabs_pos_eq by lra. rewrite (Rmult_comm 4). unfold Rdiv at 2. 
  replace (PI * / 180 * 4) with (PI / 180 * 4) by (unfold Rdiv; ring). match goal with |- _ <= ?y => replace y with (PI / 180 * 4) by (unfold Rdiv; ring) end. apply Rmult_le_compat_l; [lra|]. apply Rabs_le. lra.
Qed.
(** Io, Europa and Ganymede are never in line on the same side of the planet. *)
Lemma jm_not_aligned jde : Rabs (jde - 2451545) <= 730500 -> exists u1 r1 u2 r2 u3 r3 u4 r4, jm_polar jde = [(u1, r1); (u2, r2); (u3, r3); (u4, r4)] /\ ~ (same_angle u1 u2 /\ same_angle u2 u3).
Proof.
  intros H. destruct (jm_laplace_true jde H) as (u1 & r1 & u2 & r2 & u3 & r3 & u4 & r4 & E & (k & L)). do 8 eexists. split; [exact E|]. intros ((a & A) & (b & B)). subst u1 u2. pose proof PI_fine. apply Rabs_le_inv in L. unfold degrees in L. decimals_in L.
  assert (E' : u3 + IZR b * (2 * PI) + IZR a * (2 * PI) - 3 * (u3 + IZR b * (2 * PI)) + 2 * u3 - PI - IZR k * (2 * PI) = (2 * IZR (a - 2 * b - k) - 1) * PI) by (rewrite !minus_IZR, mult_IZR; ring). rewrite E' in L. set (z := (a - 2 * b - k)%Z) in *. clearbody z.
  destruct (Z_le_gt_dec z 0) as [Z0|Z0]; [apply IZR_le in Z0; nra|]. assert (Z1 : (1 <= z)%Z) by lia. apply IZR_le in Z1. nra.
Qed.
