(** Lemmas for the librations of the Moon. *)
From Coq Require Import ZArith Reals Lra Lia List Psatz.
From Flocq Require Import Core.
From Verif Require Import GoFloat GoMath S_Sphere S_precess M_base M_coord M_precess M_vsop M_light M_moonconst M_solar M_moon M_physical S_solar S_physical S_moon
  L_trig L_angle L_vec L_coord L_precess L_elements L_light L_moonconst L_solar L_refraction L_parallactic L_solardisk L_physical L_moon.
Import ListNotations.
Local Open Scope R_scope.

(** ** Mean arguments *)
Definition dmf_D T := fst (fst (fst (dmf T))). Definition dmf_M T := snd (fst (fst (dmf T))). Definition dmf_N T := snd (fst (dmf T)). Definition dmf_F T := snd (dmf T).
Ltac argpoly := unfold dmf_D, dmf_M, dmf_N, dmf_F, dmf, moonL, nodeDeg, perigeeDeg, argF, AngleFromDeg, degrees, p_; cbn [fst snd]; rewrite ?HornerR5, ?HornerR4, ?intConst_0 by reflexivity.
Lemma pow_le20 T : Rabs T <= 20 -> 0 <= T ^ 2 <= 400 /\ -8000 <= T ^ 3 <= 8000 /\ 0 <= T ^ 4 <= 160000.
Proof. intros H. apply Rabs_le_inv in H. assert (A : 0 <= T * T <= 400) by nra. replace (T ^ 2) with (T * T) by ring. replace (T ^ 3) with (T * T * T) by ring. replace (T ^ 4) with ((T * T) * (T * T)) by ring. set (q := T * T) in *. clearbody q. repeat split; nra. Qed.
Lemma deg_abs a b x : x = a * (PI / 180) -> Rabs a <= b -> Rabs x <= degrees b.
Proof. intros -> H. unfold degrees. rewrite Rabs_mult, (Rabs_pos_eq (PI / 180)) by (pose proof PI_RGT_0; lra). apply Rmult_le_compat_r; [pose proof PI_RGT_0; lra|exact H]. Qed.
Lemma arguments T : Rabs T <= 20 ->
  Rabs (moonL T - dmf_F T - AngleFromDeg (nodeDeg T)) <= degrees 0.021 /\
  Rabs (moonL T - dmf_N T - AngleFromDeg (perigeeDeg T)) <= degrees 0.11 /\
  Rabs (dmf_M T - MeanAnomaly T) <= degrees 0.001 /\
  Rabs (moonL T - AngleFromDeg (280.46646 + 36000.76983 * T + 0.0003032 * T ^ 2) + 2 * PI - dmf_D T) <= degrees 0.002.
Proof.
  intros H. destruct (pow_le20 T H) as (A & B & C). apply Rabs_le_inv in H. split; [|split; [|split]].
  - argpoly. decimals. eapply deg_abs with (a := - (1952 / 10000000) + 1 / 100000000 * T - 1 / 10000000 * T ^ 2 + (1 / 538841 + 1 / 3526000) * T ^ 3 - (1 / 65194000 + 1 / 863310000) * T ^ 4); [field|].
    set (t2 := T ^ 2) in *. set (t3 := T ^ 3) in *. set (t4 := T ^ 4) in *. clearbody t2 t3 t4. apply Rabs_le. lra.
  - argpoly. decimals. eapply deg_abs with (a := - (1952 / 10000000) + 1 / 100000000 * T + (- (15786 / 10000000) - 87414 / 10000000 + 1032 / 100000) * T ^ 2 + (1 / 538841 - 1 / 69699) * T ^ 3 - (1 / 65194000 - 1 / 14712000) * T ^ 4); [field|].
    set (t2 := T ^ 2) in *. set (t3 := T ^ 3) in *. set (t4 := T ^ 4) in *. clearbody t2 t3 t4. apply Rabs_le. lra.
  - unfold MeanAnomaly. rewrite HornerR3. argpoly. decimals. eapply deg_abs with (a := - (8 / 10000000) + 9 / 10000000 * T + 2 / 10000000 * T ^ 2 + 1 / 24490000 * T ^ 3); [field|].
    set (t2 := T ^ 2) in *. set (t3 := T ^ 3) in *. clearbody t2 t3. apply Rabs_le. lra.
  - argpoly. decimals. eapply deg_abs with (a := - (2044 / 10000000)  + (48126788123421 / 100000000 - 3600076983 / 100000 - 4452671114034 / 10000000) * T + (- (15786 / 10000000) - 3032 / 10000000 + 18819 / 10000000) * T ^ 2 + (1 / 538841 - 1 / 545868) * T ^ 3 - (1 / 65194000 - 1 / 113065000) * T ^ 4); [field|].
    set (t2 := T ^ 2) in *. set (t3 := T ^ 3) in *. set (t4 := T ^ 4) in *. clearbody t2 t3 t4. apply Rabs_le. lra.
Qed.

(** ** Librations *)
Lemma rot_z_dir t a b : app (rot_z t) (dir a b) = dir (a - t) b.
Proof. vecs. unfold rot_z. cbn [r1 r2 r3 vx vy vz]. rewrite cos_minus, sin_minus. apply mkvec_eq; ring. Qed.
Lemma opposite_dir a b : opposite (dir a (- b)) = dir (a + PI) b.
Proof. unfold opposite, scale, dir. cbn [vx vy vz]. destruct (pi_shift a) as [-> ->]. rewrite sin_neg, cos_neg. apply mkvec_eq; ring. Qed.
Lemma plane_opposite i W v : plane_frame i W (opposite v) = opposite (plane_frame i W v).
Proof. destruct v as [x y z]. unfold plane_frame, opposite, scale, app, dot, rot_x, rot_z. cbn [r1 r2 r3 vx vy vz]. apply mkvec_eq; ring. Qed.
Lemma optical_frame m lam be : let '(l, b, A) := optical m lam be in
  0 <= l < 2 * PI /\ - (PI / 2) <= b <= PI / 2 /\ - PI < A <= PI /\ same_angle l (A - m_F m) /\
  plane_frame (- moonI) (m_Om m) (dir lam be) = dir A (- b) /\ selenographic moonI (m_Om m) (m_F m) (opposite (dir lam be)) = dir l b.
Proof.
  unfold optical. cbv zeta. set (W := lam - m_Om m). set (x := cos W * cos be). set (y := sin W * cos be * cos moonI - sin be * sin moonI). set (z := sin W * cos be * sin moonI + sin be * cos moonI).
  replace (- sin W * cos be * sin moonI - sin be * cos moonI) with (- z) by (unfold z; ring).
  assert (EF : plane_frame (- moonI) (m_Om m) (dir lam be) = mkvec x y z).
  { unfold plane_frame. rewrite rot_z_dir. fold W. unfold x, y, z. vecs. rewrite sin_neg, cos_neg. apply mkvec_eq; ring. }
  assert (U : x * x + y * y + z * z = 1).
  { unfold x, y, z. pose proof (sc1 be) as B. pose proof (sc1 W) as Wk. pose proof (sc1 moonI) as Ik. set (sb := sin be) in *. set (cb := cos be) in *. set (sw := sin W) in *. set (cw := cos W) in *. set (si := sin moonI) in *. set (ci := cos moonI) in *.
    transitivity (cw * cw * (cb * cb) + (sw * sw * (cb * cb) + sb * sb) * (si * si + ci * ci)); [ring|]. rewrite Ik. transitivity ((sw * sw + cw * cw) * (cb * cb) + sb * sb); [ring|]. rewrite Wk. lra. }
  assert (ED : dir (atan2 y x) (asin z) = mkvec x y z) by (apply dir_unit_vec; [exact U|intros _; split; reflexivity]).
  split; [apply Mod1_bound|]. split; [apply asin_bound|]. split; [apply atan2_bound|]. split; [apply Mod1_same|]. rewrite asin_opp, Ropp_involutive. split; [rewrite EF, ED; reflexivity|].
  unfold selenographic. rewrite plane_opposite, EF, <- ED. replace (asin z) with (- - asin z) by ring. rewrite opposite_dir, rot_z_dir. destruct (Mod1_same (atan2 y x - m_F m)) as (k & Ek).
  rewrite Ek, Ropp_involutive. replace (atan2 y x + PI - (m_F m + PI)) with (atan2 y x - m_F m) by ring. unfold dir. rewrite cos_Z, sin_Z. reflexivity.
Qed.
Lemma physical_rotation m lam be : let '(l, b, A) := optical m lam be in let '(dl, db) := physical m A b in 0 < cos b ->
  velocity l b dl db = cross (app (rot_z (m_F m + PI)) (mkvec (m_rho m) (m_sig m) (- m_tau m))) (dir l b).
Proof.
  pose proof (optical_frame m lam be) as H. destruct (optical m lam be) as [[l b] A]. destruct H as (_ & _ & _ & (k & Ek) & _). unfold physical. intros Cb.
  assert (Sl : sin l = sin (A - m_F m)) by (rewrite Ek; apply sin_Z). assert (Cl : cos l = cos (A - m_F m)) by (rewrite Ek; apply cos_Z).
  assert (EA : A = A - m_F m + m_F m) by ring. set (u := A - m_F m) in *. clearbody u. subst A. destruct (pi_shift (m_F m)) as [Sf Cf].
  set (rho := m_rho m). set (sig := m_sig m). set (tau := m_tau m). rewrite cos_plus, sin_plus. apply velocity_of; vecs; unfold rot_z; cbn [r1 r2 r3 vx vy vz]; rewrite ?Sf, ?Cf, ?Sl, ?Cl; unfold tan.
  - ring.
  - pose proof (sc1 u) as K. set (su := sin u) in *. set (cu := cos u) in *. set (sf := sin (m_F m)). set (cf := cos (m_F m)). set (sb := sin b). set (cb := cos b) in *.
    transitivity (- tau * cb + (rho * (cu * cf - su * sf) + sig * (su * cf + cu * sf)) * sb); [field; lra|]. 
    transitivity (- tau * cb * (su * su + cu * cu) + (rho * (cu * cf - su * sf) + sig * (su * cf + cu * sf)) * sb); [rewrite K; ring|ring].
  - pose proof (sc1 u) as K. pose proof (sc1 b) as Kb. set (su := sin u) in *. set (cu := cos u) in *. set (sf := sin (m_F m)). set (cf := cos (m_F m)). set (sb := sin b) in *. set (cb := cos b) in *.
    transitivity ((sig * (cu * cf - su * sf) - rho * (su * cf + cu * sf)) * (sb * sb + cb * cb)); [rewrite Kb; ring|ring].
Qed.
