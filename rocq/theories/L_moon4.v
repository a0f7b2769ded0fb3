(** The librations stay small; position angle of the axis; the Sun seen from the Moon. *)
From Coq Require Import ZArith Reals Lra Lia List Psatz.
From Flocq Require Import Core.
From Verif Require L_kepler.
From Verif Require Import GoFloat GoMath S_Sphere S_precess M_base M_coord M_precess M_vsop M_light M_moonconst M_solar M_moon M_physical S_solar S_physical S_moon
  L_trig L_angle L_vec L_coord L_precess L_elements L_light L_moonconst L_solar L_refraction L_parallactic L_solardisk L_physical L_moon L_moon2 L_moon3.
Import ListNotations.
Local Open Scope R_scope.

Lemma lib_value m lam be : let '(l1, b1, A) := optical m lam be in let '(l2, b2) := physical m A b1 in let '(l, b) := lib m lam be in same_angle l (l1 + l2) /\ l <= PI \/ same_angle l (l1 + l2) /\ l = l1 + l2 - 2 * PI.
Proof.
  unfold lib. destruct (optical m lam be) as [[l1 b1] A]. destruct (physical m A b1) as [l2 b2]. destruct (Rlt_bool_spec PI (l1 + l2)).
  - right. split; [exists (-1)%Z; lra|reflexivity].
  - left. split; [exists 0%Z; lra|assumption].
Qed.
Lemma physical_bound m A b : Rabs b <= degrees 7.633 -> Rabs (m_rho m) <= degrees 0.062 -> Rabs (m_sig m) <= degrees 0.0633 -> Rabs (m_tau m) <= degrees 0.052 ->
  Rabs (fst (physical m A b)) <= degrees 0.072 /\ Rabs (snd (physical m A b)) <= degrees 0.1253.
Proof.
  intros Hb Hr Hs Ht. unfold physical. cbn [fst snd]. pose proof PI_fine as HP. pose proof (degrees_val 7.633 ltac:(decimals; lra)) as V. decimals_in V. decimals_in Hb.
  assert (CC : cos b = cos (Rabs b)) by (unfold Rabs; destruct (Rcase_abs b); [rewrite cos_neg|]; reflexivity).
  assert (Cb : 0.99 <= cos b). { rewrite CC. destruct (small_trig (Rabs b)) as [_ C]; [split; [apply Rabs_pos|lra]|]. pose proof (Rabs_pos b). decimals. nra. }
  decimals_in Cb. assert (Tb : Rabs (tan b) <= 0.136).
  { unfold tan, Rdiv. rewrite Rabs_mult, (Rabs_pos_eq (/ cos b)) by (apply Rlt_le, Rinv_0_lt_compat; lra). pose proof (L_kepler.sin_abs_le b). apply (Rmult_le_reg_r (cos b)); [lra|]. rewrite Rmult_assoc, Rinv_l by lra. decimals. nra. }
  decimals_in Tb. pose proof (abs_cos A) as CA. pose proof (abs_sin A) as SA. pose proof (Rabs_pos (m_rho m)). pose proof (Rabs_pos (m_sig m)). pose proof (Rabs_pos (cos A)). pose proof (Rabs_pos (sin A)). pose proof (Rabs_pos (tan b)).
  assert (Q : forall s, Rabs (m_rho m * s) <= degrees 0.062 * Rabs s) by (intros s; rewrite Rabs_mult; apply Rmult_le_compat_r; [apply Rabs_pos|exact Hr]).
  assert (Q2 : forall s, Rabs (m_sig m * s) <= degrees 0.0633 * Rabs s) by (intros s; rewrite Rabs_mult; apply Rmult_le_compat_r; [apply Rabs_pos|exact Hs]).
  assert (D1 : 0 <= degrees 0.062) by (unfold degrees; decimals; lra). assert (D2 : 0 <= degrees 0.0633) by (unfold degrees; decimals; lra). split.
  - eapply Rle_trans; [apply Rabs_triang|]. rewrite Rabs_Ropp, Rabs_mult. pose proof (Rabs_triang (m_rho m * cos A) (m_sig m * sin A)) as Tr. pose proof (Q (cos A)). pose proof (Q2 (sin A)).
    assert (K : Rabs (m_rho m * cos A + m_sig m * sin A) <= degrees 0.062 + degrees 0.0633) by nra. pose proof (Rabs_pos (m_rho m * cos A + m_sig m * sin A)).
    assert (Rabs (m_rho m * cos A + m_sig m * sin A) * Rabs (tan b) <= (degrees 0.062 + degrees 0.0633) * (136 / 1000)) by (apply Rmult_le_compat; lra).
    eapply Rle_trans; [apply Rplus_le_compat; [exact Ht|exact H7]|]. unfold degrees. decimals. lra.
  - unfold Rminus. eapply Rle_trans; [apply Rabs_triang|]. rewrite Rabs_Ropp. pose proof (Q (sin A)). pose proof (Q2 (cos A)). eapply Rle_trans; [apply Rplus_le_compat; eassumption|].
    assert (degrees 0.1253 = degrees 0.0633 + degrees 0.062) by (unfold degrees; decimals; lra). nra.
Qed.
Lemma lib_range jde : let T := (jde - 2451545) / 36525 in Rabs T <= 20 -> let '(lam, be, _) := MoonPosition jde in let '(l, b) := lib (newMoon jde) lam be in
  Rabs l <= degrees 9.52 /\ Rabs b <= degrees 7.76.
Proof.
  intros T HT. pose proof (MoonPosition_range jde HT) as HM. fold T in HM. destruct (MoonPosition jde) as [[lam be] D]. destruct HM as (_ & Hb & Hl).
  destruct (newMoon_value jde) as (EO & EF & _ & _ & _ & _ & BB). fold T in EO, EF, BB. destruct (BB HT) as (Br & Bs & Bt). set (m := newMoon jde) in *. clearbody m.
  pose proof (optical_frame m lam be) as HF. pose proof (optical_lat m lam be Hb) as HA. pose proof (optical_lon m lam be Hb) as HL. unfold lib. destruct (optical m lam be) as [[l1 b1] A].
  destruct HF as (R1 & Rb & _ & SA & _ & _). destruct (physical_bound m A b1 HA Br Bs Bt) as (P1 & P2). destruct (physical m A b1) as [l2 b2]. cbn [fst snd] in P1, P2.
  destruct (arguments T HT) as (AF & _ & _ & _).
  assert (AN : near_turns l1 (degrees 9.4386)).
  { eapply near_same; [exact SA|]. rewrite EO in HL. rewrite EF.
    assert (DF : Rabs (dmf_F T - AngleFromDeg (argF T)) <= degrees 0.0025).
    { destruct (pow_le20 T HT) as (_ & T3 & T4). argpoly. decimals. eapply deg_abs with (a := - T ^ 3 / 3526000 + T ^ 4 / 863310000); [field|]. set (t3 := T ^ 3) in *. set (t4 := T ^ 4) in *. clearbody t3 t4. apply Rabs_le. lra. }
    replace (A - AngleFromDeg (argF T)) with ((A - (lam - AngleFromDeg (nodeDeg T))) + (lam - moonL T) + (moonL T - dmf_F T - AngleFromDeg (nodeDeg T)) + (dmf_F T - AngleFromDeg (argF T))) by ring.
    replace (degrees 9.4386) with (degrees 0.19 + degrees 9.2251 + degrees 0.021 + degrees 0.0025) by (unfold degrees; decimals; field).
    apply near_add; [|exact DF]. apply near_add; [|exact AF]. apply near_add2; assumption. }
  pose proof PI_fine as HP. split.
  - eapply Rle_trans; [apply (wrap_lib _ _ _ _ R1 AN P1)|]; unfold degrees; decimals; lra.
  - eapply Rle_trans; [apply Rabs_triang|]. eapply Rle_trans; [apply Rplus_le_compat; eassumption|]. unfold degrees; decimals; lra.
Qed.

(** ** The axis *)
Lemma pole_east I0 V eps a d : dot (app (rot_x (- eps)) (lunar_pole I0 V)) (east a d) = sin I0 * sin V * sin a + (sin I0 * cos V * cos eps - cos I0 * sin eps) * cos a.
Proof.
  unfold lunar_pole. vecs. rewrite cos_neg, sin_neg. rewrite !cos_shift, !sin_shift. replace (V + PI / 2) with (PI / 2 + V) by ring.
  rewrite <- (cos_sin V). rewrite (cos_plus (PI / 2) V), cos_PI2, sin_PI2. ring.
Qed.
Lemma moon_pa_value m lam be b eps : m_se m = sin eps -> m_ce m = cos eps -> - (PI / 2) < be < PI / 2 -> 0 < cos b -> paX m <> 0 \/ paY m <> 0 ->
  sqrt (paX m * paX m + paY m * paY m) <= cos b ->
  let pole := app (rot_x (- eps)) (lunar_pole (moonI + m_rho m) (m_Om m + m_dpsi m + m_sig m / sin moonI)) in let P := moon_pa m lam be b in
  (0 <= P <= PI / 2 \/ 3 * (PI / 2) <= P < 2 * PI) /\ exists a d, equatorial_of (lam + m_dpsi m) be eps a d /\ sin P * cos b = dot pole (east a d) /\
  (sin b = - dot pole (dir a d) -> 0 < dot pole (north a d) -> position_angle a d pole P).
Proof.
  intros Hs Hc Hbe Cb N L pole P. pose proof (EclToEq_dir (lam + m_dpsi m) be eps Hbe) as HE. pose proof PI_RGT_0 as HP. unfold P, moon_pa. cbv zeta. rewrite Hs, Hc. destruct (EclToEq (lam + m_dpsi m) be (sin eps) (cos eps)) as [a d]. cbn [fst].
  set (h := hypot (paX m) (paY m)). set (om := atan2 (paX m) (paY m)).
  destruct (atan2_spec (paY m) (paX m) ltac:(tauto)) as (C1 & S1). fold om in C1, S1. assert (Hh : hypot (paY m) (paX m) = h) by (unfold h, hypot; f_equal; ring). rewrite Hh in C1, S1.
  assert (EE : h * cos (a - om) = dot pole (east a d)).
  { unfold pole. rewrite pole_east. rewrite cos_minus. transitivity (cos a * (h * cos om) + sin a * (h * sin om)); [ring|]. rewrite C1, S1. unfold paX, paY. rewrite Hs, Hc. ring. }
  assert (h0 : 0 <= h) by apply sqrt_pos. assert (Bq : -1 <= h * cos (a - om) / cos b <= 1).
  { pose proof (COS_bound (a - om)) as B. assert (h <= cos b) by exact L. split; apply (Rmult_le_reg_r (cos b)); try exact Cb; unfold Rdiv; rewrite Rmult_assoc, Rinv_l by lra; nra. }
  set (q := h * cos (a - om) / cos b) in *. pose proof (asin_bound q) as Ba. pose proof (sin_asin q Bq) as Sq.
  set (p := asin q) in *. set (P' := if Rlt_bool p 0 then p + 2 * PI else p).
  assert (SP : sin P' = q /\ cos P' = cos p). { unfold P'. destruct (Rlt_bool_spec p 0); [|split; [exact Sq|reflexivity]]. split; [rewrite <- Sq; rewrite sin_plus, sin_2PI, cos_2PI; lra|rewrite cos_plus, sin_2PI, cos_2PI; lra]. }
  destruct SP as (SP & CP). assert (SE : sin P' * cos b = dot pole (east a d)) by (rewrite SP, <- EE; unfold q; field; lra).
  split; [unfold P'; destruct (Rlt_bool_spec p 0); [right|left]; lra|]. exists a, d. split; [exact HE|]. split; [exact SE|]. intros Sb Pn.
  exists (cos b). split; [exact Cb|]. split; [|rewrite <- SE; ring].
  assert (U : dot pole pole = 1). { unfold pole. unfold lunar_pole. vecs. rewrite cos_neg, sin_neg. pose proof (sc1 eps) as K1. pose proof (sc1 (PI / 2 - (moonI + m_rho m))) as K2. pose proof (sc1 (m_Om m + m_dpsi m + m_sig m / sin moonI + PI / 2)) as K3.
    set (se := sin eps) in *. set (ce := cos eps) in *. set (si := sin (PI / 2 - (moonI + m_rho m))) in *. set (ci := cos (PI / 2 - (moonI + m_rho m))) in *. set (sv := sin (m_Om m + m_dpsi m + m_sig m / sin moonI + PI / 2)) in *. set (cv := cos (m_Om m + m_dpsi m + m_sig m / sin moonI + PI / 2)) in *. clearbody se ce si ci sv cv.
    transitivity (ci * ci * (cv * cv) + (ci * ci * (sv * sv) + si * si) * (se * se + ce * ce)); [ring|]. rewrite K1. transitivity (ci * ci * (sv * sv + cv * cv) + si * si); [ring|]. rewrite K3. lra. }
  assert (FC : dot pole pole = dot pole (dir a d) * dot pole (dir a d) + dot pole (east a d) * dot pole (east a d) + dot pole (north a d) * dot pole (north a d)).
  { clearbody pole. destruct pole as [x y z]. vecs. pose proof (sc1 a) as K1. pose proof (sc1 d) as K2. set (sa := sin a) in *. set (ca := cos a) in *. set (sd := sin d) in *. set (cd := cos d) in *.
    transitivity (z * z * (sd * sd + cd * cd) + ((x * ca + y * sa) * (x * ca + y * sa)) * (sd * sd + cd * cd) + (x * sa - y * ca) * (x * sa - y * ca)); [rewrite K2; transitivity (z * z + (x * x + y * y) * (sa * sa + ca * ca)); [rewrite K1; ring|ring]|ring]. }
  rewrite CP. assert (Cp : 0 <= cos p) by (apply cos_ge_0; lra). pose proof (sc1 P') as K. rewrite CP in K. pose proof (sc1 b) as Kb.
  set (n := dot pole (north a d)) in *. set (e := dot pole (east a d)) in *. set (r := dot pole (dir a d)) in *. clearbody n e r. clear - FC U K Kb SE Sb Pn Cp Cb.
  assert (Q : (cos b * cos p) * (cos b * cos p) = n * n). { transitivity (cos b * cos b * (cos p * cos p)); [ring|]. replace (cos p * cos p) with (1 - sin P' * sin P') by lra. transitivity (cos b * cos b - (sin P' * cos b) * (sin P' * cos b)); [ring|]. rewrite SE. assert (r = - sin b) by lra. subst r. nra. }
  assert (0 <= cos b * cos p) by nra. nra.
Qed.
