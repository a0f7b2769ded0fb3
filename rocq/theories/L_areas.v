(** Kepler's equation, Barker's equation and the nodes against the law of areas. *)
From Coq Require Import ZArith Reals Lra Lia Psatz.
From Verif Require Import GoFloat GoMath S_base S_kepler S_conic M_iterate M_kepler M_orbit L_trig L_kepler L_kepler2 L_orbit L_orbit2 L_nearpar.
Local Open Scope R_scope.

Lemma const_zero f f' E : f 0 = 0 ->
  (forall c, Rmin 0 E <= c <= Rmax 0 E -> derivable_pt_lim f c (f' c)) ->
  (forall c, Rmin 0 E <= c <= Rmax 0 E -> f' c = 0) -> f E = 0.
Proof.
  intros F0 D Z. pose proof (mvt_abs f f' 0 E 0 D) as H. rewrite F0, Rminus_0_r, Rmult_0_l in H.
  assert (B : Rabs (f E) <= 0). { apply H. intros c Hc. rewrite (Z c Hc), Rabs_R0. lra. }
  destruct (Req_dec (f E) 0) as [X|X]; [exact X|]. apply Rabs_pos_lt in X. lra.
Qed.

Lemma between_PI E c : - PI < E < PI -> Rmin 0 E <= c <= Rmax 0 E -> - PI < c < PI.
Proof. pose proof PI_RGT_0. unfold Rmin, Rmax. destruct (Rle_dec 0 E); lra. Qed.

Lemma tan_half_deriv h E : - PI < E < PI ->
  derivable_pt_lim (fun E => h * tan (/ 2 * E)) E (h * ((1 + tan (/ 2 * E) * tan (/ 2 * E)) * / 2)).
Proof.
  intros HE. apply (derivable_pt_lim_scal (fun E => tan (/ 2 * E))).
  apply (derivable_pt_lim_comp (fun E => / 2 * E) tan).
  - apply (dlim_eq _ _ (/ 2 * 1)); [|ring]. apply (derivable_pt_lim_scal (fun x => x)). apply derivable_pt_lim_id.
  - apply (dlim_eq _ _ (1 + tan (/ 2 * E) ^ 2)); [|ring].
    assert (RG : - PI / 2 < / 2 * E < PI / 2) by lra. apply (derive_pt_eq_1 _ _ _ (derivable_pt_tan _ RG)). apply derive_pt_tan.
Qed.

(** The time of passage is determined by the law. *)
Lemma passage_unique k q e tau1 tau2 phi : passage_time k q e tau1 -> passage_time k q e tau2 ->
  0 <= e -> - PI < phi < PI -> 0 < 1 + e * cos phi -> tau1 phi = tau2 phi.
Proof.
  intros [T1 D1] [T2 D2] He Hp HO.
  assert (H : (fun p => tau1 p - tau2 p) phi = 0); [|cbv beta in H; lra].
  apply (const_zero (fun p => tau1 p - tau2 p) (fun p => conic_radius q e p * conic_radius q e p / areal_rate k q e - conic_radius q e p * conic_radius q e p / areal_rate k q e)).
  - rewrite T1, T2. ring.
  - intros c Hc. pose proof (between_PI _ _ Hp Hc) as HB.
    assert (CO : cos phi <= cos c).
    { destruct (Rle_dec 0 phi) as [P|P].
      - rewrite Rmin_left, Rmax_right in Hc by lra. apply cos_decr_1; lra.
      - rewrite Rmin_right, Rmax_left in Hc by lra. rewrite <- (cos_neg phi), <- (cos_neg c). apply cos_decr_1; lra. }
    assert (OC : 0 < 1 + e * cos c) by nra.
    apply (derivable_pt_lim_minus tau1 tau2); [apply D1|apply D2]; assumption.
  - intros. ring.
Qed.

Definition mean_motion (a : R) : R := K / (a * sqrt a).

Lemma mean_motion_pos a : 0 < a -> 0 < mean_motion a.
Proof.
  intros Ha. pose proof (sqrt_lt_R0 a Ha). unfold mean_motion, K. apply Rdiv_lt_0_compat; [lra|nra].
Qed.

Lemma True_u E e : True E e = 2 * atan (sqrt ((1 + e) / (1 - e)) * tan (/ 2 * E)).
Proof. unfold True. replace (E * (1 / 2)) with (/ 2 * E) by field. reflexivity. Qed.

Lemma kepler_area a e tau E : 0 < a -> 0 <= e < 1 -> - PI < E < PI -> passage_time K (a * (1 - e)) e tau ->
  mean_motion a * tau (True E e) = E - e * sin E.
Proof.
  intros Ha He HE PT. assert (Hq : 0 < a * (1 - e)) by nra.
  destruct (passage_w K (a * (1 - e)) e tau ltac:(unfold K; lra) Hq ltac:(lra) PT) as [P1 [_ [W0 WD]]].
  set (q1 := K * sqrt ((1 + e) / (a * (1 - e))) / (2 * (a * (1 - e)))) in *. set (g := (1 - e) / (1 + e)) in *.
  set (h := sqrt ((1 + e) / (1 - e))). assert (HE1 : 0 < (1 + e) / (1 - e)) by (apply Rdiv_lt_0_compat; lra).
  assert (Ph : 0 < h) by (apply sqrt_lt_R0, HE1).
  assert (HH : h * h = (1 + e) / (1 - e)) by (apply sqrt_sqrt; lra).
  pose proof (mean_motion_pos a Ha) as Pn. set (n := mean_motion a) in *.
  assert (Sa : 0 < sqrt a) by (apply sqrt_lt_R0, Ha).
  assert (QN : 2 * (q1 * (1 - e)) = h * n).
  { unfold q1, n, mean_motion. replace ((1 + e) / (a * (1 - e))) with ((1 + e) / (1 - e) * / a) by (field; lra).
    rewrite sqrt_mult_alt by lra. fold h. rewrite sqrt_inv. field. repeat split; lra. }
  assert (GH : forall x, 1 + g * (h * x * (h * x)) = 1 + x * x).
  { intros x. unfold g. replace (h * x * (h * x)) with (h * h * (x * x)) by ring. rewrite HH. field. lra. }
  assert (Z : (fun E => q1 * tau (2 * atan (h * tan (/ 2 * E))) - q1 / n * (E - e * sin E)) E = 0).
  { apply (const_zero (fun E => q1 * tau (2 * atan (h * tan (/ 2 * E))) - q1 / n * (E - e * sin E)) (fun E => kern g (h * tan (/ 2 * E)) * (h * ((1 + tan (/ 2 * E) * tan (/ 2 * E)) * / 2)) - q1 / n * (1 - e * cos E))).
    - replace (/ 2 * 0) with 0 by ring. rewrite tan_0, Rmult_0_r, W0, sin_0. ring.
    - intros c Hc. pose proof (between_PI _ _ HE Hc) as HB.
      apply (derivable_pt_lim_minus (fun E => q1 * tau (2 * atan (h * tan (/ 2 * E)))) (fun E => q1 / n * (E - e * sin E))).
      + apply (derivable_pt_lim_comp (fun E => h * tan (/ 2 * E)) (fun u => q1 * tau (2 * atan u))); [apply tan_half_deriv, HB|].
        apply WD. rewrite GH. nra.
      + apply (derivable_pt_lim_scal (fun E => E - e * sin E)).
        apply (derivable_pt_lim_minus (fun E => E) (fun E => e * sin E)); [apply derivable_pt_lim_id|].
        apply (derivable_pt_lim_scal sin). apply derivable_pt_lim_sin.
    - intros c Hc. pose proof (between_PI _ _ HE Hc) as HB.
      assert (CC : cos (c / 2) <> 0) by (pose proof (cos_gt_0 (c / 2) ltac:(lra) ltac:(lra)); lra).
      destruct (half_tan c CC) as [C _]. replace (c / 2) with (/ 2 * c) in C by field. set (x := tan (/ 2 * c)) in *.
      assert (U : 0 < 1 + x * x) by nra. assert (EC : cos c = (1 - x * x) / (1 + x * x)) by (rewrite <- C; field; lra).
      unfold kern. rewrite GH, EC. replace (q1 / n) with (h / (2 * (1 - e))) by (apply Rmult_eq_reg_r with (2 * (1 - e) * n); [|nra]; transitivity (h * n); [field; lra|rewrite <- QN; field; lra]).
      replace (h * x * (h * x)) with (h * h * (x * x)) by ring. rewrite HH. field. repeat split; lra. }
  cbv beta in Z. rewrite True_u. fold h. apply Rmult_eq_reg_l with (q1 / n); [|apply Rgt_not_eq, Rdiv_lt_0_compat; lra].
  transitivity (q1 * tau (2 * atan (h * tan (/ 2 * E)))); [field; lra|lra].
Qed.

Lemma kepler_areas a e tau E : 0 < a -> 0 <= e < 1 -> - PI < E < PI -> passage_time K (a * (1 - e)) e tau ->
  - PI < True E e < PI /\ Radius E e a = conic_radius (a * (1 - e)) e (True E e) /\
  forall t, mean_motion a * (tau (True E e) - t) = E - e * sin E - mean_motion a * t.
Proof.
  intros Ha He HE PT. assert (CC : cos (E / 2) <> 0) by (pose proof (cos_gt_0 (E / 2) ltac:(lra) ltac:(lra)); lra).
  split; [exact (proj1 (True_ok e E He CC))|]. split.
  - rewrite (proj2 (Radius_ok e E a He CC)). unfold conic_radius. f_equal. ring.
  - intros t. rewrite <- (kepler_area a e tau E Ha He HE PT). ring.
Qed.

Lemma kepler2b_areas a e tau t p E : 0 < a -> 0 <= e < 1 -> passage_time K (a * (1 - e)) e tau ->
  Kepler2b e (mean_motion a * t) p = Ok E -> - PI < E < PI ->
  Rabs (tau (True E e) - t) <= e * powerRZ 10 (- (2 * p)) / mean_motion a.
Proof.
  intros Ha He PT HK HE. pose proof (Kepler2b_ok e _ p E He HK) as B. pose proof (mean_motion_pos a Ha) as Pn.
  destruct (kepler_areas a e tau E Ha He HE PT) as [_ [_ X]]. rewrite <- (X t), Rabs_mult, (Rabs_right (mean_motion a)) in B by lra.
  apply Rmult_le_reg_l with (mean_motion a); [exact Pn|]. replace (mean_motion a * (e * powerRZ 10 (- (2 * p)) / mean_motion a)) with (e * powerRZ 10 (- (2 * p))) by (field; lra). exact B.
Qed.

(** Barker's equation. *)
Lemma barker_area q tau phi : 0 < q -> - PI < phi < PI -> passage_time K q 1 tau ->
  K / sqrt 2 * tau phi / (q * sqrt q) = tan (phi / 2) + tan (phi / 2) * tan (phi / 2) * tan (phi / 2) / 3.
Proof.
  intros Hq Hp PT. destruct (passage_w K q 1 tau ltac:(unfold K; lra) Hq ltac:(lra) PT) as [P1 [_ [W0 WD]]].
  assert (S2 : 0 < sqrt 2) by (apply sqrt_lt_R0; lra). assert (Sq : 0 < sqrt q) by (apply sqrt_lt_R0, Hq).
  assert (SS : sqrt 2 * sqrt 2 = 2) by (apply sqrt_sqrt; lra).
  set (s := tan (phi / 2)).
  pose proof (parabolic_exact ((1 - 1) / (1 + 1)) (fun u => K * sqrt ((1 + 1) / q) / (2 * q) * tau (2 * atan u)) (s + s * s * s / 3) s ltac:(field) W0 WD ltac:(field)) as H.
  cbv beta in H. unfold s in H at 1. rewrite atan_tan in H by lra. replace (2 * (phi / 2)) with phi in H by field. rewrite <- H.
  replace ((1 + 1) / q) with (2 * / q) by (field; lra). rewrite sqrt_mult_alt, sqrt_inv by lra.
  assert (I2 : K / sqrt 2 = K * sqrt 2 / 2).
  { apply Rmult_eq_reg_r with (sqrt 2); [|lra]. transitivity K; [field; lra|]. replace (K * sqrt 2 / 2 * sqrt 2) with (K * (sqrt 2 * sqrt 2) / 2) by field. rewrite SS. field. }
  rewrite I2. field. lra.
Qed.

Lemma parabolic_areas q T t tau : 0 < q -> passage_time K q 1 tau ->
  let '(v, r) := Par_AnomalyDistance (mkPar T q) t in - PI < v < PI /\ tau v = t - T /\ r = conic_radius q 1 v.
Proof.
  intros Hq PT. pose proof (Par_ok q T t Hq) as H. destruct Par_AnomalyDistance as [v r]. destruct H as [B [TB [C [HR _]]]].
  split; [exact B|]. rewrite <- (barker_area q tau v Hq B PT) in TB.
  assert (S2 : 0 < sqrt 2) by (apply sqrt_lt_R0; lra). assert (Sq : 0 < sqrt q) by (apply sqrt_lt_R0, Hq).
  split.
  - apply Rmult_eq_reg_l with (K / sqrt 2 / (q * sqrt q)).
    + transitivity (K / sqrt 2 * tau v / (q * sqrt q)); [field; repeat split; lra|]. rewrite TB. field. repeat split; lra.
    + apply Rgt_not_eq, Rdiv_lt_0_compat; [apply Rdiv_lt_0_compat; [unfold K; lra|lra]|nra].
  - rewrite HR. unfold conic_radius. rewrite Rmult_1_l. f_equal. ring.
Qed.

(** The nodes. *)
Lemma node_el_areas v a e T tau : 0 < a -> 0 <= e < 1 -> - PI < v < PI -> passage_time K (a * (1 - e)) e tau ->
  node_el v a e T = (T + tau v, conic_radius (a * (1 - e)) e v).
Proof.
  intros Ha He Hv PT. unfold node_el. cbv zeta. set (E := 2 * atan (sqrt ((1 - e) / (1 + e)) * tan (v * (5 / 10)))).
  assert (HE : - PI < E < PI) by (pose proof (atan_bound (sqrt ((1 - e) / (1 + e)) * tan (v * (5 / 10)))); unfold E; lra).
  assert (TE : True E e = v).
  { rewrite True_u. unfold E. replace (/ 2 * (2 * atan (sqrt ((1 - e) / (1 + e)) * tan (v * (5 / 10))))) with (atan (sqrt ((1 - e) / (1 + e)) * tan (v * (5 / 10)))) by field.
    rewrite tan_atan, <- Rmult_assoc, <- sqrt_mult_alt by (apply Rlt_le, Rdiv_lt_0_compat; lra).
    replace ((1 + e) / (1 - e) * ((1 - e) / (1 + e))) with 1 by (field; lra). rewrite sqrt_1, Rmult_1_l, atan_tan by lra. field. }
  destruct (kepler_areas a e tau E Ha He HE PT) as [_ [R X]]. rewrite TE in R, X. fold (Radius E e a). rewrite R.
  specialize (X 0). rewrite Rmult_0_r, !Rminus_0_r in X. rewrite <- X. pose proof (sqrt_lt_R0 a Ha) as Sa.
  f_equal. f_equal. unfold mean_motion, K. field. repeat split; lra.
Qed.

Lemma node_pa_areas v q T tau : 0 < q -> - PI < v < PI -> passage_time K q 1 tau ->
  let '(jde, r) := node_pa v q T in r = conic_radius q 1 v /\ Rabs (jde - (T + tau v)) <= 1 / 50000000 * Rabs (tau v).
Proof.
  intros Hq Hv PT. unfold node_pa. cbv zeta. replace (v * (5 / 10)) with (v / 2) by field.
  assert (CC : cos (v / 2) <> 0) by (pose proof (cos_gt_0 (v / 2) ltac:(lra) ltac:(lra)); lra).
  pose proof (barker_area q tau v Hq Hv PT) as B. destruct (half_tan v CC) as [C _]. set (s := tan (v / 2)) in *.
  assert (U : 0 < 1 + s * s) by nra. split.
  { unfold conic_radius. replace (cos v) with ((1 - s * s) / (1 + s * s)) by (rewrite <- C; field; lra). field. split; lra. }
  assert (S2 : 0 < sqrt 2) by (apply sqrt_lt_R0; lra). assert (Sq : 0 < sqrt q) by (apply sqrt_lt_R0, Hq).
  assert (SB : 1414213562 / 1000000000 <= sqrt 2 <= 1414213563 / 1000000000).
  { split; [rewrite <- (sqrt_square (1414213562 / 1000000000)) by lra|rewrite <- (sqrt_square (1414213563 / 1000000000)) by lra]; apply sqrt_le_1_alt; lra. }
  assert (TV : tau v = s * (s * s + 3) * (q * sqrt q) * (sqrt 2 / (3 * K))).
  { apply Rmult_eq_reg_l with (K / sqrt 2 / (q * sqrt q)).
    - transitivity (K / sqrt 2 * tau v / (q * sqrt q)); [field; repeat split; lra|]. rewrite B. field. unfold K. repeat split; lra.
    - apply Rgt_not_eq, Rdiv_lt_0_compat; [apply Rdiv_lt_0_compat; [unfold K; lra|lra]|nra]. }
  set (D := s * (s * s + 3) * (q * sqrt q)) in *. set (k := sqrt 2 / (3 * K)) in *.
  assert (KB : Rabs (27403895 / 1000000 - k) <= 1 / 50000000 * k).
  { unfold k, K. replace (sqrt 2 / (3 * (1720209895 / 100000000000))) with (sqrt 2 * (100000000000 / 5160629685)) by field. apply Rabs_le. lra. }
  replace (T + 27403895 / 1000000 * s * (s * s + 3) * q * sqrt q - (T + tau v)) with (D * (27403895 / 1000000 - k)) by (rewrite TV; unfold D; ring).
  rewrite TV, !Rabs_mult. assert (0 <= k) by (unfold k, K; apply Rlt_le, Rdiv_lt_0_compat; lra). rewrite (Rabs_right k) by lra.
  apply Rle_trans with (Rabs D * (1 / 50000000 * k)); [apply Rmult_le_compat_l; [apply Rabs_pos|exact KB]|lra].
Qed.

(** The near-parabolic value against Kepler's equation. *)
Lemma True_onto v e : 0 <= e < 1 -> - PI < v < PI -> exists E, - PI < E < PI /\ True E e = v.
Proof.
  intros He Hv. exists (2 * atan (sqrt ((1 - e) / (1 + e)) * tan (/ 2 * v))).
  split; [pose proof (atan_bound (sqrt ((1 - e) / (1 + e)) * tan (/ 2 * v))); lra|].
  rewrite True_u. replace (/ 2 * (2 * atan (sqrt ((1 - e) / (1 + e)) * tan (/ 2 * v)))) with (atan (sqrt ((1 - e) / (1 + e)) * tan (/ 2 * v))) by field.
  rewrite tan_atan, <- Rmult_assoc, <- sqrt_mult_alt by (apply Rlt_le, Rdiv_lt_0_compat; lra).
  replace ((1 + e) / (1 - e) * ((1 - e) / (1 + e))) with 1 by (field; lra). rewrite sqrt_1, Rmult_1_l, atan_tan by lra. field.
Qed.

Lemma nearpar_kepler N T a e jde v r : 0 < a -> 1 / 2 <= e < 1 -> NP_AnomalyDistance N (mkNP T (a * (1 - e)) e) jde = Value (v, r) ->
  exists E, - PI < E < PI /\ same_angle v (True E e) /\ r = Radius E e a /\
    Rabs (E - e * sin E - mean_motion a * (jde - T)) <= 4 / 10000000 * (sqrt ((1 - e) / (1 + e)) * (1 - e * cos E)).
Proof.
  intros Ha He HV. assert (Hq : 0 < a * (1 - e)) by nra.
  destruct (passage_exists K (a * (1 - e)) e ltac:(unfold K; lra) Hq ltac:(lra)) as [tau PT].
  destruct (NP_accurate N (mkNP T (a * (1 - e)) e) jde v r tau) as [phi [HP [SA [_ [HR HB]]]]]; cbn [n_PDis n_Ecc n_TimeP]; [exact Hq|lra|exact PT|exact HV|].
  cbn [n_PDis n_Ecc n_TimeP] in HR, HB.
  destruct (True_onto phi e ltac:(lra) HP) as [E [HE TE]]. exists E. rewrite TE.
  destruct (kepler_areas a e tau E Ha ltac:(lra) HE PT) as [_ [R X]]. rewrite TE in R, X.
  split; [exact HE|]. split; [exact SA|]. split; [rewrite HR, R; reflexivity|].
  pose proof (mean_motion_pos a Ha) as Pn.
  rewrite <- (X (jde - T)), Rabs_mult, (Rabs_right (mean_motion a)) by lra.
  apply Rle_trans with (mean_motion a * (4 / 10000000 * (a * (1 - e) * r / areal_rate K (a * (1 - e)) e))); [apply Rmult_le_compat_l; [lra|exact HB]|].
  apply Req_le. rewrite HR, <- R. unfold Radius, areal_rate, mean_motion.
  assert (Sa : 0 < sqrt a) by (apply sqrt_lt_R0, Ha). assert (SP : 0 < sqrt (1 + e)) by (apply sqrt_lt_R0; lra).
  assert (SM : 0 < sqrt (1 - e)) by (apply sqrt_lt_R0; lra).
  assert (MM : sqrt (1 - e) * sqrt (1 - e) = 1 - e) by (apply sqrt_sqrt; lra).
  rewrite sqrt_mult_alt by lra. rewrite sqrt_mult_alt by lra. rewrite sqrt_div_alt by lra.
  replace (a * (1 - e)) with (a * (sqrt (1 - e) * sqrt (1 - e))) by (rewrite MM; ring).
  assert (AA : a = sqrt a * sqrt a) by (symmetry; apply sqrt_sqrt; lra).
  set (sa := sqrt a) in *. clearbody sa. rewrite AA.
  unfold K. field. repeat split; lra.
Qed.

Lemma kepler2b_example : exists t E, 0 < t /\ Kepler2b (1 / 10) (mean_motion 1 * t) 4 = Ok E /\ - PI < E < PI.
Proof.
  pose proof (mean_motion_pos 1 ltac:(lra)) as Pn. exists (1 / mean_motion 1).
  replace (mean_motion 1 * (1 / mean_motion 1)) with 1 by (field; lra).
  destruct (Kepler2b_total (1 / 10) 1 4 ltac:(lra) ltac:(lia)) as [E HE]. exists E.
  split; [apply Rdiv_lt_0_compat; lra|]. split; [exact HE|].
  pose proof (Kepler2b_ok (1 / 10) 1 4 E ltac:(lra) HE) as B.
  assert (P8 : powerRZ 10 (- (2 * 4)) <= 1) by (simpl; lra).
  assert (B1 : Rabs (E - 1 / 10 * sin E - 1) <= 1 / 10) by lra. clear B.
  pose proof (SIN_bound E) as SB. pose proof PI2_1 as P3. revert B1. unfold Rabs. destruct Rcase_abs; lra.
Qed.

Lemma nearpar_example T : exists v r, 0 < v < PI / 2 /\
  NP_AnomalyDistance 1 (mkNP T (1000 * (1 - 999 / 1000)) (999 / 1000)) (T + 1) = Value (v, r).
Proof. replace (1000 * (1 - 999 / 1000)) with 1 by field. apply NP_returns. Qed.
