(** Bounds of the librations; the position angle of the axis; the Sun seen from the Moon. *)
From Coq Require Import ZArith Reals Lra Lia List Psatz.
From Flocq Require Import Core.
From Verif Require L_kepler.
From Verif Require Import GoFloat GoMath S_Sphere S_precess M_base M_coord M_precess M_vsop M_light M_moonconst M_solar M_moon M_physical S_solar S_physical S_moon
  L_trig L_angle L_vec L_coord L_precess L_elements L_light L_moonconst L_solar L_refraction L_parallactic L_solardisk L_physical L_moon L_moon2.
Import ListNotations.
Local Open Scope R_scope.

Definition sum_abs (l : list (Z * R)) : Z := fold_right (fun t s => Z.abs (fst t) + s)%Z 0%Z l.
Lemma series_bound w l : Forall (fun t => Rabs (snd t) <= w) l -> Rabs (series l) <= IZR (sum_abs l) * w.
Proof.
  induction 1 as [|[c t] l H _ IH]; cbn [series sum_abs fold_right fst snd] in *; [rewrite Rabs_R0; lra|]. fold (series l) (sum_abs l). eapply Rle_trans; [apply Rabs_triang|].
  rewrite Rabs_mult, plus_IZR, abs_IZR. pose proof (Rabs_pos (IZR c)). pose proof (Rabs_pos t). nra.
Qed.
Ltac trig_terms := repeat (apply Forall_cons; [cbn [snd]; first [apply abs_sin | apply abs_cos]|]); apply Forall_nil.
Lemma series_deg l w b : Rabs (series l) <= w -> w <= b * 100000 -> Rabs (AngleFromDeg (series l / 100000)) <= degrees b.
Proof. intros H K. eapply deg_abs; [reflexivity|]. unfold Rdiv. rewrite Rabs_mult, (Rabs_pos_eq (/ 100000)) by lra. lra. Qed.
Lemma newMoon_value jde : let T := (jde - 2451545) / 36525 in let m := newMoon jde in
  m_Om m = AngleFromDeg (nodeDeg T) /\ m_F m = AngleFromDeg (argF T) /\ m_dpsi m = fst (Nutation jde) /\
  m_se m = sin (MeanObliquity jde + snd (Nutation jde)) /\ m_ce m = cos (MeanObliquity jde + snd (Nutation jde)) /\ m_jde m = jde /\
  (Rabs T <= 20 -> Rabs (m_rho m) <= degrees 0.062 /\ Rabs (m_sig m) <= degrees 0.0633 /\ Rabs (m_tau m) <= degrees 0.052).
Proof.
  cbv zeta. unfold newMoon. rewrite century. destruct (Nutation jde) as [dpsi deps]. set (T := (jde - 2451545) / 36525). cbn [m_Om m_F m_dpsi m_se m_ce m_jde m_rho m_sig m_tau fst snd].
  do 6 (split; [reflexivity|]). intros HT. set (D := AngleFromDeg (argD T)). set (M := AngleFromDeg (argM T)). set (M' := AngleFromDeg (argM' T)). set (F := AngleFromDeg (argF T)). set (Om := AngleFromDeg (nodeDeg T)).
  set (K1 := AngleFromDeg (11975 / 100 + 131849 / 1000 * T)). set (K2 := AngleFromDeg (7256 / 100 + 20186 / 1000 * T)). pose proof (moonE_range T HT) as HE. set (E := moonE T) in *. clearbody D M M' F Om K1 K2 E.
  split; [|split].
  - eapply series_deg; [eapply (series_bound 1); unfold rho_terms; trig_terms|]. replace (sum_abs (rho_terms D M' F)) with 6187%Z by reflexivity. decimals. lra.
  - eapply series_deg; [eapply (series_bound 1); unfold sigma_terms; trig_terms|]. replace (sum_abs (sigma_terms D M' F)) with 6323%Z by reflexivity. decimals. lra.
  - eapply series_deg; [eapply (series_bound 1.05)|].
    + unfold tau_terms. decimals_in HE. apply Forall_cons; [cbn [snd]; rewrite Rabs_mult, (Rabs_pos_eq E) by lra; pose proof (abs_sin M); pose proof (Rabs_pos (sin M)); decimals; nra|].
      repeat (apply Forall_cons; [cbn [snd]; (eapply Rle_trans; [first [apply abs_sin | apply abs_cos]|decimals; lra])|]). apply Forall_nil.
    + replace (sum_abs (tau_terms D M M' F Om K1 K2 E)) with 4952%Z by reflexivity. decimals. lra.
Qed.
Lemma asin_abs s d : 0 <= d <= PI / 2 -> Rabs s <= sin d -> Rabs (asin s) <= d.
Proof.
  intros Hd H. apply Rabs_le_inv in H. assert (B : -1 <= s <= 1) by (pose proof (SIN_bound d); lra). pose proof (asin_bound s) as Ba. pose proof (sin_asin s B) as E.
  apply Rabs_le. split.
  - apply sin_incr_0; try lra. rewrite sin_neg, E. lra.
  - apply sin_incr_0; try lra.
Qed.
Lemma near_sin u d : 0 <= d <= PI / 2 -> 0 < cos u -> Rabs (sin u) <= sin d -> near_turns u d.
Proof.
  intros Hd C H. pose proof (asin_abs _ _ Hd H) as A. set (v := asin (sin u)) in *. assert (B : -1 <= sin u <= 1) by apply SIN_bound.
  assert (Sv : sin v = sin u) by (apply sin_asin; exact B). assert (Cv : cos v = cos u).
  { unfold v. rewrite cos_asin by exact B. apply sqrt_lem_1; [|lra|]; pose proof (sc1 u); unfold Rsqr in *; nra. }
  destruct (angle_eq u v (eq_sym Sv) (eq_sym Cv)) as (k & Ek). exists k. replace (u - IZR k * (2 * PI)) with v by lra. exact A.
Qed.
Lemma near_add x y d e : near_turns x d -> Rabs y <= e -> near_turns (x + y) (d + e).
Proof. intros (k & H) K. exists k. replace (x + y - IZR k * (2 * PI)) with (x - IZR k * (2 * PI) + y) by ring. eapply Rle_trans; [apply Rabs_triang|]. lra. Qed.
Lemma near_add2 x y d e : near_turns x d -> near_turns y e -> near_turns (x + y) (d + e).
Proof. intros (k & H) (j & K). exists (k + j)%Z. rewrite plus_IZR. replace (x + y - (IZR k + IZR j) * (2 * PI)) with (x - IZR k * (2 * PI) + (y - IZR j * (2 * PI))) by ring. eapply Rle_trans; [apply Rabs_triang|]. lra. Qed.
Lemma near_same x y d : same_angle x y -> near_turns y d -> near_turns x d.
Proof. intros (j & E) (k & H). exists (j + k)%Z. rewrite plus_IZR, E. replace (y + IZR j * (2 * PI) - (IZR j + IZR k) * (2 * PI)) with (y - IZR k * (2 * PI)) by ring. exact H. Qed.
Lemma wrap_lib l1 l2 d e : 0 <= l1 < 2 * PI -> near_turns l1 d -> Rabs l2 <= e -> d + e < PI ->
  Rabs (if Rlt_bool PI (l1 + l2) then l1 + l2 - 2 * PI else l1 + l2) <= d + e.
Proof.
  intros R1 (k & H) K L. apply Rabs_le_inv in H, K. pose proof PI_RGT_0 as HP.
  assert (Hk : (k = 0 \/ k = 1)%Z).
  { assert ((-1 < k)%Z /\ (k < 2)%Z); [|lia]. split; apply lt_IZR; nra. }
  destruct Hk as [-> | ->].
  - rewrite Rlt_bool_false by lra. apply Rabs_le. lra.
  - rewrite Rlt_bool_true by lra. apply Rabs_le. lra.
Qed.
Lemma small_trig x : 0 <= x <= 1 -> x - x * x * x / 6 <= sin x <= x /\ 1 - x * x / 2 <= cos x.
Proof.
  intros H. pose proof PI2_1. split.
  - split; [|apply L_kepler.sin_le_x; lra]. destruct (sin_bound x 0) as [A _]; [lra|lra|]. unfold sin_approx, sin_term in A. simpl in A. lra.
  - destruct (cos_bound x 0) as [A _]; [lra|lra|]. unfold cos_approx, cos_term in A. simpl in A. lra.
Qed.
Lemma moonI_val : 0.0269 <= moonI <= 0.02693.
Proof. unfold moonI, AngleFromDeg. pose proof PI_fine as P. decimals. lra. Qed.
Lemma degrees_val x : 0 <= x -> 0.017453 * x <= degrees x <= 0.017454 * x.
Proof. intros H. unfold degrees. pose proof PI_fine as P. decimals. nra. Qed.
Lemma degrees_add x y : degrees x + degrees y = degrees (x + y).
Proof. unfold degrees. ring. Qed.
Lemma optical_lat m lam be : Rabs be <= degrees 6.09 -> let '(_, b, _) := optical m lam be in Rabs b <= degrees 7.633.
Proof.
  intros Hb. apply Rabs_le_inv in Hb. pose proof PI_fine as HP. unfold optical. cbv zeta. set (W := lam - m_Om m). set (z := - sin W * cos be * sin moonI - sin be * cos moonI).
  assert (I0 : moonI = degrees 1.54242) by (unfold moonI, AngleFromDeg, degrees; decimals; field). unfold degrees in *. decimals. decimals_in Hb. decimals_in I0.
  assert (Sz : 0 <= cos be * sin moonI) by (apply Rmult_le_pos; [apply cos_ge_0; lra|apply sin_ge_0; lra]). pose proof (SIN_bound W) as BW.
  assert (L : sin (- be - moonI) <= z) by (unfold z; rewrite sin_minus, sin_neg, cos_neg; nra). assert (U : z <= sin (- be + moonI)) by (unfold z; rewrite sin_plus, sin_neg, cos_neg; nra).
  assert (Bz : -1 <= z <= 1) by (pose proof (SIN_bound (- be - moonI)); pose proof (SIN_bound (- be + moonI)); lra). pose proof (sin_asin z Bz) as Es. pose proof (asin_bound z) as Ba.
  assert (A1 : asin z <= - be + moonI) by (apply sin_incr_0; lra). assert (A2 : - be - moonI <= asin z) by (apply sin_incr_0; lra). apply Rabs_le. lra.
Qed.
Lemma optical_lon m lam be : Rabs be <= degrees 6.09 -> let '(_, _, A) := optical m lam be in near_turns (A - (lam - m_Om m)) (degrees 0.19).
Proof.
  intros Hb. pose proof (optical_lat m lam be Hb) as Hl. pose proof (optical_frame m lam be) as HF. destruct (optical m lam be) as [[l b] A]. destruct HF as (_ & Bb & _ & _ & EF & _).
  set (W := lam - m_Om m). unfold plane_frame in EF. rewrite rot_z_dir in EF. fold W in EF.
  assert (E1 : cos W * cos be = cos b * cos A). { assert (Q : vx (app (rot_x (- moonI)) (dir W be)) = vx (dir A (- b))) by (rewrite EF; reflexivity). revert Q. vecs. rewrite cos_neg. lra. }
  assert (E2 : sin W * cos be * cos moonI - sin be * sin moonI = cos b * sin A). { assert (Q : vy (app (rot_x (- moonI)) (dir W be)) = vy (dir A (- b))) by (rewrite EF; reflexivity). revert Q. vecs. rewrite ?cos_neg, ?sin_neg. lra. }
  pose proof PI_fine as HP. pose proof moonI_val as HI. decimals_in HI. apply Rabs_le_inv in Hb, Hl. pose proof (degrees_val 6.09 ltac:(decimals; lra)) as V1. pose proof (degrees_val 7.633 ltac:(decimals; lra)) as V2. decimals_in V1. decimals_in V2. decimals_in Hb. decimals_in Hl.
  destruct (small_trig moonI ltac:(lra)) as ((SI1 & SI2) & CI). pose proof (COS_bound moonI) as CI2.
  assert (Sb : Rabs (sin be) <= 0.1063).
  { eapply Rle_trans; [apply L_kepler.sin_abs_le|]. apply Rabs_le. decimals. lra. }
  assert (Cb : 0.99 <= cos b). { assert (K : cos b = cos (Rabs b)) by (unfold Rabs; destruct (Rcase_abs b); [rewrite cos_neg|]; reflexivity). rewrite K. assert (Ha : 0 <= Rabs b <= 0.1333) by (split; [apply Rabs_pos|apply Rabs_le; decimals; lra]). decimals_in Ha. destruct (small_trig (Rabs b) ltac:(lra)) as [_ C]. decimals. nra. }
  assert (Cbe : 0.99 <= cos be). { assert (K : cos be = cos (Rabs be)) by (unfold Rabs; destruct (Rcase_abs be); [rewrite cos_neg|]; reflexivity). rewrite K. assert (Ha : 0 <= Rabs be <= 0.1063) by (split; [apply Rabs_pos|apply Rabs_le; decimals; lra]). decimals_in Ha. destruct (small_trig (Rabs be) ltac:(lra)) as [_ C]. decimals. nra. }
  apply Rabs_le_inv in Sb. decimals_in Sb. decimals_in Cb. decimals_in Cbe.
  pose proof (sc1 W) as KW. pose proof (SIN_bound W) as BS. pose proof (COS_bound W) as BC. pose proof (COS_bound be) as Bce.
  apply near_sin.
  - pose proof (degrees_val 0.19 ltac:(decimals; lra)) as V. decimals_in V. decimals. lra.
  - rewrite cos_minus. assert (P : 0 < cos b * (cos A * cos W + sin A * sin W)).
    { replace (cos b * (cos A * cos W + sin A * sin W)) with ((cos b * cos A) * cos W + (cos b * sin A) * sin W) by ring. rewrite <- E1, <- E2.
      set (cw := cos W) in *. set (sw := sin W) in *. set (cbe := cos be) in *. set (sbe := sin be) in *. set (ci := cos moonI) in *. set (si := sin moonI) in *. clearbody cw sw cbe sbe ci si. clear - KW SI1 SI2 CI CI2 HI Sb Cbe Bce BS.
      assert (0.999 <= ci) by (decimals; nra). assert (0 <= si <= 0.02693) by (decimals; nra). decimals_in H. decimals_in H0.
      replace (cw * cbe * cw + (sw * cbe * ci - sbe * si) * sw) with (cbe * (cw * cw) + cbe * ci * (sw * sw) - sbe * si * sw) by ring.
      assert (Rabs (sbe * si * sw) <= 1 / 100). { rewrite !Rabs_mult. assert (Rabs sbe <= 1063 / 10000) by (apply Rabs_le; lra). assert (Rabs si <= 2693 / 100000) by (apply Rabs_le; lra). assert (Rabs sw <= 1) by (apply Rabs_le; lra).
        pose proof (Rabs_pos sbe). pose proof (Rabs_pos si). pose proof (Rabs_pos sw). assert (Rabs sbe * Rabs si <= 1063 / 10000 * (2693 / 100000)) by (apply Rmult_le_compat; lra). assert (Rabs sbe * Rabs si * Rabs sw <= 1063 / 10000 * (2693 / 100000) * 1) by (apply Rmult_le_compat; try lra; apply Rmult_le_pos; lra). lra. }
      apply Rabs_le_inv in H1. assert (98 / 100 <= cbe * ci) by nra. assert (0 <= sw * sw) by nra. assert (0 <= cw * cw) by nra. nra. }
    destruct (Rle_or_lt (cos A * cos W + sin A * sin W) 0); nra.
  - rewrite sin_minus. assert (P : Rabs (cos b * (sin A * cos W - cos A * sin W)) <= 0.003227).
    { replace (cos b * (sin A * cos W - cos A * sin W)) with ((cos b * sin A) * cos W - (cos b * cos A) * sin W) by ring. rewrite <- E1, <- E2.
      set (cw := cos W) in *. set (sw := sin W) in *. set (cbe := cos be) in *. set (sbe := sin be) in *. set (ci := cos moonI) in *. set (si := sin moonI) in *. clearbody cw sw cbe sbe ci si. clear - SI1 SI2 CI CI2 HI Sb Cbe Bce BS BC.
      assert (0 <= 1 - ci <= 0.0003627) by (decimals; nra). assert (0 <= si <= 0.02693) by (decimals; nra). decimals_in H. decimals_in H0.
      replace ((sw * cbe * ci - sbe * si) * cw - cw * cbe * sw) with (- (cw * (sw * cbe * (1 - ci) + sbe * si))) by ring. rewrite Rabs_Ropp, Rabs_mult.
      assert (Rabs (sw * cbe * (1 - ci)) <= 3627 / 10000000). { rewrite !Rabs_mult, (Rabs_pos_eq (1 - ci)), (Rabs_pos_eq cbe) by lra. assert (Rabs sw <= 1) by (apply Rabs_le; lra). pose proof (Rabs_pos sw). assert (0 <= Rabs sw * cbe <= 1) by nra. nra. }
      assert (Rabs (sbe * si) <= 1063 / 10000 * (2693 / 100000)). { rewrite Rabs_mult, (Rabs_pos_eq si) by lra. assert (Rabs sbe <= 1063 / 10000) by (apply Rabs_le; lra). pose proof (Rabs_pos sbe). apply Rmult_le_compat; lra. }
      pose proof (Rabs_triang (sw * cbe * (1 - ci)) (sbe * si)). assert (Rabs cw <= 1) by (apply Rabs_le; lra). pose proof (Rabs_pos cw). pose proof (Rabs_pos (sw * cbe * (1 - ci) + sbe * si)). decimals. nra. }
    rewrite Rabs_mult, (Rabs_pos_eq (cos b)) in P by lra. decimals_in P. pose proof (degrees_val 0.19 ltac:(decimals; lra)) as V. set (d := degrees 0.19) in *. decimals_in V. destruct (small_trig d ltac:(lra)) as ((S1 & _) & _).
    assert (d * d * d <= 1 / 1000000). { assert (d * d <= 34 / 10000 * (34 / 10000)) by nra. nra. }
    set (x := Rabs (sin A * cos W - cos A * sin W)) in *. assert (0 <= x) by apply Rabs_pos. nra.
Qed.
