(** Lemmas for P_season2: the instants of solstice against the longitude of solar. *)
From Coq Require Import ZArith Reals List Lra Lia Psatz Bool.
From Flocq Require Import Core.
From Verif Require Import GoFloat GoMath M_base M_coord M_precess M_solar M_season S_solar S_season L_base L_trig L_kepler L_precess L_solar L_season L_apparent2 L_taylor.
Import ListNotations.
Local Open Scope R_scope.

(** ** Taylor models of the longitude at the mean instants *)
Definition tq (z : Z) (d : positive) : tm := tm_qp [(z, d)].
Lemma tq_ok z d : tm_ok (fun _ => IZR z / IZR (Zpos d)) (tq z d).
Proof. eapply tm_ext; [|apply tm_qp_ok]. intros x _. cbn [qp]. field. apply not_0_IZR. discriminate. Qed.
Definition tlist (C : list Z) : list (Z * positive) := match C with [] => [] | c :: C' => ((c - 245154500000)%Z, 3652500000%positive) :: map (fun z => (z, 3652500000%positive)) C' end.
Definition tT (C : list Z) : tm := tm_qp (tlist C).
Definition fT (C : list Z) (x : R) : R := qp (tlist C) x.
Lemma tT_ok C : tm_ok (fT C) (tT C). Proof. apply tm_qp_ok. Qed.
(** Linear term, quadratic term, minus whole turns. *)
Definition tpoly (C : list Z) (a0 : Z) (d0 : positive) (a1 : Z) (d1 : positive) (a2 : Z) (d2 : positive) (o : Z) : tm :=
  tm_sub (tm_add (tq a0 d0) (tm_add (tm_mul (tq a1 d1) (tT C)) (tm_mul (tq a2 d2) (tm_mul (tT C) (tT C))))) (tm_qp [(o, 1%positive); (360000%Z, 1%positive)]).
Definition fpoly (a0 a1 a2 o : R) (T x : R) : R := a0 + (a1 * T + a2 * (T * T)) - (o + 360000 * x).
Lemma tpoly_ok C a0 d0 a1 d1 a2 d2 o : tm_ok (fun x => fpoly (IZR a0 / IZR (Zpos d0)) (IZR a1 / IZR (Zpos d1)) (IZR a2 / IZR (Zpos d2)) (IZR o) (fT C x) x) (tpoly C a0 d0 a1 d1 a2 d2 o).
Proof.
  unfold fpoly, tpoly. apply tm_sub_ok.
  - apply (tm_add_ok (fun _ => IZR a0 / IZR (Zpos d0))); [apply tq_ok|]. apply (tm_add_ok (fun x => IZR a1 / IZR (Zpos d1) * fT C x)).
    + apply (tm_mul_ok (fun _ => IZR a1 / IZR (Zpos d1))); [apply tq_ok|apply tT_ok].
    + apply (tm_mul_ok (fun _ => IZR a2 / IZR (Zpos d2))); [apply tq_ok|]. apply tm_mul_ok; apply tT_ok.
  - eapply tm_ext; [|apply tm_qp_ok]. intros x _. cbn [qp]. field.
Qed.
Definition trad (m : tm) : tm := tm_mul m (tm_mul (tq 3600 1) tm_sec).
Lemma trad_ok f m : tm_ok f m -> tm_ok (fun x => degrees (f x)) (trad m).
Proof.
  intros H. eapply tm_ext; [|exact (tm_mul_ok _ _ _ _ H (tm_mul_ok _ _ _ _ (tq_ok 3600 1) tm_sec_ok))]. intros x _. cbv beta. unfold degrees. field.
Qed.
(** Sine and cosine of an angle of up to four radians. *)
Definition quad (m : tm) : tm * tm := let q := ang_small (tm_divz 4 m) in let h := ang_add q q in ang_add h h.
Lemma quad_ok t m : tm_ok t m -> (tm_abs (tm_divz 4 m) <=? SC)%Z = true -> ang_ok t (quad m).
Proof.
  intros T H. unfold quad. cbv zeta. pose proof (ang_small_ok _ _ (tm_divz_ok 4 _ _ ltac:(reflexivity) T) H) as A. pose proof (ang_add_ok _ _ _ _ A A) as B. eapply ang_ext; [|exact (ang_add_ok _ _ _ _ B B)]. intros x _. cbv beta. lra.
Qed.
Definition quarter (k : Z) : tm * tm := match k with 0%Z => (tm_zero, tm_one) | 1%Z => (tm_one, tm_zero) | 2%Z => (tm_zero, tm_opp tm_one) | _ => (tm_opp tm_one, tm_zero) end.
Lemma quarter_ok k : (0 <= k <= 3)%Z -> ang_ok (fun _ => degrees (90 * IZR k)) (quarter k).
Proof.
  intros H. assert (S1 : sin (degrees 90) = 1 /\ cos (degrees 90) = 0). { replace (degrees 90) with (PI / 2) by (unfold degrees; field). rewrite sin_PI2, cos_PI2. auto. }
  assert (S2 : sin (degrees 180) = 0 /\ cos (degrees 180) = -1). { replace (degrees 180) with PI by (unfold degrees; field). rewrite sin_PI, cos_PI. auto. }
  assert (S3 : sin (degrees 270) = -1 /\ cos (degrees 270) = 0). { replace (degrees 270) with (PI + PI / 2) by (unfold degrees; field). rewrite sin_plus, cos_plus, sin_PI, cos_PI, sin_PI2, cos_PI2. split; ring. }
  assert (S0 : sin (degrees 0) = 0 /\ cos (degrees 0) = 1). { replace (degrees 0) with 0 by (unfold degrees; field). rewrite sin_0, cos_0. auto. }
  assert (D : (k = 0 \/ k = 1 \/ k = 2 \/ k = 3)%Z) by lia. destruct D as [-> | [-> | [-> | ->]]]; cbn [quarter].
  - replace (90 * 0) with 0 by ring. split; cbn [fst snd]; rewrite ?(proj1 S0), ?(proj2 S0); [apply tm_zero_ok|apply tm_one_ok].
  - replace (90 * 1) with 90 by ring. split; cbn [fst snd]; rewrite ?(proj1 S1), ?(proj2 S1); [apply tm_one_ok|apply tm_zero_ok].
  - replace (90 * 2) with 180 by ring. split; cbn [fst snd]; rewrite ?(proj1 S2), ?(proj2 S2); [apply tm_zero_ok|exact (tm_opp_ok _ _ tm_one_ok)].
  - replace (90 * 3) with 270 by ring. split; cbn [fst snd]; rewrite ?(proj1 S3), ?(proj2 S3); [exact (tm_opp_ok _ _ tm_one_ok)|apply tm_zero_ok].
Qed.
Section Season.
Variables (C : list Z) (k o om : Z).
Definition t_l : tm := tpoly C 28046646 100000 3600076983 100000 3032 10000000 o.
Definition t_m : tm := trad (tpoly C 35752911 100000 3599905029 100000 (-1537) 10000000 om).
Definition a_M : tm * tm := ang_add (quarter k) (quad t_m).
Definition t_C : tm :=
  let T := tT C in let M2 := ang_add a_M a_M in let M3 := ang_add a_M M2 in
  tm_add (tm_mul (tm_add (tq 1914602 1000000) (tm_add (tm_mul (tq (-4817) 1000000) T) (tm_mul (tq (-14) 1000000) (tm_mul T T)))) (fst a_M))
    (tm_add (tm_mul (tm_add (tq 19993 1000000) (tm_mul (tq (-101) 1000000) T)) (fst M2)) (tm_mul (tq 289 1000000) (fst M3))).
Definition t_d : tm := tm_sub (tm_add t_l t_C) (tq 569 100000).
Definition fL (T : R) : R := 280.46646 + 36000.76983 * T + 0.0003032 * (T * T).
Definition fM (T : R) : R := 357.52911 + 35999.05029 * T - 0.0001537 * (T * T).
Definition fA1 (T : R) : R := 1.914602 - 0.004817 * T - 0.000014 * (T * T).
Definition fA2 (T : R) : R := 0.019993 - 0.000101 * T.
Definition fC (T M : R) : R := fA1 T * sin M + fA2 T * sin (2 * M) + 0.000289 * sin (3 * M).
Definition lam (T : R) : R := fL T + fC T (degrees (fM T)).
Hypothesis HK : (0 <= k <= 3)%Z.
Hypothesis HM : (tm_abs (tm_divz 4 t_m) <=? SC)%Z = true.
Let m (x : R) : R := degrees (fpoly (35752911 / 100000) (3599905029 / 100000) (-1537 / 10000000) (IZR om) (fT C x) x).
Lemma a_M_ok : ang_ok (fun x => degrees (90 * IZR k) + m x) a_M.
Proof. unfold a_M. apply ang_add_ok; [apply quarter_ok, HK|]. apply quad_ok; [|exact HM]. unfold m, t_m. apply trad_ok, tpoly_ok. Qed.
Lemma t_C_ok : tm_ok (fun x => fC (fT C x) (degrees (90 * IZR k) + m x)) t_C.
Proof.
  pose proof a_M_ok as A1. pose proof (ang_add_ok _ _ _ _ A1 A1) as A2. pose proof (ang_add_ok _ _ _ _ A1 A2) as A3. destruct A1 as [A1 _]. destruct A2 as [A2 _]. destruct A3 as [A3 _]. pose proof (tT_ok C) as TK.
  eapply tm_ext; [|exact (tm_add_ok _ _ _ _ (tm_mul_ok _ _ _ _ (tm_add_ok _ _ _ _ (tq_ok 1914602 1000000) (tm_add_ok _ _ _ _ (tm_mul_ok _ _ _ _ (tq_ok (-4817) 1000000) TK) (tm_mul_ok _ _ _ _ (tq_ok (-14) 1000000) (tm_mul_ok _ _ _ _ TK TK)))) A1)
    (tm_add_ok _ _ _ _ (tm_mul_ok _ _ _ _ (tm_add_ok _ _ _ _ (tq_ok 19993 1000000) (tm_mul_ok _ _ _ _ (tq_ok (-101) 1000000) TK)) A2) (tm_mul_ok _ _ _ _ (tq_ok 289 1000000) A3)))].
  intros x _. cbv beta. unfold fC, fA1, fA2. replace (2 * (degrees (90 * IZR k) + m x)) with (degrees (90 * IZR k) + m x + (degrees (90 * IZR k) + m x)) by ring.
  replace (3 * (degrees (90 * IZR k) + m x)) with (degrees (90 * IZR k) + m x + (degrees (90 * IZR k) + m x + (degrees (90 * IZR k) + m x))) by ring. decimals. field.
Qed.
Lemma t_d_ok : tm_ok (fun x => fpoly (28046646 / 100000) (3600076983 / 100000) (3032 / 10000000) (IZR o) (fT C x) x + fC (fT C x) (degrees (90 * IZR k) + m x) - 569 / 100000) t_d.
Proof. unfold t_d. apply tm_sub_ok; [|apply (tq_ok 569 100000)]. apply tm_add_ok; [apply tpoly_ok|apply t_C_ok]. Qed.
Lemma mean_instant x n j kap : x = IZR n / 1000 -> (-1000 <= n <= 1000)%Z -> om = (360 * j + 90 * k)%Z -> IZR (tm_abs t_d) <= kap * IZR SC ->
  Rabs (lam (fT C x) - (IZR o + 360 * IZR n) - 0.00569) <= kap.
Proof.
  intros Ex Hn Eo B. assert (Hx : Rabs x <= 1). { rewrite Ex. destruct Hn as [H1 H2]. apply IZR_le in H1, H2. apply Rabs_le. lra. }
  pose proof (tm_abs_ok _ _ t_d_ok x Hx) as Q. cbv beta in Q.
  assert (EM : fC (fT C x) (degrees (90 * IZR k) + m x) = fC (fT C x) (degrees (fM (fT C x)))).
  { assert (E : degrees (fM (fT C x)) = degrees (90 * IZR k) + m x + IZR (j + n) * (2 * PI)). { unfold m, fM, fpoly, degrees. generalize (fT C x). intros t. rewrite Ex, Eo, !plus_IZR, !mult_IZR. decimals. field. }
    rewrite E. unfold fC. set (y := degrees (90 * IZR k) + m x). replace (2 * (y + IZR (j + n) * (2 * PI))) with (2 * y + IZR (2 * (j + n)) * (2 * PI)) by (rewrite mult_IZR; ring). replace (3 * (y + IZR (j + n) * (2 * PI))) with (3 * y + IZR (3 * (j + n)) * (2 * PI)) by (rewrite mult_IZR; ring). rewrite !sin_Z. reflexivity. }
  rewrite EM in Q. apply Rmult_le_reg_r with (IZR SC); [apply SC_pos|]. eapply Rle_trans; [|exact B]. eapply Rle_trans; [|exact Q]. apply Req_le. f_equal. f_equal. unfold lam, fL, fpoly. generalize (fC (fT C x) (degrees (fM (fT C x)))). generalize (fT C x). intros t c. rewrite Ex. decimals. field.
Qed.
End Season.
Definition C_mc2 := [245162380984; 36524237404; 5169; -411; -57]%Z.
Definition C_jc2 := [245171656767; 36524162603; 325; 888; -30]%Z.
Definition C_sc2 := [245181021715; 36524201767; -11575; 337; 78]%Z.
Definition C_dc2 := [245190005952; 36524274049; -6223; -823; 32]%Z.
Definition C_mc0 := [172113929189; 36524213740; 6134; 111; -71]%Z.
Definition C_jc0 := [172123325401; 36524172562; -5232; 907; 25]%Z.
Definition C_sc0 := [172132570455; 36524249558; -11677; -297; 74]%Z.
Definition C_dc0 := [172141439987; 36524288257; -769; -933; -6]%Z.

(** ** From the mean instant to the corrected one *)
Lemma sin_lin a h : Rabs h <= 1 -> Rabs (sin (a + h) - sin a - h * cos a) <= h * h.
Proof.
  intros H. rewrite sin_plus. replace (sin a * cos h + cos a * sin h - sin a - h * cos a) with (sin a * (cos h - 1) + cos a * (sin h - h)) by ring.
  assert (C : Rabs (cos h - 1) <= h * h / 2).
  { pose proof (cos10 h H) as Q. pose proof (COS_bound h). assert (E : cos h = 1 - 2 * (sin (h / 2) * sin (h / 2))) by (replace h with (2 * (h / 2)) at 1 by field; rewrite cos_2a_sin; ring).
    assert (SB : Rabs (sin (h / 2)) <= Rabs (h / 2)). { pose proof (sin_lip (h / 2) 0) as X. rewrite sin_0, !Rminus_0_r in X. exact X. }
    assert (Q2 : sin (h / 2) * sin (h / 2) <= h * h / 4). { replace (sin (h / 2) * sin (h / 2)) with (Rabs (sin (h / 2)) * Rabs (sin (h / 2))) by (rewrite <- Rabs_mult; apply Rabs_pos_eq, Rle_0_sqr). replace (h * h / 4) with (Rabs (h / 2) * Rabs (h / 2)) by (rewrite <- Rabs_mult, Rabs_pos_eq; [field|apply Rle_0_sqr]). apply Rmult_le_compat; auto using Rabs_pos. }
    pose proof (Rle_0_sqr (sin (h / 2))) as P. unfold Rsqr in P. apply Rabs_le. lra. }
  assert (Sn : Rabs (sin h - h) <= h * h / 2).
  { pose proof (sin9 h H) as Q. assert (H2 : 0 <= h * h <= 1) by (apply abs_le_inv in H; nra). assert (A9 : Rabs h ^ 9 <= h * h). { replace (Rabs h ^ 9) with ((Rabs h * Rabs h) * (Rabs h ^ 7)) by ring. rewrite <- Rabs_mult, (Rabs_pos_eq (h * h)) by lra. assert (Rabs h ^ 7 <= 1). { rewrite <- (pow1 7). apply pow_incr. split; [apply Rabs_pos|exact H]. } assert (0 <= Rabs h ^ 7) by (apply pow_le, Rabs_pos). nra. }
    assert (P : Rabs (h ^ 3) <= h * h). { replace (h ^ 3) with (h * h * h) by ring. rewrite Rabs_mult, (Rabs_pos_eq (h * h)) by lra. pose proof (Rabs_pos h). nra. }
    assert (P5 : Rabs (h ^ 5) <= h * h). { replace (h ^ 5) with (h * h * h ^ 3) by ring. rewrite Rabs_mult, (Rabs_pos_eq (h * h)) by lra. pose proof (Rabs_pos (h ^ 3)). nra. }
    assert (P7 : Rabs (h ^ 7) <= h * h). { replace (h ^ 7) with (h * h * h ^ 5) by ring. rewrite Rabs_mult, (Rabs_pos_eq (h * h)) by lra. pose proof (Rabs_pos (h ^ 5)). nra. }
    apply abs_le_inv in Q, P, P5, P7. apply Rabs_le. lra. }
  eapply Rle_trans; [apply Rabs_triang|]. rewrite !Rabs_mult. pose proof (SIN_bound a). pose proof (COS_bound a). assert (Rabs (sin a) <= 1) by (apply Rabs_le; lra). assert (Rabs (cos a) <= 1) by (apply Rabs_le; lra).
  pose proof (Rabs_pos (cos h - 1)). pose proof (Rabs_pos (sin h - h)). pose proof (Rabs_pos (sin a)). pose proof (Rabs_pos (cos a)). nra.
Qed.

Lemma mulb x y a b : Rabs x <= a -> Rabs y <= b -> Rabs (x * y) <= a * b.
Proof. intros. rewrite Rabs_mult. apply Rmult_le_compat; auto using Rabs_pos. Qed.
Lemma addb x y a b : Rabs x <= a -> Rabs y <= b -> Rabs (x + y) <= a + b.
Proof. intros. eapply Rle_trans; [apply Rabs_triang|]. lra. Qed.
Lemma cos1 x : Rabs (cos x) <= 1. Proof. apply Rabs_le. apply COS_bound. Qed.
Lemma sin1 x : Rabs (sin x) <= 1. Proof. apply Rabs_le. apply SIN_bound. Qed.
Definition kdl : R := 36525 * 0.98565.
Lemma lam_step T D : Rabs T <= 30.1 -> Rabs D <= 0.000000575 -> Rabs (lam (T + D) - lam T - kdl * D * season_dl T) <= 0.000185.
Proof.
  intros HT HD. pose proof PI_10 as PB. unfold lam. set (M := degrees (fM T)). set (M' := degrees (fM (T + D))). set (mu := M' - M).
  assert (TT : Rabs (T * T) <= 906.01) by (pose proof (mulb T T _ _ HT HT); lra).
  set (g := 35999.05029 - 0.0001537 * (2 * T + D)). assert (Eg : mu = degrees (g * D)). { unfold mu, M', M, g, fM, degrees. ring. }
  assert (Hg : 35999 <= g <= 35999.1). { unfold g. apply abs_le_inv in HT, HD. lra. }
  assert (Hmu : Rabs mu <= 0.000362). { rewrite Eg. unfold degrees. rewrite !Rabs_mult, (Rabs_pos_eq g), (Rabs_pos_eq (PI / 180)) by lra. pose proof (Rabs_pos D). assert (g * Rabs D <= 36000 * 0.000000575) by (apply Rmult_le_compat; lra). assert (0 <= g * Rabs D) by nra. nra. }
  assert (S1 : Rabs (sin M' - sin M - mu * cos M) <= 0.0000002). { replace M' with (M + mu) by (unfold mu; ring). eapply Rle_trans; [apply sin_lin; lra|]. apply abs_le_inv in Hmu. nra. }
  assert (S2 : Rabs (sin (2 * M') - sin (2 * M) - 2 * mu * cos (2 * M)) <= 0.0000006). { replace (2 * M') with (2 * M + 2 * mu) by (unfold mu; ring). eapply Rle_trans; [apply sin_lin; rewrite Rabs_mult, (Rabs_pos_eq 2); lra|]. apply abs_le_inv in Hmu. nra. }
  assert (S3 : Rabs (sin (3 * M') - sin (3 * M) - 3 * mu * cos (3 * M)) <= 0.000002). { replace (3 * M') with (3 * M + 3 * mu) by (unfold mu; ring). eapply Rle_trans; [apply sin_lin; rewrite Rabs_mult, (Rabs_pos_eq 3); lra|]. apply abs_le_inv in Hmu. nra. }
  set (W := 35999373 / 1000 * PI / 180 * T - 247 / 100 * PI / 180).
  assert (MW : Rabs (M - 2 * PI - W) <= 0.1721).
  { replace (M - 2 * PI - W) with ((-0.00089 - 0.32271 * T - 0.0001537 * (T * T)) * (PI / 180)) by (unfold M, W, fM, degrees; decimals; field). rewrite Rabs_mult, (Rabs_pos_eq (PI / 180)) by lra.
    assert (X : Rabs (-0.00089 - 0.32271 * T - 0.0001537 * (T * T)) <= 9.8548). { apply abs_le_inv in HT, TT. apply Rabs_le. lra. } pose proof (Rabs_pos (-0.00089 - 0.32271 * T - 0.0001537 * (T * T))). nra. }
  assert (C1 : Rabs (cos M - cos W) <= 0.1721). { replace (cos M) with (cos (M - 2 * PI)). eapply Rle_trans; [apply cos_lip|exact MW]. replace (M - 2 * PI) with (M + IZR (-1) * (2 * PI)) by ring. apply cos_Z. }
  assert (C2 : Rabs (cos (2 * M) - cos (2 * W)) <= 0.3442). { replace (cos (2 * M)) with (cos (2 * (M - 2 * PI))). eapply Rle_trans; [apply cos_lip|]. replace (2 * (M - 2 * PI) - 2 * W) with (2 * (M - 2 * PI - W)) by ring. rewrite Rabs_mult, (Rabs_pos_eq 2); lra. replace (2 * (M - 2 * PI)) with (2 * M + IZR (-2) * (2 * PI)) by ring. apply cos_Z. }
  assert (HG : 628.30 <= degrees g <= 628.303). { unfold degrees. nra. }
  assert (Emu : mu = degrees g * D) by (rewrite Eg; unfold degrees; ring). set (G := degrees g) in *. clearbody G.
  assert (A1 : Rabs (fA1 T - 1.914602) <= 0.1577). { unfold fA1. apply abs_le_inv in HT, TT. apply Rabs_le. lra. }
  assert (A2 : Rabs (fA2 T - 0.019993) <= 0.00305). { unfold fA2. apply abs_le_inv in HT. apply Rabs_le. lra. }
  assert (dA1 : Rabs (fA1 (T + D) - fA1 T) <= 0.00000001). { replace (fA1 (T + D) - fA1 T) with (D * (- 0.004817 - 0.000014 * (2 * T + D))) by (unfold fA1; decimals; field). assert (Rabs (- 0.004817 - 0.000014 * (2 * T + D)) <= 0.01) by (apply abs_le_inv in HT, HD; apply Rabs_le; lra). pose proof (mulb _ _ _ _ HD H). lra. }
  assert (dA2 : Rabs (fA2 (T + D) - fA2 T) <= 0.00000001). { unfold fA2. apply abs_le_inv in HD. apply Rabs_le. lra. }
  assert (E : fL (T + D) + fC (T + D) M' - (fL T + fC T M) - kdl * D * season_dl T =
    D * ((36000.76983 + 0.0003032 * (2 * T + D) - kdl) + (fA1 T * G * cos M - kdl * 0.0334 * cos W) + (2 * fA2 T * G * cos (2 * M) - kdl * 0.0007 * cos (2 * W)) + 3 * 0.000289 * G * cos (3 * M))
    + ((fA1 (T + D) - fA1 T) * sin M' + (fA2 (T + D) - fA2 T) * sin (2 * M'))
    + (fA1 T * (sin M' - sin M - mu * cos M) + fA2 T * (sin (2 * M') - sin (2 * M) - 2 * mu * cos (2 * M)) + 0.000289 * (sin (3 * M') - sin (3 * M) - 3 * mu * cos (3 * M)))).
  { unfold season_dl. fold W. rewrite Emu. unfold fL, fC. decimals. field. }
  rewrite E. clear E.
  assert (K : kdl = 36000.86625) by (unfold kdl; lra).
  assert (B1 : Rabs (36000.76983 + 0.0003032 * (2 * T + D) - kdl) <= 0.12). { rewrite K. apply abs_le_inv in HT, HD. apply Rabs_le. lra. }
  assert (B2 : Rabs (fA1 T * G * cos M - kdl * 0.0334 * cos W) <= 307).
  { replace (fA1 T * G * cos M - kdl * 0.0334 * cos W) with ((fA1 T * G - kdl * 0.0334) * cos M + kdl * 0.0334 * (cos M - cos W)) by ring.
    assert (X : Rabs (fA1 T * G - kdl * 0.0334) <= 99.8). { rewrite K. apply abs_le_inv in A1. apply Rabs_le. nra. }
    assert (Y : Rabs (kdl * 0.0334) <= 1202.5). { rewrite K. apply Rabs_le. lra. }
    pose proof (addb _ _ _ _ (mulb _ _ _ _ X (cos1 M)) (mulb _ _ _ _ Y C1)). lra. }
  assert (B3 : Rabs (2 * fA2 T * G * cos (2 * M) - kdl * 0.0007 * cos (2 * W)) <= 12.7).
  { replace (2 * fA2 T * G * cos (2 * M) - kdl * 0.0007 * cos (2 * W)) with ((2 * fA2 T * G - kdl * 0.0007) * cos (2 * M) + kdl * 0.0007 * (cos (2 * M) - cos (2 * W))) by ring.
    assert (X : Rabs (2 * fA2 T * G - kdl * 0.0007) <= 4). { rewrite K. apply abs_le_inv in A2. apply Rabs_le. nra. }
    assert (Y : Rabs (kdl * 0.0007) <= 25.21). { rewrite K. apply Rabs_le. lra. }
    pose proof (addb _ _ _ _ (mulb _ _ _ _ X (cos1 (2 * M))) (mulb _ _ _ _ Y C2)). lra. }
  assert (B4 : Rabs (3 * 0.000289 * G * cos (3 * M)) <= 0.55). { assert (X : Rabs (3 * 0.000289 * G) <= 0.55) by (apply Rabs_le; lra). pose proof (mulb _ _ _ _ X (cos1 (3 * M))). lra. }
  pose proof (mulb _ _ _ _ HD (addb _ _ _ _ (addb _ _ _ _ (addb _ _ _ _ B1 B2) B3) B4)) as Q1.
  pose proof (addb _ _ _ _ (mulb _ _ _ _ dA1 (sin1 M')) (mulb _ _ _ _ dA2 (sin1 (2 * M')))) as Q2.
  assert (A1' : Rabs (fA1 T) <= 2.1) by (apply abs_le_inv in A1; apply Rabs_le; lra). assert (A2' : Rabs (fA2 T) <= 0.03) by (apply abs_le_inv in A2; apply Rabs_le; lra). assert (A3' : Rabs 0.000289 <= 0.000289) by (apply Rabs_le; lra).
  pose proof (addb _ _ _ _ (addb _ _ _ _ (mulb _ _ _ _ A1' S1) (mulb _ _ _ _ A2' S2)) (mulb _ _ _ _ A3' S3)) as Q3.
  pose proof (addb _ _ _ _ (addb _ _ _ _ Q1 Q2) Q3). lra.
Qed.

Lemma season_sum_node T : Rabs (season_sum T - 485 * sin (solarNode T)) <= 1493.
Proof.
  rewrite season_sum_sumR. unfold season_terms. cbn [map]. unfold sumR. cbn [fold_right].
  replace (cos ((32496 / 100 + 1934136 / 1000 * T) * PI / 180)) with (sin (solarNode T)).
  2:{ unfold solarNode, AngleFromDeg. rewrite <- cos_shift. rewrite <- (cos_Z _ 1). f_equal. field. }
  repeat match goal with |- context [cos ?a] => let c := fresh "c" in pose proof (cos1 a) as c; set (cos a) in * ; apply abs_le_inv in c end.
  apply Rabs_le. split; lra.
Qed.
(** ** One table *)
Lemma corrected C k o om c y n j kap bound : (0 <= k <= 3)%Z -> (tm_abs (tm_divz 4 (t_m C om)) <=? SC)%Z = true -> (-1000 <= n <= 1000)%Z -> om = (360 * j + 90 * k)%Z -> o = om ->
  IZR (tm_abs (t_d C k o om)) <= kap * IZR SC -> (forall x, fT C x = (HornerR x c - 2451545) / 36525) -> (forall x, Rabs x <= 1 -> Rabs (fT C x) <= 30.1) -> y = n -> kap + 0.0149051 <= bound ->
  exists L, same_angle (ApparentLongitude ((season_eq y c - 2451545) / 36525)) L /\ Rabs (L - degrees (90 * IZR k)) <= degrees bound.
Proof.
  intros HK HM Hn Eo Eoo B ET BT Ey Hb. set (x := IZR n / 1000). assert (Hx : Rabs x <= 1). { unfold x. destruct Hn as [H1 H2]. apply IZR_le in H1, H2. apply Rabs_le. lra. }
  pose proof (mean_instant C k o om HK HM x n j kap eq_refl Hn Eo B) as Q. set (T := fT C x) in *. pose proof (BT x Hx) as HT. fold T in HT.
  unfold season_eq. subst y. replace (IZR n * (1 / 1000)) with x by (unfold x; field). rewrite century. rewrite <- (ET x). fold T. set (de := 1 / 100000 * season_sum T / season_dl T).
  assert (HJ : HornerR x c = 2451545 + 36525 * T) by (unfold T; rewrite ET; field). rewrite HJ. set (D := de / 36525). replace ((2451545 + 36525 * T + de - 2451545) / 36525) with (T + D) by (unfold D; field).
  assert (HD : Rabs D <= 0.000000575). { pose proof (season_corr T) as X. fold de in X. unfold D, Rdiv. rewrite Rabs_mult, (Rabs_pos_eq (/ 36525)) by lra. lra. }
  pose proof (lam_step T D HT HD) as Q2.
  assert (DL : 0.9 <= season_dl T). { unfold season_dl. set (W := 35999373 / 1000 * PI / 180 * T - 247 / 100 * PI / 180). cbv zeta. pose proof (COS_bound W). pose proof (COS_bound (2 * W)). lra. }
  assert (E1 : kdl * D * season_dl T = 0.0000098565 * season_sum T). { unfold kdl, D, de. decimals. field. lra. } rewrite E1 in Q2.
  pose proof (season_sum_node T) as Q3.
  assert (Q4 : Rabs (sin (solarNode (T + D)) - sin (solarNode T)) <= 0.00002). { eapply Rle_trans; [apply sin_lip|]. replace (solarNode (T + D) - solarNode T) with (- (1934136 / 1000 * (PI / 180)) * D) by (unfold solarNode, AngleFromDeg; field). rewrite Rabs_mult, Rabs_Ropp, Rabs_pos_eq by (pose proof PI_10; lra). pose proof (Rabs_pos D). pose proof PI_10. nra. }
  pose proof (sin1 (solarNode T)) as Q5.
  set (L0 := lam (T + D) - 0.00569 - 0.00478 * sin (solarNode (T + D)) - (IZR o + 360 * IZR n)).
  exists (degrees (90 * IZR k + L0)). split.
  - pose proof (solarTrue_value (T + D)) as V. unfold ApparentLongitude. destruct (solarTrue (T + D)) as [s nu]. cbn [fst]. destruct V as (_ & _ & [w V] & _). exists (w + j + n)%Z. rewrite V. unfold L0, lam, fL, fC, fA1, fA2, fM. rewrite Eoo, Eo, !plus_IZR, !mult_IZR.
    replace (357.52911 + 35999.05029 * (T + D) - 0.0001537 * ((T + D) * (T + D))) with (357.52911 + 35999.05029 * (T + D) - 0.0001537 * (T + D) ^ 2) by ring. set (M := degrees (357.52911 + 35999.05029 * (T + D) - 0.0001537 * (T + D) ^ 2)). unfold degrees, AngleFromDeg. decimals. field.
  - replace (degrees (90 * IZR k + L0) - degrees (90 * IZR k)) with (L0 * (PI / 180)) by (unfold degrees; ring). unfold degrees. rewrite Rabs_mult, (Rabs_pos_eq (PI / 180)) by (pose proof PI_10; lra). apply Rmult_le_compat_r; [pose proof PI_10; lra|].
    apply abs_le_inv in Q, Q2, Q3, Q4, Q5. unfold L0. apply Rabs_le. split; lra.
Qed.
Lemma fT_bound C : (tm_abs (tT C) * 10 <=? 301 * SC)%Z = true -> forall x, Rabs x <= 1 -> Rabs (fT C x) <= 30.1.
Proof.
  intros H x Hx. pose proof (tm_abs_ok _ _ (tT_ok C) x Hx) as Q. apply Z.leb_le, IZR_le in H. rewrite !mult_IZR in H. pose proof SC_pos. apply Rmult_le_reg_r with (IZR SC); [assumption|]. lra.
Qed.
Lemma kap_ok m z d : (tm_abs m * Zpos d <=? z * SC)%Z = true -> IZR (tm_abs m) <= IZR z / IZR (Zpos d) * IZR SC.
Proof.
  intros H. apply Z.leb_le, IZR_le in H. rewrite !mult_IZR in H. assert (0 < IZR (Zpos d)) by (apply IZR_lt; reflexivity). apply Rmult_le_reg_r with (IZR (Zpos d)); [assumption|]. replace (IZR z / IZR (Zpos d) * IZR SC * IZR (Zpos d)) with (IZR z * IZR SC) by (field; lra). exact H.
Qed.
Ltac table C c := intros x; unfold fT, tlist, C, c; cbn [qp map]; rewrite ?minus_IZR; rewrite HornerR_poly by discriminate; rewrite !poly_cons, !poly_nil; field.
Ltac one C c k om j z := intros Hn; match goal with |- context [season_eq ?y _] => apply (corrected C k om om c y y j (IZR z / 1000000)) end; [lia|vm_compute; reflexivity|exact Hn|reflexivity|reflexivity|apply kap_ok; vm_compute; reflexivity|table C c|apply fT_bound; vm_compute; reflexivity|reflexivity|lra].
Notation near y c k b := (exists L, same_angle (ApparentLongitude ((season_eq y c - 2451545) / 36525)) L /\ Rabs (L - degrees (90 * IZR k)) <= degrees b).
Lemma mc2_sun n : (-1000 <= n <= 1000)%Z -> near n mc2 0%Z 0.0155. Proof. one C_mc2 mc2 0%Z 360%Z 1%Z 585%Z. Qed.
Lemma jc2_sun n : (-1000 <= n <= 1000)%Z -> near n jc2 1%Z 0.0155. Proof. one C_jc2 jc2 1%Z 450%Z 1%Z 585%Z. Qed.
Lemma sc2_sun n : (-1000 <= n <= 1000)%Z -> near n sc2 2%Z 0.0155. Proof. one C_sc2 sc2 2%Z 540%Z 1%Z 585%Z. Qed.
Lemma dc2_sun n : (-1000 <= n <= 1000)%Z -> near n dc2 3%Z 0.0155. Proof. one C_dc2 dc2 3%Z 630%Z 1%Z 585%Z. Qed.
Lemma mc0_sun n : (-1000 <= n <= 1000)%Z -> near n mc0 0%Z 0.022. Proof. one C_mc0 mc0 0%Z (-719640)%Z (-1999)%Z 6810%Z. Qed.
Lemma jc0_sun n : (-1000 <= n <= 1000)%Z -> near n jc0 1%Z 0.022. Proof. one C_jc0 jc0 1%Z (-719550)%Z (-1999)%Z 6810%Z. Qed.
Lemma sc0_sun n : (-1000 <= n <= 1000)%Z -> near n sc0 2%Z 0.022. Proof. one C_sc0 sc0 2%Z (-719460)%Z (-1999)%Z 6810%Z. Qed.
Lemma dc0_sun n : (-1000 <= n <= 1000)%Z -> near n dc0 3%Z 0.022. Proof. one C_dc0 dc0 3%Z (-719370)%Z (-1999)%Z 6810%Z. Qed.
Lemma by_year_sun c0 c2 k : (forall n, (-1000 <= n <= 1000)%Z -> near n c2 k 0.0155) -> (forall n, (-1000 <= n <= 1000)%Z -> near n c0 k 0.022) ->
  forall y, let near_sun b := exists L, same_angle (ApparentLongitude ((by_year c0 c2 y - 2451545) / 36525)) L /\ Rabs (L - degrees (90 * IZR k)) <= degrees b in
  ((1000 <= y <= 3000)%Z -> near_sun 0.0155) /\ ((-1000 <= y < 1000)%Z -> near_sun 0.022).
Proof.
  intros H2 H0 y near_sun. unfold near_sun, by_year. split; intros Hy; destruct (Z.ltb_spec y 1000); try lia; [apply H2|apply H0]; lia.
Qed.
Lemma seasons_sun y : let near_sun t a b := exists L, same_angle (ApparentLongitude ((t - 2451545) / 36525)) L /\ Rabs (L - a) <= degrees b in
  ((1000 <= y <= 3000)%Z -> near_sun (March y) 0 0.0155 /\ near_sun (June y) (PI / 2) 0.0155 /\ near_sun (September y) PI 0.0155 /\ near_sun (December y) (3 * PI / 2) 0.0155) /\
  ((-1000 <= y < 1000)%Z -> near_sun (March y) 0 0.022 /\ near_sun (June y) (PI / 2) 0.022 /\ near_sun (September y) PI 0.022 /\ near_sun (December y) (3 * PI / 2) 0.022).
Proof.
  intros near_sun. pose proof (by_year_sun _ _ _ mc2_sun mc0_sun y) as A. pose proof (by_year_sun _ _ _ jc2_sun jc0_sun y) as B. pose proof (by_year_sun _ _ _ sc2_sun sc0_sun y) as C. pose proof (by_year_sun _ _ _ dc2_sun dc0_sun y) as D. cbv zeta in A, B, C, D.
  replace (degrees (90 * 0)) with 0 in A by (unfold degrees; field). replace (degrees (90 * 1)) with (PI / 2) in B by (unfold degrees; field). replace (degrees (90 * 2)) with PI in C by (unfold degrees; field). replace (degrees (90 * 3)) with (3 * PI / 2) in D by (unfold degrees; field).
  unfold near_sun. split; intros Hy; repeat split; try (apply A; exact Hy); try (apply B; exact Hy); try (apply C; exact Hy); try (apply D; exact Hy).
Qed.
