(** Lemmas for planetelements. *)
From Coq Require Import ZArith Reals List Lra Lia.
From Flocq Require Import Core.
From Verif Require Import GoFloat GoMath S_base M_base M_precess S_solar S_planetelements M_planetelements L_trig L_base L_precess L_solar.
Import ListNotations.
Local Open Scope R_scope.

Definition planet (p : Z) : Prop := (0 <= p < 8)%Z.
Lemma row_none p : row p = None <-> ~ planet p.
Proof.
  unfold row, planet. destruct (Z.ltb_spec p 0) as [L|L]; [split; [lia|reflexivity]|].
  rewrite nth_error_None. change (List.length cMean) with 8%nat. lia.
Qed.
Lemma planet_cases p : planet p -> (p = 0 \/ p = 1 \/ p = 2 \/ p = 3 \/ p = 4 \/ p = 5 \/ p = 6 \/ p = 7)%Z.
Proof. unfold planet. lia. Qed.

(** Closed forms. *)
Definition deg3 (a b c d T : R) : R := a + T * (b + T * (c + T * d)).
Lemma Hor1 T a : Horner (fl := RFlt) T ([a] : list R) = Some a. Proof. reflexivity. Qed.
Lemma Hor2 T a b : Horner (fl := RFlt) T ([a; b] : list R) = Some (a + T * b).
Proof. rewrite Horner_poly by discriminate. rewrite !poly_cons, poly_nil. f_equal. ring. Qed.
Lemma Hor3 T a b c : Horner (fl := RFlt) T ([a; b; c] : list R) = Some (a + T * (b + T * c)).
Proof. rewrite Horner_poly by discriminate. rewrite !poly_cons, poly_nil. f_equal. ring. Qed.
Lemma Hor4 T a b c d : Horner (fl := RFlt) T ([a; b; c; d] : list R) = Some (deg3 a b c d T).
Proof. rewrite Horner_poly by discriminate. rewrite !poly_cons, poly_nil. unfold deg3. f_equal. ring. Qed.
Lemma Mean_panics p jde : Mean p jde = None <-> ~ planet p \/ p = Earth.
Proof.
  destruct (row p) as [c|] eqn:E.
  - assert (P : planet p) by (destruct (Z.leb_spec 0 p), (Z.ltb_spec p 8); [unfold planet; lia | | |]; exfalso; destruct (row_none p) as [_ H1]; rewrite H1 in E by (unfold planet; lia); discriminate).
    split; [|intros [N|N]; [contradiction|]].
    + destruct (planet_cases p P) as [-> | [-> | [-> | [-> | [-> | [-> | [-> | ->]]]]]]]; intros H; try (right; reflexivity); unfold Mean, bind in H; cbv beta zeta in H; discriminate.
    + subst p. reflexivity.
  - split; [intros _; left; apply row_none, E|]. intros _. unfold Mean. cbv zeta. rewrite E. reflexivity.
Qed.
Lemma Node_panics p jde : Node p jde = None <-> ~ planet p \/ p = Earth.
Proof.
  destruct (row p) as [c|] eqn:E.
  - assert (P : planet p) by (destruct (Z.leb_spec 0 p), (Z.ltb_spec p 8); [unfold planet; lia | | |]; exfalso; destruct (row_none p) as [_ H1]; rewrite H1 in E by (unfold planet; lia); discriminate).
    split; [|intros [N|N]; [contradiction|]].
    + destruct (planet_cases p P) as [-> | [-> | [-> | [-> | [-> | [-> | [-> | ->]]]]]]]; intros H; try (right; reflexivity); unfold Node, bind in H; cbv beta zeta in H; discriminate.
    + subst p. reflexivity.
  - split; [intros _; left; apply row_none, E|]. intros _. unfold Node. rewrite E. reflexivity.
Qed.

(** Bounds of the polynomials for 20 centuries. *)
Lemma deg3_bound a b c d T : Rabs T <= 20 -> Rabs (deg3 a b c d T - a) <= 20 * Rabs b + 400 * Rabs c + 8000 * Rabs d.
Proof.
  intros H. unfold deg3. replace (a + T * (b + T * (c + T * d)) - a) with (T * b + T * T * c + T * T * T * d) by ring.
  assert (H2 : Rabs (T * T) <= 400) by (rewrite Rabs_mult; pose proof (Rabs_pos T); nra).
  assert (H3 : Rabs (T * T * T) <= 8000) by (rewrite Rabs_mult; pose proof (Rabs_pos T); pose proof (Rabs_pos (T * T)); nra).
  eapply Rle_trans; [apply Rabs_triang|]. apply Rplus_le_compat; [eapply Rle_trans; [apply Rabs_triang|]; apply Rplus_le_compat|]; rewrite Rabs_mult; apply Rmult_le_compat_r; try apply Rabs_pos; assumption.
Qed.
Definition T_of (jde : R) : R := (jde - 2451545) / 36525.
Ltac rabs := repeat match goal with |- context [Rabs (- ?x)] => rewrite (Rabs_Ropp x) | |- context [Rabs (?a / ?b)] => rewrite (Rabs_pos_eq (a / b)) by lra | |- context [Rabs 0] => rewrite Rabs_R0 end.
Ltac rabs_in H := repeat match type of H with context [Rabs (- ?x)] => rewrite (Rabs_Ropp x) in H | context [Rabs (?a / ?b)] => rewrite (Rabs_pos_eq (a / b)) in H by lra | context [Rabs 0] => rewrite Rabs_R0 in H end.
Ltac bound_deg3 HT := repeat match goal with |- context [deg3 ?a ?b ?c ?d ?T] =>
   let B := fresh "B" in pose proof (deg3_bound a b c d T HT) as B; rabs_in B; apply Rabs_le_inv in B; let v := fresh "v" in set (v := deg3 a b c d T) in *; clearbody v end.
Ltac znat := repeat match goal with |- context [Z.to_nat ?z] => let n := eval compute in (Z.to_nat z) in change (Z.to_nat z) with n end.
Definition scal (l : list R) (p : Z) : R := nth (Z.to_nat p) l 0.
Lemma deg_lt' a b : a < b -> degrees a < degrees b.
Proof. unfold degrees. pose proof PI_RGT_0. intros. apply Rmult_lt_compat_r; lra. Qed.
Lemma deg_pos a : 0 < a -> 0 < degrees a.
Proof. unfold degrees. pose proof PI_RGT_0. intros. apply Rmult_lt_0_compat; lra. Qed.
Ltac case_planets P N := destruct (planet_cases _ P) as [-> | [-> | [-> | [-> | [-> | [-> | [-> | ->]]]]]]]; try (exfalso; apply N; reflexivity).
Lemma Mean_row p jde la a l0 l1 l2 l3 e0 e1 e2 e3 i0 i1 i2 i3 o0 o1 o2 o3 w0 w1 w2 w3 :
  row p = Some (mkC6 [l0; l1; l2; l3] la [e0; e1; e2; e3] [i0; i1; i2; i3] [o0; o1; o2; o3] [w0; w1; w2; w3]) -> Horner (fl := RFlt) (T_of jde) la = Some a ->
  Mean p jde = Some (mkElements (Mod1 (AngleFromDeg (deg3 l0 l1 l2 l3 (T_of jde)))) a (deg3 e0 e1 e2 e3 (T_of jde)) (AngleFromDeg (deg3 i0 i1 i2 i3 (T_of jde))) (AngleFromDeg (deg3 o0 o1 o2 o3 (T_of jde))) (AngleFromDeg (deg3 w0 w1 w2 w3 (T_of jde)))) /\
  Inc p jde = Some (AngleFromDeg (deg3 i0 i1 i2 i3 (T_of jde))) /\ Node p jde = Some (AngleFromDeg (deg3 o0 o1 o2 o3 (T_of jde))).
Proof.
  intros H Ha. unfold Mean, Inc, Node, T_of in *. rewrite century in *. rewrite H. cbn [bind cL ca ce ci cO cp].
  rewrite !Hor4. cbn [bind]. rewrite Ha. cbn [bind]. split; [reflexivity|]. split; reflexivity.
Qed.
Ltac axis_row := first [apply Hor3 | apply Hor2 | apply Hor1].
Lemma elements_range p jde : planet p -> p <> Earth -> Rabs (T_of jde) <= 20 -> exists e, Mean p jde = Some e /\ Inc p jde = Some (eInc e) /\ Node p jde = Some (eNode e) /\
  0 <= eLon e < 2 * PI /\ Rabs (eAxis e - scal mean_distance p) <= scal mean_distance p / 1000 /\ 0 < eEcc e < 0.21 /\
  0 < eInc e < degrees 7.1 /\ 0 < eNode e < 2 * PI /\ - degrees 20 < ePeri e < 2 * PI + degrees 20.
Proof.
  intros P N HT. assert (HP := PI_RGT_0).
  case_planets P N; match goal with |- exists e, Mean ?q _ = _ /\ _ => edestruct (Mean_row q jde) as (E1 & E2 & E3); [reflexivity | axis_row |] end; rewrite E1, E2, E3; clear E1 E2 E3; (eexists; split; [reflexivity|]); (split; [reflexivity|]); (split; [reflexivity|]);
  cbn [eLon eAxis eEcc eInc eNode ePeri]; (split; [apply Mod1_bound|]); 
  (split; [unfold scal, mean_distance; znat; cbn [nth]; decimals; apply Rabs_le_inv in HT; assert (0 <= T_of jde * T_of jde <= 400) by nra; apply Rabs_le; lra|]);
  replace (2 * PI + degrees 20) with (degrees 380) by (unfold degrees; field); replace (2 * PI) with (degrees 360) by (unfold degrees; field); replace (- degrees 20) with (degrees (- 20)) by (unfold degrees; field);
  change AngleFromDeg with degrees; bound_deg3 HT; decimals; (split; [lra|]); (split; [split; [apply deg_pos | apply deg_lt']; lra|]); (split; [split; [apply deg_pos | apply deg_lt']; lra|]); split; apply deg_lt'; lra.
Qed.

(** Orbits do not meet: aphelion of one planet, perihelion of a more distant one. *)
Lemma axis_ecc p jde : planet p -> p <> Earth -> Rabs (T_of jde) <= 20 -> exists e, Mean p jde = Some e /\
  match p with 0%Z => 0.30 < eAxis e * (1 - eEcc e) /\ eAxis e * (1 + eEcc e) < 0.48 | 1%Z => 0.70 < eAxis e * (1 - eEcc e) /\ eAxis e * (1 + eEcc e) < 0.75
   | 3%Z => 1.3 < eAxis e * (1 - eEcc e) /\ eAxis e * (1 + eEcc e) < 1.7 | 4%Z => 4.8 < eAxis e * (1 - eEcc e) /\ eAxis e * (1 + eEcc e) < 5.6
   | 5%Z => 8.8 < eAxis e * (1 - eEcc e) /\ eAxis e * (1 + eEcc e) < 10.3 | 6%Z => 18 < eAxis e * (1 - eEcc e) /\ eAxis e * (1 + eEcc e) < 20.3
   | _ => 29 < eAxis e * (1 - eEcc e) /\ eAxis e * (1 + eEcc e) < 31 end.
Proof.
  intros P N HT.
  destruct (elements_range p jde P N HT) as (e & E & _ & _ & _ & A & _). exists e. split; [exact E|].
  assert (B : match p with 0%Z => 0.2 < eEcc e < 0.21 | 1%Z => 0.003 < eEcc e < 0.01 | 3%Z => 0.09 < eEcc e < 0.1 | 4%Z => 0.04 < eEcc e < 0.06 | 5%Z => 0.04 < eEcc e < 0.07 | 6%Z => 0.04 < eEcc e < 0.05 | _ => 0.009 < eEcc e < 0.01 end).
  { clear A. revert E. case_planets P N; match goal with |- Mean ?q _ = _ -> _ => edestruct (Mean_row q jde) as (E1 & _ & _); [reflexivity | axis_row |] end; rewrite E1; intros E; injection E as <-;
    cbn [eEcc]; bound_deg3 HT; decimals; lra. }
  revert A B. unfold scal, mean_distance. clear E. set (a := eAxis e). set (x := eEcc e). clearbody a x.
  case_planets P N; znat; cbn [nth]; decimals; intros A B; apply Rabs_le_inv in A; split; nra.
Qed.
Lemma no_meeting p q jde jde' : planet p -> planet q -> p <> Earth -> q <> Earth -> (p < q)%Z -> Rabs (T_of jde) <= 20 -> Rabs (T_of jde') <= 20 ->
  exists e f, Mean p jde = Some e /\ Mean q jde' = Some f /\ eAxis e * (1 + eEcc e) < eAxis f * (1 - eEcc f).
Proof.
  intros P Q NP NQ L HT HT'. destruct (axis_ecc p jde P NP HT) as (e & E & A). destruct (axis_ecc q jde' Q NQ HT') as (f & F & B). exists e, f. split; [exact E|]. split; [exact F|].
  clear E F HT HT'. revert A B. set (a := eAxis e * (1 + eEcc e)). set (b := eAxis f * (1 - eEcc f)). set (c := eAxis e * (1 - eEcc e)). set (d := eAxis f * (1 + eEcc f)). clearbody a b c d.
  case_planets P NP; case_planets Q NQ; try lia; decimals; lra.
Qed.

(** Mean motion. *)
Definition unwound (p : Z) (jde : R) : R := match row p with Some c => AngleFromDeg (poly (cL c) (T_of jde)) | None => 0 end.
Lemma unwound_row p jde la l0 l1 l2 l3 ee ii oo ww : row p = Some (mkC6 [l0; l1; l2; l3] la ee ii oo ww) -> unwound p jde = AngleFromDeg (deg3 l0 l1 l2 l3 (T_of jde)).
Proof. intros H. unfold unwound. rewrite H. cbn [cL]. rewrite !poly_cons, poly_nil. f_equal. unfold deg3. ring. Qed.
Lemma Lon_unwound p jde e : Mean p jde = Some e -> same_angle (eLon e) (unwound p jde).
Proof.
  intros E. assert (PN : planet p /\ p <> Earth).
  { destruct (Z.leb_spec 0 p), (Z.ltb_spec p 8), (Z.eqb_spec p 2); try (unfold planet, Earth; split; lia); exfalso; destruct (Mean_panics p jde) as [_ M]; rewrite M in E; try discriminate; unfold planet, Earth; lia. }
  destruct PN as [P N]. revert E.
  case_planets P N; match goal with |- Mean ?q _ = _ -> _ => edestruct (Mean_row q jde) as (E1 & _ & _); [reflexivity | axis_row |]; rewrite E1; intros E; injection E as <-; cbn [eLon]; erewrite (unwound_row q) by reflexivity end; apply Mod1_same.
Qed.
Lemma rate_bound l0 l1 l2 l3 T V : Rabs T <= 20 -> Rabs V <= 20 -> T <= V -> Rabs (deg3 l0 l1 l2 l3 V - deg3 l0 l1 l2 l3 T - l1 * (V - T)) <= (40 * Rabs l2 + 1200 * Rabs l3) * (V - T).
Proof.
  intros HT HV L. unfold deg3. apply Rabs_le_inv in HT. apply Rabs_le_inv in HV.
  replace (l0 + V * (l1 + V * (l2 + V * l3)) - (l0 + T * (l1 + T * (l2 + T * l3))) - l1 * (V - T)) with ((l2 * (V + T) + l3 * (V * V + V * T + T * T)) * (V - T)) by ring.
  rewrite Rabs_mult, (Rabs_pos_eq (V - T)) by lra. apply Rmult_le_compat_r; [lra|].
  assert (A : Rabs (V + T) <= 40) by (apply Rabs_le; lra).
  assert (B : Rabs (V * V + V * T + T * T) <= 1200). { apply Rabs_le. assert (0 <= V * V <= 400) by nra. assert (0 <= T * T <= 400) by nra. assert (-400 <= V * T <= 400) by (split; nra). lra. }
  eapply Rle_trans; [apply Rabs_triang|]. rewrite !Rabs_mult. pose proof (Rabs_pos l2). pose proof (Rabs_pos l3). nra.
Qed.
Lemma mean_motion p s t : planet p -> p <> Earth -> Rabs (T_of s) <= 20 -> Rabs (T_of t) <= 20 -> s <= t ->
  Rabs (unwound p t - unwound p s - 2 * PI * (t - s) / scal tropical_period p) <= 2 * PI * (t - s) / scal tropical_period p / 1000.
Proof.
  intros P N HS HT L. assert (HP := PI_RGT_0).
  assert (LT : T_of s <= T_of t) by (unfold T_of; lra).
  assert (E : t - s = (T_of t - T_of s) * 36525) by (unfold T_of; field). rewrite E.
  case_planets P N; match goal with |- Rabs (unwound ?q _ - _ - _) <= _ => rewrite !(unwound_row q _ _ _ _ _ _ _ _ _ _ eq_refl) end;
  unfold scal, tropical_period, AngleFromDeg; znat; cbn [nth]; decimals;
  match goal with |- Rabs (deg3 ?a ?b ?c ?d ?V * _ - deg3 _ _ _ _ ?T * _ - 2 * PI * ?w / ?q) <= _ => pose proof (rate_bound a b c d T V HS HT LT) as B; rabs_in B; apply Rabs_le_inv in B; set (u := deg3 a b c d V) in *; set (v := deg3 a b c d T) in *; clearbody u v;
    replace (u * (PI / 180) - v * (PI / 180) - 2 * PI * w / q) with ((u - v - 360 * w / q) * (PI / 180)) by field;
    replace (2 * PI * w / q / 1000) with (360 * w / q / 1000 * (PI / 180)) by field end;
  rewrite Rabs_mult, (Rabs_pos_eq (PI / 180)) by lra; (apply Rmult_le_compat_r; [lra|]); apply Rabs_le; lra.
Qed.
Lemma elements_example : planet Mercury /\ Mercury <> Earth /\ Rabs (T_of 2475460.5) <= 20.
Proof. unfold planet, Mercury, Earth. split; [lia|]. split; [lia|]. unfold T_of. decimals. apply Rabs_le. lra. Qed.
