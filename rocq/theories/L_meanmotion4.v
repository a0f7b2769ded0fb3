(** The mean instants of planetary and perihelion against the mean elements of planetelements. *)
From Coq Require Import ZArith QArith Qreals Reals List Lia Lra Bool.
From Flocq Require Import Core.
From Verif Require Import GoFloat GoMath M_base M_precess M_planetary M_planetelements S_solar S_moon S_meanmotion L_trig L_precess L_light L_solar L_planetelements L_meanmotion L_meanmotion2.
Import ListNotations.
Local Open Scope R_scope.

Lemma HornerR2 x a b : HornerR x [a; b] = a + x * b.
Proof. unfold HornerR. unfold Horner. cbn [rev List.app horner_loop]. cbn [fadd fmul RFlt]. ring. Qed.
Ltac qpoly := rewrite ?HornerR5, ?HornerR4, ?HornerR3, ?HornerR2; unfold qeval; cbn [fold_right]; unfold degrees, Q2R; cbn [Qnum Qden]; decimals; field.
Lemma Mean_angles p jde e l0 l1 l2 l3 la ee ii oo w0 w1 w2 w3 : row p = Some (mkC6 [l0; l1; l2; l3] la ee ii oo [w0; w1; w2; w3]) -> Mean p jde = Some e ->
  (exists k : Z, eLon e = degrees (deg3 l0 l1 l2 l3 (centuries jde)) + IZR k * (2 * PI)) /\ ePeri e = degrees (deg3 w0 w1 w2 w3 (centuries jde)).
Proof.
  intros Hr. unfold Mean. rewrite century. fold (centuries jde). rewrite Hr. cbn [bind cL cp M_planetelements.ca ce ci cO]. rewrite !Hor4. cbn [bind].
  repeat (match goal with |- bind ?h _ = _ -> _ => destruct h; [cbn [bind] | discriminate] end).
  intros E. injection E as <-. cbn [eLon ePeri]. split; [| reflexivity].
  destruct (Mod1_same (AngleFromDeg (deg3 l0 l1 l2 l3 (centuries jde)))) as (k & Ek). exists k. rewrite Ek. reflexivity.
Qed.
Ltac row_lon H := eapply Mean_angles in H; [| reflexivity]; destruct H as ((k & Ek) & Ew); exists k, k; rewrite Ew, Ek; unfold deg3; split; apply (f_equal (fun z => z + _)).
Lemma qnear_spec' P J C n B b x : qnear P J C n B b = true -> Rabs x <= Q2R B -> Rabs (qeval P (qeval J x) - qeval C x - 360 * IZR n) <= Q2R b.
Proof. apply qnear_spec. Qed.
Lemma near_of {z w n b} : Rabs (z - w - 360 * IZR n) <= Q2R b -> forall (u m : Z) a d, a = degrees (z - w - 360 * IZR n) + IZR (u + m) * (2 * PI) -> d = degrees (Q2R b) -> near_turns a d.
Proof.
  intros K u m a d -> ->. exists (u + m)%Z. replace (degrees (z - w - 360 * IZR n) + IZR (u + m) * (2 * PI) - IZR (u + m) * (2 * PI)) with (degrees (z - w - 360 * IZR n)) by ring.
  unfold degrees. pose proof PI_RGT_0. rewrite Rabs_mult, (Rabs_right (PI / 180)) by lra. apply Rmult_le_compat_r; lra.
Qed.
Lemma pl_range y a : Rabs (y - 2000) <= 2000 -> 2451500 <= caA a <= 2452200 -> 0 < caB a <= 800 -> exists n : Z, pl_k y a = IZR n /\ Rabs (IZR n * caB a / 36525) <= Q2R (201 # 10).
Proof.
  intros H A B. exists (Zfloor ((365.2425 * y + 1721060 - caA a) / caB a + 0.5)). split; [reflexivity |].
  set (z := (365.2425 * y + 1721060 - caA a) / caB a). assert (Ez : z * caB a = 365.2425 * y + 1721060 - caA a) by (unfold z; field; lra). clearbody z.
  pose proof (Zfloor_lb (z + 0.5)) as L. pose proof (Zfloor_ub (z + 0.5)) as U. set (k := IZR (Zfloor _)) in *. clearbody k. decimals_in L. decimals_in U. decimals_in Ez. apply Rabs_le_inv in H.
  assert (K1 : k * caB a <= (z + 1 / 2) * caB a) by nra. assert (K2 : (z - 1 / 2) * caB a <= k * caB a) by nra.
  unfold Q2R. cbn [Qnum Qden]. apply Rabs_le. lra.
Qed.
Lemma pl_M_turns y a : exists v : Z, pl_M y a = degrees (caM0 a + pl_k y a * caM1 a) + IZR v * (2 * PI).
Proof.
  unfold pl_M. destruct (PMod_eq (caM0 a + pl_k y a * caM1 a) 360 ltac:(lra)) as (v & E). exists v. rewrite E. unfold degrees. field.
Qed.
Definition qMercury : list Q := [(75892223) # 500000; (1134733024191) # 10000000; (3) # 10000000; (9) # 500000000].
Definition qaMercury : list Q := [(174794787) # 1000000; (298945031543) # 2000000; (403) # 50000000; (9) # 1000000000].
Lemma Mercury_lon jde e : Mean M_planetelements.Mercury jde = Some e -> exists k m : Z, eLon e = degrees (earth_longitude (centuries jde)) + degrees (qeval qMercury (centuries jde)) + IZR k * (2 * PI) /\
  eLon e = ePeri e + degrees (qeval qaMercury (centuries jde)) + IZR m * (2 * PI).
Proof. intros H. row_lon H. - unfold earth_longitude, qMercury. qpoly. - unfold qaMercury. qpoly. Qed.
Definition qVenus : list Q := [(81513341) # 1000000; (112592216001) # 5000000; (347) # 50000000; (3) # 200000000].
Definition qaVenus : list Q := [(25208049) # 500000; (292589054007) # 5000000; (17329) # 12500000; (5693) # 1000000000].
Lemma Venus_lon jde e : Mean M_planetelements.Venus jde = Some e -> exists k m : Z, eLon e = degrees (earth_longitude (centuries jde)) + degrees (qeval qVenus (centuries jde)) + IZR k * (2 * PI) /\
  eLon e = ePeri e + degrees (qeval qaVenus (centuries jde)) + IZR m * (2 * PI).
Proof. intros H. row_lon H. - unfold earth_longitude, qVenus. qpoly. - unfold qaVenus. qpoly. Qed.
Definition qMars : list Q := [(12748327) # 50000; (-168590733829) # 10000000; (183) # 25000000; (1) # 62500000].
Definition qaMars : list Q := [(9686383) # 500000; (95699277011) # 5000000; (703) # 4000000; (-13) # 25000000].
Lemma Mars_lon jde e : Mean M_planetelements.Mars jde = Some e -> exists k m : Z, eLon e = degrees (earth_longitude (centuries jde)) + degrees (qeval qMars (centuries jde)) + IZR k * (2 * PI) /\
  eLon e = ePeri e + degrees (qeval qaMars (centuries jde)) + IZR m * (2 * PI).
Proof. intros H. row_lon H. - unfold earth_longitude, qMars. qpoly. - unfold qaMars. qpoly. Qed.
Definition qJupiter : list Q := [(-66114941) # 1000000; (-41205583819) # 1250000; (-799) # 10000000; (37) # 1000000000].
Definition qaJupiter : list Q := [(2502539) # 125000; (7586725349) # 2500000; (-10089) # 12500000; (4501) # 1000000000].
Lemma Jupiter_lon jde e : Mean M_planetelements.Jupiter jde = Some e -> exists k m : Z, eLon e = degrees (earth_longitude (centuries jde)) + degrees (qeval qJupiter (centuries jde)) + IZR k * (2 * PI) /\
  eLon e = ePeri e + degrees (qeval qaJupiter (centuries jde)) + IZR m * (2 * PI).
Proof. intros H. row_lon H. - unfold earth_longitude, qJupiter. qpoly. - unfold qaJupiter. qpoly. Qed.
Definition qSaturn : list Q := [(-6298627) # 125000; (-173886293807) # 5000000; (5397) # 25000000; (-3) # 100000000].
Definition qaSaturn : list Q := [(-42979793) # 1000000; (12215473073) # 10000000; (-6369) # 20000000; (-2479) # 500000000].
Lemma Saturn_lon jde e : Mean M_planetelements.Saturn jde = Some e -> exists k m : Z, eLon e = degrees (earth_longitude (centuries jde)) + degrees (qeval qSaturn (centuries jde)) + IZR k * (2 * PI) /\
  eLon e = ePeri e + degrees (qeval qaSaturn (centuries jde)) + IZR m * (2 * PI).
Proof. intros H. row_lon H. - unfold earth_longitude, qSaturn. qpoly. - unfold qaSaturn. qpoly. Qed.
Definition qUranus : list Q := [(42717709) # 200000; (-355709057739) # 10000000; (7) # 10000000; (13) # 500000000].
Definition qaUranus : list Q := [(70524857) # 500000; (4283776771) # 10000000; (1123) # 12500000; (-51) # 125000000].
Lemma Uranus_lon jde e : Mean M_planetelements.Uranus jde = Some e -> exists k m : Z, eLon e = degrees (earth_longitude (centuries jde)) + degrees (qeval qUranus (centuries jde)) + IZR k * (2 * PI) /\
  eLon e = ePeri e + degrees (qeval qaUranus (centuries jde)) + IZR m * (2 * PI).
Proof. intros H. row_lon H. - unfold earth_longitude, qUranus. qpoly. - unfold qaUranus. qpoly. Qed.
Definition qNeptune : list Q := [(40776441) # 200000; (-44726108151) # 1250000; (281) # 50000000; (9) # 500000000].
Definition qaNeptune : list Q := [(256228389) # 1000000; (436914027) # 2000000; (-59) # 781250; (-1) # 500000000].
Lemma Neptune_lon jde e : Mean M_planetelements.Neptune jde = Some e -> exists k m : Z, eLon e = degrees (earth_longitude (centuries jde)) + degrees (qeval qNeptune (centuries jde)) + IZR k * (2 * PI) /\
  eLon e = ePeri e + degrees (qeval qaNeptune (centuries jde)) + IZR m * (2 * PI).
Proof. intros H. row_lon H. - unfold earth_longitude, qNeptune. qpoly. - unfold qaNeptune. qpoly. Qed.
Definition mic_J : list Q := [(22341) # 12175000; (1) # 1].
Definition mic_C : list Q := [(0) # 1; (43830000000000) # 386258257].
Definition mic_M : list Q := [(635867) # 10000; (13904930433850) # 386258257].
Lemma mic_event y : Rabs (y - 2000) <= 2000 -> let jde := pl_J y micA in forall e, Mean M_planetelements.Mercury jde = Some e ->
  near_turns (eLon e - degrees (earth_longitude (centuries jde) + 0)) (degrees 0.00750) /\ near_turns (degrees (sun_anomaly (centuries jde)) - pl_M y micA) (degrees 0.06347).
Proof.
  intros H jde e He. destruct (Mercury_lon jde e He) as (u & _ & E & _). pose proof (pl_range y micA H ltac:(cbn; decimals; lra) ltac:(cbn; decimals; lra)) as (n & En & Rx).
  pose (x := IZR n * caB micA / 36525). fold x in Rx.
  assert (C : centuries jde = qeval mic_J x). { unfold jde, pl_J, centuries, x, mic_J. rewrite En. cbn [caA caB micA]. qpoly. }
  split.
  - rewrite E. pose proof (qnear_spec' qMercury mic_J mic_C (1) (201 # 10) (3 # 400) x ltac:(vm_compute; reflexivity) Rx) as K. rewrite <- C in K.
    revert K. set (z := qeval _ (centuries jde)). set (w := earth_longitude _). clearbody z w. intros K. apply (near_of K u (1 * n + (1))). + unfold degrees, mic_C, x. cbn [caB micA]. rewrite !plus_IZR, ?mult_IZR. qpoly. + unfold degrees, Q2R; cbn [Qnum Qden]; decimals; field.
  - pose proof (qnear_spec' qM mic_J mic_M (1) (201 # 10) (6347 # 100000) x ltac:(vm_compute; reflexivity) Rx) as K. rewrite <- C in K.
    destruct (pl_M_turns y micA) as (v & Ev). rewrite Ev, En, qM_eval. revert K. set (z := qeval _ (centuries jde)). clearbody z. intros K. apply (near_of K (- v) (0 * n + (1))). + unfold degrees, mic_M, x. cbn [caB caM0 caM1 micA]. rewrite !plus_IZR, ?mult_IZR, ?opp_IZR. qpoly. + unfold degrees, Q2R; cbn [Qnum Qden]; decimals; field.
Qed.
Definition msc_J : list Q := [(757) # 3043750; (1) # 1].
Definition msc_C : list Q := [(180) # 1; (43830000000000) # 386258257].
Definition msc_M : list Q := [(32411) # 5000; (13904930433850) # 386258257].
Lemma msc_event y : Rabs (y - 2000) <= 2000 -> let jde := pl_J y mscA in forall e, Mean M_planetelements.Mercury jde = Some e ->
  near_turns (eLon e - degrees (earth_longitude (centuries jde) + 180)) (degrees 0.00669) /\ near_turns (degrees (sun_anomaly (centuries jde)) - pl_M y mscA) (degrees 0.06327).
Proof.
  intros H jde e He. destruct (Mercury_lon jde e He) as (u & _ & E & _). pose proof (pl_range y mscA H ltac:(cbn; decimals; lra) ltac:(cbn; decimals; lra)) as (n & En & Rx).
  pose (x := IZR n * caB mscA / 36525). fold x in Rx.
  assert (C : centuries jde = qeval msc_J x). { unfold jde, pl_J, centuries, x, msc_J. rewrite En. cbn [caA caB mscA]. qpoly. }
  split.
  - rewrite E. pose proof (qnear_spec' qMercury msc_J msc_C (0) (201 # 10) (669 # 100000) x ltac:(vm_compute; reflexivity) Rx) as K. rewrite <- C in K.
    revert K. set (z := qeval _ (centuries jde)). set (w := earth_longitude _). clearbody z w. intros K. apply (near_of K u (1 * n + (0))). + unfold degrees, msc_C, x. cbn [caB mscA]. rewrite !plus_IZR, ?mult_IZR. qpoly. + unfold degrees, Q2R; cbn [Qnum Qden]; decimals; field.
  - pose proof (qnear_spec' qM msc_J msc_M (1) (201 # 10) (6327 # 100000) x ltac:(vm_compute; reflexivity) Rx) as K. rewrite <- C in K.
    destruct (pl_M_turns y mscA) as (v & Ev). rewrite Ev, En, qM_eval. revert K. set (z := qeval _ (centuries jde)). clearbody z. intros K. apply (near_of K (- v) (0 * n + (1))). + unfold degrees, msc_M, x. cbn [caB caM0 caM1 mscA]. rewrite !plus_IZR, ?mult_IZR, ?opp_IZR. qpoly. + unfold degrees, Q2R; cbn [Qnum Qden]; decimals; field.
Qed.
Definition vic_J : list Q := [(225853) # 18262500; (1) # 1].
Definition vic_C : list Q := [(0) # 1; (13149000000000) # 583921361].
Definition vic_M : list Q := [(827311) # 10000; (21020614443450) # 583921361].
Lemma vic_event y : Rabs (y - 2000) <= 2000 -> let jde := pl_J y vicA in forall e, Mean M_planetelements.Venus jde = Some e ->
  near_turns (eLon e - degrees (earth_longitude (centuries jde) + 0)) (degrees 0.00323) /\ near_turns (degrees (sun_anomaly (centuries jde)) - pl_M y vicA) (degrees 0.06300).
Proof.
  intros H jde e He. destruct (Venus_lon jde e He) as (u & _ & E & _). pose proof (pl_range y vicA H ltac:(cbn; decimals; lra) ltac:(cbn; decimals; lra)) as (n & En & Rx).
  pose (x := IZR n * caB vicA / 36525). fold x in Rx.
  assert (C : centuries jde = qeval vic_J x). { unfold jde, pl_J, centuries, x, vic_J. rewrite En. cbn [caA caB vicA]. qpoly. }
  split.
  - rewrite E. pose proof (qnear_spec' qVenus vic_J vic_C (1) (201 # 10) (323 # 100000) x ltac:(vm_compute; reflexivity) Rx) as K. rewrite <- C in K.
    revert K. set (z := qeval _ (centuries jde)). set (w := earth_longitude _). clearbody z w. intros K. apply (near_of K u (1 * n + (1))). + unfold degrees, vic_C, x. cbn [caB vicA]. rewrite !plus_IZR, ?mult_IZR. qpoly. + unfold degrees, Q2R; cbn [Qnum Qden]; decimals; field.
  - pose proof (qnear_spec' qM vic_J vic_M (2) (201 # 10) (63 # 1000) x ltac:(vm_compute; reflexivity) Rx) as K. rewrite <- C in K.
    destruct (pl_M_turns y vicA) as (v & Ev). rewrite Ev, En, qM_eval. revert K. set (z := qeval _ (centuries jde)). clearbody z. intros K. apply (near_of K (- v) (1 * n + (2))). + unfold degrees, vic_M, x. cbn [caB caM0 caM1 vicA]. rewrite !plus_IZR, ?mult_IZR, ?opp_IZR. qpoly. + unfold degrees, Q2R; cbn [Qnum Qden]; decimals; field.
Qed.
Definition mo_J : list Q := [(276191) # 18262500; (1) # 1].
Definition mo_C : list Q := [(0) # 1; (-1643625000000) # 97492013].
Definition mo_M : list Q := [(1819573) # 10000; (7019239759275) # 194984026].
Lemma mo_event y : Rabs (y - 2000) <= 2000 -> let jde := pl_J y moA in forall e, Mean M_planetelements.Mars jde = Some e ->
  near_turns (eLon e - degrees (earth_longitude (centuries jde) + 0)) (degrees 0.00349) /\ near_turns (degrees (sun_anomaly (centuries jde)) - pl_M y moA) (degrees 0.06296).
Proof.
  intros H jde e He. destruct (Mars_lon jde e He) as (u & _ & E & _). pose proof (pl_range y moA H ltac:(cbn; decimals; lra) ltac:(cbn; decimals; lra)) as (n & En & Rx).
  pose (x := IZR n * caB moA / 36525). fold x in Rx.
  assert (C : centuries jde = qeval mo_J x). { unfold jde, pl_J, centuries, x, mo_J. rewrite En. cbn [caA caB moA]. qpoly. }
  split.
  - rewrite E. pose proof (qnear_spec' qMars mo_J mo_C (0) (201 # 10) (349 # 100000) x ltac:(vm_compute; reflexivity) Rx) as K. rewrite <- C in K.
    revert K. set (z := qeval _ (centuries jde)). set (w := earth_longitude _). clearbody z w. intros K. apply (near_of K u ((-1) * n + (0))). + unfold degrees, mo_C, x. cbn [caB moA]. rewrite !plus_IZR, ?mult_IZR. qpoly. + unfold degrees, Q2R; cbn [Qnum Qden]; decimals; field.
  - pose proof (qnear_spec' qM mo_J mo_M (2) (201 # 10) (787 # 12500) x ltac:(vm_compute; reflexivity) Rx) as K. rewrite <- C in K.
    destruct (pl_M_turns y moA) as (v & Ev). rewrite Ev, En, qM_eval. revert K. set (z := qeval _ (centuries jde)). clearbody z. intros K. apply (near_of K (- v) (2 * n + (2))). + unfold degrees, mo_M, x. cbn [caB caM0 caM1 moA]. rewrite !plus_IZR, ?mult_IZR, ?opp_IZR. qpoly. + unfold degrees, Q2R; cbn [Qnum Qden]; decimals; field.
Qed.
Definition jo_J : list Q := [(81407) # 9131250; (1) # 1].
Definition jo_C : list Q := [(0) # 1; (-6574500000000) # 199442023].
Definition jo_M : list Q := [(3184681) # 10000; (14359446864225) # 398884046].
Lemma jo_event y : Rabs (y - 2000) <= 2000 -> let jde := pl_J y joA in forall e, Mean M_planetelements.Jupiter jde = Some e ->
  near_turns (eLon e - degrees (earth_longitude (centuries jde) + 0)) (degrees 0.03295) /\ near_turns (degrees (sun_anomaly (centuries jde)) - pl_M y joA) (degrees 0.06412).
Proof.
  intros H jde e He. destruct (Jupiter_lon jde e He) as (u & _ & E & _). pose proof (pl_range y joA H ltac:(cbn; decimals; lra) ltac:(cbn; decimals; lra)) as (n & En & Rx).
  pose (x := IZR n * caB joA / 36525). fold x in Rx.
  assert (C : centuries jde = qeval jo_J x). { unfold jde, pl_J, centuries, x, jo_J. rewrite En. cbn [caA caB joA]. qpoly. }
  split.
  - rewrite E. pose proof (qnear_spec' qJupiter jo_J jo_C (-1) (201 # 10) (659 # 20000) x ltac:(vm_compute; reflexivity) Rx) as K. rewrite <- C in K.
    revert K. set (z := qeval _ (centuries jde)). set (w := earth_longitude _). clearbody z w. intros K. apply (near_of K u ((-1) * n + (-1))). + unfold degrees, jo_C, x. cbn [caB joA]. rewrite !plus_IZR, ?mult_IZR. qpoly. + unfold degrees, Q2R; cbn [Qnum Qden]; decimals; field.
  - pose proof (qnear_spec' qM jo_J jo_M (1) (201 # 10) (1603 # 25000) x ltac:(vm_compute; reflexivity) Rx) as K. rewrite <- C in K.
    destruct (pl_M_turns y joA) as (v & Ev). rewrite Ev, En, qM_eval. revert K. set (z := qeval _ (centuries jde)). clearbody z. intros K. apply (near_of K (- v) (1 * n + (1))). + unfold degrees, jo_M, x. cbn [caB caM0 caM1 joA]. rewrite !plus_IZR, ?mult_IZR, ?opp_IZR. qpoly. + unfold degrees, Q2R; cbn [Qnum Qden]; decimals; field.
Qed.
Definition so_J : list Q := [(10839) # 1217500; (1) # 1].
Definition so_C : list Q := [(0) # 1; (-102726562500) # 2953843].
Definition so_M : list Q := [(795043) # 2500; (13610949462675) # 378091904].
Lemma so_event y : Rabs (y - 2000) <= 2000 -> let jde := pl_J y soA in forall e, Mean M_planetelements.Saturn jde = Some e ->
  near_turns (eLon e - degrees (earth_longitude (centuries jde) + 0)) (degrees 0.08910) /\ near_turns (degrees (sun_anomaly (centuries jde)) - pl_M y soA) (degrees 0.06300).
Proof.
  intros H jde e He. destruct (Saturn_lon jde e He) as (u & _ & E & _). pose proof (pl_range y soA H ltac:(cbn; decimals; lra) ltac:(cbn; decimals; lra)) as (n & En & Rx).
  pose (x := IZR n * caB soA / 36525). fold x in Rx.
  assert (C : centuries jde = qeval so_J x). { unfold jde, pl_J, centuries, x, so_J. rewrite En. cbn [caA caB soA]. qpoly. }
  split.
  - rewrite E. pose proof (qnear_spec' qSaturn so_J so_C (-1) (201 # 10) (891 # 10000) x ltac:(vm_compute; reflexivity) Rx) as K. rewrite <- C in K.
    revert K. set (z := qeval _ (centuries jde)). set (w := earth_longitude _). clearbody z w. intros K. apply (near_of K u ((-1) * n + (-1))). + unfold degrees, so_C, x. cbn [caB soA]. rewrite !plus_IZR, ?mult_IZR. qpoly. + unfold degrees, Q2R; cbn [Qnum Qden]; decimals; field.
  - pose proof (qnear_spec' qM so_J so_M (1) (201 # 10) (63 # 1000) x ltac:(vm_compute; reflexivity) Rx) as K. rewrite <- C in K.
    destruct (pl_M_turns y soA) as (v & Ev). rewrite Ev, En, qM_eval. revert K. set (z := qeval _ (centuries jde)). clearbody z. intros K. apply (near_of K (- v) (1 * n + (1))). + unfold degrees, so_M, x. cbn [caB caM0 caM1 soA]. rewrite !plus_IZR, ?mult_IZR, ?opp_IZR. qpoly. + unfold degrees, Q2R; cbn [Qnum Qden]; decimals; field.
Qed.
Definition sc_J : list Q := [(34031) # 9131250; (1) # 1].
Definition sc_C : list Q := [(180) # 1; (-102726562500) # 2953843].
Definition sc_M : list Q := [(658467) # 5000; (13610949462675) # 378091904].
Lemma sc_event y : Rabs (y - 2000) <= 2000 -> let jde := pl_J y scA in forall e, Mean M_planetelements.Saturn jde = Some e ->
  near_turns (eLon e - degrees (earth_longitude (centuries jde) + 180)) (degrees 0.08910) /\ near_turns (degrees (sun_anomaly (centuries jde)) - pl_M y scA) (degrees 0.06302).
Proof.
  intros H jde e He. destruct (Saturn_lon jde e He) as (u & _ & E & _). pose proof (pl_range y scA H ltac:(cbn; decimals; lra) ltac:(cbn; decimals; lra)) as (n & En & Rx).
  pose (x := IZR n * caB scA / 36525). fold x in Rx.
  assert (C : centuries jde = qeval sc_J x). { unfold jde, pl_J, centuries, x, sc_J. rewrite En. cbn [caA caB scA]. qpoly. }
  split.
  - rewrite E. pose proof (qnear_spec' qSaturn sc_J sc_C (-1) (201 # 10) (891 # 10000) x ltac:(vm_compute; reflexivity) Rx) as K. rewrite <- C in K.
    revert K. set (z := qeval _ (centuries jde)). set (w := earth_longitude _). clearbody z w. intros K. apply (near_of K u ((-1) * n + (-1))). + unfold degrees, sc_C, x. cbn [caB scA]. rewrite !plus_IZR, ?mult_IZR. qpoly. + unfold degrees, Q2R; cbn [Qnum Qden]; decimals; field.
  - pose proof (qnear_spec' qM sc_J sc_M (1) (201 # 10) (3151 # 50000) x ltac:(vm_compute; reflexivity) Rx) as K. rewrite <- C in K.
    destruct (pl_M_turns y scA) as (v & Ev). rewrite Ev, En, qM_eval. revert K. set (z := qeval _ (centuries jde)). clearbody z. intros K. apply (near_of K (- v) (1 * n + (1))). + unfold degrees, sc_M, x. cbn [caB caM0 caM1 scA]. rewrite !plus_IZR, ?mult_IZR, ?opp_IZR. qpoly. + unfold degrees, Q2R; cbn [Qnum Qden]; decimals; field.
Qed.
Definition uo_J : list Q := [(219317) # 36525000; (1) # 1].
Definition uo_C : list Q := [(0) # 1; (-2629800000000) # 73931207].
Definition uo_M : list Q := [(534221) # 2500; (2661453244365) # 73931207].
Lemma uo_event y : Rabs (y - 2000) <= 2000 -> let jde := pl_J y uoA in forall e, Mean M_planetelements.Uranus jde = Some e ->
  near_turns (eLon e - degrees (earth_longitude (centuries jde) + 0)) (degrees 0.00153) /\ near_turns (degrees (sun_anomaly (centuries jde)) - pl_M y uoA) (degrees 0.06432).
Proof.
  intros H jde e He. destruct (Uranus_lon jde e He) as (u & _ & E & _). pose proof (pl_range y uoA H ltac:(cbn; decimals; lra) ltac:(cbn; decimals; lra)) as (n & En & Rx).
  pose (x := IZR n * caB uoA / 36525). fold x in Rx.
  assert (C : centuries jde = qeval uo_J x). { unfold jde, pl_J, centuries, x, uo_J. rewrite En. cbn [caA caB uoA]. qpoly. }
  split.
  - rewrite E. pose proof (qnear_spec' qUranus uo_J uo_C (0) (201 # 10) (153 # 100000) x ltac:(vm_compute; reflexivity) Rx) as K. rewrite <- C in K.
    revert K. set (z := qeval _ (centuries jde)). set (w := earth_longitude _). clearbody z w. intros K. apply (near_of K u ((-1) * n + (0))). + unfold degrees, uo_C, x. cbn [caB uoA]. rewrite !plus_IZR, ?mult_IZR. qpoly. + unfold degrees, Q2R; cbn [Qnum Qden]; decimals; field.
  - pose proof (qnear_spec' qM uo_J uo_M (1) (201 # 10) (201 # 3125) x ltac:(vm_compute; reflexivity) Rx) as K. rewrite <- C in K.
    destruct (pl_M_turns y uoA) as (v & Ev). rewrite Ev, En, qM_eval. revert K. set (z := qeval _ (centuries jde)). clearbody z. intros K. apply (near_of K (- v) (1 * n + (1))). + unfold degrees, uo_M, x. cbn [caB caM0 caM1 uoA]. rewrite !plus_IZR, ?mult_IZR, ?opp_IZR. qpoly. + unfold degrees, Q2R; cbn [Qnum Qden]; decimals; field.
Qed.
Definition no_J : list Q := [(34687) # 6087500; (1) # 1].
Definition no_C : list Q := [(0) # 1; (-13149000000000) # 367486703].
Definition no_M : list Q := [(126659) # 625; (13229172301950) # 367486703].
Lemma no_event y : Rabs (y - 2000) <= 2000 -> let jde := pl_J y noA in forall e, Mean M_planetelements.Neptune jde = Some e ->
  near_turns (eLon e - degrees (earth_longitude (centuries jde) + 0)) (degrees 0.00362) /\ near_turns (degrees (sun_anomaly (centuries jde)) - pl_M y noA) (degrees 0.06258).
Proof.
  intros H jde e He. destruct (Neptune_lon jde e He) as (u & _ & E & _). pose proof (pl_range y noA H ltac:(cbn; decimals; lra) ltac:(cbn; decimals; lra)) as (n & En & Rx).
  pose (x := IZR n * caB noA / 36525). fold x in Rx.
  assert (C : centuries jde = qeval no_J x). { unfold jde, pl_J, centuries, x, no_J. rewrite En. cbn [caA caB noA]. qpoly. }
  split.
  - rewrite E. pose proof (qnear_spec' qNeptune no_J no_C (0) (201 # 10) (181 # 50000) x ltac:(vm_compute; reflexivity) Rx) as K. rewrite <- C in K.
    revert K. set (z := qeval _ (centuries jde)). set (w := earth_longitude _). clearbody z w. intros K. apply (near_of K u ((-1) * n + (0))). + unfold degrees, no_C, x. cbn [caB noA]. rewrite !plus_IZR, ?mult_IZR. qpoly. + unfold degrees, Q2R; cbn [Qnum Qden]; decimals; field.
  - pose proof (qnear_spec' qM no_J no_M (1) (201 # 10) (3129 # 50000) x ltac:(vm_compute; reflexivity) Rx) as K. rewrite <- C in K.
    destruct (pl_M_turns y noA) as (v & Ev). rewrite Ev, En, qM_eval. revert K. set (z := qeval _ (centuries jde)). clearbody z. intros K. apply (near_of K (- v) (1 * n + (1))). + unfold degrees, no_M, x. cbn [caB caM0 caM1 noA]. rewrite !plus_IZR, ?mult_IZR, ?opp_IZR. qpoly. + unfold degrees, Q2R; cbn [Qnum Qden]; decimals; field.
Qed.
Definition peMercury_J : list Q := [(45257) # 36525000; (1) # 1].
Definition peMercury_C : list Q := [(0) # 1; (1314900000000000) # 8796934963].
Lemma peMercury_J_eval k : centuries (pe_mean M_planetary.Mercury k) = qeval peMercury_J (k * (87.96934963) / 36525).
Proof. unfold centuries, pe_mean, peMercury_J. cbn [pidx pe_c nth]. qpoly. Qed.
Lemma peMercury_event k q (n : Z) : k = IZR n + q -> Rabs (k * (87.96934963) / 36525) <= 22 -> forall e, Mean M_planetelements.Mercury (pe_mean M_planetary.Mercury k) = Some e -> near_turns (eLon e - ePeri e - degrees (360 * q)) (degrees 0.00557).
Proof.
  intros Ek Rx e He. destruct (Mercury_lon _ e He) as (_ & u & _ & E). rewrite peMercury_J_eval in E. set (x := k * _ / 36525) in *. pose proof (qnear_spec' qaMercury peMercury_J peMercury_C (1) (22 # 1) (557 # 100000) x ltac:(vm_compute; reflexivity) ltac:(unfold Q2R; cbn [Qnum Qden]; lra)) as K.
  rewrite E. revert K. set (z := qeval _ (qeval _ x)). clearbody z. intros K. apply (near_of K u (n + (1))). - unfold degrees, peMercury_C, x. rewrite Ek, !plus_IZR. qpoly. - unfold degrees, Q2R; cbn [Qnum Qden]; decimals; field.
Qed.
Definition peVenus_J : list Q := [(64411) # 12175000; (1) # 1; (-7464796875) # 315565362308690209].
Definition peVenus_C : list Q := [(0) # 1; (32872500000000) # 561752047].
Lemma peVenus_J_eval k : centuries (pe_mean M_planetary.Venus k) = qeval peVenus_J (k * (224.7008188) / 36525).
Proof. unfold centuries, pe_mean, peVenus_J. cbn [pidx pe_c nth]. qpoly. Qed.
Lemma peVenus_event k q (n : Z) : k = IZR n + q -> Rabs (k * (224.7008188) / 36525) <= 22 -> forall e, Mean M_planetelements.Venus (pe_mean M_planetary.Venus k) = Some e -> near_turns (eLon e - ePeri e - degrees (360 * q)) (degrees 0.06268).
Proof.
  intros Ek Rx e He. destruct (Venus_lon _ e He) as (_ & u & _ & E). rewrite peVenus_J_eval in E. set (x := k * _ / 36525) in *. pose proof (qnear_spec' qaVenus peVenus_J peVenus_C (1) (22 # 1) (1567 # 25000) x ltac:(vm_compute; reflexivity) ltac:(unfold Q2R; cbn [Qnum Qden]; lra)) as K.
  rewrite E. revert K. set (z := qeval _ (qeval _ x)). clearbody z. intros K. apply (near_of K u (n + (1))). - unfold degrees, peVenus_C, x. rewrite Ek, !plus_IZR. qpoly. - unfold degrees, Q2R; cbn [Qnum Qden]; decimals; field.
Qed.
Definition peEarth_J : list Q := [(2507) # 36525000; (1) # 1; (14244750000) # 3335365038618716041].
Definition peEarth_C : list Q := [(0) # 1; (65745000000000) # 1826298179].
Lemma peEarth_J_eval k : centuries (pe_mean M_planetary.Earth k) = qeval peEarth_J (k * (365.2596358) / 36525).
Proof. unfold centuries, pe_mean, peEarth_J. cbn [pidx pe_c nth]. qpoly. Qed.
Lemma peEarth_event k q (n : Z) : k = IZR n + q -> Rabs (k * (365.2596358) / 36525) <= 22 -> near_turns (degrees (sun_anomaly (centuries (pe_mean M_planetary.Earth k)) - 360 * q)) (degrees 0.00062).
Proof.
  intros Ek Rx. rewrite peEarth_J_eval. set (x := k * _ / 36525) in *. pose proof (qnear_spec' qM peEarth_J peEarth_C (1) (22 # 1) (31 # 50000) x ltac:(vm_compute; reflexivity) ltac:(unfold Q2R; cbn [Qnum Qden]; lra)) as K.
  replace (degrees (sun_anomaly (qeval peEarth_J x) - 360 * q)) with (degrees (sun_anomaly (qeval peEarth_J x)) - degrees (360 * q)) by (unfold degrees; ring). rewrite qM_eval. revert K. set (z := qeval qM _). clearbody z. intros K. apply (near_of K 0 (n + (1))). - unfold degrees, peEarth_C, x. rewrite Ek, !plus_IZR. qpoly. - unfold degrees, Q2R; cbn [Qnum Qden]; decimals; field.
Qed.
Definition peMars_J : list Q := [(325013) # 18262500; (1) # 1; (-433551750000) # 47196320956956032449].
Definition peMars_C : list Q := [(0) # 1; (131490000000000) # 6869957857].
Lemma peMars_J_eval k : centuries (pe_mean M_planetary.Mars k) = qeval peMars_J (k * (686.9957857) / 36525).
Proof. unfold centuries, pe_mean, peMars_J. cbn [pidx pe_c nth]. qpoly. Qed.
Lemma peMars_event k q (n : Z) : k = IZR n + q -> Rabs (k * (686.9957857) / 36525) <= 22 -> forall e, Mean M_planetelements.Mars (pe_mean M_planetary.Mars k) = Some e -> near_turns (eLon e - ePeri e - degrees (360 * q)) (degrees 0.00590).
Proof.
  intros Ek Rx e He. destruct (Mars_lon _ e He) as (_ & u & _ & E). rewrite peMars_J_eval in E. set (x := k * _ / 36525) in *. pose proof (qnear_spec' qaMars peMars_J peMars_C (1) (22 # 1) (59 # 10000) x ltac:(vm_compute; reflexivity) ltac:(unfold Q2R; cbn [Qnum Qden]; lra)) as K.
  rewrite E. revert K. set (z := qeval _ (qeval _ x)). clearbody z. intros K. apply (near_of K u (n + (1))). - unfold degrees, peMars_C, x. rewrite Ek, !plus_IZR. qpoly. - unfold degrees, Q2R; cbn [Qnum Qden]; decimals; field.
Qed.
Definition peJupiter_J : list Q := [(511492) # 4565625; (1) # 1; (199718700000) # 750959879035424569].
Definition peJupiter_C : list Q := [(0) # 1; (2629800000000) # 866579413].
Lemma peJupiter_J_eval k : centuries (pe_mean M_planetary.Jupiter k) = qeval peJupiter_J (k * (4332.897065) / 36525).
Proof. unfold centuries, pe_mean, peJupiter_J. cbn [pidx pe_c nth]. qpoly. Qed.
Lemma peJupiter_event k q (n : Z) : k = IZR n + q -> Rabs (k * (4332.897065) / 36525) <= 22 -> forall e, Mean M_planetelements.Jupiter (pe_mean M_planetary.Jupiter k) = Some e -> near_turns (eLon e - ePeri e - degrees (360 * q)) (degrees 0.05264).
Proof.
  intros Ek Rx e He. destruct (Jupiter_lon _ e He) as (_ & u & _ & E). rewrite peJupiter_J_eval in E. set (x := k * _ / 36525) in *. pose proof (qnear_spec' qaJupiter peJupiter_J peJupiter_C (1) (22 # 1) (329 # 6250) x ltac:(vm_compute; reflexivity) ltac:(unfold Q2R; cbn [Qnum Qden]; lra)) as K.
  rewrite E. revert K. set (z := qeval _ (qeval _ x)). clearbody z. intros K. apply (near_of K u (n + (1))). - unfold degrees, peJupiter_C, x. rewrite Ek, !plus_IZR. qpoly. - unfold degrees, Q2R; cbn [Qnum Qden]; decimals; field.
Qed.
Definition peSaturn_J : list Q := [(32128) # 913125; (1) # 1; (18878859375) # 72417726535165561].
Definition peSaturn_C : list Q := [(0) # 1; (328725000000) # 269105419].
Lemma peSaturn_J_eval k : centuries (pe_mean M_planetary.Saturn k) = qeval peSaturn_J (k * (10764.21676) / 36525).
Proof. unfold centuries, pe_mean, peSaturn_J. cbn [pidx pe_c nth]. qpoly. Qed.
Lemma peSaturn_event k q (n : Z) : k = IZR n + q -> Rabs (k * (10764.21676) / 36525) <= 22 -> forall e, Mean M_planetelements.Saturn (pe_mean M_planetary.Saturn k) = Some e -> near_turns (eLon e - ePeri e - degrees (360 * q)) (degrees 0.05361).
Proof.
  intros Ek Rx e He. destruct (Saturn_lon _ e He) as (_ & u & _ & E). rewrite peSaturn_J_eval in E. set (x := k * _ / 36525) in *. pose proof (qnear_spec' qaSaturn peSaturn_J peSaturn_C (0) (22 # 1) (5361 # 100000) x ltac:(vm_compute; reflexivity) ltac:(unfold Q2R; cbn [Qnum Qden]; lra)) as K.
  rewrite E. revert K. set (z := qeval _ (qeval _ x)). clearbody z. intros K. apply (near_of K u (n + (0))). - unfold degrees, peSaturn_C, x. rewrite Ek, !plus_IZR. qpoly. - unfold degrees, Q2R; cbn [Qnum Qden]; decimals; field.
Qed.
Definition peUranus_J : list Q := [(37337) # 73050; (1) # 1; (-19760025000) # 94217545562820289].
Definition peUranus_C : list Q := [(0) # 1; (131490000000) # 306948767].
Lemma peUranus_J_eval k : centuries (pe_mean M_planetary.Uranus k) = qeval peUranus_J (k * (30694.8767) / 36525).
Proof. unfold centuries, pe_mean, peUranus_J. cbn [pidx pe_c nth]. qpoly. Qed.
Lemma peUranus_event k q (n : Z) : k = IZR n + q -> Rabs (k * (30694.8767) / 36525) <= 22 -> forall e, Mean M_planetelements.Uranus (pe_mean M_planetary.Uranus k) = Some e -> near_turns (eLon e - ePeri e - degrees (360 * q)) (degrees 0.00694).
Proof.
  intros Ek Rx e He. destruct (Uranus_lon _ e He) as (_ & u & _ & E). rewrite peUranus_J_eval in E. set (x := k * _ / 36525) in *. pose proof (qnear_spec' qaUranus peUranus_J peUranus_C (1) (22 # 1) (347 # 50000) x ltac:(vm_compute; reflexivity) ltac:(unfold Q2R; cbn [Qnum Qden]; lra)) as K.
  rewrite E. revert K. set (z := qeval _ (qeval _ x)). clearbody z. intros K. apply (near_of K u (n + (1))). - unfold degrees, peUranus_C, x. rewrite Ek, !plus_IZR. qpoly. - unfold degrees, Q2R; cbn [Qnum Qden]; decimals; field.
Qed.
Definition peNeptune_J : list Q := [(173501) # 365250; (1) # 1; (25048845) # 72457516510178].
Definition peNeptune_C : list Q := [(0) # 1; (1314900000) # 6019033].
Lemma peNeptune_J_eval k : centuries (pe_mean M_planetary.Neptune k) = qeval peNeptune_J (k * (60190.33) / 36525).
Proof. unfold centuries, pe_mean, peNeptune_J. cbn [pidx pe_c nth]. qpoly. Qed.
Lemma peNeptune_event k q (n : Z) : k = IZR n + q -> Rabs (k * (60190.33) / 36525) <= 22 -> forall e, Mean M_planetelements.Neptune (pe_mean M_planetary.Neptune k) = Some e -> near_turns (eLon e - ePeri e - degrees (360 * q)) (degrees 0.00191).
Proof.
  intros Ek Rx e He. destruct (Neptune_lon _ e He) as (_ & u & _ & E). rewrite peNeptune_J_eval in E. set (x := k * _ / 36525) in *. pose proof (qnear_spec' qaNeptune peNeptune_J peNeptune_C (1) (22 # 1) (191 # 100000) x ltac:(vm_compute; reflexivity) ltac:(unfold Q2R; cbn [Qnum Qden]; lra)) as K.
  rewrite E. revert K. set (z := qeval _ (qeval _ x)). clearbody z. intros K. apply (near_of K u (n + (1))). - unfold degrees, peNeptune_C, x. rewrite Ek, !plus_IZR. qpoly. - unfold degrees, Q2R; cbn [Qnum Qden]; decimals; field.
Qed.
