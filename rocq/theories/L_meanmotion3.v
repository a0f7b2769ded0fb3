(** Mean lunar events at the published mean positions. *)
From Coq Require Import ZArith Reals List Lia Lra Bool.
From Flocq Require Import Core.
From Verif Require Import GoMath M_precess M_lunar M_eclipse M_moon S_solar S_moon S_meanmotion L_precess L_light L_solar L_event L_event2 L_moon2 L_meanmotion L_meanmotion2.
Import ListNotations.
Local Open Scope R_scope.

Lemma near_shift x y d (k : Z) : near_turns x d -> y = x + IZR k * (2 * PI) -> near_turns y d.
Proof. intros (n & H) ->. exists (n + k)%Z. rewrite plus_IZR. replace (x + IZR k * (2 * PI) - (IZR n + IZR k) * (2 * PI)) with (x - IZR n * (2 * PI)) by ring. exact H. Qed.
Lemma T_range b r y h ck K : 0 < r -> ck = / K -> 0 < K -> Rabs ((y - b) * r) <= 20.1 * K - 1 / 2 -> Rabs ((Floor ((y - b) * r - h + 0.5) + h) * ck) <= 201 / 10.
Proof.
  intros Hr -> HK H. pose proof (snap_range b r y h (20.1 * K) Hr H) as A. set (z := Floor _ + h) in *. clearbody z. rewrite Rabs_mult, (Rabs_right (/ K)) by (apply Rle_ge, Rlt_le, Rinv_0_lt_compat, HK).
  apply (Rmult_le_reg_r K); [exact HK |]. rewrite (Rmult_assoc (Rabs _) (/ K) K), Rinv_l by lra. decimals_in A. lra.
Qed.
Ltac range_by K := first [apply (T_range _ _ _ _ _ K)]; [decimals; lra | decimals; field | decimals; lra | apply Rabs_le; match goal with H : Rabs _ <= _ |- _ => apply Rabs_le_inv in H; decimals_in H; decimals; lra end].
Lemma mp_T_range y q : Rabs (y - 2000) <= 2000 -> Rabs (mp_snap y q * mp_ck) <= 201 / 10.
Proof. intros H. unfold mp_snap, mp_ck. cbv zeta. range_by (1236.85). Qed.
Lemma ap_T_range y q : Rabs (y - 2000) <= 2000 -> Rabs (ap_snap y q * ap_ck) <= 201 / 10.
Proof. intros H. unfold ap_snap, ap_ck. cbv zeta. range_by (1325.55). Qed.
Lemma no_T_range y q : Rabs (y - 2000) <= 2000 -> Rabs (no_snap y q * no_ck) <= 201 / 10.
Proof. intros H. unfold no_snap, no_ck. cbv zeta. range_by (1342.23). Qed.
Lemma md_snap_eq y : md_snap y = Floor ((y - 2000.03) * 13.3686 - 0 + 0.5) + 0.
Proof. unfold md_snap. cbv zeta. now rewrite Rminus_0_r, Rplus_0_r. Qed.
Lemma md_T_range y : Rabs (y - 2000) <= 2000 -> Rabs (md_snap y * md_ck) <= 201 / 10.
Proof. intros H. rewrite md_snap_eq. unfold md_ck. range_by (1336.86). Qed.

Lemma phases year : Rabs (year - 2000) <= 2000 ->
  let on jde e := near_turns (degrees (elongation (centuries jde) - e)) (degrees 0.00567) in
  on (MeanNew year) 0 /\ on (MeanFirst year) 90 /\ on (MeanFull year) 180 /\ on (MeanLast year) 270.
Proof.
  intros H on.
  assert (K : forall q e, e = 360 * q -> on (mp_mean (mp_snap year q * mp_ck)) e).
  { intros q e ->. pose proof (mp_qD_near _ (mp_T_range year q H)) as A. set (t := centuries _) in *. unfold on. fold t. clearbody t. unfold mp_snap in A. cbv zeta in A.
    apply (near_shift _ _ _ (Zfloor ((year - 2000) * 12.3685 - q + 0.5)) A). unfold Floor, mp_ck, degrees. decimals. field. }
  repeat split; apply K; decimals; lra.
Qed.
Lemma phase_arguments year q : Rabs (year - 2000) <= 2000 -> let T := mp_snap year q * mp_ck in let t := centuries (mp_mean T) in
  near_turns (degrees (sun_anomaly t) - mp_M T) (degrees 0.00024) /\ near_turns (degrees (moon_anomaly t) - mp_M1 T) (degrees 0.00029) /\
  near_turns (degrees (node_distance t) - mp_F T) (degrees 0.00015) /\ near_turns (degrees (node_longitude t) - mp_Om T) (degrees 0.00275).
Proof. intros H T t. pose proof (mp_T_range year q H) as B. repeat split; [apply mp_qM_near | apply mp_qN_near | apply mp_qF_near | apply mp_qO_near]; exact B. Qed.
Lemma eclipse_arguments T : ec_ck = mp_ck /\ ec_M T = mp_M T /\ ec_M1 T = mp_M1 T /\ ec_F T = mp_F T /\ ec_Om T = mp_Om T /\ forall y q, ec_snap y q = mp_snap y q.
Proof. repeat split. Qed.
Lemma apsides year : Rabs (year - 2000) <= 2000 ->
  let on jde e := near_turns (degrees (moon_anomaly (centuries jde) - e)) (degrees 0.00225) in
  on (MeanPerigee year) 0 /\ on (MeanApogee year) 180.
Proof.
  intros H on.
  assert (K : forall q e, e = 360 * q -> on (ap_mean (ap_snap year q * ap_ck)) e).
  { intros q e ->. pose proof (ap_qN_near _ (ap_T_range year q H)) as A. set (t := centuries _) in *. unfold on. fold t. clearbody t. unfold ap_snap in A. cbv zeta in A.
    apply (near_shift _ _ _ (Zfloor ((year - 1999.97) * 13.2555 - q + 0.5)) A). unfold Floor, ap_ck, degrees. decimals. field. }
  repeat split; apply K; decimals; lra.
Qed.
Lemma apsis_arguments year q : Rabs (year - 2000) <= 2000 -> let T := ap_snap year q * ap_ck in let t := centuries (ap_mean T) in
  near_turns (degrees (elongation t) - ap_D T) (degrees 0.00275) /\ near_turns (degrees (sun_anomaly t) - ap_M T) (degrees 0.00218) /\ near_turns (degrees (node_distance t) - ap_F T) (degrees 0.01514).
Proof. intros H T t. pose proof (ap_T_range year q H) as B. repeat split; [apply ap_qD_near | apply ap_qM_near | apply ap_qF_near]; exact B. Qed.
Lemma node_passages year : Rabs (year - 2000) <= 2000 ->
  let on h e := near_turns (degrees (node_distance (centuries (no_mean (no_snap year h * no_ck))) - e)) (degrees 0.00103) in
  on 0 0 /\ on 0.5 180.
Proof.
  intros H on.
  assert (K : forall q e, e = 360 * q -> on q e).
  { intros q e ->. pose proof (no_qF_near _ (no_T_range year q H)) as A. unfold on. set (t := centuries _) in *. clearbody t. unfold no_snap in A. cbv zeta in A.
    apply (near_shift _ _ _ (Zfloor ((year - 2000.05) * 13.4223 - q + 0.5)) A). unfold Floor, no_ck, degrees. decimals. field. }
  repeat split; apply K; decimals; lra.
Qed.
Lemma node_arguments year h : Rabs (year - 2000) <= 2000 -> let T := no_snap year h * no_ck in let t := centuries (no_mean T) in
  near_turns (degrees (elongation t) - no_D T) (degrees 0.00101) /\ near_turns (degrees (sun_anomaly t) - no_M T) (degrees 0.00024) /\
  near_turns (degrees (moon_anomaly t) - no_M1 T) (degrees 0.00126) /\ near_turns (degrees (node_longitude t) - no_Om T) (degrees 0.00034).
Proof. intros H T t. pose proof (no_T_range year h H) as B. repeat split; [apply no_qD_near | apply no_qM_near | apply no_qN_near | apply no_qO_near]; exact B. Qed.
Lemma near_weaken x d d' : near_turns x d -> d <= d' -> near_turns x d'.
Proof. intros (k & H) L. exists k. lra. Qed.
Lemma degrees_le a b : a <= b -> degrees a <= degrees b.
Proof. intros H. unfold degrees. pose proof PI_RGT_0. apply Rmult_le_compat_r; lra. Qed.
Lemma declinations year : Rabs (year - 2000) <= 2000 ->
  let on c e := let T := md_snap year * md_ck in let t := centuries (md_mean c T) in
    near_turns (degrees (moon_longitude t - e)) (degrees 0.088) /\ near_turns (degrees (elongation t) - md_D c T) (degrees 0.081) /\ near_turns (degrees (sun_anomaly t) - md_M c T) (degrees 0.0076) /\
    near_turns (degrees (moon_anomaly t) - md_M1 c T) (degrees 0.0972) /\ near_turns (degrees (node_distance t) - md_F c T) (degrees 0.087) in
  on md_north 90 /\ on md_south 270.
Proof.
  intros H on. pose proof (md_T_range year H) as B. unfold on. set (T := md_snap year * md_ck) in *. cbv zeta.
  assert (E : 360 * 1336.86 * T = 360 * IZR (Zfloor ((year - 2000.03) * 13.3686 + 0.5))).
  { unfold T, md_snap, md_ck, Floor. cbv zeta. decimals. field. }
  clearbody T. set (n := Zfloor _) in E. clearbody n.
  assert (W : forall x a b, near_turns x (degrees a) -> a <= b -> near_turns x (degrees b)) by (intros x a b A L; exact (near_weaken _ _ _ A (degrees_le _ _ L))).
  split; (split; [| split; [| split; [| split]]]).
  - apply (W _ 0.08789); [| decimals; lra]. apply (near_shift _ _ _ n (mn_qL_near T B)). rewrite E. unfold degrees. field.
  - apply (W _ 0.08092); [exact (mn_qD_near T B) | decimals; lra].
  - apply (W _ 0.00752); [exact (mn_qM_near T B) | decimals; lra].
  - apply (W _ 0.09717); [exact (mn_qN_near T B) | decimals; lra].
  - apply (W _ 0.08699); [| decimals; lra]. apply (near_shift _ _ _ n (mn_qF_near T B)). rewrite E. unfold degrees. field.
  - apply (W _ 0.08775); [| decimals; lra]. apply (near_shift _ _ _ n (mz_qL_near T B)). rewrite E. unfold degrees. field.
  - apply (W _ 0.08081); [exact (mz_qD_near T B) | decimals; lra].
  - apply (W _ 0.00743); [exact (mz_qM_near T B) | decimals; lra].
  - apply (W _ 0.09687); [exact (mz_qN_near T B) | decimals; lra].
  - apply (W _ 0.08683); [| decimals; lra]. apply (near_shift _ _ _ n (mz_qF_near T B)). rewrite E. unfold degrees. field.
Qed.
(** moonposition uses the same motions. *)
Lemma position_arguments T : dmf_D T = degrees (elongation T) /\ dmf_N T = degrees (moon_anomaly T) /\ dmf_F T = degrees (node_distance T) /\ moonL T = degrees (moon_longitude T) /\
  (Rabs T <= 20 -> Rabs (dmf_M T - degrees (sun_anomaly T)) <= degrees 0.0001).
Proof.
  unfold dmf_D, dmf_M, dmf_N, dmf_F, dmf, moonL, M_moon.p_, degrees, elongation, moon_anomaly, node_distance, moon_longitude, sun_anomaly. cbn [fst snd]. rewrite ?HornerR5, ?HornerR4. repeat split; try (decimals; field).
  intros H. apply Rabs_le_inv in H. pose proof PI_RGT_0.
  match goal with |- Rabs ?x <= _ => replace x with (T * T * (1 / 10000000) * (PI / 180)) by (decimals; field) end.
  rewrite Rabs_right by nra. apply Rmult_le_compat_r; [lra |]. decimals. nra.
Qed.
