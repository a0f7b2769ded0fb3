(** The mean arguments of moonphase, apsis, moonnode and moonmaxdec against published mean motions. *)
From Coq Require Import ZArith QArith Qreals Reals List Lia Lra Bool.
From Verif Require Import GoMath M_precess M_lunar S_solar S_moon S_meanmotion L_precess L_light L_meanmotion.
Import ListNotations.
Local Open Scope R_scope.

Ltac qpoly := unfold p_; rewrite ?HornerR5, ?HornerR4, ?HornerR3; unfold qeval; cbn [fold_right]; unfold degrees, Q2R; cbn [Qnum Qden]; decimals; field.
Ltac near_by P J C n b x :=
  match goal with |- near_turns (?a - ?c) ?d => replace d with (degrees (Q2R b)) by (unfold degrees, Q2R; cbn [Qnum Qden]; decimals; field); apply (qnear_turns P J C n (201 # 10) b x a c); [vm_compute; reflexivity | unfold Q2R; cbn [Qnum Qden]; lra | |] end.
Definition qD : list Q := [(2978501921) # 10000000; (2226335557017) # 5000000; (-18819) # 10000000; (1) # 545868; (-1) # 113065000].
Lemma qD_eval T : degrees (elongation T) = degrees (qeval qD T).
Proof. unfold elongation, qD. qpoly. Qed.
Definition qM : list Q := [(893822773) # 2500000; (359990502909) # 10000000; (-12) # 78125; (1) # 24490000].
Lemma qM_eval T : degrees (sun_anomaly T) = degrees (qeval qM T).
Proof. unfold sun_anomaly, qM. qpoly. Qed.
Definition qN : list Q := [(337408491) # 2500000; (954397735011) # 2000000; (43707) # 5000000; (1) # 69699; (-1) # 14712000].
Lemma qN_eval T : degrees (moon_anomaly T) = degrees (qeval qN T).
Proof. unfold moon_anomaly, qN. qpoly. Qed.
Definition qF : list Q := [(18654419) # 200000; (4832020175233) # 10000000; (-36539) # 10000000; (-1) # 3526000; (1) # 863310000].
Lemma qF_eval T : degrees (node_distance T) = degrees (qeval qF T).
Proof. unfold node_distance, qF. qpoly. Qed.
Definition qL : list Q := [(2183164477) # 10000000; (48126788123421) # 100000000; (-7893) # 5000000; (1) # 538841; (-1) # 65194000].
Lemma qL_eval T : degrees (moon_longitude T) = degrees (qeval qL T).
Proof. unfold moon_longitude, qL. qpoly. Qed.
Definition qO : list Q := [(1250445479) # 10000000; (-19341362891) # 10000000; (10377) # 5000000; (1) # 467441; (-1) # 60616000].
Lemma qO_eval T : degrees (node_longitude T) = degrees (qeval qO T).
Proof. unfold node_longitude, qO. qpoly. Qed.
Definition mp_qJ : list Q := [(84961) # 608750000; (730498176654557) # 730500000000000; (15437) # 3652500000000; (-1) # 243500000000; (73) # 3652500000000000].
Lemma mp_qJ_eval T : centuries (mp_mean T) = qeval mp_qJ T.
Proof. unfold centuries, mp_mean, mp_ck, mp_qJ. qpoly. Qed.
Definition mp_qD : list Q := [(0) # 1; (445266) # 1].
Definition mp_qM : list Q := [(12767) # 5000; (7199792086879) # 200000000; (-7) # 5000000; (-11) # 100000000].
Lemma mp_qM_eval T : mp_M T = degrees (qeval mp_qM T).
Proof. unfold mp_M, mp_ck, mp_qM. qpoly. Qed.
Definition mp_qN : list Q := [(2015643) # 10000; (119299419100267) # 250000000; (53791) # 5000000; (619) # 50000000; (-29) # 500000000].
Lemma mp_qN_eval T : mp_M1 T = degrees (qeval mp_qN T).
Proof. unfold mp_M1, mp_ck, mp_qN. qpoly. Qed.
Definition mp_qF : list Q := [(401777) # 2500; (241600405718827) # 500000000; (-8059) # 5000000; (-227) # 100000000; (11) # 1000000000].
Lemma mp_qF_eval T : mp_F T = degrees (qeval mp_qF T).
Proof. unfold mp_F, mp_ck, mp_qF. qpoly. Qed.
Definition mp_qO : list Q := [(623873) # 5000; (-967065730089) # 500000000; (323) # 156250; (43) # 20000000].
Lemma mp_qO_eval T : mp_Om T = degrees (qeval mp_qO T).
Proof. unfold mp_Om, mp_ck, mp_qO. qpoly. Qed.
Definition ap_qJ : list Q := [(-17217) # 60875000; (24349955737793) # 24350000000000; (-6691) # 365250000000; (-183) # 6087500000000; (13) # 91312500000000].
Lemma ap_qJ_eval T : centuries (ap_mean T) = qeval ap_qJ T.
Proof. unfold centuries, ap_mean, ap_ck, ap_qJ. qpoly. Qed.
Definition ap_qN : list Q := [(0) # 1; (477198) # 1].
Definition ap_qD : list Q := [(1719179) # 10000; (44526630192753) # 100000000; (-100383) # 10000000; (-289) # 25000000; (11) # 200000000].
Lemma ap_qD_eval T : ap_D T = degrees (qeval ap_qD T).
Proof. unfold ap_D, ap_ck, ap_qD. qpoly. Qed.
Definition ap_qM : list Q := [(3473477) # 10000; (7199796961431) # 200000000; (-813) # 1000000; (-1) # 1000000].
Lemma ap_qM_eval T : ap_M T = degrees (qeval ap_qM T).
Proof. unfold ap_M, ap_ck, ap_qM. qpoly. Qed.
Definition ap_qF : list Q := [(3166109) # 10000; (96640227808521) # 200000000; (-125053) # 10000000; (-37) # 2500000].
Lemma ap_qF_eval T : ap_F T = degrees (qeval ap_qF T).
Proof. unfold ap_F, ap_ck, ap_qF. qpoly. Qed.
Definition no_qJ : list Q := [(201619) # 365250000; (1217501971573397) # 1217500000000000; (1381) # 182625000000; (7) # 12175000000000; (-11) # 4565625000000000].
Lemma no_qJ_eval T : centuries (no_mean T) = qeval no_qJ T.
Proof. unfold centuries, no_mean, no_ck, no_qJ. qpoly. Qed.
Definition no_qF : list Q := [(0) # 1; (2416014) # 5].
Definition no_qD : list Q := [(91819) # 500; (2226339162222543) # 5000000000; (3713) # 2500000; (209) # 100000000; (-1) # 100000000].
Lemma no_qD_eval T : no_D T = degrees (qeval no_qD T).
Proof. unfold no_D, no_ck, no_qD. qpoly. Qed.
Definition no_qM : list Q := [(87003) # 5000; (1439964343227) # 40000000; (593) # 5000000; (3) # 50000000].
Lemma no_qM_eval T : no_M T = degrees (qeval no_qM T).
Proof. unfold no_M, no_ck, no_qM. qpoly. Qed.
Definition no_qN : list Q := [(23986) # 625; (4771996402592799) # 10000000000; (123499) # 10000000; (14627) # 1000000000; (-69) # 1000000000].
Lemma no_qN_eval T : no_M1 T = degrees (qeval no_qN T).
Proof. unfold no_M1, no_ck, no_qN. qpoly. Qed.
Definition no_qO : list Q := [(1239767) # 10000; (-4835348542797) # 2500000000; (161) # 78125; (107) # 50000000; (-1) # 62500000].
Lemma no_qO_eval T : no_Om T = degrees (qeval no_qO T).
Proof. unfold no_Om, no_ck, no_qO. qpoly. Qed.
Definition mn_qJ : list Q := [(175897) # 365250000; (608752174045407) # 608750000000000; (29951) # 9131250000000; (-47) # 12175000000000].
Lemma mn_qJ_eval T : centuries (md_mean md_north T) = qeval mn_qJ T.
Proof. unfold centuries, md_mean, md_ck, mn_qJ. cbn [mcJDE md_north]. qpoly. Qed.
Definition mn_qL : list Q := [(90) # 1; (2406348) # 5].
Definition mn_qD : list Q := [(1522029) # 10000; (111317175405639) # 250000000; (-2107) # 5000000; (11) # 100000000].
Lemma mn_qD_eval T : md_D md_north T = degrees (qeval mn_qD T).
Proof. unfold md_D, md_ck, mn_qD. cbn [mcD mcM mcM1 mcF md_north]. qpoly. Qed.
Definition mn_qM : list Q := [(148591) # 10000; (2249948681757) # 62500000; (-71) # 2000000; (-1) # 10000000].
Lemma mn_qM_eval T : md_M md_north T = degrees (qeval mn_qM T).
Proof. unfold md_M, md_ck, mn_qM. cbn [mcD mcM mcM1 mcF md_north]. qpoly. Qed.
Definition mn_qN : list Q := [(46881) # 10000; (119300142919671) # 250000000; (51533) # 5000000; (1251) # 100000000].
Lemma mn_qN_eval T : md_M1 md_north T = degrees (qeval mn_qN T).
Proof. unfold md_M1, md_ck, mn_qN. cbn [mcD mcM mcM1 mcF md_north]. qpoly. Qed.
Definition mn_qF : list Q := [(3258867) # 10000; (967071623301) # 500000000; (-2069) # 1000000; (-43) # 20000000].
Lemma mn_qF_eval T : md_F md_north T = degrees (qeval mn_qF T).
Proof. unfold md_F, md_ck, mn_qF. cbn [mcD mcM mcM1 mcF md_north]. qpoly. Qed.
Definition mz_qJ : list Q := [(39289) # 365250000; (608752174045407) # 608750000000000; (29951) # 9131250000000; (-47) # 12175000000000].
Lemma mz_qJ_eval T : centuries (md_mean md_south T) = qeval mz_qJ T.
Proof. unfold centuries, md_mean, md_ck, mz_qJ. cbn [mcJDE md_south]. qpoly. Qed.
Definition mz_qL : list Q := [(270) # 1; (2406348) # 5].
Definition mz_qD : list Q := [(864169) # 2500; (111317175405639) # 250000000; (-2107) # 5000000; (11) # 100000000].
Lemma mz_qD_eval T : md_D md_south T = degrees (qeval mz_qD T).
Proof. unfold md_D, md_ck, mz_qD. cbn [mcD mcM mcM1 mcF md_south]. qpoly. Qed.
Definition mz_qM : list Q := [(13951) # 10000; (2249948681757) # 62500000; (-71) # 2000000; (-1) # 10000000].
Lemma mz_qM_eval T : md_M md_south T = degrees (qeval mz_qM T).
Proof. unfold md_M, md_ck, mz_qM. cbn [mcD mcM mcM1 mcF md_south]. qpoly. Qed.
Definition mz_qN : list Q := [(18621) # 100; (119300142919671) # 250000000; (51533) # 5000000; (1251) # 100000000].
Lemma mz_qN_eval T : md_M1 md_south T = degrees (qeval mz_qN T).
Proof. unfold md_M1, md_ck, mz_qN. cbn [mcD mcM mcM1 mcF md_south]. qpoly. Qed.
Definition mz_qF : list Q := [(1451633) # 10000; (967071623301) # 500000000; (-2069) # 1000000; (-43) # 20000000].
Lemma mz_qF_eval T : md_F md_south T = degrees (qeval mz_qF T).
Proof. unfold md_F, md_ck, mz_qF. cbn [mcD mcM mcM1 mcF md_south]. qpoly. Qed.
Lemma mp_qD_near T : Rabs T <= 201 / 10 -> near_turns (degrees (elongation (centuries (mp_mean T))) - degrees (360 * 1236.85 * T)) (degrees 0.00567).
Proof. intros H. near_by qD mp_qJ mp_qD (1)%Z (567 # 100000) T. - rewrite qD_eval, mp_qJ_eval. reflexivity. - unfold mp_qD. qpoly. Qed.
Lemma mp_qM_near T : Rabs T <= 201 / 10 -> near_turns (degrees (sun_anomaly (centuries (mp_mean T))) - mp_M T) (degrees 0.00024).
Proof. intros H. near_by qM mp_qJ mp_qM (1)%Z (3 # 12500) T. - rewrite qM_eval, mp_qJ_eval. reflexivity. - apply mp_qM_eval. Qed.
Lemma mp_qN_near T : Rabs T <= 201 / 10 -> near_turns (degrees (moon_anomaly (centuries (mp_mean T))) - mp_M1 T) (degrees 0.00029).
Proof. intros H. near_by qN mp_qJ mp_qN (0)%Z (29 # 100000) T. - rewrite qN_eval, mp_qJ_eval. reflexivity. - apply mp_qN_eval. Qed.
Lemma mp_qF_near T : Rabs T <= 201 / 10 -> near_turns (degrees (node_distance (centuries (mp_mean T))) - mp_F T) (degrees 0.00015).
Proof. intros H. near_by qF mp_qJ mp_qF (0)%Z (3 # 20000) T. - rewrite qF_eval, mp_qJ_eval. reflexivity. - apply mp_qF_eval. Qed.
Lemma mp_qO_near T : Rabs T <= 201 / 10 -> near_turns (degrees (node_longitude (centuries (mp_mean T))) - mp_Om T) (degrees 0.00275).
Proof. intros H. near_by qO mp_qJ mp_qO (0)%Z (11 # 4000) T. - rewrite qO_eval, mp_qJ_eval. reflexivity. - apply mp_qO_eval. Qed.
Lemma ap_qN_near T : Rabs T <= 201 / 10 -> near_turns (degrees (moon_anomaly (centuries (ap_mean T))) - degrees (360 * 1325.55 * T)) (degrees 0.00225).
Proof. intros H. near_by qN ap_qJ ap_qN (0)%Z (9 # 4000) T. - rewrite qN_eval, ap_qJ_eval. reflexivity. - unfold ap_qN. qpoly. Qed.
Lemma ap_qD_near T : Rabs T <= 201 / 10 -> near_turns (degrees (elongation (centuries (ap_mean T))) - ap_D T) (degrees 0.00275).
Proof. intros H. near_by qD ap_qJ ap_qD (0)%Z (11 # 4000) T. - rewrite qD_eval, ap_qJ_eval. reflexivity. - apply ap_qD_eval. Qed.
Lemma ap_qM_near T : Rabs T <= 201 / 10 -> near_turns (degrees (sun_anomaly (centuries (ap_mean T))) - ap_M T) (degrees 0.00218).
Proof. intros H. near_by qM ap_qJ ap_qM (0)%Z (109 # 50000) T. - rewrite qM_eval, ap_qJ_eval. reflexivity. - apply ap_qM_eval. Qed.
Lemma ap_qF_near T : Rabs T <= 201 / 10 -> near_turns (degrees (node_distance (centuries (ap_mean T))) - ap_F T) (degrees 0.01514).
Proof. intros H. near_by qF ap_qJ ap_qF (-1)%Z (757 # 50000) T. - rewrite qF_eval, ap_qJ_eval. reflexivity. - apply ap_qF_eval. Qed.
Lemma no_qF_near T : Rabs T <= 201 / 10 -> near_turns (degrees (node_distance (centuries (no_mean T))) - degrees (360 * 1342.23 * T)) (degrees 0.00103).
Proof. intros H. near_by qF no_qJ no_qF (1)%Z (103 # 100000) T. - rewrite qF_eval, no_qJ_eval. reflexivity. - unfold no_qF. qpoly. Qed.
Lemma no_qD_near T : Rabs T <= 201 / 10 -> near_turns (degrees (elongation (centuries (no_mean T))) - no_D T) (degrees 0.00101).
Proof. intros H. near_by qD no_qJ no_qD (1)%Z (101 # 100000) T. - rewrite qD_eval, no_qJ_eval. reflexivity. - apply no_qD_eval. Qed.
Lemma no_qM_near T : Rabs T <= 201 / 10 -> near_turns (degrees (sun_anomaly (centuries (no_mean T))) - no_M T) (degrees 0.00024).
Proof. intros H. near_by qM no_qJ no_qM (1)%Z (3 # 12500) T. - rewrite qM_eval, no_qJ_eval. reflexivity. - apply no_qM_eval. Qed.
Lemma no_qN_near T : Rabs T <= 201 / 10 -> near_turns (degrees (moon_anomaly (centuries (no_mean T))) - no_M1 T) (degrees 0.00126).
Proof. intros H. near_by qN no_qJ no_qN (1)%Z (63 # 50000) T. - rewrite qN_eval, no_qJ_eval. reflexivity. - apply no_qN_eval. Qed.
Lemma no_qO_near T : Rabs T <= 201 / 10 -> near_turns (degrees (node_longitude (centuries (no_mean T))) - no_Om T) (degrees 0.00034).
Proof. intros H. near_by qO no_qJ no_qO (0)%Z (17 # 50000) T. - rewrite qO_eval, no_qJ_eval. reflexivity. - apply no_qO_eval. Qed.
Lemma mn_qL_near T : Rabs T <= 201 / 10 -> near_turns (degrees (moon_longitude (centuries (md_mean md_north T))) - degrees (90 + 360 * 1336.86 * T)) (degrees 0.08789).
Proof. intros H. near_by qL mn_qJ mn_qL (1)%Z (8789 # 100000) T. - rewrite qL_eval, mn_qJ_eval. reflexivity. - unfold mn_qL. qpoly. Qed.
Lemma mn_qD_near T : Rabs T <= 201 / 10 -> near_turns (degrees (elongation (centuries (md_mean md_north T))) - md_D md_north T) (degrees 0.08092).
Proof. intros H. near_by qD mn_qJ mn_qD (1)%Z (2023 # 25000) T. - rewrite qD_eval, mn_qJ_eval. reflexivity. - apply mn_qD_eval. Qed.
Lemma mn_qM_near T : Rabs T <= 201 / 10 -> near_turns (degrees (sun_anomaly (centuries (md_mean md_north T))) - md_M md_north T) (degrees 0.00752).
Proof. intros H. near_by qM mn_qJ mn_qM (1)%Z (47 # 6250) T. - rewrite qM_eval, mn_qJ_eval. reflexivity. - apply mn_qM_eval. Qed.
Lemma mn_qN_near T : Rabs T <= 201 / 10 -> near_turns (degrees (moon_anomaly (centuries (md_mean md_north T))) - md_M1 md_north T) (degrees 0.09717).
Proof. intros H. near_by qN mn_qJ mn_qN (1)%Z (9717 # 100000) T. - rewrite qN_eval, mn_qJ_eval. reflexivity. - apply mn_qN_eval. Qed.
Definition mn_qF_full : list Q := [(3258867) # 10000; (241601871623301) # 500000000; (-2069) # 1000000; (-43) # 20000000].
Lemma mn_qF_near T : Rabs T <= 201 / 10 -> near_turns (degrees (node_distance (centuries (md_mean md_north T))) - (md_F md_north T + degrees (360 * 1336.86 * T))) (degrees 0.08699).
Proof. intros H. near_by qF mn_qJ mn_qF_full (0)%Z (8699 # 100000) T. - rewrite qF_eval, mn_qJ_eval. reflexivity. - rewrite mn_qF_eval. unfold mn_qF, mn_qF_full. qpoly. Qed.
Lemma mz_qL_near T : Rabs T <= 201 / 10 -> near_turns (degrees (moon_longitude (centuries (md_mean md_south T))) - degrees (270 + 360 * 1336.86 * T)) (degrees 0.08775).
Proof. intros H. near_by qL mz_qJ mz_qL (0)%Z (351 # 4000) T. - rewrite qL_eval, mz_qJ_eval. reflexivity. - unfold mz_qL. qpoly. Qed.
Lemma mz_qD_near T : Rabs T <= 201 / 10 -> near_turns (degrees (elongation (centuries (md_mean md_south T))) - md_D md_south T) (degrees 0.08081).
Proof. intros H. near_by qD mz_qJ mz_qD (0)%Z (8081 # 100000) T. - rewrite qD_eval, mz_qJ_eval. reflexivity. - apply mz_qD_eval. Qed.
Lemma mz_qM_near T : Rabs T <= 201 / 10 -> near_turns (degrees (sun_anomaly (centuries (md_mean md_south T))) - md_M md_south T) (degrees 0.00743).
Proof. intros H. near_by qM mz_qJ mz_qM (1)%Z (743 # 100000) T. - rewrite qM_eval, mz_qJ_eval. reflexivity. - apply mz_qM_eval. Qed.
Lemma mz_qN_near T : Rabs T <= 201 / 10 -> near_turns (degrees (moon_anomaly (centuries (md_mean md_south T))) - md_M1 md_south T) (degrees 0.09687).
Proof. intros H. near_by qN mz_qJ mz_qN (0)%Z (9687 # 100000) T. - rewrite qN_eval, mz_qJ_eval. reflexivity. - apply mz_qN_eval. Qed.
Definition mz_qF_full : list Q := [(1451633) # 10000; (241601871623301) # 500000000; (-2069) # 1000000; (-43) # 20000000].
Lemma mz_qF_near T : Rabs T <= 201 / 10 -> near_turns (degrees (node_distance (centuries (md_mean md_south T))) - (md_F md_south T + degrees (360 * 1336.86 * T))) (degrees 0.08683).
Proof. intros H. near_by qF mz_qJ mz_qF_full (0)%Z (8683 # 100000) T. - rewrite qF_eval, mz_qJ_eval. reflexivity. - rewrite mz_qF_eval. unfold mz_qF, mz_qF_full. qpoly. Qed.
