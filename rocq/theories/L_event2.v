(** Perigee and apogee, nodes, extreme declinations: dates and ranges. *)
From Coq Require Import ZArith Reals List Lra Lia Bool.
From Flocq Require Import Core.
From Verif Require Import GoFloat GoMath M_base M_precess M_lunar S_event L_trig L_kepler L_precess L_event.
Import ListNotations.
Local Open Scope R_scope.

(** ** Indices *)
Lemma ck_T c k : 1000 <= c -> Rabs k <= 10000 -> Rabs (k * (1 / c)) <= 10.
Proof.
  intros C H. unfold Rdiv. rewrite Rmult_1_l, Rabs_mult, (Rabs_right (/ c)) by (left; apply Rinv_0_lt_compat; lra).
  apply Rmult_le_reg_r with c; [lra|]. rewrite Rmult_assoc, Rinv_l by lra. lra.
Qed.
Lemma ap_mean_index k : Rabs k <= 10000 -> Rabs (ap_mean (k * ap_ck) - (2451534.6698 + 27.55454989 * k)) <= 0.069.
Proof.
  intros H. assert (HT : Rabs (k * ap_ck) <= 10) by (apply ck_T; [decimals; lra|exact H]).
  assert (E : ap_mean (k * ap_ck) - (2451534.6698 + 27.55454989 * k) =
    (k * ap_ck) * (k * ap_ck) * (-0.0006691 + (k * ap_ck) * (-0.000001098 + (k * ap_ck) * 0.0000000052))).
  { unfold ap_mean. rewrite Hor5. unfold ap_ck. decimals. field. }
  rewrite E. bound.
Qed.
Lemma no_mean_index k : Rabs k <= 10000 -> Rabs (no_mean (k * no_ck) - (2451565.1619 + 27.212220817 * k)) <= 0.028.
Proof.
  intros H. assert (HT : Rabs (k * no_ck) <= 10) by (apply ck_T; [decimals; lra|exact H]).
  assert (E : no_mean (k * no_ck) - (2451565.1619 + 27.212220817 * k) =
    (k * no_ck) * (k * no_ck) * (0.0002762 + (k * no_ck) * (0.000000021 + (k * no_ck) * -0.000000000088))).
  { unfold no_mean. rewrite Hor5. unfold no_ck. decimals. field. }
  rewrite E. bound.
Qed.
Lemma md_mean_index c k : Rabs k <= 10000 -> Rabs (md_mean c (k * md_ck) - (mcJDE c + 27.321582247 * k)) <= 0.013.
Proof.
  intros H. assert (HT : Rabs (k * md_ck) <= 10) by (apply ck_T; [decimals; lra|exact H]).
  assert (E : md_mean c (k * md_ck) - (mcJDE c + 27.321582247 * k) = (k * md_ck) * (k * md_ck) * (0.000119804 + (k * md_ck) * -0.000000141)).
  { unfold md_mean. rewrite Hor4. unfold md_ck. decimals. field. }
  rewrite E. bound.
Qed.

(** ** Snapping *)
Lemma snap_exact b r (n : Z) h : r <> 0 -> Floor ((b + (IZR n + h) / r - b) * r - h + 0.5) + h = IZR n + h.
Proof. intros R0. replace ((b + (IZR n + h) / r - b) * r - h + 0.5) with (IZR n + 0.5) by (field; exact R0). now rewrite Floor_half. Qed.
Lemma snap_range b r y h K : 0 < r -> Rabs ((y - b) * r) <= K - 1 / 2 -> Rabs (Floor ((y - b) * r - h + 0.5) + h) <= K.
Proof.
  intros R0 H. pose proof (snap_near h ((y - b) * r)) as N. apply Rabs_le_inv in N. apply Rabs_le_inv in H. apply Rabs_le. lra.
Qed.
Lemma ap_snap_year (n : Z) h : ap_snap (anomalistic_year (IZR n + h)) h = IZR n + h.
Proof. apply snap_exact. decimals. lra. Qed.
Lemma no_snap_year (n : Z) h : no_snap (draconic_year (IZR n + h)) h = IZR n + h.
Proof. apply snap_exact. decimals. lra. Qed.
Lemma md_snap_year (n : Z) : md_snap (tropical_year (IZR n)) = IZR n.
Proof.
  pose proof (snap_exact 2000.03 13.3686 n 0 ltac:(decimals; lra)) as H. rewrite !Rplus_0_r, Rminus_0_r in H. exact H.
Qed.

(** ** True against mean, for an index *)
Lemma Perigee_index (n : Z) : (Z.abs n <= 9999)%Z ->
  Rabs (Perigee (anomalistic_year (IZR n + 0)) - (2451534.6698 + 27.55454989 * IZR n)) <= 2.97.
Proof.
  intros H. assert (HN : Rabs (IZR n + 0) <= 10000). { rewrite Rplus_0_r, <- abs_IZR. apply (IZR_le _ 10000). lia. }
  unfold Perigee. cbv zeta. rewrite ap_snap_year.
  pose proof (ap_mean_index _ HN) as M. assert (HT : Rabs ((IZR n + 0) * ap_ck) <= 10) by (apply ck_T; [decimals; lra|exact HN]).
  pose proof (ap_pc_bound _ (ap_D ((IZR n + 0) * ap_ck)) (ap_M ((IZR n + 0) * ap_ck)) (ap_F ((IZR n + 0) * ap_ck)) HT) as C.
  apply Rabs_le_inv in M, C. apply Rabs_le. rewrite Rplus_0_r in *. revert M C. decimals. intros [? ?] [? ?]. lra.
Qed.
Lemma Apogee_index (n : Z) : (Z.abs n <= 9999)%Z ->
  Rabs (Apogee (anomalistic_year (IZR n + 0.5)) - (2451534.6698 + 27.55454989 * (IZR n + 0.5))) <= 0.82.
Proof.
  intros H. assert (HN : Rabs (IZR n + 0.5) <= 10000).
  { assert (H1 : (-9999 <= n)%Z) by lia. assert (H2 : (n <= 9999)%Z) by lia. apply IZR_le in H1, H2. apply Rabs_le. decimals. lra. }
  unfold Apogee. cbv zeta. rewrite ap_snap_year.
  pose proof (ap_mean_index _ HN) as M. assert (HT : Rabs ((IZR n + 0.5) * ap_ck) <= 10) by (apply ck_T; [decimals; lra|exact HN]).
  pose proof (ap_ac_bound _ (ap_D ((IZR n + 0.5) * ap_ck)) (ap_M ((IZR n + 0.5) * ap_ck)) (ap_F ((IZR n + 0.5) * ap_ck)) HT) as C.
  apply Rabs_le_inv in M, C. apply Rabs_le. revert M C. decimals. intros [? ?] [? ?]. lra.
Qed.
Lemma apsides_follow (n : Z) : (Z.abs n <= 9998)%Z ->
  9.9 < Apogee (anomalistic_year (IZR n + 0.5)) - Perigee (anomalistic_year (IZR n + 0)) < 17.6 /\
  9.9 < Perigee (anomalistic_year (IZR (n + 1) + 0)) - Apogee (anomalistic_year (IZR n + 0.5)) < 17.6.
Proof.
  intros H. pose proof (Perigee_index n ltac:(lia)) as A. pose proof (Apogee_index n ltac:(lia)) as B.
  pose proof (Perigee_index (n + 1) ltac:(lia)) as C. apply Rabs_le_inv in A, B, C. revert A B C. rewrite plus_IZR.
  generalize (Apogee (anomalistic_year (IZR n + 0.5))) (Perigee (anomalistic_year (IZR n + 0))) (Perigee (anomalistic_year (IZR n + 1 + 0))).
  decimals. intros. lra.
Qed.
Lemma node_index (n : Z) h : (Z.abs n <= 9999)%Z -> 0 <= h <= 0.5 ->
  Rabs (node_ (draconic_year (IZR n + h)) h - (2451565.1619 + 27.212220817 * (IZR n + h))) <= 0.82.
Proof.
  intros H Hh. assert (HN : Rabs (IZR n + h) <= 10000).
  { assert (H1 : (-9999 <= n)%Z) by lia. assert (H2 : (n <= 9999)%Z) by lia. apply IZR_le in H1, H2. apply Rabs_le. revert Hh. decimals. lra. }
  unfold node_. cbv zeta. rewrite no_snap_year.
  pose proof (no_mean_index _ HN) as M. assert (HT : Rabs ((IZR n + h) * no_ck) <= 10) by (apply ck_T; [decimals; lra|exact HN]).
  set (T := (IZR n + h) * no_ck) in *. rewrite no_E_eq.
  pose proof (no_corr_bound (E_ T) (no_D T) (no_M T) (no_M1 T) (no_Om T) (no_V T) (no_P T) (E_bound T HT)) as C.
  apply Rabs_le_inv in M, C. apply Rabs_le. revert M C. decimals. intros [? ?] [? ?]. lra.
Qed.
Lemma nodes_follow (n : Z) : (Z.abs n <= 9998)%Z ->
  11.9 < nodeDescending (draconic_year (IZR n + 0.5)) - nodeAscending (draconic_year (IZR n + 0)) < 15.3 /\
  11.9 < nodeAscending (draconic_year (IZR (n + 1) + 0)) - nodeDescending (draconic_year (IZR n + 0.5)) < 15.3.
Proof.
  intros H. unfold nodeDescending, nodeAscending. pose proof (node_index n 0 ltac:(lia) ltac:(decimals; lra)) as A.
  pose proof (node_index n 0.5 ltac:(lia) ltac:(decimals; lra)) as B. pose proof (node_index (n + 1) 0 ltac:(lia) ltac:(decimals; lra)) as C.
  apply Rabs_le_inv in A, B, C. revert A B C. rewrite plus_IZR.
  generalize (node_ (draconic_year (IZR n + 0.5)) 0.5) (node_ (draconic_year (IZR n + 0)) 0) (node_ (draconic_year (IZR n + 1 + 0)) 0).
  decimals. intros. lra.
Qed.
Lemma maxdec_index c (n : Z) : c = md_north \/ c = md_south -> (Z.abs n <= 9999)%Z ->
  Rabs (fst (md_max (tropical_year (IZR n)) c) - (mcJDE c + 27.321582247 * IZR n)) <= 2.12.
Proof.
  intros HC H. assert (HN : Rabs (IZR n) <= 10000). { rewrite <- abs_IZR. apply (IZR_le _ 10000). lia. }
  unfold md_max. cbv zeta. rewrite md_snap_year. cbn [fst].
  pose proof (md_mean_index c _ HN) as M. assert (HT : Rabs (IZR n * md_ck) <= 10) by (apply ck_T; [decimals; lra|exact HN]).
  set (T := IZR n * md_ck) in *. rewrite md_E_eq.
  assert (C : Rabs (md_corr (mctc c) (E_ T) (md_D c T) (md_M c T) (md_M1 c T) (md_F c T)) <= 2.1).
  { destruct HC as [-> | ->]; [apply md_corr_north|apply md_corr_south]; apply (E_bound T HT). }
  apply Rabs_le_inv in M, C. apply Rabs_le. revert M C. decimals. intros [? ?] [? ?]. lra.
Qed.
Lemma maxdec_follow (n : Z) : (Z.abs n <= 9998)%Z ->
  let north k := fst (maxdecNorth (tropical_year k)) in let south k := fst (maxdecSouth (tropical_year k)) in
  9.4 < north (IZR n) - south (IZR n) < 18 /\ 9.4 < south (IZR (n + 1)) - north (IZR n) < 18.
Proof.
  intros H north south. unfold north, south, maxdecNorth, maxdecSouth. clear north south.
  pose proof (maxdec_index md_north n ltac:(auto) ltac:(lia)) as A. pose proof (maxdec_index md_south n ltac:(auto) ltac:(lia)) as B.
  pose proof (maxdec_index md_south (n + 1) ltac:(auto) ltac:(lia)) as C.
  apply Rabs_le_inv in A, B, C. cbn [mcJDE md_north md_south] in A, B, C. revert A B C. rewrite plus_IZR.
  generalize (fst (md_max (tropical_year (IZR n)) md_north)) (fst (md_max (tropical_year (IZR n)) md_south)) (fst (md_max (tropical_year (IZR n + 1)) md_south)).
  decimals. intros. lra.
Qed.

(** ** The declination *)
Lemma md_dec_bound c T E D M M1 F : c = md_north \/ c = md_south -> Rabs T <= 10 -> Rabs E <= 1.026 ->
  Rabs (md_dec (mcdc c) T E D M M1 F - 23.6961 * p_) <= 5.95 * p_.
Proof.
  intros HC HT HE.
  assert (HP : Rabs p_ <= p_) by (apply bn_const; unfold p_; pose proof PI_RGT_0; lra).
  assert (P0 : 0 < p_) by (unfold p_; pose proof PI_RGT_0; lra).
  destruct HC as [-> | ->]; unfold md_dec, md_north, md_south; cbn [mcdc nth];
    match goal with |- Rabs (?a - ?u + ?b1 + ?b2 + ?b3 + ?b4 + ?b5 + ?b6 + ?b7 + ?b8 + ?b9 + ?b10 + ?b11 + ?b12 + ?b13 + ?b14 + ?b15 + ?b16 + ?b17 + ?b18 + ?b19 + ?b20 + ?b21 + ?b22 + ?b23 + ?b24 + ?b25 + ?b26 + ?b27 + ?b28 + ?b29 + ?b30 + ?b31 + ?b32 + ?b33 + ?b34 + ?b35 + ?b36 + ?b37 - ?a) <= _ =>
      replace (a - u + b1 + b2 + b3 + b4 + b5 + b6 + b7 + b8 + b9 + b10 + b11 + b12 + b13 + b14 + b15 + b16 + b17 + b18 + b19 + b20 + b21 + b22 + b23 + b24 + b25 + b26 + b27 + b28 + b29 + b30 + b31 + b32 + b33 + b34 + b35 + b36 + b37 - a)
        with (- u + (b1 + b2 + b3 + b4 + b5 + b6 + b7 + b8 + b9 + b10 + b11 + b12 + b13 + b14 + b15 + b16 + b17 + b18 + b19 + b20 + b21 + b22 + b23 + b24 + b25 + b26 + b27 + b28 + b29 + b30 + b31 + b32 + b33 + b34 + b35 + b36 + b37)) by ring end;
    (eapply Rle_trans; [bnd|decimals; nra]).
Qed.
Lemma maxdec_range y : 1300 <= y <= 2700 ->
  17.7 * p_ < snd (maxdecNorth y) < 29.7 * p_ /\ - (29.7 * p_) < snd (maxdecSouth y) < - (17.7 * p_).
Proof.
  intros H. assert (K : Rabs (md_snap y) <= 10000).
  { unfold md_snap. cbv zeta. pose proof (snap_near 0 ((y - 2000.03) * 13.3686)) as N. rewrite Rminus_0_r, Rplus_0_r in N.
    apply Rabs_le_inv in N. apply Rabs_le. revert N. decimals. intros [? ?]. lra. }
  assert (HT : Rabs (md_snap y * md_ck) <= 10) by (apply ck_T; [decimals; lra|exact K]).
  unfold maxdecNorth, maxdecSouth, md_max. cbv zeta. cbn [snd]. set (T := md_snap y * md_ck) in *. rewrite md_E_eq.
  pose proof (E_bound T HT) as HE. assert (P0 : 0 < p_) by (unfold p_; pose proof PI_RGT_0; lra).
  pose proof (md_dec_bound md_north T (E_ T) (md_D md_north T) (md_M md_north T) (md_M1 md_north T) (md_F md_north T) ltac:(auto) HT HE) as A.
  pose proof (md_dec_bound md_south T (E_ T) (md_D md_south T) (md_M md_south T) (md_M1 md_south T) (md_F md_south T) ltac:(auto) HT HE) as B.
  revert A B. generalize (md_dec (mcdc md_north) T (E_ T) (md_D md_north T) (md_M md_north T) (md_M1 md_north T) (md_F md_north T))
    (md_dec (mcdc md_south) T (E_ T) (md_D md_south T) (md_M md_south T) (md_M1 md_south T) (md_F md_south T)).
  intros u v A B. apply Rabs_le_inv in A, B. cbn [mcs md_north md_south]. revert A B. generalize dependent p_. intros q Q. decimals. intros [? ?] [? ?]. nra.
Qed.

(** ** The event nearest the date is missed *)
Lemma South_not_nearest : let y := 2000 + 2400 / 36525 in
  yearJDE y = 2451569 /\ maxdecSouth y = maxdecSouth (tropical_year 0) /\
  17 < Rabs (fst (maxdecSouth y) - 2451569) /\ Rabs (fst (maxdecSouth (tropical_year 1)) - 2451569) < 10.
Proof.
  intros y. pose proof (maxdec_index md_south 0 ltac:(auto) ltac:(lia)) as A. pose proof (maxdec_index md_south 1 ltac:(auto) ltac:(lia)) as B.
  assert (S : maxdecSouth y = maxdecSouth (tropical_year 0)).
  { unfold maxdecSouth, md_max. cbv zeta. replace (md_snap y) with (md_snap (tropical_year 0)); [reflexivity|].
    rewrite (md_snap_year 0). unfold md_snap, Floor. cbv zeta. rewrite (Zfloor_imp 0); [reflexivity|]. unfold y. change (0 + 1)%Z with 1%Z. decimals. lra. }
  split. { unfold yearJDE, y. decimals. field. }
  split; [exact S|]. rewrite S. unfold maxdecSouth. apply Rabs_le_inv in A, B. cbn [mcJDE md_south] in A, B. revert A B.
  generalize (fst (md_max (tropical_year 0) md_south)) (fst (md_max (tropical_year 1) md_south)). decimals. intros u v [? ?] [? ?].
  split; [rewrite Rabs_left; lra|apply Rabs_lt; lra].
Qed.

(** ** Distance from the date *)
Lemma snap_as_index b r h y : r <> 0 -> exists n : Z, Floor ((y - b) * r - h + 0.5) + h = IZR n + h /\ Rabs (IZR n + h - (y - b) * r) <= 1 / 2 /\
  Floor ((b + (IZR n + h) / r - b) * r - h + 0.5) + h = IZR n + h.
Proof.
  intros R0. exists (Zfloor ((y - b) * r - h + 0.5)). split; [reflexivity|]. split; [exact (snap_near h ((y - b) * r))|]. now apply snap_exact.
Qed.
Lemma abs_le_Z (n : Z) (h x : R) : 0 <= h <= 0.5 -> Rabs (IZR n + h - x) <= 1 / 2 -> Rabs x <= IZR 9998 -> (Z.abs n <= 9999)%Z.
Proof.
  intros Hh N X. apply Rabs_le_inv in N, X. assert (A : -10000 < IZR n < 10000) by (revert Hh; decimals; lra).
  assert ((-10000 < n)%Z) by (apply lt_IZR; lra). assert ((n < 10000)%Z) by (apply lt_IZR; lra). lia.
Qed.
Lemma Perigee_date y : 1300 <= y <= 2700 -> Rabs (Perigee y - yearJDE y) <= 18.
Proof.
  intros H. destruct (snap_as_index 1999.97 13.2555 0 y ltac:(decimals; lra)) as [n [S1 [N S2]]].
  assert (Z9 : (Z.abs n <= 9999)%Z) by (apply (abs_le_Z n 0 ((y - 1999.97) * 13.2555)); [decimals; lra|exact N|apply Rabs_le; decimals; lra]).
  assert (E : Perigee y = Perigee (anomalistic_year (IZR n + 0))).
  { unfold Perigee. cbv zeta. replace (ap_snap y 0) with (ap_snap (anomalistic_year (IZR n + 0)) 0); [reflexivity|]. rewrite ap_snap_year. symmetry. exact S1. }
  rewrite E. pose proof (Perigee_index n Z9) as P. apply Rabs_le_inv in P, N. apply Rabs_le. unfold yearJDE. revert P N.
  generalize (Perigee (anomalistic_year (IZR n + 0))). decimals. intros u [? ?] [? ?]. lra.
Qed.
Lemma Apogee_date y : 1300 <= y <= 2700 -> Rabs (Apogee y - yearJDE y) <= 16.
Proof.
  intros H. destruct (snap_as_index 1999.97 13.2555 0.5 y ltac:(decimals; lra)) as [n [S1 [N S2]]].
  assert (Z9 : (Z.abs n <= 9999)%Z) by (apply (abs_le_Z n 0.5 ((y - 1999.97) * 13.2555)); [decimals; lra|exact N|apply Rabs_le; decimals; lra]).
  assert (E : Apogee y = Apogee (anomalistic_year (IZR n + 0.5))).
  { unfold Apogee. cbv zeta. replace (ap_snap y 0.5) with (ap_snap (anomalistic_year (IZR n + 0.5)) 0.5); [reflexivity|]. rewrite ap_snap_year. symmetry. exact S1. }
  rewrite E. pose proof (Apogee_index n Z9) as P. apply Rabs_le_inv in P, N. apply Rabs_le. unfold yearJDE. revert P N.
  generalize (Apogee (anomalistic_year (IZR n + 0.5))). decimals. intros u [? ?] [? ?]. lra.
Qed.
Lemma node_date y h : 1300 <= y <= 2700 -> 0 <= h <= 0.5 -> Rabs (node_ y h - yearJDE y) <= 17.2.
Proof.
  intros H Hh. destruct (snap_as_index 2000.05 13.4223 h y ltac:(decimals; lra)) as [n [S1 [N S2]]].
  assert (Z9 : (Z.abs n <= 9999)%Z) by (apply (abs_le_Z n h ((y - 2000.05) * 13.4223)); [exact Hh|exact N|apply Rabs_le; decimals; lra]).
  assert (E : node_ y h = node_ (draconic_year (IZR n + h)) h).
  { unfold node_. cbv zeta. replace (no_snap y h) with (no_snap (draconic_year (IZR n + h)) h); [reflexivity|]. rewrite no_snap_year. symmetry. exact S1. }
  rewrite E. pose proof (node_index n h Z9 Hh) as P. apply Rabs_le_inv in P, N. apply Rabs_le. unfold yearJDE. revert P N.
  generalize (node_ (draconic_year (IZR n + h)) h). decimals. intros u [? ?] [? ?]. lra.
Qed.
