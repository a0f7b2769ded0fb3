(** Lemmas for C74: the approximate nutation in obliquity is good to 0.1 arc seconds. *)
From Coq Require Import ZArith Reals List Lra Lia Psatz Bool.
From Verif Require Import GoFloat GoMath M_base M_precess M_solar S_solar L_base L_trig L_kepler L_precess L_solar L_apparent2 L_torus.
Import ListNotations.
Local Open Scope R_scope.

(** What is left of the table after the four terms of the approximation. *)
Definition resid : list nrow := (((0, 0, 0, 0, 1, 0, 0, 250, 0) :: (-2, 0, 0, 2, 2, 0, 0, 360, 0) :: (0, 0, 0, 2, 2, 0, 0, -230, 0) :: (0, 0, 0, 0, 2, 0, 0, 50, 0) :: nil)%Z ++ skipn 4 table22A).
Definition c0sum (D M N F W : R) (l : list nrow) : R := sumR (map (fun r => cos (nut_arg D M N F W r) * (IZR (nC0 r) / 10)) l).
Definition c1sum (D M N F W : R) (l : list nrow) : R := sumR (map (fun r => cos (nut_arg D M N F W r) * (IZR (nC1 r) / 10)) l).
Lemma nut_c01 T D M N F W l : snd (nut_sums T D M N F W l) = c0sum D M N F W l + T * c1sum D M N F W l.
Proof. unfold nut_sums, c0sum, c1sum, sumR. cbn [snd]. induction l as [|r l IH]; cbn [map fold_right]; [ring|]. rewrite IH. field. Qed.
Lemma c0sum_abs D M N F W l : Rabs (c0sum D M N F W l) <= IZR (sumZ (map (fun r => Z.abs (nC0 r)) l)) / 10.
Proof.
  unfold c0sum, sumR, sumZ. induction l as [|r l IH]; cbn [map fold_right]; [rewrite Rabs_R0; lra|]. rewrite plus_IZR, abs_IZR. eapply Rle_trans; [apply Rabs_triang|].
  assert (Rabs (cos (nut_arg D M N F W r) * (IZR (nC0 r) / 10)) <= Rabs (IZR (nC0 r)) / 10); [|lra]. unfold Rdiv. rewrite !Rabs_mult, (Rabs_pos_eq (/ 10)) by lra. pose proof (abs_cos (nut_arg D M N F W r)). pose proof (Rabs_pos (cos (nut_arg D M N F W r))). pose proof (Rabs_pos (IZR (nC0 r))). nra.
Qed.
Lemma c1sum_abs D M N F W l : Rabs (c1sum D M N F W l) <= IZR (sumZ (map (fun r => Z.abs (nC1 r)) l)) / 10.
Proof.
  unfold c1sum, sumR, sumZ. induction l as [|r l IH]; cbn [map fold_right]; [rewrite Rabs_R0; lra|]. rewrite plus_IZR, abs_IZR. eapply Rle_trans; [apply Rabs_triang|].
  assert (Rabs (cos (nut_arg D M N F W r) * (IZR (nC1 r) / 10)) <= Rabs (IZR (nC1 r)) / 10); [|lra]. unfold Rdiv. rewrite !Rabs_mult, (Rabs_pos_eq (/ 10)) by lra. pose proof (abs_cos (nut_arg D M N F W r)). pose proof (Rabs_pos (cos (nut_arg D M N F W r))). pose proof (Rabs_pos (IZR (nC1 r))). nra.
Qed.
Lemma c0sum_split D M N F W p l : c0sum D M N F W l = c0sum D M N F W (filter p l) + c0sum D M N F W (filter (fun r => negb (p r)) l).
Proof. unfold c0sum, sumR. induction l as [|r l IH]; cbn [map fold_right filter]; [ring|]. rewrite IH. destruct (p r); cbn [negb map fold_right]; ring. Qed.
(** Terms in the Moon's longitude, anomaly and node; terms in the Sun's longitude and anomaly and the node. *)
Definition is1 (r : nrow) : bool := let '(d, m, n, f, w, _, _, _, _) := r in ((d =? 0) && (m =? 0) && (f =? 2 * (f / 2)) && (Z.abs (w - f) <=? 1))%Z.
Definition is2 (r : nrow) : bool := let '(d, m, n, f, w, _, _, _, _) := r in ((n =? 0) && (f =? - d) && (d =? 2 * (d / 2)) && (Z.abs (w + d) <=? 1))%Z.
Definition to1 (r : nrow) : tterm := let '(d, m, n, f, w, _, _, c, _) := r in (c, f / 2, n, w - f)%Z.
Definition to2 (r : nrow) : tterm := let '(d, m, n, f, w, _, _, c, _) := r in (c, - (d / 2), m, w + d)%Z.
Lemma c0sum_1 D M N F W l : c0sum D M N F W (filter is1 l) = tsum (map to1 (filter is1 l)) (2 * F + 2 * W) N W / 10.
Proof.
  unfold c0sum, tsum, sumR. induction l as [|r l IH]; cbn [filter map fold_right]; [field|]. destruct (is1 r) eqn:E; [|exact IH]. cbn [map fold_right]. rewrite IH. clear IH.
  destruct r as [[[[[[[[d m] n] f] w] s0] s1] c] c1]. unfold is1 in E. rewrite !andb_true_iff, !Z.eqb_eq in E. destruct E as [[[-> ->] Ef] _]. cbn [nut_arg nC0 to1 tval].
  replace (0 * D + 0 * M + IZR n * N + IZR f * F + IZR w * W) with (IZR (f / 2) * (2 * F + 2 * W) + IZR n * N + IZR (w - f) * W); [field|]. rewrite minus_IZR. apply (f_equal IZR) in Ef. rewrite mult_IZR in Ef. rewrite Ef. ring.
Qed.
Lemma c0sum_2 D M N F W l : c0sum D M N F W (filter is2 l) = tsum (map to2 (filter is2 l)) (-2 * D + 2 * F + 2 * W) M W / 10.
Proof.
  unfold c0sum, tsum, sumR. induction l as [|r l IH]; cbn [filter map fold_right]; [field|]. destruct (is2 r) eqn:E; [|exact IH]. cbn [map fold_right]. rewrite IH. clear IH.
  destruct r as [[[[[[[[d m] n] f] w] s0] s1] c] c1]. unfold is2 in E. rewrite !andb_true_iff, !Z.eqb_eq in E. destruct E as [[[-> ->] Ed] _]. cbn [nut_arg nC0 to2 tval].
  replace (IZR d * D + IZR m * M + 0 * N + IZR (- d) * F + IZR w * W) with (IZR (- (d / 2)) * (-2 * D + 2 * F + 2 * W) + IZR m * M + IZR (w + d) * W); [field|]. rewrite plus_IZR, !opp_IZR. apply (f_equal IZR) in Ed. rewrite mult_IZR in Ed. rewrite Ed. ring.
Qed.
Definition neg (t : tterm) : tterm := let '(c, k1, k2, m) := t in (- c, k1, k2, m)%Z.
Lemma tsum_neg l x y w : tsum (map neg l) x y w = - tsum l x y w.
Proof. unfold tsum. induction l as [|[[[c k1] k2] m] l IH]; cbn [map fold_right]; [ring|]. rewrite IH. cbn [neg tval]. rewrite opp_IZR. ring. Qed.
Lemma two_sided l G H : check l G = true -> check (map neg l) H = true -> forall x y w,
  - (IZR H + IZR (curv l) * 0.00241) <= tsum l x y w <= IZR G + IZR (curv l) * 0.00241.
Proof.
  intros A B x y w. pose proof (torus_bound _ _ A x y w) as P. pose proof (torus_bound _ _ B x y w) as Q. rewrite tsum_neg in Q.
  assert (E : curv (map neg l) = curv l). { unfold curv. rewrite map_map. f_equal. apply map_ext. intros [[[c k1] k2] m]. cbn [neg]. rewrite Z.abs_opp. reflexivity. } rewrite E in Q.
  assert (C : 0 <= IZR (curv l)). { apply (IZR_le 0). unfold curv. clear. induction l as [|[[[c k1] k2] m] l IH]; cbn [map fold_right]; [lia|]. assert (0 <= Z.abs c * ((Z.abs k1 + Z.abs k2) * (Z.abs k1 + Z.abs k2)))%Z by nia. lia. }
  assert (K : PI / 64 * (PI / 64) <= 0.00241) by (pose proof PI_10; nra). assert (IZR (curv l) * (PI / 64 * (PI / 64)) <= IZR (curv l) * 0.00241) by (apply Rmult_le_compat_l; assumption). lra.
Qed.
Definition rows1 := filter is1 resid.
Definition rows2 := filter is2 (filter (fun r => negb (is1 r)) resid).
Definition rows3 := filter (fun r => negb (is2 r)) (filter (fun r => negb (is1 r)) resid).
Lemma check1 : check (map to1 rows1) 3619 = true /\ check (map neg (map to1 rows1)) 4789 = true. Proof. split; vm_compute; reflexivity. Qed.
Lemma check2 : check (map to2 rows2) 3977 = true /\ check (map neg (map to2 rows2)) 3952 = true. Proof. split; vm_compute; reflexivity. Qed.
Lemma sizes : curv (map to1 rows1) = 15310%Z /\ curv (map to2 rows2) = 15260%Z /\ sumZ (map (fun r => Z.abs (nC0 r)) rows3) = 1060%Z.
Proof. repeat split; vm_compute; reflexivity. Qed.
Lemma resid_bound D M N F W : Rabs (c0sum D M N F W resid) <= 988.
Proof.
  rewrite (c0sum_split D M N F W is1 resid), (c0sum_split D M N F W is2 (filter (fun r => negb (is1 r)) resid)). rewrite c0sum_1, c0sum_2. fold rows1 rows2 rows3.
  pose proof (two_sided _ _ _ (proj1 check1) (proj2 check1) (2 * F + 2 * W) N W) as A. pose proof (two_sided _ _ _ (proj1 check2) (proj2 check2) (-2 * D + 2 * F + 2 * W) M W) as B. pose proof (c0sum_abs D M N F W rows3) as C.
  destruct sizes as (E1 & E2 & E3). rewrite E1 in A. rewrite E2 in B. rewrite E3 in C. apply abs_le_inv in C. apply Rabs_le.
  set (t1 := tsum _ _ _ _) in *. set (t2 := tsum (map to2 rows2) _ _ _) in *. set (t3 := c0sum _ _ _ _ _ rows3) in *. clearbody t1 t2 t3. lra.
Qed.
Lemma Approx_obliquity jde : Rabs ((jde - 2451545) / 36525) <= 1 / 2 -> Rabs (snd (ApproxNutation jde) - snd (Nutation jde)) <= arcsec 0.1.
Proof.
  rewrite Nutation_sums. cbv zeta. rewrite century. unfold ApproxNutation. cbv zeta. set (T := (jde - 2451545) / 36525). intros HT. pose proof (nut_args T HT) as NA. cbv zeta in NA.
  set (W := (12504452 / 100000 - 1934136261 / 1000000 * T) * PI / 180) in *. set (L := (2804665 / 10000 + 360007698 / 10000 * T) * PI / 180) in *.
  set (N := (2183165 / 10000 + 4812678813 / 10000 * T) * PI / 180) in *. destruct NA as (A1 & A2 & A3 & A4). cbn [snd]. rewrite nut_c01.
  set (D' := nut_D T) in *. set (M' := nut_M T). set (N' := nut_N T). set (F' := nut_F T) in *. set (W' := nut_W T) in *.
  pose proof (c1sum_abs D' M' N' F' W' table22A) as B1. change (sumZ (map (fun r => Z.abs (nC1 r)) table22A)) with 141%Z in B1. pose proof (resid_bound D' M' N' F' W') as B0.
  assert (E : c0sum D' M' N' F' W' table22A = 92000 * cos W' + (5700 * cos (-2 * D' + 2 * F' + 2 * W') + (1000 * cos (2 * F' + 2 * W') + -900 * cos (2 * W'))) + c0sum D' M' N' F' W' resid).
  { unfold resid. assert (Et : table22A = ((0, 0, 0, 0, 1, -1719960, -1742, 920250, 89) :: (-2, 0, 0, 2, 2, -131870, -16, 57360, -31) ::
      (0, 0, 0, 2, 2, -22740, -2, 9770, -5) :: (0, 0, 0, 0, 2, 20620, 2, -8950, 5) :: skipn 4 table22A)%Z) by reflexivity.
    rewrite Et at 1. unfold c0sum, sumR. cbn [map fold_right app]. set (rs := fold_right Rplus 0 _). cbn [nC0 nut_arg].
    replace (0 * D' + 0 * M' + 0 * N' + 0 * F' + 1 * W') with W' by ring.
    replace (-2 * D' + 0 * M' + 0 * N' + 2 * F' + 2 * W') with (-2 * D' + 2 * F' + 2 * W') by ring.
    replace (0 * D' + 0 * M' + 0 * N' + 2 * F' + 2 * W') with (2 * F' + 2 * W') by ring.
    replace (0 * D' + 0 * M' + 0 * N' + 0 * F' + 2 * W') with (2 * W') by ring. field. }
  rewrite E. set (c1 := c1sum D' M' N' F' W' table22A) in *. set (rs := c0sum D' M' N' F' W' resid) in *. clearbody c1 rs. clear E.
  match goal with |- Rabs (AngleFromSec ?x - AngleFromSec ?y) <= _ => replace (AngleFromSec x - AngleFromSec y) with (arcsec (x - y)) by (unfold arcsec, AngleFromSec; field) end. rewrite arcsec_abs. apply arcsec_le.
  pose proof (cos_close 9.2 9.2 W' W 0 _ A1) as C1. pose proof (cos_close 0.57 0.57 _ (2 * L) (-2) _ A2) as C2. pose proof (cos_close 0.1 0.1 _ (2 * N) 0 _ A3) as C3. pose proof (cos_close 0.09 0.09 _ (2 * W) 0 _ A4) as C4.
  rewrite Rminus_eq_0, Rabs_R0 in C1, C2, C3, C4. rewrite (Rabs_pos_eq 9.2) in C1 by lra. rewrite (Rabs_pos_eq 0.57) in C2 by lra. rewrite (Rabs_pos_eq 0.1) in C3 by lra. rewrite (Rabs_pos_eq 0.09) in C4 by lra.
  assert (P : Rabs (T * c1) <= 7.05). { rewrite Rabs_mult. pose proof (Rabs_pos T). pose proof (Rabs_pos c1). nra. }
  apply abs_le_inv in C1, C2, C3, C4, B0, P. apply Rabs_le. set (x1 := cos W') in *. set (x2 := cos (-2 * D' + 2 * F' + 2 * W')) in *. set (x3 := cos (2 * F' + 2 * W')) in *. set (x4 := cos (2 * W')) in *. lra.
Qed.
