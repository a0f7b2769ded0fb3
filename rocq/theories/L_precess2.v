(** Lemmas for P_precess2: precession there and back; equatorial and ecliptic precession. *)
From Coq Require Import ZArith Reals List Lra Lia Psatz Bool.
From Verif Require Import GoFloat GoMath M_base M_angle M_coord M_precess S_Sphere S_precess S_solar L_trig L_vec L_coord L_precess L_solar L_elements L_physical L_apparent L_apparent2 L_apparent3 L_jupitermoons3 L_taylor.
Import ListNotations.
Local Open Scope R_scope.

(** ** One representation *)
Section Model.
Variable K : Z.
Definition arc3 (a b c : Z) (da db dc : positive) : list (Z * positive) := [(0%Z, 1%positive); ((a * K)%Z, da); ((b * K * K)%Z, db); ((c * K * K * K)%Z, dc)].
Lemma arc3_ok a b c da db dc x : qp (arc3 a b c da db dc) x = IZR a / IZR (Zpos da) * (IZR K * x) + IZR b / IZR (Zpos db) * (IZR K * x) * (IZR K * x) + IZR c / IZR (Zpos dc) * (IZR K * x) * (IZR K * x) * (IZR K * x).
Proof. unfold arc3. cbn [qp]. rewrite !mult_IZR. assert (forall p, IZR (Zpos p) <> 0) by (intros; apply not_0_IZR; discriminate). field. repeat split; apply H. Qed.
Definition m_zeta := tm_arc (arc3 23062181 30188 17998 10000 100000 1000000).
Definition m_z := tm_arc (arc3 23062181 109468 18203 10000 100000 1000000).
Definition m_theta := tm_arc (arc3 20043109 (-42665) (-41833) 10000 100000 1000000).
Definition m_eta := tm_arc (arc3 470029 (-3302) 60 10000 100000 1000000).
Definition m_pi := tm_arc (arc3 (-8698089) 3536 0 10000 100000 1).
Definition m_p := tm_arc (arc3 50290966 111113 (-6) 10000 100000 1000000).
Definition m_eps := tm_arc (arc3 (-46815) (-59) 1813 1000 100000 1000000).
Definition a_eps0 := let h := ang_small (tm_arc [(84381448%Z, 2000%positive)]) in ang_add h h.
Definition a_pi0 := let '(s, c) := ang_small (tm_arc [(184450176%Z, 10000%positive)]) in (s, tm_opp c).
Definition a_pi := ang_add a_pi0 (ang_small m_pi).
Definition half (m : tm) : tm * tm := let h := ang_small (tm_divz 2 m) in ang_add h h.
Definition a_eps := ang_add a_eps0 (ang_small m_eps).
Definition t_eq (v : tv) : tv := tv_rot_z (ang_opp (half m_z)) (tv_rot_y (half m_theta) (tv_rot_z (ang_opp (half m_zeta)) v)).
Definition t_ecl (v : tv) : tv := tv_rot_x (ang_opp a_eps) (tv_rot_z (ang_opp (ang_add a_pi (half m_p))) (tv_rot_x (ang_small m_eta) (tv_rot_z a_pi (tv_rot_x a_eps0 v)))).
Definition t_diff (v : tv) : tv := tv_sub (t_eq v) (t_ecl v).
End Model.
Notation t_total K := (IZR (tv_sq (t_diff K (tm_one, tm_zero, tm_zero))) + IZR (tv_sq (t_diff K (tm_zero, tm_one, tm_zero))) + IZR (tv_sq (t_diff K (tm_zero, tm_zero, tm_one)))).
Lemma ang_supp t s c : ang_ok t (s, c) -> ang_ok (fun x => PI - t x) (s, tm_opp c).
Proof.
  intros [A B]. cbn [fst snd] in *. split; cbn [fst snd].
  - eapply tm_ext; [|exact A]. intros x _. cbv beta. rewrite sin_minus, sin_PI, cos_PI. ring.
  - eapply tm_ext; [|exact (tm_opp_ok _ _ B)]. intros x _. cbv beta. rewrite cos_minus, sin_PI, cos_PI. ring.
Qed.
Lemma half_ok t m : tm_ok t m -> (tm_abs (tm_divz 2 m) <=? SC)%Z = true -> ang_ok t (half m).
Proof.
  intros T H. unfold half. cbv zeta. pose proof (ang_small_ok _ _ (tm_divz_ok 2 _ _ ltac:(reflexivity) T) H) as A. eapply ang_ext; [|exact (ang_add_ok _ _ _ _ A A)]. intros x _. cbv beta. lra.
Qed.
(** The functions of the model in T. *)
Definition f_zeta (T : R) : R := AngleFromSec (2306.2181 * T + 0.30188 * T * T + 0.017998 * T * T * T).
Definition f_z (T : R) : R := AngleFromSec (2306.2181 * T + 1.09468 * T * T + 0.018203 * T * T * T).
Definition f_theta (T : R) : R := AngleFromSec (2004.3109 * T - 0.42665 * T * T - 0.041833 * T * T * T).
Definition f_eta (T : R) : R := AngleFromSec (47.0029 * T - 0.03302 * T * T + 0.000060 * T * T * T).
Definition f_pi (T : R) : R := AngleFromDeg 174.876384 + AngleFromSec (- 869.8089 * T + 0.03536 * T * T).
Definition f_p (T : R) : R := AngleFromSec (5029.0966 * T + 1.11113 * T * T - 0.000006 * T * T * T).
Definition f_eps (T : R) : R := AngleFromSec (84381.448 - 46.8150 * T - 0.00059 * T * T + 0.001813 * T * T * T).
Section Sound.
Variable K : Z.
Let ok := (fun m => (tm_abs m <=? SC)%Z).
Definition checks : bool := forallb ok [tm_divz 2 (m_zeta K); tm_divz 2 (m_z K); tm_divz 2 (m_theta K); m_eta K; m_pi K; tm_divz 2 (m_p K); m_eps K; tm_arc [(84381448%Z, 2000%positive)]; tm_arc [(184450176%Z, 10000%positive)]].
Hypothesis H : checks = true.
Lemma checks_in m : In m [tm_divz 2 (m_zeta K); tm_divz 2 (m_z K); tm_divz 2 (m_theta K); m_eta K; m_pi K; tm_divz 2 (m_p K); m_eps K; tm_arc [(84381448%Z, 2000%positive)]; tm_arc [(184450176%Z, 10000%positive)]] -> ok m = true.
Proof. intros I. exact (proj1 (forallb_forall ok _) H m I). Qed.
Ltac inlist := apply checks_in; cbn [In]; tauto.
Ltac arc := eapply tm_ext; [|apply tm_arc_ok]; intros x _; cbv beta; unfold f_zeta, f_z, f_theta, f_eta, f_p; apply (f_equal AngleFromSec); rewrite arc3_ok; decimals; field.
Lemma A_zeta : ang_ok (fun x => f_zeta (IZR K * x)) (half (m_zeta K)). Proof. apply half_ok; [arc|inlist]. Qed.
Lemma A_z : ang_ok (fun x => f_z (IZR K * x)) (half (m_z K)). Proof. apply half_ok; [arc|inlist]. Qed.
Lemma A_theta : ang_ok (fun x => f_theta (IZR K * x)) (half (m_theta K)). Proof. apply half_ok; [arc|inlist]. Qed.
Lemma A_p : ang_ok (fun x => f_p (IZR K * x)) (half (m_p K)). Proof. apply half_ok; [arc|inlist]. Qed.
Lemma A_eta : ang_ok (fun x => f_eta (IZR K * x)) (ang_small (m_eta K)). Proof. apply ang_small_ok; [arc|inlist]. Qed.
Lemma A_eps0 : ang_ok (fun _ => AngleFromSec 84381.448) a_eps0.
Proof.
  unfold a_eps0. cbv zeta. assert (A : ang_ok (fun _ => AngleFromSec (84381.448 / 2)) (ang_small (tm_arc [(84381448%Z, 2000%positive)]))).
  { apply ang_small_ok; [|inlist]. eapply tm_ext; [|apply tm_arc_ok]. intros x _. apply (f_equal AngleFromSec). cbn [qp]. decimals. field. }
  eapply ang_ext; [|exact (ang_add_ok _ _ _ _ A A)]. intros x _. unfold AngleFromSec. lra.
Qed.
Lemma A_eps : ang_ok (fun x => f_eps (IZR K * x)) (a_eps K).
Proof.
  unfold a_eps. assert (A : ang_ok (fun x => AngleFromSec (- 46.8150 * (IZR K * x) - 0.00059 * (IZR K * x) * (IZR K * x) + 0.001813 * (IZR K * x) * (IZR K * x) * (IZR K * x))) (ang_small (m_eps K))).
  { apply ang_small_ok; [arc|inlist]. }
  eapply ang_ext; [|exact (ang_add_ok _ _ _ _ A_eps0 A)]. intros x _. unfold f_eps, AngleFromSec. cbv beta. decimals. field.
Qed.
Lemma A_pi : ang_ok (fun x => f_pi (IZR K * x)) (a_pi K).
Proof.
  unfold a_pi. assert (A : ang_ok (fun x => AngleFromSec (- 869.8089 * (IZR K * x) + 0.03536 * (IZR K * x) * (IZR K * x))) (ang_small (m_pi K))).
  { apply ang_small_ok; [arc|inlist]. }
  assert (B : ang_ok (fun _ => AngleFromDeg 174.876384) a_pi0).
  { unfold a_pi0. assert (B : ang_ok (fun _ => AngleFromSec 18445.0176) (ang_small (tm_arc [(184450176%Z, 10000%positive)]))).
    { apply ang_small_ok; [|inlist]. eapply tm_ext; [|apply tm_arc_ok]. intros x _. apply (f_equal AngleFromSec). cbn [qp]. decimals. field. }
    destruct (ang_small _) as [s c]. eapply ang_ext; [|exact (ang_supp _ _ _ B)]. intros x _. cbv beta. unfold AngleFromDeg, AngleFromSec. decimals. field. }
  exact (ang_add_ok _ _ _ _ B A).
Qed.
Definition f_diff (T : R) (v : vec) : vec :=
  vsub (precession (f_zeta T) (f_z T) (f_theta T) v) (app (rot_x (- f_eps T)) (ecliptic_precession (f_eta T) (f_pi T) (f_p T) (app (rot_x (AngleFromSec 84381.448)) v))).
Lemma t_diff_ok e m : tv_ok (fun _ => e) m -> tv_ok (fun x => f_diff (IZR K * x) e) (t_diff K m).
Proof.
  intros M. unfold f_diff, t_diff. apply tv_sub_ok.
  - unfold precession, t_eq. apply (tv_rot_z_ok (fun x => - f_z (IZR K * x))); [exact (ang_opp_ok _ _ A_z)|]. apply (tv_rot_y_ok (fun x => f_theta (IZR K * x))); [exact A_theta|].
    apply (tv_rot_z_ok (fun x => - f_zeta (IZR K * x))); [exact (ang_opp_ok _ _ A_zeta)|exact M].
  - unfold ecliptic_precession, t_ecl. apply (tv_rot_x_ok (fun x => - f_eps (IZR K * x))); [exact (ang_opp_ok _ _ A_eps)|].
    apply (tv_rot_z_ok (fun x => - (f_pi (IZR K * x) + f_p (IZR K * x)))); [exact (ang_opp_ok _ _ (ang_add_ok _ _ _ _ A_pi A_p))|]. apply (tv_rot_x_ok (fun x => f_eta (IZR K * x))); [exact A_eta|].
    apply (tv_rot_z_ok (fun x => f_pi (IZR K * x))); [exact A_pi|]. apply (tv_rot_x_ok (fun _ => AngleFromSec 84381.448)); [exact A_eps0|exact M].
Qed.
Lemma f_diff_sq x e m : tv_ok (fun _ => e) m -> Rabs x <= 1 -> dot (f_diff (IZR K * x) e) (f_diff (IZR K * x) e) * (IZR SC * IZR SC) <= IZR (tv_sq (t_diff K m)).
Proof. intros M Hx. exact (tv_sq_ok (fun x => f_diff (IZR K * x) e) _ x (t_diff_ok e m M) Hx). Qed.
Lemma f_diff_linear T v : norm (f_diff T v) * norm (f_diff T v) <= (dot (f_diff T e1) (f_diff T e1) + dot (f_diff T e2) (f_diff T e2) + dot (f_diff T e3) (f_diff T e3)) * (norm v * norm v).
Proof.
  apply columns; intros; unfold f_diff, precession, ecliptic_precession; repeat rewrite ?app_vadd, ?app_scale; unfold vsub, vadd, scale; cbn [vx vy vz]; apply mkvec_eq; ring.
Qed.
Lemma total_arith q1 q2 q3 nv nf a1 a2 a3 n d sc : 0 < sc -> 0 < d -> 0 <= n -> 0 <= nv -> 0 <= nf ->
  q1 * (sc * sc) <= a1 -> q2 * (sc * sc) <= a2 -> q3 * (sc * sc) <= a3 -> (a1 + a2 + a3) * (d * d) <= n * n * (sc * sc) -> nf * nf <= (q1 + q2 + q3) * (nv * nv) -> nf <= n / d * nv.
Proof.
  intros S D N NV NF A1 A2 A3 C L. set (s := q1 + q2 + q3) in *. assert (SS : s * (sc * sc) * (d * d) <= n * n * (sc * sc)). { eapply Rle_trans; [|exact C]. apply Rmult_le_compat_r; [nra|]. unfold s. lra. }
  clear - L SS S D N NV NF. assert (s * (d * d) <= n * n). { apply Rmult_le_reg_r with (sc * sc); [nra|]. lra. }
  assert (s <= n / d * (n / d)). { apply Rmult_le_reg_r with (d * d); [nra|]. replace (n / d * (n / d) * (d * d)) with (n * n) by (field; lra). lra. }
  assert (0 <= n / d) by (apply Rmult_le_pos; [lra|]; left; apply Rinv_0_lt_compat; lra).
  apply Rsqr_incr_0; [|lra|nra]. unfold Rsqr. set (r := n / d) in *. apply Rle_trans with (s * (nv * nv)); [exact L|]. replace (r * nv * (r * nv)) with (r * r * (nv * nv)) by ring. apply Rmult_le_compat_r; nra.
Qed.
Lemma f_diff_bound T v n d : (0 < K)%Z -> Rabs T <= IZR K -> 0 <= n -> 0 < d -> t_total K * (d * d) <= n * n * (IZR SC * IZR SC) -> norm (f_diff T v) <= n / d * norm v.
Proof.
  intros KP HT N D C. pose proof SC_pos as S. apply IZR_lt in KP.
  set (x := T / IZR K). assert (Hx : Rabs x <= 1). { unfold x, Rdiv. rewrite Rabs_mult, Rabs_inv, (Rabs_pos_eq (IZR K)) by lra. apply Rmult_le_reg_r with (IZR K); [lra|]. field_simplify; lra. }
  assert (ET : T = IZR K * x) by (unfold x; field; lra). clearbody x. subst T.
  pose proof (f_diff_sq x e1 _ tv_e1 Hx) as Q1. pose proof (f_diff_sq x e2 _ tv_e2 Hx) as Q2. pose proof (f_diff_sq x e3 _ tv_e3 Hx) as Q3.
  exact (total_arith _ _ _ _ _ _ _ _ n d _ S D N (norm_pos0 v) (norm_pos0 _) Q1 Q2 Q3 C (f_diff_linear _ v)).
Qed.
End Sound.

(** ** The bound for the two forms *)
Definition eps_year (e : R) : R := MeanObliquity (JulianYearToJDE (fl := RFlt) e).
Lemma eps_year_f e : eps_year e = f_eps ((e - 2000) / 100).
Proof.
  unfold eps_year. destruct (obliquities (JulianYearToJDE (fl := RFlt) e)) as [H _]. rewrite H. clear H. unfold f_eps. apply eq_trans with (arcsec (84381.448 - 46.8150 * ((e - 2000) / 100) - 0.00059 * ((e - 2000) / 100) * ((e - 2000) / 100) + 0.001813 * ((e - 2000) / 100) * ((e - 2000) / 100) * ((e - 2000) / 100))); [|symmetry; apply AngleFromSec_arcsec]. apply (f_equal arcsec). unfold JulianYearToJDE, J2000, JulianYear. cbn -[IZR pow]. decimals. field.
Qed.
Lemma forms e v n d K : checks K = true -> (0 < K)%Z -> Rabs (e - 2000) <= 100 * IZR K -> 0 <= n -> 0 < d -> t_total K * (d * d) <= n * n * (IZR SC * IZR SC) ->
  let p := NewPrecessor 2000 e in let q := NewEclipticPrecessor 2000 e in
  norm (vsub (app (rot_x (eps_year e)) (precession (pzeta p) (pz p) (ptheta p) v)) (ecliptic_precession (epeta q) (eppi q) (epp q) (app (rot_x (eps_year 2000)) v))) <= n / d * norm v.
Proof.
  intros CK KP He N D C p q. set (T := (e - 2000) / 100). assert (HT : Rabs T <= IZR K). { unfold T, Rdiv. rewrite Rabs_mult, (Rabs_pos_eq (/ 100)) by lra. lra. }
  pose proof (f_diff_bound K CK T v n d KP HT N D C) as B. unfold f_diff in B.
  destruct (NewPrecessor_poly 2000 e) as (P1 & P2 & P3). destruct (NewEclipticPrecessor_poly 2000 e) as (Q1 & Q2 & Q3). fold p in P1, P2, P3. fold q in Q1, Q2, Q3. fold T in P1, P2, P3, Q1, Q2, Q3.
  assert (E1 : pzeta p = f_zeta T) by (rewrite P1; unfold f_zeta; f_equal; decimals; field). assert (E2 : pz p = f_z T) by (rewrite P2; unfold f_z; f_equal; decimals; field).
  assert (E3 : ptheta p = f_theta T) by (rewrite P3; unfold f_theta; f_equal; decimals; field). assert (E4 : epeta q = f_eta T) by (rewrite Q1; unfold f_eta; f_equal; decimals; field).
  assert (E5 : eppi q = f_pi T) by (rewrite Q2; unfold f_pi; f_equal; f_equal; decimals; field). assert (E6 : epp q = f_p T) by (rewrite Q3; unfold f_p; f_equal; decimals; field).
  rewrite E1, E2, E3, E4, E5, E6, !eps_year_f. fold T. assert (E7 : f_eps ((2000 - 2000) / 100) = AngleFromSec 84381.448). { unfold f_eps. f_equal. decimals. field. }
  rewrite E7. eapply Rle_trans; [|exact B]. apply Req_le.
  set (w := precession (f_zeta T) (f_z T) (f_theta T) v). set (u := ecliptic_precession (f_eta T) (f_pi T) (f_p T) (app (rot_x (AngleFromSec 84381.448)) v)).
  rewrite <- (norm_rot_x (f_eps T) (vsub w (app (rot_x (- f_eps T)) u))). rewrite app_vsub, (proj2 (rot_x_inv (f_eps T) u)). reflexivity.
Qed.
Lemma total_R z a b c : (z * (b * b) <=? a * a * c)%Z = true -> IZR z * (IZR b * IZR b) <= IZR a * IZR a * IZR c.
Proof. intros H. apply Z.leb_le, IZR_le in H. rewrite !mult_IZR in H. exact H. Qed.
Definition N1 : Z := 62831852%Z. Definition D1 : Z := 64800000000000000%Z.
Definition N10 : Z := 816814076%Z. Definition D10 : Z := 648000000000000%Z.
Lemma total1 : t_total 1 * (IZR D1 * IZR D1) <= IZR N1 * IZR N1 * (IZR SC * IZR SC).
Proof. rewrite <- (mult_IZR SC SC), <- !plus_IZR. apply total_R. vm_compute. reflexivity. Qed.
Lemma total10 : t_total 10 * (IZR D10 * IZR D10) <= IZR N10 * IZR N10 * (IZR SC * IZR SC).
Proof. rewrite <- (mult_IZR SC SC), <- !plus_IZR. apply total_R. vm_compute. reflexivity. Qed.
Lemma checks1 : checks 1 = true. Proof. vm_compute. reflexivity. Qed.
Lemma checks10 : checks 10 = true. Proof. vm_compute. reflexivity. Qed.
Lemma two_forms e v : let p := NewPrecessor 2000 e in let q := NewEclipticPrecessor 2000 e in
  let d := norm (vsub (app (rot_x (eps_year e)) (precession (pzeta p) (pz p) (ptheta p) v)) (ecliptic_precession (epeta q) (eppi q) (epp q) (app (rot_x (eps_year 2000)) v))) in
  (1900 <= e <= 2100 -> d <= arcsec 0.0002 * norm v) /\ (1000 <= e <= 3000 -> d <= arcsec 0.26 * norm v).
Proof.
  intros p q d. pose proof (norm_pos0 v) as NV. pose proof PI_10 as PB. unfold arcsec. split; intros He.
  - pose proof (forms e v (IZR N1) (IZR D1) 1 checks1 ltac:(reflexivity) ltac:(apply Rabs_le; lra) ltac:(unfold N1; lra) ltac:(unfold D1; lra) total1) as B. cbv zeta in B. fold p q in B. fold d in B.
    eapply Rle_trans; [exact B|]. apply Rmult_le_compat_r; [exact NV|]. unfold N1, D1, N10, D10. decimals. lra.
  - pose proof (forms e v (IZR N10) (IZR D10) 10 checks10 ltac:(reflexivity) ltac:(apply Rabs_le; lra) ltac:(unfold N10; lra) ltac:(unfold D10; lra) total10) as B. cbv zeta in B. fold p q in B. fold d in B.
    eapply Rle_trans; [exact B|]. apply Rmult_le_compat_r; [exact NV|]. unfold N1, D1, N10, D10. decimals. lra.
Qed.
(** In terms of the coordinates. *)
Lemma norm_dir1 a b : norm (dir a b) = 1.
Proof. pose proof (norm_dir 1 a b ltac:(lra)) as H. rewrite norm_scale, Rabs_R1, Rmult_1_l in H. exact H. Qed.
Lemma two_routes e eq : - (PI / 2) < eqDec eq < PI / 2 ->
  let eq' := Precess (NewPrecessor 2000 e) eq in
  - (PI / 2) < eqDec eq' < PI / 2 ->
  let '(lon1, lat1) := EqToEcl (eqRA eq') (eqDec eq') (sin (eps_year e)) (cos (eps_year e)) in
  let '(lon0, lat0) := EqToEcl (eqRA eq) (eqDec eq) (sin (eps_year 2000)) (cos (eps_year 2000)) in
  let ecl := EclPrecess (NewEclipticPrecessor 2000 e) (mkEcl lon0 lat0) in
  (1900 <= e <= 2100 -> norm (vsub (dir lon1 lat1) (dir (eclLon ecl) (eclLat ecl))) <= arcsec 0.0002) /\
  (1000 <= e <= 3000 -> norm (vsub (dir lon1 lat1) (dir (eclLon ecl) (eclLat ecl))) <= arcsec 0.26).
Proof.
  intros H eq' H'. pose proof (EqToEcl_dir (eqRA eq') (eqDec eq') (eps_year e) H') as A. pose proof (EqToEcl_dir (eqRA eq) (eqDec eq) (eps_year 2000) H) as B.
  destruct (EqToEcl (eqRA eq') _ _ _) as [lon1 lat1]. destruct (EqToEcl (eqRA eq) _ _ _) as [lon0 lat0]. destruct A as (_ & _ & A). destruct B as (_ & _ & B). intros ecl.
  destruct (EclPrecess_dir (NewEclipticPrecessor 2000 e) (mkEcl lon0 lat0)) as (_ & _ & E). fold ecl in E. cbn [eclLon eclLat] in E. destruct (Precess_dir (NewPrecessor 2000 e) eq) as (_ & _ & P). fold eq' in P.
  rewrite A, E, B, P. pose proof (two_forms e (dir (eqRA eq) (eqDec eq))) as T. cbv zeta in T. rewrite norm_dir1, !Rmult_1_r in T. exact T.
Qed.

(** ** There and back *)
Lemma Precessor_back e1 e2 : let p := NewPrecessor e1 e2 in let q := NewPrecessor e2 e1 in pzeta q = - pz p /\ pz q = - pzeta p /\ ptheta q = - ptheta p.
Proof.
  intros p q. destruct (NewPrecessor_poly e1 e2) as (P1 & P2 & P3). destruct (NewPrecessor_poly e2 e1) as (Q1 & Q2 & Q3). fold p in P1, P2, P3. fold q in Q1, Q2, Q3. rewrite P1, P2, P3, Q1, Q2, Q3. unfold AngleFromSec. decimals. repeat split; field.
Qed.
Lemma precession_back e1 e2 v : let p := NewPrecessor e1 e2 in let q := NewPrecessor e2 e1 in
  precession (pzeta q) (pz q) (ptheta q) (precession (pzeta p) (pz p) (ptheta p) v) = v.
Proof.
  intros p q. destruct (Precessor_back e1 e2) as (A & B & C). fold p q in A, B, C. rewrite A, B, C. unfold precession. rewrite !Ropp_involutive.
  set (w := app (rot_y (ptheta p)) (app (rot_z (- pzeta p)) v)). replace (app (rot_z (pz p)) (app (rot_z (- pz p)) w)) with w.
  - unfold w. rewrite rot_y_inv. pose proof (rot_z_inv (- pzeta p) v) as X. rewrite Ropp_involutive in X. exact X.
  - pose proof (rot_z_inv (- pz p) w) as X. rewrite Ropp_involutive in X. symmetry. exact X.
Qed.
Lemma Precess_back e1 e2 eq : let r := Precess (NewPrecessor e2 e1) (Precess (NewPrecessor e1 e2) eq) in
  dir (eqRA r) (eqDec r) = dir (eqRA eq) (eqDec eq) /\
  (0 <= eqRA eq < 2 * PI -> - (PI / 2) < eqDec eq < PI / 2 -> r = eq).
Proof.
  intros r. destruct (Precess_dir (NewPrecessor e2 e1) (Precess (NewPrecessor e1 e2) eq)) as (RA & RD & E). fold r in RA, RD, E.
  destruct (Precess_dir (NewPrecessor e1 e2) eq) as (_ & _ & E'). rewrite E', precession_back in E. split; [exact E|]. intros HA HD.
  symmetry in E. destruct (dir_inj _ _ _ _ HD RD E) as (Ed & Es & Ec). destruct r as [a d]. destruct eq as [a0 d0]. cbn [eqRA eqDec] in *. subst d. f_equal. symmetry. apply (angle_eq_range a0 a 0); lra.
Qed.
Lemma rot_z_close t v : norm (vsub (app (rot_z t) v) v) <= Rabs t * norm v.
Proof.
  destruct v as [x y z]. pose proof (rot_x_close t (mkvec z x y)) as H. eapply Rle_trans; [|eapply Rle_trans; [exact H|]]; apply Req_le.
  - unfold norm, vsub, vadd, scale, app, rot_x, rot_z, dot. cbn [r1 r2 r3 vx vy vz]. f_equal. ring.
  - f_equal. unfold norm, dot. cbn [vx vy vz]. f_equal. ring.
Qed.
Lemma commutator a b w : norm (vsub (app (rot_x a) (app (rot_z b) w)) (app (rot_z b) (app (rot_x a) w))) <= 2 * (Rabs a * Rabs b) * norm w.
Proof.
  set (X := fun v => vsub (app (rot_x a) v) v). set (Y := fun v => vsub (app (rot_z b) v) v).
  assert (E : vsub (app (rot_x a) (app (rot_z b) w)) (app (rot_z b) (app (rot_x a) w)) = vsub (X (Y w)) (Y (X w))).
  { unfold X, Y. rewrite !app_vsub. set (p := app (rot_x a) (app (rot_z b) w)). set (q := app (rot_z b) (app (rot_x a) w)). set (r := app (rot_x a) w). set (s := app (rot_z b) w). unfold vsub, vadd, scale. cbn [vx vy vz]. apply mkvec_eq; ring. }
  rewrite E. assert (XX : forall v, norm (X v) <= Rabs a * norm v) by (intro; apply rot_x_close). assert (YY : forall v, norm (Y v) <= Rabs b * norm v) by (intro; apply rot_z_close).
  pose proof (XX (Y w)) as A1. pose proof (YY w) as A2. pose proof (YY (X w)) as B1. pose proof (XX w) as B2. pose proof (Rabs_pos a). pose proof (Rabs_pos b). pose proof (norm_pos0 w).
  unfold vsub at 1. eapply Rle_trans; [apply norm_add|]. rewrite norm_opp1. assert (norm (X (Y w)) <= Rabs a * (Rabs b * norm w)). { eapply Rle_trans; [exact A1|]. apply Rmult_le_compat_l; assumption. }
  assert (norm (Y (X w)) <= Rabs b * (Rabs a * norm w)). { eapply Rle_trans; [exact B1|]. apply Rmult_le_compat_l; assumption. } lra.
Qed.
Lemma rot_x_add2 a b v : app (rot_x a) (app (rot_x b) v) = app (rot_x (a + b)) v.
Proof. destruct v as [x y z]. unfold app, rot_x, dot. cbn [r1 r2 r3 vx vy vz]. rewrite sin_plus, cos_plus. apply mkvec_eq; ring. Qed.
Lemma ecliptic_back_gen eta pi p eta' delta v :
  norm (vsub (ecliptic_precession eta' (pi + p + delta) (- p) (ecliptic_precession eta pi p v)) v) <= (Rabs (eta' + eta) + 2 * (Rabs eta * Rabs delta)) * norm v.
Proof.
  unfold ecliptic_precession. set (u := app (rot_z pi) v). set (w := app (rot_x eta) u).
  rewrite (rot_z_add (pi + p + delta) (- (pi + p)) w). replace (pi + p + delta + - (pi + p)) with delta by ring. replace (- (pi + p + delta + - p)) with (- pi + - delta) by ring. rewrite <- (rot_z_add (- pi) (- delta)).
  assert (Ev : v = app (rot_z (- pi)) (app (rot_x (- eta)) w)). { unfold w. rewrite (proj1 (rot_x_inv eta u)). unfold u. symmetry. apply rot_z_inv. }
  assert (Nw : norm w = norm v) by (unfold w, u; rewrite norm_rot_x, norm_rot_z; reflexivity).
  rewrite Ev at 1. rewrite <- app_vsub, norm_rot_z. rewrite <- Nw.
  rewrite <- (norm_rot_z delta). rewrite app_vsub. assert (I : forall x, app (rot_z delta) (app (rot_z (- delta)) x) = x). { intros x. pose proof (rot_z_inv (- delta) x) as H. rewrite Ropp_involutive in H. exact H. }
  rewrite I. set (y := app (rot_z delta) w). assert (Ny : norm y = norm w) by apply norm_rot_z.
  apply Rle_trans with (norm (vsub (app (rot_x eta') y) (app (rot_x (- eta)) y)) + norm (vsub (app (rot_x (- eta)) y) (app (rot_z delta) (app (rot_x (- eta)) w)))); [apply norm_sub3|].
  pose proof (commutator (- eta) delta w) as C. fold y in C. rewrite Rabs_Ropp in C.
  assert (D : norm (vsub (app (rot_x eta') y) (app (rot_x (- eta)) y)) <= Rabs (eta' + eta) * norm w).
  { replace eta' with (- eta + (eta' + eta)) at 1 by ring. rewrite <- rot_x_add2, <- app_vsub, norm_rot_x, <- Ny. apply rot_x_close. }
  lra.
Qed.
Lemma EclPrecessor_back e1 e2 : let T := (e1 - 2000) / 100 in let t := (e2 - e1) / 100 in let p := NewEclipticPrecessor e1 e2 in let q := NewEclipticPrecessor e2 e1 in
  epp q = - epp p /\ epeta q + epeta p = AngleFromSec (- 0.00001 * t * t) /\ eppi q = eppi p + epp p + AngleFromSec (0.0001 * t + 0.000042 * T * t * (T + t) + 0.000006 * t * t * t).
Proof.
  intros T t p q. destruct (NewEclipticPrecessor_poly e1 e2) as (P1 & P2 & P3). destruct (NewEclipticPrecessor_poly e2 e1) as (Q1 & Q2 & Q3). fold p in P1, P2, P3. fold q in Q1, Q2, Q3. rewrite P1, P2, P3, Q1, Q2, Q3. unfold T, t, AngleFromSec, AngleFromDeg. decimals. repeat split; field.
Qed.
Lemma poly_abs (a b : R) : Rabs (a + b) <= Rabs a + Rabs b. Proof. apply Rabs_triang. Qed.
Lemma arc_abs x k : Rabs x <= k -> Rabs (AngleFromSec x) <= arcsec k.
Proof. intros H. rewrite AngleFromSec_arcsec, arcsec_abs. unfold arcsec. pose proof PI_10. nra. Qed.
Lemma ecliptic_back e1 e2 v : 0 <= e1 <= 4000 -> 0 <= e2 <= 4000 -> let p := NewEclipticPrecessor e1 e2 in let q := NewEclipticPrecessor e2 e1 in
  norm (vsub (ecliptic_precession (epeta q) (eppi q) (epp q) (ecliptic_precession (epeta p) (eppi p) (epp p) v)) v) <= arcsec 0.04 * norm v.
Proof.
  intros H1 H2 p q. destruct (EclPrecessor_back e1 e2) as (A & B & C). destruct (NewEclipticPrecessor_poly e1 e2) as (E & _). fold p q in A, B, C. fold p in E. rewrite A, C.
  eapply Rle_trans; [apply ecliptic_back_gen|]. rewrite B. apply Rmult_le_compat_r; [apply norm_pos0|]. rewrite E. clear A B C E.
  set (T := (e1 - 2000) / 100). set (t := (e2 - e1) / 100). assert (HT : Rabs T <= 20) by (unfold T; apply Rabs_le; lra). assert (Ht : Rabs t <= 40) by (unfold t; apply Rabs_le; lra). assert (HTt : Rabs (T + t) <= 20) by (unfold T, t; apply Rabs_le; lra). clearbody T t. clear - HT Ht HTt.
  assert (M : forall x y a b, Rabs x <= a -> Rabs y <= b -> Rabs (x * y) <= a * b). { intros x y a b X Y. rewrite Rabs_mult. apply Rmult_le_compat; auto using Rabs_pos. }
  assert (TT : Rabs (T * T) <= 400) by (pose proof (M T T 20 20 HT HT); lra). assert (tt2 : Rabs (t * t) <= 1600) by (pose proof (M t t 40 40 Ht Ht); lra). assert (ttt : Rabs (t * t * t) <= 64000) by (pose proof (M (t * t) t 1600 40 tt2 Ht); lra).
  assert (TTt : Rabs (T * t * (T + t)) <= 16000). { pose proof (M T t 20 40 HT Ht). pose proof (M (T * t) (T + t) (20 * 40) 20 H HTt). lra. }
  assert (X1 : Rabs (AngleFromSec (- 0.00001 * t * t)) <= arcsec 0.016). { apply arc_abs. clear - tt2. apply abs_le_inv in tt2. apply Rabs_le. decimals. split; nra. }
  assert (X2 : Rabs (AngleFromSec (0.0001 * t + 0.000042 * T * t * (T + t) + 0.000006 * t * t * t)) <= arcsec 1.07).
  { apply arc_abs. apply abs_le_inv in Ht, TTt, ttt. set (u := T * t * (T + t)) in *. replace (0.000042 * T * t * (T + t)) with (0.000042 * u) by (unfold u; ring). set (w := t * t * t) in *. replace (0.000006 * t * t * t) with (0.000006 * w) by (unfold w; ring). apply Rabs_le. decimals. split; lra. }
  assert (X3 : Rabs (AngleFromSec ((47.0029 - 0.06603 * T + 0.000598 * T * T) * t + (-0.03302 + 0.000598 * T) * t * t + 0.000060 * t * t * t)) <= arcsec 2050).
  { apply arc_abs. assert (Y1 : Rabs (T * t) <= 800) by (pose proof (M T t 20 40 HT Ht); lra). assert (Y2 : Rabs (T * T * t) <= 16000) by (pose proof (M (T * T) t 400 40 TT Ht); lra). assert (Y3 : Rabs (T * (t * t)) <= 32000) by (pose proof (M T (t * t) 20 1600 HT tt2); lra).
    replace ((47.0029 - 0.06603 * T + 0.000598 * T * T) * t + (-0.03302 + 0.000598 * T) * t * t + 0.000060 * t * t * t) with (47.0029 * t - 0.06603 * (T * t) + 0.000598 * (T * T * t) - 0.03302 * (t * t) + 0.000598 * (T * (t * t)) + 0.000060 * (t * t * t)) by (decimals; field).
    apply abs_le_inv in Ht, Y1, Y2, Y3, tt2, ttt. apply Rabs_le. decimals. split; lra. }
  pose proof (Rabs_pos (AngleFromSec ((47.0029 - 0.06603 * T + 0.000598 * T * T) * t + (-0.03302 + 0.000598 * T) * t * t + 0.000060 * t * t * t))) as P3. pose proof (Rabs_pos (AngleFromSec (0.0001 * t + 0.000042 * T * t * (T + t) + 0.000006 * t * t * t))) as P2.
  pose proof (Rmult_le_compat _ _ _ _ P3 P2 X3 X2) as X4. eapply Rle_trans; [apply Rplus_le_compat; [exact X1|apply Rmult_le_compat_l; [lra|exact X4]]|]. clear. unfold arcsec. pose proof PI_10. decimals. nra.
Qed.
Lemma EclPrecess_back e1 e2 ecl : 0 <= e1 <= 4000 -> 0 <= e2 <= 4000 -> let r := EclPrecess (NewEclipticPrecessor e2 e1) (EclPrecess (NewEclipticPrecessor e1 e2) ecl) in
  norm (vsub (dir (eclLon r) (eclLat r)) (dir (eclLon ecl) (eclLat ecl))) <= arcsec 0.04.
Proof.
  intros H1 H2 r. destruct (EclPrecess_dir (NewEclipticPrecessor e2 e1) (EclPrecess (NewEclipticPrecessor e1 e2) ecl)) as (_ & _ & E). fold r in E. destruct (EclPrecess_dir (NewEclipticPrecessor e1 e2) ecl) as (_ & _ & E'). rewrite E, E'.
  pose proof (ecliptic_back e1 e2 (dir (eclLon ecl) (eclLat ecl)) H1 H2) as B. cbv zeta in B. rewrite norm_dir1, Rmult_1_r in B. exact B.
Qed.
Lemma precess2_example : exists e eq, 1900 <= e <= 2100 /\ e <> 2000 /\ 0 <= eqRA eq < 2 * PI /\ - (PI / 2) < eqDec eq < PI / 2 /\
  - (PI / 2) < eqDec (Precess (NewPrecessor 2000 e) eq) < PI / 2 /\ Precess (NewPrecessor 2000 e) eq <> eq.
Proof.
  exists 2050, (mkEq 0 0). pose proof PI_10 as PB. split; [lra|]. split; [lra|]. split; [cbn; lra|]. split; [cbn; lra|].
  destruct (Precess_dir (NewPrecessor 2000 2050) (mkEq 0 0)) as (_ & RD & E). destruct (NewPrecessor_poly 2000 2050) as (P1 & _ & P3). rewrite P1, P3 in E. set (r := Precess (NewPrecessor 2000 2050) (mkEq 0 0)) in *.
  apply (f_equal vz) in E. unfold precession, app, rot_z, rot_y, dir, dot in E. cbn [r1 r2 r3 vx vy vz eqRA eqDec] in E. rewrite cos_0, sin_0, cos_neg, ?sin_neg in E.
  match type of E with context [sin (AngleFromSec ?x)] => match x with context [2004.3109] => set (th := AngleFromSec x) in E end end.
  match type of E with context [cos (AngleFromSec ?x)] => match x with context [2306.2181] => set (ze := AngleFromSec x) in E end end.
  assert (TH : 0 < th < 0.1). { unfold th, AngleFromSec. decimals. nra. } assert (ZE : 0 < ze < 0.1). { unfold ze, AngleFromSec. decimals. nra. }
  assert (C : 0 < sin th * cos ze < 1).
  { assert (0 < sin th) by (apply sin_gt_0; lra). assert (sin th < th) by (apply sin_lt_x; lra). assert (0 < cos ze) by (apply cos_gt_0; lra). pose proof (COS_bound ze). nra. }
  assert (E' : sin (eqDec r) = sin th * cos ze) by (rewrite E; ring). clear E. split.
  - assert (eqDec r <> PI / 2). { intros X. rewrite X, sin_PI2 in E'. lra. } assert (eqDec r <> - (PI / 2)). { intros X. rewrite X, sin_neg, sin_PI2 in E'. lra. } lra.
  - intros X. rewrite X in E'. cbn [eqDec] in E'. rewrite sin_0 in E'. lra.
Qed.
