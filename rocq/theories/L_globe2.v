(** The series of package globe for the radius of the Earth and for the geocentric latitude. *)
From Coq Require Import ZArith Reals Bool Lra Psatz.
From Flocq Require Import Core.
From Verif Require Import GoFloat GoMath S_Sphere S_globe M_coord L_trig L_angle L_coord L_orbit L_globe L_apparent2.
Local Open Scope R_scope.

Lemma atan_below y : 0 <= y -> y - y * y * y / 3 <= atan y <= y.
Proof.
  intros H. destruct (Req_dec y 0) as [->|N]; [rewrite atan_0; lra|].
  assert (P : forall t, 0 < 1 + t ^ 2) by (intros t; pose proof (pow2_ge_0 t); lra). split.
  - pose (f := fun t => atan t - t + t * t * t * / 3). destruct (MVT_cor2 f (fun t => / (1 + t ^ 2) - 1 + ((1 * t + t * 1) * t + t * t * 1) * / 3) 0 y ltac:(lra)) as (c & E & C).
    + intros t _. unfold f. apply (derivable_pt_lim_plus (fun t => atan t - t) (fun t => t * t * t * / 3)).
      * apply (derivable_pt_lim_minus atan id); [apply derivable_pt_lim_atan|apply derivable_pt_lim_id].
      * replace (((1 * t + t * 1) * t + t * t * 1) * / 3) with (/ 3 * ((1 * t + t * 1) * t + t * t * 1)) by ring.
        replace (fun t0 : R => t0 * t0 * t0 * / 3) with (mult_real_fct (/ 3) (fun t0 => t0 * t0 * t0)) by (unfold mult_real_fct; apply FunctionalExtensionality.functional_extensionality; intros; ring).
        apply derivable_pt_lim_scal. apply (derivable_pt_lim_mult (fun t => t * t) id); [|apply derivable_pt_lim_id]. apply (derivable_pt_lim_mult id id); apply derivable_pt_lim_id.
    + unfold f in E. rewrite atan_0 in E. pose proof (P c) as PC. replace (c ^ 2) with (c * c) in * by ring. assert (I : / (1 + c * c) * (1 + c * c) = 1) by (field; lra).
      assert (0 < / (1 + c * c)) by (apply Rinv_0_lt_compat; lra). set (v := / (1 + c * c)) in *. clearbody v. assert (0 <= v - 1 + c * c) by nra. nra.
  - pose (f := fun t => t - atan t). destruct (MVT_cor2 f (fun t => 1 - / (1 + t ^ 2)) 0 y ltac:(lra)) as (c & E & C).
    + intros t _. unfold f. apply (derivable_pt_lim_minus id atan); [apply derivable_pt_lim_id|apply derivable_pt_lim_atan].
    + unfold f in E. rewrite atan_0 in E. pose proof (P c) as PC. replace (c ^ 2) with (c * c) in * by ring. assert (I : / (1 + c * c) * (1 + c * c) = 1) by (field; lra).
      assert (0 < / (1 + c * c)) by (apply Rinv_0_lt_compat; lra). set (v := / (1 + c * c)) in *. clearbody v. assert (v <= 1) by nra. nra.
Qed.
Lemma atan_near y : Rabs (atan y - y) <= Rabs y * Rabs y * Rabs y / 3.
Proof.
  destruct (Rle_or_lt 0 y) as [H|H].
  - pose proof (atan_below y H). rewrite (Rabs_pos_eq y) by lra. apply Rabs_le. split; [lra|]. assert (0 <= y * y * y) by (apply Rmult_le_pos; [apply Rmult_le_pos|]; lra). lra.
  - pose proof (atan_below (- y) ltac:(lra)) as A. rewrite atan_opp in A. rewrite (Rabs_left y) by lra. assert (0 <= - y * - y * - y) by (apply Rmult_le_pos; [apply Rmult_le_pos|]; lra). apply Rabs_le. lra.
Qed.

(** ** The flattening of Earth76 *)
Definition k76 : R := (1 - Fl Earth76) * (1 - Fl Earth76).
Definition m76 : R := (1 - k76) / (1 + k76).
Lemma k76_eq : k76 = 88361724049 / 88957238049.
Proof. unfold k76, Earth76. cbn [Fl]. lra. Qed.
Lemma m76_eq : m76 = 297757000 / 88659481049.
Proof. unfold m76. rewrite k76_eq. lra. Qed.

(** ** Geocentric latitude *)
Lemma seen phi rho psi : seen_from_centre (meridian_x (Er Earth76) (Fl Earth76) phi) (meridian_z (Er Earth76) (Fl Earth76) phi) rho psi -> - (PI / 2) <= phi <= PI / 2 ->
  phi - psi = atan (m76 * sin (2 * phi) / (1 + m76 * cos (2 * phi))).
Proof.
  intros (Hr & Hpsi & X & Z) Hphi. unfold meridian_x, meridian_z in X, Z. fold k76 in Z.
  assert (F : 0 <= Fl Earth76 < 1) by (cbn; lra). pose proof (root_pos (Fl Earth76) phi F) as P. set (W := meridian_root (Fl Earth76) phi) in *. assert (PW : 0 < W) by (apply sqrt_lt_R0, P).
  set (s := sin phi) in *. set (c := cos phi) in *. pose proof (sc1 phi) as SC. fold s c in SC. assert (K : 0.99 < k76 < 1) by (rewrite k76_eq; lra). assert (E : Er Earth76 = 6378.14) by (cbn; lra). rewrite E in X, Z.
  set (q := 6378.14 / (rho * W)). assert (Q0 : 0 < q) by (apply Rdiv_lt_0_compat; [lra|apply Rmult_lt_0_compat; lra]).
  assert (CX : cos psi = q * c) by (apply Rmult_eq_reg_l with rho; [|lra]; rewrite <- X; unfold q; field; lra).
  assert (SX : sin psi = q * (k76 * s)) by (apply Rmult_eq_reg_l with rho; [|lra]; rewrite <- Z; unfold q; field; lra).
  set (d := phi - psi). assert (SD : sin d = q * ((1 - k76) * (s * c))) by (unfold d; rewrite sin_minus; fold s c; rewrite CX, SX; ring).
  assert (CD : cos d = q * (c * c + k76 * (s * s))) by (unfold d; rewrite cos_minus; fold s c; rewrite CX, SX; ring).
  assert (CP : 0 < cos d) by (rewrite CD; apply Rmult_lt_0_compat; [exact Q0|nra]).
  assert (DB : - (PI / 2) < d < PI / 2).
  { assert (D : - PI <= d <= PI) by (unfold d; lra). split.
    - destruct (Rlt_or_le (- (PI / 2)) d) as [G|G]; [exact G|exfalso]. assert (cos (- d) <= 0) by (apply cos_le_0; lra). rewrite cos_neg in H. lra.
    - destruct (Rlt_or_le d (PI / 2)) as [G|G]; [exact G|exfalso]. assert (cos d <= 0) by (apply cos_le_0; lra). lra. }
  rewrite <- (atan_tan d) by exact DB. f_equal. unfold tan. rewrite sin_2a, cos_2a. fold s c.
  assert (D2 : 0 < c * c + k76 * (s * s)) by nra. assert (D3 : 1 + m76 * (c * c - s * s) = 2 * (c * c + k76 * (s * s)) / (1 + k76)).
  { unfold m76. apply Rmult_eq_reg_r with (1 + k76); [|lra]. field_simplify; [|lra|lra]. replace (1 + k76) with ((1 + k76) * (s * s + c * c)) by (rewrite SC; ring). nra. }
  rewrite D3, SD, CD. unfold m76. field. repeat split; lra.
Qed.
Lemma latitude_ok phi rho psi : seen_from_centre (meridian_x (Er Earth76) (Fl Earth76) phi) (meridian_z (Er Earth76) (Fl Earth76) phi) rho psi -> - (PI / 2) <= phi <= PI / 2 ->
  Rabs (GeocentricLatitudeDifference phi - (phi - psi)) <= AngleFromSec (2 / 100).
Proof.
  intros H Hp. rewrite (seen phi rho psi H Hp). clear H Hp. unfold GeocentricLatitudeDifference, AngleFromSec. replace (phi * 4) with (2 * (2 * phi)) by ring. rewrite (sin_2a (2 * phi)). replace (phi * 2) with (2 * phi) by ring.
  pose proof (sc1 (2 * phi)) as SC. set (s := sin (2 * phi)) in *. set (c := cos (2 * phi)) in *. clearbody s c.
  assert (S : -1 <= s <= 1) by nra. assert (C : -1 <= c <= 1) by nra. pose proof PI_10 as HP. set (u := PI / 180 / 3600). assert (U : 484813681 / 100000000000000 <= u <= 484813682 / 100000000000000) by (unfold u; lra). clearbody u. clear HP.
  pose proof m76_eq as EM. assert (MB : 0.003358433824 <= m76 <= 0.003358433825) by (rewrite EM; lra). set (m := m76) in *. clearbody m. clear EM.
  assert (D : 0.996 <= 1 + m * c) by nra. set (y := m * s / (1 + m * c)).
  assert (YE : y = m * s - m * m * (s * c) + m * m * m * (s * c * c) / (1 + m * c)) by (unfold y; field; lra).
  assert (I : 0 < / (1 + m * c) <= 1.0041) by (split; [apply Rinv_0_lt_compat; lra|rewrite <- (Rinv_inv 1.0041); apply Rinv_le_contravar; lra]).
  assert (M3 : 0 <= m * m * m <= 0.0000000379). { assert (0 <= m * m <= 0.00001127908) by nra. nra. }
  assert (T3 : Rabs (m * m * m * (s * c * c) / (1 + m * c)) <= 0.00000003807).
  { assert (-1 <= s * c <= 1) by nra. assert (-1 <= s * c * c <= 1) by nra. unfold Rdiv. set (v := / (1 + m * c)) in *. clearbody v. set (q := m * m * m) in *. clearbody q. set (g := s * c * c) in *. clearbody g.
    assert (0 <= q * v <= 0.00000003807) by nra. replace (q * g * v) with (g * (q * v)) by ring. set (z := q * v) in *. clearbody z. apply Rabs_le. nra. }
  assert (Y : Rabs y <= 0.003373) by (unfold y, Rdiv; set (v := / (1 + m * c)) in *; clearbody v; assert (0 <= m * v <= 0.003373) by nra; replace (m * s * v) with (s * (m * v)) by ring; set (z := m * v) in *; clearbody z; apply Rabs_le; nra).
  pose proof (atan_near y) as A. assert (Y3 : Rabs y * Rabs y * Rabs y / 3 <= 0.0000000128). { pose proof (Rabs_pos y). set (z := Rabs y) in *. clearbody z. assert (0 <= z * z <= 0.00001137713) by nra. nra. }
  apply Rabs_le_inv in T3. assert (A' : Rabs (atan y - y) <= 0.0000000128) by lra. apply Rabs_le_inv in A'. clear A Y3 Y.
  assert (B1 : -0.000000018 <= s * (692.73 * u - m) <= 0.000000018) by nra.
  assert (SCB : - (1 / 2) <= s * c <= 1 / 2) by (pose proof (Rle_0_sqr (s + c)); pose proof (Rle_0_sqr (s - c)); unfold Rsqr in *; lra).
  assert (M2 : 0.000011279 <= m * m <= 0.00001127908) by nra.
  assert (B2 : -0.000000016 <= s * c * (2.32 * u - m * m) <= 0.000000016) by (clear - SCB M2 U; set (g := s * c) in *; clearbody g; set (z := 2.32 * u - m * m); assert (-0.000000032 <= z <= 0) by (unfold z; lra); clearbody z; nra).
  clearbody y. set (T := m * m * m * (s * c * c) / (1 + m * c)) in *. clearbody T. set (a := atan y) in *. clearbody a. apply Rabs_le. lra.
Qed.

(** ** Radius *)
Lemma cubic_small c : -1 <= c <= 1 -> Rabs (0.954 * c - 1.215 * (c * c * c)) <= 0.36.
Proof.
  intros H. apply Rabs_le. assert (A : 0 <= (c - 0.5) * (c - 0.5) * (1.215 * c + 1.215)) by (apply Rmult_le_pos; [apply Rle_0_sqr|lra]).
  assert (B : 0 <= (c + 0.5) * (c + 0.5) * (1.215 - 1.215 * c)) by (apply Rmult_le_pos; [apply Rle_0_sqr|lra]). lra.
Qed.
Lemma Rho_ok phi rho psi : seen_from_centre (meridian_x (Er Earth76) (Fl Earth76) phi) (meridian_z (Er Earth76) (Fl Earth76) phi) rho psi ->
  Rabs (Rho phi - rho / Er Earth76) <= 5 / 10 ^ 8.
Proof.
  intros (Hr & _ & X & Z). unfold meridian_x, meridian_z in X, Z. fold k76 in Z. assert (E : Er Earth76 = 6378.14) by (cbn; lra). rewrite E in *.
  assert (F : 0 <= Fl Earth76 < 1) by (cbn; lra). pose proof (root_pos (Fl Earth76) phi F) as P. set (W := meridian_root (Fl Earth76) phi) in *. assert (PW : 0 < W) by (apply sqrt_lt_R0, P).
  assert (W2 : W * W = cos phi * cos phi + k76 * (sin phi * sin phi)) by (apply sqrt_sqrt, Rlt_le, P). set (q := rho / 6378.14). assert (Q0 : 0 < q) by (unfold q; apply Rdiv_lt_0_compat; lra). assert (RQ : rho = q * 6378.14) by (unfold q; field; lra).
  assert (Q2 : q * q * (W * W) = cos phi * cos phi + k76 * k76 * (sin phi * sin phi)).
  { assert (X' : q * cos psi * W = cos phi) by (apply Rmult_eq_reg_l with (6378.14 / W); [|apply Rgt_not_eq, Rdiv_lt_0_compat; lra]; transitivity (rho * cos psi); [rewrite RQ; field; lra|rewrite <- X; field; lra]).
    assert (Z' : q * sin psi * W = k76 * sin phi) by (apply Rmult_eq_reg_l with (6378.14 / W); [|apply Rgt_not_eq, Rdiv_lt_0_compat; lra]; transitivity (rho * sin psi); [rewrite RQ; field; lra|rewrite <- Z; field; lra]).
    rewrite <- X' at 1 2. replace (k76 * k76 * (sin phi * sin phi)) with ((k76 * sin phi) * (k76 * sin phi)) by ring. rewrite <- Z'. pose proof (sc1 psi) as S. transitivity (q * q * (W * W) * (sin psi * sin psi + cos psi * cos psi)); [rewrite S; ring|ring]. }
  rewrite W2 in Q2. clear X Z W2 RQ. unfold Rho. replace (phi * 4) with (2 * (2 * phi)) by ring. rewrite (cos_2a_cos (2 * phi)). replace (phi * 2) with (2 * phi) by ring.
  pose proof (sc1 phi) as SC. pose proof (cos_2a phi) as C2. set (c := cos (2 * phi)) in *. assert (CC : cos phi * cos phi = (1 + c) / 2) by lra. assert (SS : sin phi * sin phi = (1 - c) / 2) by lra.
  assert (C : -1 <= c <= 1) by apply COS_bound. rewrite CC, SS in Q2. clearbody c q. clear - Q0 Q2 C. pose proof (cubic_small c C) as CU. apply Rabs_le_inv in CU.
  rewrite k76_eq in Q2. set (Pc := 9983271 / 10000000 + 16764 / 10000000 * c - 35 / 10000000 * (2 * c * c - 1)). assert (PB : 0.99 <= Pc <= 1.01) by (unfold Pc; nra).
  assert (D : 0.99 < (1 + c) / 2 + 88361724049 / 88957238049 * ((1 - c) / 2)) by lra. set (Dc := (1 + c) / 2 + 88361724049 / 88957238049 * ((1 - c) / 2)) in *.
  assert (c4 : 0 <= c * c <= 1) by nra. assert (c5 : -1 <= c * c * c <= 1) by nra. assert (c6 : 0 <= c * c * c * c <= 1) by nra. assert (c7 : -1 <= c * c * c * c * c <= 1) by nra.
  assert (UP : q * q * Dc <= (Pc + 5 / 10 ^ 8) * (Pc + 5 / 10 ^ 8) * Dc) by (rewrite Q2; unfold Pc, Dc; lra).
  assert (LO : (Pc - 5 / 10 ^ 8) * (Pc - 5 / 10 ^ 8) * Dc <= q * q * Dc) by (rewrite Q2; unfold Pc, Dc; lra).
  apply Rmult_le_reg_r in UP; [|lra]. apply Rmult_le_reg_r in LO; [|lra]. fold Pc. apply Rabs_le. split.
  - assert (q <= Pc + 5 / 10 ^ 8) by (apply Rsqr_incr_0; [exact UP|lra|lra]). lra.
  - assert (Pc - 5 / 10 ^ 8 <= q) by (apply Rsqr_incr_0; [exact LO|lra|lra]). lra.
Qed.

(** ** Every latitude has a point *)
Lemma seen_exists x z : 0 <= x -> 0 < x * x + z * z -> exists rho psi, seen_from_centre x z rho psi.
Proof.
  intros Hx P. set (r := sqrt (x * x + z * z)). assert (R2 : r * r = x * x + z * z) by (apply sqrt_sqrt; lra). assert (R0 : 0 < r) by (apply sqrt_lt_R0, P).
  assert (B : -1 <= z / r <= 1). { assert (Q : z / r * r = z) by (field; lra). assert (ZR : - r <= z <= r) by (clear - R2 R0; pose proof (Rle_0_sqr x); unfold Rsqr in *; split; nra). set (t := z / r) in *. clearbody t. split; apply Rmult_le_reg_r with r; lra. }
  exists r, (asin (z / r)). split; [exact R0|]. split; [apply asin_bound|]. rewrite sin_asin by exact B. split; [|field; lra].
  rewrite cos_asin by exact B. apply Rsqr_inj; [exact Hx|apply Rmult_le_pos; [lra|apply sqrt_pos]|]. unfold Rsqr at 1 2. 
  transitivity (r * r * (sqrt (1 - (z / r)²) * sqrt (1 - (z / r)²))); [|ring]. rewrite sqrt_sqrt by (unfold Rsqr; clear - B; set (t := z / r) in *; clearbody t; nra). unfold Rsqr. transitivity (r * r - z * z); [lra|field; lra].
Qed.
Lemma seen_total phi : - (PI / 2) <= phi <= PI / 2 -> exists rho psi, seen_from_centre (meridian_x (Er Earth76) (Fl Earth76) phi) (meridian_z (Er Earth76) (Fl Earth76) phi) rho psi.
Proof.
  intros H. assert (F : 0 <= Fl Earth76 < 1) by (cbn; lra). assert (E : Er Earth76 = 6378.14) by (cbn; lra). pose proof (root_pos (Fl Earth76) phi F) as P. apply seen_exists; unfold meridian_x, meridian_z; fold k76; rewrite E.
  - apply Rmult_le_pos; [apply Rmult_le_pos; [lra|apply cos_ge_0; lra]|apply Rlt_le, Rinv_0_lt_compat, sqrt_lt_R0, P].
  - set (W := meridian_root (Fl Earth76) phi). assert (PW : 0 < W) by (apply sqrt_lt_R0, P). pose proof (sc1 phi) as SC. assert (K : 0.99 < k76 < 1) by (rewrite k76_eq; lra).
    set (c := cos phi) in *. set (s := sin phi) in *. replace (6378.14 * c / W * (6378.14 * c / W) + 6378.14 * k76 * s / W * (6378.14 * k76 * s / W)) with (6378.14 * 6378.14 * (c * c + k76 * k76 * (s * s)) * (/ W * / W)) by (field; lra).
    assert (0 < / W) by (apply Rinv_0_lt_compat, PW). assert (0 < c * c + k76 * k76 * (s * s)). { assert (0 < k76 * k76) by nra. pose proof (Rle_0_sqr s) as A. pose proof (Rle_0_sqr c) as B. unfold Rsqr in *. destruct (Req_dec (s * s) 0) as [Q|Q]; [rewrite Q; lra|]. assert (0 < k76 * k76 * (s * s)) by (apply Rmult_lt_0_compat; lra). lra. }
    apply Rmult_lt_0_compat; [apply Rmult_lt_0_compat; lra|apply Rmult_lt_0_compat; assumption].
Qed.
(** At sea level the parallax constants are the coordinates of that point. *)
Lemma seen_parallax phi rho psi : - (PI / 2) < phi < PI / 2 -> seen_from_centre (meridian_x (Er Earth76) (Fl Earth76) phi) (meridian_z (Er Earth76) (Fl Earth76) phi) rho psi ->
  ParallaxConstants Earth76 phi 0 = (rho / Er Earth76 * sin psi, rho / Er Earth76 * cos psi).
Proof.
  intros Hp (_ & _ & X & Z). rewrite (Parallax_ok Earth76 phi 0 ltac:(cbn; lra) ltac:(cbn; lra) Hp), X, Z. f_equal; cbn; field.
Qed.
Lemma seen_example : - (PI / 2) < PI / 4 < PI / 2 /\ exists rho psi,
  seen_from_centre (meridian_x (Er Earth76) (Fl Earth76) (PI / 4)) (meridian_z (Er Earth76) (Fl Earth76) (PI / 4)) rho psi /\ 0 < PI / 4 - psi.
Proof.
  pose proof PI_RGT_0 as P. split; [lra|]. destruct (seen_total (PI / 4) ltac:(lra)) as (rho & psi & S). exists rho, psi. split; [exact S|].
  rewrite (seen _ _ _ S) by lra. replace (2 * (PI / 4)) with (PI / 2) by field. rewrite sin_PI2, cos_PI2. rewrite m76_eq. apply atan_gt0. lra.
Qed.
