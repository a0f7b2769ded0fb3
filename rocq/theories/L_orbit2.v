(** Lemmas for elliptic (astrometric positions, velocities, lengths), node and binary. *)
From Coq Require Import ZArith Reals Bool List Lra Lia Psatz.
From Verif Require Import GoFloat GoMath S_base S_Sphere L_trig L_angle L_vec S_kepler M_kepler L_kepler M_orbit L_orbit.
Local Open Scope R_scope.

Lemma Astrometric_ok lt sun f jde X Y Z x0 y0 z0 x y z :
  sun jde = (X, Y, Z) -> f jde = (x0, y0, z0) ->
  let D0 := sqrt ((X + x0) * (X + x0) + (Y + y0) * (Y + y0) + (Z + z0) * (Z + z0)) in
  f (jde - lt D0) = (x, y, z) ->
  let u := mkvec (X + x) (Y + y) (Z + z) in let s := mkvec X Y Z in
  u <> vzero -> s <> vzero ->
  let '(ra, dec, psi) := AstrometricJ2000 lt sun f jde in
  0 <= ra < 2 * PI /\ - (PI / 2) <= dec <= PI / 2 /\ scale (norm u) (dir ra dec) = u /\
  0 <= psi <= PI /\ cos psi * (norm u * norm s) = dot u s.
Proof.
  intros Hs Hf D0 Hf' u s Hu Hv. unfold AstrometricJ2000. rewrite Hs, Hf. fold D0. rewrite Hf'.
  pose proof (norm_pos u Hu) as Pu. pose proof (norm_pos s Hv) as Ps.
  assert (Nu : sqrt ((X + x) * (X + x) + (Y + y) * (Y + y) + (Z + z) * (Z + z)) = norm u) by reflexivity.
  assert (Ns : sqrt (X * X + Y * Y + Z * Z) = norm s) by reflexivity.
  split; [apply RAFromRad_bound|]. split; [apply asin_bound|].
  split. { pose proof (dir_RA (X + x) (Y + y) (Z + z)) as H. cbv zeta in H. rewrite Nu in H. rewrite Nu. apply H. exact Pu. }
  split; [apply acos_bound|]. rewrite Nu, Ns.
  replace (((X + x) * X + (Y + y) * Y + (Z + z) * Z) / norm s / norm u) with (dot u s / (norm u * norm s)).
  - rewrite cos_acos by (apply ratio_bound; assumption). field. split; lra.
  - unfold dot, u, s. cbn [vx vy vz]. field. fold u s. split; lra.
Qed.

(** ** Velocities and lengths *)
Lemma Velocity_dec a r1 r2 : 0 < a -> 0 < r1 < r2 -> r2 <= 2 * a -> Velocity a r2 < Velocity a r1.
Proof.
  intros Ha Hr H2. unfold Velocity. apply Rmult_lt_compat_l; [lra|].
  assert (L : / r2 < / r1) by (apply Rinv_lt_contravar; [apply Rmult_lt_0_compat; lra|lra]).
  assert (G : 5 / 10 / a <= 1 / r2). { replace (5 / 10 / a) with (/ (2 * a)) by (field; lra). unfold Rdiv. rewrite Rmult_1_l. apply Rinv_le_contravar; lra. }
  apply sqrt_lt_1; unfold Rdiv in *; rewrite ?Rmult_1_l in *; lra.
Qed.
Lemma sqrt2_bounds : 141421356 / 100000000 < sqrt 2 < 141421357 / 100000000.
Proof.
  split.
  - rewrite <- (sqrt_square (141421356 / 100000000)) by lra. apply sqrt_lt_1; lra.
  - rewrite <- (sqrt_square (141421357 / 100000000)) by lra. apply sqrt_lt_1; lra.
Qed.
Lemma vel_const : Rabs (421219 / 10000 / sqrt 2 - 297847 / 10000) <= 1 / 1000000 * (297847 / 10000).
Proof.
  destruct sqrt2_bounds as [L U]. set (w := sqrt 2) in *.
  assert (421219 / 10000 / (141421357 / 100000000) <= 421219 / 10000 / w <= 421219 / 10000 / (141421356 / 100000000)).
  { unfold Rdiv at 2 4 6. split; apply Rmult_le_compat_l; try lra; apply Rinv_le_contravar; lra. }
  apply Rabs_le. lra.
Qed.
Lemma vel_apsis a e r x : 0 < a -> 0 <= e < 1 -> 0 <= x -> 1 / r - 5 / 10 / a = x / 2 ->
  Rabs (Velocity a r - 297847 / 10000 * sqrt x) <= 1 / 1000000 * (297847 / 10000 * sqrt x).
Proof.
  intros Ha He Hx E. unfold Velocity. rewrite E. rewrite sqrt_div by lra. pose proof vel_const as V. pose proof (sqrt_pos x) as P.
  replace (421219 / 10000 * (sqrt x / sqrt 2) - 297847 / 10000 * sqrt x) with ((421219 / 10000 / sqrt 2 - 297847 / 10000) * sqrt x).
  - rewrite Rabs_mult, (Rabs_pos_eq (sqrt x)) by exact P. nra.
  - field. destruct sqrt2_bounds. lra.
Qed.
Lemma vel_perihelion a e : 0 < a -> 0 <= e < 1 ->
  Rabs (Velocity a (a * (1 - e)) - VPerihelion a e) <= 1 / 1000000 * VPerihelion a e.
Proof.
  intros Ha He. apply vel_apsis with e; try assumption.
  - unfold Rdiv. repeat apply Rmult_le_pos; try lra; apply Rlt_le, Rinv_0_lt_compat; lra.
  - field. lra.
Qed.
Lemma vel_aphelion a e : 0 < a -> 0 <= e < 1 ->
  Rabs (Velocity a (a * (1 + e)) - VAphelion a e) <= 1 / 1000000 * VAphelion a e.
Proof.
  intros Ha He. apply vel_apsis with e; try assumption.
  - unfold Rdiv. repeat apply Rmult_le_pos; try lra; apply Rlt_le, Rinv_0_lt_compat; lra.
  - field. lra.
Qed.

Lemma minor_axis a e : 0 < a -> 0 <= e < 1 -> 0 < a * sqrt (1 - e * e) <= a.
Proof.
  intros Ha He. assert (0 < sqrt (1 - e * e)) by (apply sqrt_lt_R0; nra).
  assert (sqrt (1 - e * e) <= 1). { apply Rle_trans with (sqrt 1); [apply sqrt_le_1_alt; nra|rewrite sqrt_1; lra]. }
  split; nra.
Qed.
Lemma Length1_bounds a e : 0 < a -> 0 <= e < 1 ->
  PI * (a + a * sqrt (1 - e * e)) <= Length1 a e <= 2 * PI * a.
Proof.
  intros Ha He. pose proof PI_RGT_0 as HP. destruct (minor_axis a e Ha He) as [B1 B2]. unfold Length1. cbv zeta. set (b := a * sqrt (1 - e * e)) in *.
  assert (U : sqrt ((a + 3 * b) * (3 * a + b)) <= 2 * (a + b)).
  { rewrite <- (sqrt_square (2 * (a + b))) by lra. apply sqrt_le_1_alt. pose proof (Rle_0_sqr (a - b)). unfold Rsqr in *. nra. }
  assert (L : a + 3 * b <= sqrt ((a + 3 * b) * (3 * a + b))).
  { rewrite <- (sqrt_square (a + 3 * b)) at 1 by lra. apply sqrt_le_1_alt. apply Rmult_le_compat_l; lra. }
  set (w := sqrt ((a + 3 * b) * (3 * a + b))) in *. clearbody w b.
  split; [|replace (2 * PI * a) with (PI * (2 * a)) by ring]; apply Rmult_le_compat_l; lra.
Qed.
Lemma Length2_bounds a e : 0 < a -> 0 <= e < 1 ->
  PI * (a + a * sqrt (1 - e * e)) <= Length2 a e <= 2 * PI * a.
Proof.
  intros Ha He. pose proof PI_RGT_0 as HP. destruct (minor_axis a e Ha He) as [B1 B2]. unfold Length2. cbv zeta. set (b := a * sqrt (1 - e * e)) in *.
  assert (Pab : 0 < a * b) by (apply Rmult_lt_0_compat; lra).
  assert (G1 : sqrt (a * b) <= (a + b) / 2).
  { rewrite <- (sqrt_square ((a + b) / 2)) by lra. apply sqrt_le_1_alt. pose proof (Rle_0_sqr (a - b)). unfold Rsqr in *. lra. }
  assert (G2 : b <= sqrt (a * b)).
  { rewrite <- (sqrt_square b) at 1 by lra. apply sqrt_le_1_alt. nra. }
  assert (H1 : 2 * (a * b) / (a + b) <= (a + b) / 2).
  { apply Rmult_le_reg_r with (a + b); [lra|]. unfold Rdiv at 1. rewrite Rmult_assoc, Rinv_l by lra. pose proof (Rle_0_sqr (a - b)). unfold Rsqr in *. lra. }
  assert (H2 : b <= 2 * (a * b) / (a + b)).
  { apply Rmult_le_reg_r with (a + b); [lra|]. unfold Rdiv at 1. rewrite Rmult_assoc, Rinv_l by lra. nra. }
  set (G := sqrt (a * b)) in *. set (H := 2 * (a * b) / (a + b)) in *. split.
  - rewrite Rmult_assoc. apply Rmult_le_compat_l; lra.
  - replace (2 * PI * a) with (PI * (2 * a)) by ring. rewrite Rmult_assoc. apply Rmult_le_compat_l; lra.
Qed.
(** Partial sums of the series of Length4. *)
Lemma L4_loop_zero n : forall nf df, Length4_loop 0 0 nf df 1 (1 + 0) n = 1.
Proof.
  assert (G : forall n nf df p s0 s1, p = 0 -> s0 = 1 -> s1 = 1 -> Length4_loop 0 p nf df s0 s1 n = 1).
  { clear n. induction n as [|n IH]; intros nf df p s0 s1 P0 E0 E1; cbn [Length4_loop]; cbv zeta; [exact E0|].
    apply IH; [rewrite P0; ring|exact E1|rewrite E1, P0; ring]. }
  intros. apply G; lra.
Qed.
Lemma Length4_circle n a : 0 < a -> Length4_after n a 0 = 2 * PI * a.
Proof.
  intros Ha. unfold Length4_after. replace (1 - 0 * 0) with 1 by ring. rewrite sqrt_1, Rmult_1_r.
  replace ((a - a) / (a + a)) with 0 by (field; lra). cbv zeta. replace (0 * 0) with 0 by ring. replace (0 * (25 / 100)) with 0 by ring.
  rewrite L4_loop_zero. field.
Qed.
Lemma Length12_circle a : 0 < a -> Length1 a 0 = 2 * PI * a /\ Length2 a 0 = 2 * PI * a.
Proof.
  intros Ha. unfold Length1, Length2. replace (1 - 0 * 0) with 1 by ring. rewrite sqrt_1, Rmult_1_r. cbv zeta. split.
  - replace ((a + 3 * a) * (3 * a + a)) with ((4 * a) * (4 * a)) by ring. rewrite sqrt_square by lra. ring.
  - rewrite sqrt_square by lra. field. lra.
Qed.
Lemma Length1_short : exists e, 0 <= e < 1 /\ forall a, 0 < a -> Length1 a e < 4 * a.
Proof.
  (* b = a/1000 *)
  set (k := 1 / 1000). exists (sqrt (1 - k * k)).
  assert (K1 : 0 <= 1 - k * k) by (unfold k; lra).
  assert (E2 : sqrt (1 - k * k) * sqrt (1 - k * k) = 1 - k * k) by (apply sqrt_sqrt, K1).
  split. { split; [apply sqrt_pos|]. apply Rlt_le_trans with (sqrt 1); [apply sqrt_lt_1_alt; unfold k; lra|rewrite sqrt_1; lra]. }
  intros a Ha. unfold Length1. rewrite E2. replace (1 - (1 - k * k)) with (k * k) by ring. rewrite sqrt_square by (unfold k; lra).
  replace ((a + 3 * (a * k)) * (3 * a + a * k)) with (a * a * ((1 + 3 * k) * (3 + k))) by ring.
  assert (Q : 0 <= (1 + 3 * k) * (3 + k)) by (unfold k; lra).
  rewrite sqrt_mult by (try exact Q; apply Rle_0_sqr). rewrite sqrt_square by lra.
  assert (S : 1734 / 1000 <= sqrt ((1 + 3 * k) * (3 + k))).
  { rewrite <- (sqrt_square (1734 / 1000)) by lra. apply sqrt_le_1_alt. unfold k. lra. }
  destruct PI_bounds as [_ PU]. pose proof PI_RGT_0.
  assert (X : 3 * (a + a * k) - a * sqrt ((1 + 3 * k) * (3 + k)) <= a * (1269 / 1000)) by (unfold k in *; nra).
  apply Rle_lt_trans with (PI * (a * (1269 / 1000))); [apply Rmult_le_compat_l; lra|]. nra.
Qed.

(** Monotone partial sums of the series of Length4, and a bound. *)
Lemma L4_loop_bounds m2 n : 0 <= m2 <= 1 -> forall k term nf df s0 s1, 1 <= k -> df = 2 * k -> nf = 2 * k - 3 ->
  0 <= term <= m2 / (2 * (k * (k + 1))) -> s1 = s0 + term -> s1 <= 1 + m2 * (1 / 2) * (1 - 1 / (k + 1)) ->
  s0 <= Length4_loop m2 term nf df s0 s1 n <= 1 + m2 * (1 / 2) /\
  Length4_loop m2 term nf df s0 s1 n <= Length4_loop m2 term nf df s0 s1 (S n).
Proof.
  intros Hm. induction n as [|n IH]; intros k term nf df s0 s1 Hk Ed En Ht E1 H1.
  - cbn [Length4_loop]. cbv zeta. assert (0 < 1 / (k + 1)) by (apply Rdiv_lt_0_compat; lra). assert (s1 <= 1 + m2 * (1 / 2)) by nra. lra.
  - assert (X : forall j, Length4_loop m2 term nf df s0 s1 (S j) = Length4_loop m2 (term * ((nf + 2) * (nf + 2) * m2 / ((df + 2) * (df + 2)))) (nf + 2) (df + 2) s1
      (s1 + term * ((nf + 2) * (nf + 2) * m2 / ((df + 2) * (df + 2)))) j) by (intros j; reflexivity).
    rewrite !X. clear X. set (t' := term * _).
    assert (T' : 0 <= t' <= m2 / (2 * ((k + 1) * (k + 1 + 1)))).
    { unfold t'. rewrite En, Ed. replace (2 * k - 3 + 2) with (2 * k - 1) by ring. replace (2 * k + 2) with (2 * (k + 1)) by ring.
      set (q := (2 * k - 1) * (2 * k - 1) / (2 * (k + 1) * (2 * (k + 1)))).
      replace ((2 * k - 1) * (2 * k - 1) * m2 / (2 * (k + 1) * (2 * (k + 1)))) with (q * m2) by (unfold q; field; lra).
      assert (Q : 0 <= q <= k / (k + 2)).
      { split. - unfold q. apply Rmult_le_pos; [apply Rle_0_sqr|apply Rlt_le, Rinv_0_lt_compat; nra].
        - apply Rmult_le_reg_r with (2 * (k + 1) * (2 * (k + 1)) * (k + 2)); [apply Rmult_lt_0_compat; nra|].
          unfold q. replace ((2 * k - 1) * (2 * k - 1) / (2 * (k + 1) * (2 * (k + 1))) * (2 * (k + 1) * (2 * (k + 1)) * (k + 2))) with ((2 * k - 1) * (2 * k - 1) * (k + 2)) by (field; lra).
          replace (k / (k + 2) * (2 * (k + 1) * (2 * (k + 1)) * (k + 2))) with (k * (4 * (k + 1) * (k + 1))) by (field; lra). nra. }
      assert (Q1 : 0 <= q * m2 <= k / (k + 2)) by (split; [apply Rmult_le_pos; lra|apply Rle_trans with (q * 1); [apply Rmult_le_compat_l; lra|lra]]).
      split; [apply Rmult_le_pos; lra|].
      apply Rle_trans with (m2 / (2 * (k * (k + 1))) * (k / (k + 2))); [apply Rmult_le_compat; lra|]. right. field. lra. }
    clearbody t'.
    destruct (IH (k + 1) t' (nf + 2) (df + 2) s1 (s1 + t')) as [A B]; [lra|lra|lra|exact T'|reflexivity| |].
    + replace (1 + m2 * (1 / 2) * (1 - 1 / (k + 1 + 1))) with (1 + m2 * (1 / 2) * (1 - 1 / (k + 1)) + m2 / (2 * ((k + 1) * (k + 1 + 1)))) by (field; lra). lra.
    + split; [|exact B]. lra.
Qed.
Lemma Length4_bounds n a e : 0 < a -> 0 <= e < 1 ->
  PI * (a + a * sqrt (1 - e * e)) <= Length4_after n a e <= 2 * PI * a /\ Length4_after n a e <= Length4_after (S n) a e.
Proof.
  intros Ha He. unfold Length4_after. cbv zeta. destruct (minor_axis a e Ha He) as [Bp Bl]. set (b := a * sqrt (1 - e * e)) in *. clearbody b.
  set (m := (a - b) / (a + b)).
  assert (Pm : 0 <= m <= 1).
  { unfold m. split; [apply Rmult_le_pos; [lra|apply Rlt_le, Rinv_0_lt_compat; lra]|].
    apply Rmult_le_reg_r with (a + b); [lra|]. unfold Rdiv. rewrite Rmult_assoc, Rinv_l by lra. lra. }
  assert (Em : 2 * a / (1 + m) = a + b) by (unfold m; field; lra).
  assert (E2 : 2 * a = (a + b) * (1 + m)) by (rewrite <- Em; field; lra).
  clearbody m. set (m2 := m * m). assert (P2 : 0 <= m2 <= 1) by (unfold m2; nra).
  assert (P3 : m2 <= m) by (unfold m2; nra).
  destruct (L4_loop_bounds m2 n P2 1 (m2 * (25 / 100)) (-1) 2 1 (1 + m2 * (25 / 100))) as [A B]; try lra.
  set (L := Length4_loop m2 (m2 * (25 / 100)) (-1) 2 1 (1 + m2 * (25 / 100)) n) in *.
  set (L' := Length4_loop m2 (m2 * (25 / 100)) (-1) 2 1 (1 + m2 * (25 / 100)) (S n)) in *. clearbody L L'.
  assert (F : forall x, 2 * PI * a * x / (1 + m) = PI * (a + b) * x) by (intros x; rewrite <- Em; field; lra).
  rewrite !F. pose proof PI_RGT_0 as Pi.
  assert (Pab : 0 < PI * (a + b)) by (apply Rmult_lt_0_compat; lra). repeat split.
  - rewrite <- (Rmult_1_r (PI * (a + b))) at 1. apply Rmult_le_compat_l; lra.
  - apply Rle_trans with (PI * (a + b) * (1 + m)); [apply Rmult_le_compat_l; lra|]. right. replace (2 * PI * a) with (PI * (2 * a)) by ring. rewrite E2. ring.
  - apply Rmult_le_compat_l; lra.
Qed.

(** ** node *)
Lemma node_el_ok v axis ecc T : 0 < axis -> 0 <= ecc < 1 -> cos (v / 2) <> 0 ->
  let '(jde, r) := node_el v axis ecc T in
  exists E, solves ecc (K / (axis * sqrt axis) * (jde - T)) E /\ r = Radius E ecc axis /\
    (sin (True E ecc) = sin v /\ cos (True E ecc) = cos v).
Proof.
  intros Ha He Hv. unfold node_el. replace (v * (5 / 10)) with (v / 2) by field. cbv zeta.
  set (E := 2 * atan (sqrt ((1 - ecc) / (1 + ecc)) * tan (v / 2))). exists E.
  assert (Sa : 0 < sqrt axis) by (apply sqrt_lt_R0, Ha). assert (Kp : 0 < K) by (unfold K; lra).
  split; [|split].
  - unfold solves. field. repeat split; lra.
  - reflexivity.
  - assert (Tr : True E ecc = 2 * atan (tan (v / 2))).
    { unfold True. f_equal. f_equal. replace (E * (1 / 2)) with (atan (sqrt ((1 - ecc) / (1 + ecc)) * tan (v / 2))) by (unfold E; field).
      rewrite tan_atan, <- Rmult_assoc, <- sqrt_mult.
      - replace ((1 + ecc) / (1 - ecc) * ((1 - ecc) / (1 + ecc))) with 1 by (field; lra). rewrite sqrt_1. ring.
      - apply Rlt_le, Rdiv_lt_0_compat; lra.
      - apply Rlt_le, Rdiv_lt_0_compat; lra. }
    rewrite Tr. destruct (double_atan (tan (v / 2))) as [C S]. destruct (half_tan v Hv) as [C' S'].
    pose proof (one_plus_sq (tan (v / 2))) as P. split; apply Rmult_eq_reg_r with (1 + tan (v / 2) * tan (v / 2)); lra.
Qed.

Lemma node_pa_const : Rabs (27403895 / 1000000 - sqrt 2 / (3 * K)) <= 1 / 10000000 * (sqrt 2 / (3 * K)).
Proof. destruct sqrt2_bounds as [L U]. set (w := sqrt 2) in *. unfold K. apply Rabs_le. lra. Qed.

Lemma node_pa_ok v q T : 0 < q -> cos (v / 2) <> 0 ->
  let '(jde, r) := node_pa v q T in
  exists t, (let '(v', r') := Par_AnomalyDistance (mkPar T q) t in sin v' = sin v /\ cos v' = cos v /\ r = r') /\
    Rabs (jde - t) <= 1 / 10000000 * Rabs (t - T).
Proof.
  intros Hq Hv. unfold node_pa. replace (v * (5 / 10)) with (v / 2) by field. cbv zeta.
  set (s := tan (v / 2)). assert (Sq : 0 < sqrt q) by (apply sqrt_lt_R0, Hq).
  assert (S2 : 0 < sqrt 2) by (apply sqrt_lt_R0; lra). assert (Kp : 0 < K) by (unfold K; lra).
  set (c := sqrt 2 / (3 * K)).
  exists (T + c * (s * (s * s + 3) * (q * sqrt q))). split.
  - rewrite Par_is. cbn [p_PDis p_TimeP].
    assert (W : barker_W q (T + c * (s * (s * s + 3) * (q * sqrt q)) - T) = s * s * s + 3 * s).
    { unfold barker_W, c. field. repeat split; lra. }
    rewrite W. assert (Es : par_s (s * s * s + 3 * s) = s) by (apply barker_unique, par_s_barker). rewrite Es.
    destruct (double_atan s) as [C S]. destruct (half_tan v Hv) as [C' S']. fold s in C', S'.
    pose proof (one_plus_sq s) as P. split; [|split; [|reflexivity]]; apply Rmult_eq_reg_r with (1 + s * s); lra.
  - set (x := s * (s * s + 3) * (q * sqrt q)).
    replace (T + 27403895 / 1000000 * s * (s * s + 3) * q * sqrt q - (T + c * x)) with ((27403895 / 1000000 - c) * x) by (unfold x; ring).
    replace (T + c * x - T) with (c * x) by ring. rewrite !Rabs_mult.
    pose proof node_pa_const as N. fold c in N. assert (Pc : 0 < c) by (unfold c; apply Rdiv_lt_0_compat; lra).
    rewrite (Rabs_pos_eq c) by lra. pose proof (Rabs_pos x). nra.
Qed.

(** ** binary *)
Lemma binary_Position_ok e a i Om om E : 0 <= e < 1 -> 0 <= a -> cos (E / 2) <> 0 ->
  let '(th, rho) := binary_Position e a i Om om E in
  let r := Radius E e a in let v := True E e in
  0 <= th < 2 * PI /\ 0 <= rho /\ rho * cos (th - Om) = r * cos (v + om) /\ rho * sin (th - Om) = r * sin (v + om) * cos i.
Proof.
  intros He Ha HE. unfold binary_Position. cbv zeta.
  assert (Tr : 2 * atan (sqrt ((1 + e) / (1 - e)) * tan (E / 2)) = True E e) by (unfold True; replace (E * (1 / 2)) with (E / 2) by field; reflexivity).
  rewrite Tr. set (v := True E e). fold (Radius E e a). set (r := Radius E e a).
  assert (Pr : 0 <= r) by (unfold r, Radius; apply Rmult_le_pos; [lra|]; pose proof (den_pos e E He); lra).
  set (c := cos (v + om)). set (n := sin (v + om) * cos i).
  split; [apply Mod1_bound|]. split; [apply Rmult_le_pos; [exact Pr|apply sqrt_pos]|].
  assert (Cm : cos (Mod1 (atan2 n c + Om) - Om) = cos (atan2 n c)).
  { rewrite cos_minus, cos_Mod1, sin_Mod1, <- cos_minus. f_equal. ring. }
  assert (Sm : sin (Mod1 (atan2 n c + Om) - Om) = sin (atan2 n c)).
  { rewrite sin_minus, cos_Mod1, sin_Mod1, <- sin_minus. f_equal. ring. }
  rewrite Cm, Sm. replace (sqrt (n * n + c * c)) with (hypot c n) by (unfold hypot; f_equal; ring).
  destruct (Req_dec c 0) as [Zc|Zc]; [destruct (Req_dec n 0) as [Zn|Zn]|].
  - assert (H0 : hypot c n = 0) by (unfold hypot; rewrite Zc, Zn; replace (0 * 0 + 0 * 0) with 0 by ring; apply sqrt_0).
    rewrite H0, Zc. replace (r * sin (v + om) * cos i) with (r * n) by (unfold n; ring). rewrite Zn. split; ring.
  - destruct (atan2_spec c n (or_intror Zn)) as [A B]. split.
    + transitivity (r * (hypot c n * cos (atan2 n c))); [ring|]. rewrite A. reflexivity.
    + transitivity (r * (hypot c n * sin (atan2 n c))); [ring|]. rewrite B. unfold n. ring.
  - destruct (atan2_spec c n (or_introl Zc)) as [A B]. split.
    + transitivity (r * (hypot c n * cos (atan2 n c))); [ring|]. rewrite A. reflexivity.
    + transitivity (r * (hypot c n * sin (atan2 n c))); [ring|]. rewrite B. unfold n. ring.
Qed.

Lemma apparent_ok e i om : 0 <= e < 1 -> cos i <> 0 ->
  exists qa qb qc l1 l2,
    (forall E, qa * (proj_x e om E * proj_x e om E) + 2 * qb * (proj_x e om E * proj_y e i om E) + qc * (proj_y e i om E * proj_y e i om E)
       = (1 - e * e) * (cos i * cos i)) /\
    l1 + l2 = qa + qc /\ l1 * l2 = qa * qc - qb * qb /\ 0 < l2 <= l1 /\
    ApparentEccentricity e i om * ApparentEccentricity e i om = 1 - l2 / l1 /\ 0 <= ApparentEccentricity e i om < 1.
Proof.
  intros He Hi. unfold ApparentEccentricity. cbv zeta.
  set (ci := cos i) in *. set (so := sin om). set (co := cos om). pose proof (sc1 om) as SO. fold so co in SO.
  set (A := (1 - e * e * co * co) * ci * ci). set (B := e * e * so * co * ci). set (C := 1 - e * e * so * so).
  assert (Pci : 0 < ci * ci) by (apply Rsqr_pos_lt in Hi; exact Hi).
  assert (Pe : 0 < 1 - e * e) by nra.
  assert (PC : 0 < C). { unfold C. pose proof (Rle_0_sqr co) as Q. unfold Rsqr in Q. assert (so * so <= 1) by lra. nra. }
  assert (PA : 0 < A). { unfold A. pose proof (Rle_0_sqr so) as Q. unfold Rsqr in Q. assert (co * co <= 1) by lra.
    rewrite Rmult_assoc. apply Rmult_lt_0_compat; [nra|exact Pci]. }
  assert (Det : A * C - B * B = ci * ci * (1 - e * e)).
  { unfold A, B, C. transitivity (ci * ci * (1 - e * e * (so * so + co * co))); [ring|]. rewrite SO. ring. }
  set (d := A - C). set (sD := sqrt (d * d + 4 * B * B)).
  assert (PS : 0 <= d * d + 4 * B * B). { pose proof (Rle_0_sqr d). pose proof (Rle_0_sqr B). unfold Rsqr in *. lra. }
  assert (S2 : sD * sD = d * d + 4 * B * B) by (apply sqrt_sqrt, PS). assert (S0 : 0 <= sD) by apply sqrt_pos.
  assert (PD : 0 < ci * ci * (1 - e * e)) by (apply Rmult_lt_0_compat; assumption).
  assert (SL : sD < A + C). { assert (sD * sD < (A + C) * (A + C)); [|nra]. rewrite S2. unfold d. lra. }
  exists A, (- B), C, ((A + C + sD) / 2), ((A + C - sD) / 2).
  assert (E2 : sqrt (2 * sD / (A + C + sD)) * sqrt (2 * sD / (A + C + sD)) = 1 - (A + C - sD) / 2 / ((A + C + sD) / 2)).
  { rewrite sqrt_sqrt. - field. lra. - apply Rmult_le_pos; [lra|]. apply Rlt_le, Rinv_0_lt_compat. lra. }
  repeat split.
  - intros E. unfold proj_x, proj_y. fold ci so co. set (b := sqrt (1 - e * e)). assert (B2 : b * b = 1 - e * e) by (apply sqrt_sqrt; lra).
    pose proof (sc1 E) as SE. set (s := sin E) in *. set (c := cos E) in *.
    assert (Ee : e * e = 1 - b * b) by lra. unfold A, B, C. rewrite Ee. clear -SO SE B2.
    transitivity (ci * ci * ((1 - (1 - b * b) * (co * co)) * ((c * co - b * s * so) * (c * co - b * s * so)) - 2 * (1 - b * b) * so * co * ((c * co - b * s * so) * (c * so + b * s * co)) + (1 - (1 - b * b) * (so * so)) * ((c * so + b * s * co) * (c * so + b * s * co)))); [ring|].
    transitivity (ci * ci * ((so * so + co * co) * (c * c + b * b * (s * s)) - (1 - b * b) * (c * (so * so + co * co)) * (c * (so * so + co * co)))); [ring|].
    rewrite SO. transitivity (ci * ci * (b * b * (s * s + c * c))); [ring|]. rewrite SE. ring.
  - field.
  - transitivity (((A + C) * (A + C) - sD * sD) / 4); [field|]. rewrite S2. unfold d. field.
  - lra.
  - lra.
  - exact E2.
  - apply sqrt_pos.
  - set (x := sqrt _) in *. assert (0 <= x) by apply sqrt_pos. assert (0 < (A + C - sD) / 2 / ((A + C + sD) / 2)) by (apply Rdiv_lt_0_compat; lra). nra.
Qed.

Lemma apparent_ellipse e i om : 0 <= e < 1 -> cos i <> 0 ->
  on_ellipse (proj_x e om) (proj_y e i om) (ApparentEccentricity e i om).
Proof.
  intros He Hi. destruct (apparent_ok e i om He Hi) as (qa & qb & qc & l1 & l2 & H1 & H2 & H3 & H4 & H5 & H6).
  exists qa, qb, qc, ((1 - e * e) * (cos i * cos i)), l1, l2. repeat split; try assumption; try lra.
  apply Rmult_lt_0_compat; [nra|]. apply Rsqr_pos_lt in Hi. exact Hi.
Qed.
Lemma apparent_face e om : 0 <= e < 1 -> ApparentEccentricity e 0 om = e.
Proof.
  intros He. unfold ApparentEccentricity. rewrite cos_0. cbv zeta. pose proof (sc1 om) as S. set (s := sin om) in *. set (c := cos om) in *.
  set (D := (1 - e * e * c * c) * 1 * 1 - (1 - e * e * s * s)).
  assert (ED : sqrt (D * D + 4 * (e * e * s * c * 1) * (e * e * s * c * 1)) = e * e).
  { transitivity (sqrt ((e * e) * (e * e))); [f_equal|apply sqrt_square; nra].
    unfold D. transitivity ((e * e) * (e * e) * ((s * s + c * c) * (s * s + c * c))); [ring|]. rewrite S. ring. }
  rewrite ED. replace ((1 - e * e * c * c) * 1 * 1 + (1 - e * e * s * s) + e * e) with (2 - e * e * (s * s + c * c) + e * e) by ring.
  rewrite S. replace (2 * (e * e) / (2 - e * e * 1 + e * e)) with (e * e) by (field; lra). apply sqrt_square. lra.
Qed.

Lemma binary_M_ok year T P : P <> 0 -> 0 <= binary_M year T P < 2 * PI /\ same_angle (binary_M year T P) (2 * PI * ((year - T) / P)).
Proof.
  intros HP. split; [apply Mod1_bound|]. unfold binary_M. replace (2 * PI / P * (year - T)) with (2 * PI * ((year - T) / P)) by (field; exact HP).
  unfold Mod1. destruct (PMod_eq (2 * PI * ((year - T) / P)) (2 * PI) two_PI_pos) as [k E]. exists k. exact E.
Qed.
Lemma Length_circle n a : 0 < a -> Length1 a 0 = 2 * PI * a /\ Length2 a 0 = 2 * PI * a /\ Length4_after n a 0 = 2 * PI * a.
Proof. intros Ha. destruct (Length12_circle a Ha). pose proof (Length4_circle n a Ha). tauto. Qed.
Lemma Length2_4a a e : 0 < a -> 0 <= e < 1 -> 4 * a <= Length2 a e.
Proof.
  intros Ha He. unfold Length2. set (q := sqrt (1 - e * e)). assert (Q : 0 <= q) by apply sqrt_pos. cbv zeta. set (g := sqrt (a * (a * q))).
  assert (G0 : 0 <= g) by apply sqrt_pos. assert (GG : g * g = a * (a * q)) by (apply sqrt_sqrt; apply Rmult_le_pos; [lra|]; apply Rmult_le_pos; lra).
  assert (HH : 2 * (a * (a * q)) / (a + a * q) <= 2 * (a * q)). { apply Rmult_le_reg_r with (a + a * q); [nra|]. replace (2 * (a * (a * q)) / (a + a * q) * (a + a * q)) with (2 * (a * (a * q))) by (field; nra). nra. }
  assert (B : 4.5 * (a * q) - 2 * g + 2 / 9 * a >= 0). { assert (4.5 * (a * q) * a - 2 * g * a + 2 / 9 * a * a >= 0) by (pose proof (Rle_0_sqr (4.5 * g - a)) as X; unfold Rsqr in X; nra). nra. }
  assert (K : 21 * ((a + a * q) * (5 / 10)) - 2 * g - 3 * (2 * (a * (a * q)) / (a + a * q)) >= (10.5 - 2 / 9) * a) by lra.
  set (X := 21 * ((a + a * q) * (5 / 10)) - 2 * g - 3 * (2 * (a * (a * q)) / (a + a * q))) in *. clearbody X. pose proof (PI_2_3_7_ineq 2) as [P _]. cbn [Nat.mul Nat.add sum_f_R0] in P. unfold tg_alt, PI_2_3_7_tg, Ratan_seq in P. cbn in P.
  assert (PB : 3.14 <= PI) by lra. nra.
Qed.
Lemma Length_bounds a e : 0 < a -> 0 <= e < 1 ->
  let b := a * sqrt (1 - e * e) in
  PI * (a + b) <= Length1 a e <= 2 * PI * a /\ PI * (a + b) <= Length2 a e <= 2 * PI * a /\
  forall n, PI * (a + b) <= Length4_after n a e <= 2 * PI * a /\ Length4_after n a e <= Length4_after (S n) a e.
Proof.
  intros Ha He b. split; [apply Length1_bounds; assumption|]. split; [apply Length2_bounds; assumption|]. intros n. apply Length4_bounds; assumption.
Qed.
Lemma node_example : cos (- (PI / 2) / 2) <> 0 /\ cos ((PI - PI / 2) / 2) <> 0 /\ cos (PI / 4) <> 0.
Proof.
  pose proof PI_RGT_0. pose proof (cos_gt_0 (- (PI / 2) / 2) ltac:(lra) ltac:(lra)). pose proof (cos_gt_0 ((PI - PI / 2) / 2) ltac:(lra) ltac:(lra)).
  pose proof (cos_gt_0 (PI / 4) ltac:(lra) ltac:(lra)). lra.
Qed.
Lemma Velocity_example : 0 < 1 < 2 /\ 2 <= 2 * 1 /\ Velocity 1 2 = 0.
Proof. split; [lra|]. split; [lra|]. unfold Velocity. replace (1 / 2 - 5 / 10 / 1) with 0 by field. rewrite sqrt_0. ring. Qed.
Lemma vec_example : mkvec (1 + 1) (0 + 1) (0 + 0) <> vzero /\ mkvec 1 0 0 <> vzero.
Proof. split; intros H; injection H; intros; lra. Qed.
