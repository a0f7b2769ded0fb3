(** A Saturn at rest for which Ring's difference of longitudes exceeds half a turn. *)
From Coq Require Import ZArith Reals Lra Lia List Psatz.
From Flocq Require Import Core.
From Verif Require Import GoFloat GoMath S_Sphere S_precess S_solar S_physical M_base M_coord M_precess M_vsop M_light M_solar M_physical
  L_trig L_angle L_vec L_coord L_precess L_elements L_solar L_refraction L_parallactic L_solardisk L_physical L_physical2.
Import ListNotations.
Local Open Scope R_scope.

Lemma fixed_2000 L r t : Position2000 (fixed L r) t = (Mod1 L, 0, r).
Proof.
  unfold Position2000, fixed, sum_series, Mod1. cbv zeta. cbn [v_l v_b v_r map]. set (x := _ * (1 / 10)).
  assert (E : forall A, HornerR x [sum_terms x [(A, 0, 0)]] = A).
  { intros A. unfold sum_terms. cbn [rev List.app fold_left]. replace (0 + 0 * x) with 0 by ring. rewrite cos_0. unfold HornerR, Horner. cbn [rev List.app horner_loop]. ring. }
  rewrite !E. reflexivity.
Qed.
Definition near (e : R) (u v : vec) : Prop := Rabs (vx u - vx v) <= e /\ Rabs (vy u - vy v) <= e /\ Rabs (vz u - vz v) <= e.
Lemma near_trans e f u v w : near e u v -> near f v w -> near (e + f) u w.
Proof.
  intros (A & B & C) (A' & B' & C'). apply Rabs_le_inv in A, B, C, A', B', C'. repeat split; apply Rabs_le; lra.
Qed.
Lemma cos_eta e : Rabs (1 - cos e) <= Rabs e.
Proof. rewrite <- cos_0 at 1. eapply Rle_trans; [apply cos_lip|]. replace (0 - e) with (- e) by ring. rewrite Rabs_Ropp. lra. Qed.
Lemma sin_eta e : Rabs (sin e) <= Rabs e.
Proof. pose proof (sin_lip e 0) as H. rewrite sin_0, !Rminus_0_r in H. exact H. Qed.
Lemma mul_le1 a b e : Rabs a <= e -> Rabs b <= 1 -> Rabs (a * b) <= e.
Proof. intros A B. rewrite Rabs_mult. pose proof (Rabs_pos a). pose proof (Rabs_pos b). nra. Qed.
Lemma rabs_sin x : Rabs (sin x) <= 1. Proof. apply Rabs_le, SIN_bound. Qed.
Lemma rabs_cos x : Rabs (cos x) <= 1. Proof. apply Rabs_le, COS_bound. Qed.
Lemma dir_near l b l' b' e f : Rabs (l - l') <= e -> Rabs (b - b') <= f -> near (e + f) (dir l b) (dir l' b').
Proof.
  intros A B. assert (0 <= e) by (pose proof (Rabs_pos (l - l')); lra).
  assert (C1 : Rabs (cos b - cos b') <= f) by (eapply Rle_trans; [apply cos_lip | exact B]). assert (S1 : Rabs (sin b - sin b') <= f) by (eapply Rle_trans; [apply sin_lip | exact B]).
  assert (C2 : Rabs (cos l - cos l') <= e) by (eapply Rle_trans; [apply cos_lip | exact A]). assert (S2 : Rabs (sin l - sin l') <= e) by (eapply Rle_trans; [apply sin_lip | exact A]).
  unfold near, dir. cbn [vx vy vz]. split; [|split].
  - replace (cos b * cos l - cos b' * cos l') with ((cos l - cos l') * cos b + (cos b - cos b') * cos l') by ring. eapply Rle_trans; [apply Rabs_triang|]. apply Rplus_le_compat; (apply mul_le1; [assumption | apply rabs_cos]).
  - replace (cos b * sin l - cos b' * sin l') with ((sin l - sin l') * cos b + (cos b - cos b') * sin l') by ring. eapply Rle_trans; [apply Rabs_triang|]. apply Rplus_le_compat; (apply mul_le1; [assumption | first [apply rabs_cos | apply rabs_sin]]).
  - lra.
Qed.
Lemma precession_near eta pi p L : near (Rabs eta + Rabs p) (ecliptic_precession eta pi p (dir L 0)) (dir L 0).
Proof.
  apply (near_trans _ _ _ (dir (L + p) 0)).
  - unfold ecliptic_precession, near, rot_z. vecs. rewrite cos_0, sin_0, cos_neg, sin_neg.
    pose proof (cos_eta eta) as C. pose proof (sin_eta eta) as S. set (q := pi + p). replace (L + p) with (q + (L - pi)) by (unfold q; ring). rewrite (cos_plus q), (sin_plus q), cos_minus, sin_minus.
    set (y := sin L * cos pi - cos L * sin pi). assert (Y : Rabs y <= 1) by (unfold y; rewrite <- sin_minus; apply rabs_sin).
    assert (K : forall z, Rabs z <= 1 -> Rabs ((1 - cos eta) * (y * z)) <= Rabs eta). { intros z Z. apply mul_le1; [exact C|]. replace 1 with (1 * 1) by ring. rewrite Rabs_mult. apply Rmult_le_compat; try apply Rabs_pos; assumption. }
    split; [|split].
    + match goal with |- Rabs ?e <= _ => replace e with ((1 - cos eta) * (y * sin q)) by (unfold y; ring) end. apply K, rabs_sin.
    + match goal with |- Rabs ?e <= _ => replace e with ((1 - cos eta) * (y * - cos q)) by (unfold y; ring) end. apply K. rewrite Rabs_Ropp. apply rabs_cos.
    + match goal with |- Rabs ?e <= _ => replace e with (sin eta * - y) by (unfold y; ring) end. apply mul_le1; [exact S | rewrite Rabs_Ropp; exact Y].
  - replace (Rabs p) with (Rabs (L + p - L) + 0) by (replace (L + p - L) with p by ring; ring). apply dir_near; [lra|]. rewrite Rminus_0_r, Rabs_R0. lra.
Qed.
Lemma fixed_near L r t : Rabs (t - 2451545) <= 1 -> let '(l, b, r') := PlanetPosition (fixed L r) t in r' = r /\ - (PI / 2) <= b <= PI / 2 /\ near (1 / 1000000) (dir l b) (dir L 0).
Proof.
  intros H. pose proof (PlanetPosition_value (fixed L r) t) as V. rewrite fixed_2000 in V. destruct (PlanetPosition (fixed L r) t) as [[l b] r']. cbv zeta in V.
  destruct V as (E & B & D). split; [exact E|]. split; [exact B|]. rewrite D. rewrite (dir_turn (Mod1 L) L 0 (Mod1_same L)). clear D.
  unfold NewEclipticPrecessor. rewrite Req_bool_true by reflexivity. cbn [epeta eppi epp]. set (s := (2000 + (t - 2451545) / 365.25 - 2000) * (1 / 100)).
  assert (Hs : Rabs s <= 1 / 36500). { unfold s. decimals. apply Rabs_le_inv in H. apply Rabs_le. lra. } clearbody s. apply Rabs_le_inv in Hs.
  set (q := HornerR s pit). clearbody q. unfold etat, pt, scaled. cbn [map]. rewrite !HornerR3. unfold s_, d_. assert (HP := PI_fine).
  match goal with |- near _ (ecliptic_precession ?e q ?p _) _ => set (e1 := e); set (p1 := p) end.
  assert (Hk : 4848 / 1000000000 < PI / 180 / 3600 < 4849 / 1000000000) by lra.
  assert (S2 : 0 <= s * s <= 1 / 36500) by nra.
  assert (K : forall a b c M, Rabs (a + s * (b + s * c)) <= M -> Rabs ((a * (PI / 180 / 3600) + s * (b * (PI / 180 / 3600) + s * (c * (PI / 180 / 3600)))) * s) <= M * (4849 / 1000000000) * (1 / 36500)).
  { intros ca cb cc M HM. replace (_ * s) with ((ca + s * (cb + s * cc)) * (PI / 180 / 3600) * s) by (field; lra). rewrite !Rabs_mult. apply Rmult_le_compat; [apply Rmult_le_pos; apply Rabs_pos | apply Rabs_pos | | apply Rabs_le; exact Hs].
    apply Rmult_le_compat; [apply Rabs_pos | apply Rabs_pos | exact HM | rewrite Rabs_pos_eq; lra]. }
  assert (He : Rabs e1 <= 1 / 10000000). { eapply Rle_trans; [apply (K _ _ _ 48); apply Rabs_le; nra | lra]. }
  assert (Hp : Rabs p1 <= 8 / 10000000). { eapply Rle_trans; [apply (K _ _ _ 5030); apply Rabs_le; nra | lra]. }
  pose proof (precession_near e1 q p1 L) as (A & B' & C). repeat split; lra.
Qed.
Lemma small_lat b e : - (PI / 2) <= b <= PI / 2 -> Rabs (sin b) <= e -> e <= 1 / 100000 -> 0 < cos b /\ 0 <= 1 - cos b <= e /\ Rabs (tan b) <= 2 * e.
Proof.
  intros B S E. assert (C0 : 0 <= cos b) by (apply cos_ge_0; lra). pose proof (sc1 b) as Q. pose proof (COS_bound b) as CB. pose proof (Rabs_pos (sin b)) as P.
  assert (S2 : sin b * sin b <= e * e). { assert (A : Rabs (sin b) * Rabs (sin b) <= e * e) by (apply Rmult_le_compat; lra). rewrite <- Rabs_mult, Rabs_pos_eq in A by nra. exact A. }
  assert (C1 : 1 - e <= cos b) by nra.
  split; [lra|]. split; [lra|]. unfold tan, Rdiv. rewrite Rabs_mult, (Rabs_pos_eq (/ cos b)) by (left; apply Rinv_0_lt_compat; lra).
  apply (Rmult_le_reg_r (cos b)); [lra|]. rewrite Rmult_assoc, Rinv_l by lra. nra.
Qed.
Lemma fk5_near_t l b L t : - (PI / 2) <= b <= PI / 2 -> near (1 / 1000000) (dir l b) (dir L 0) -> let '(l', b') := ToFK5 l b t in
  near (2 / 1000000) (dir l' b') (dir L 0) /\ near (3 / 1000000) (mkvec (cos l') (sin l') (sin b')) (dir L 0) /\ 0 < cos b'.
Proof.
  intros B N. assert (SB : Rabs (sin b) <= 1 / 1000000). { destruct N as (_ & _ & N). unfold dir in N. cbn [vz] in N. rewrite sin_0, Rminus_0_r in N. exact N. }
  destruct (small_lat b (1 / 1000000) B SB ltac:(lra)) as (Cb & Cb1 & Tb). unfold ToFK5. cbv zeta. set (Lp := l - _). set (l' := l + _). set (b' := b + _).
  assert (HP := PI_fine). pose proof (rabs_sin Lp) as S1. pose proof (rabs_cos Lp) as C1. apply Rabs_le_inv in S1. apply Rabs_le_inv in C1. apply Rabs_le_inv in Tb.
  assert (M1 : Rabs ((cos Lp + sin Lp) * tan b) <= 2 * (2 * (1 / 1000000))). { rewrite Rabs_mult. apply Rmult_le_compat; try apply Rabs_pos; apply Rabs_le; lra. }
  apply Rabs_le_inv in M1.
  assert (Dl : Rabs (l' - l) <= 5 / 10000000). { unfold l', AngleFromSec. match goal with |- Rabs (l + ?q - l) <= _ => replace (l + q - l) with q by ring end. rewrite Rmult_assoc. set (m := (cos Lp + sin Lp) * tan b) in *. apply Rabs_le. nra. }
  assert (Db : Rabs (b' - b) <= 4 / 10000000). { unfold b', AngleFromSec. match goal with |- Rabs (b + ?q - b) <= _ => replace (b + q - b) with q by ring end. apply Rabs_le. nra. }
  assert (N2 : near (2 / 1000000) (dir l' b') (dir L 0)).
  { pose proof (dir_near l' b' l b _ _ Dl Db) as N1. destruct (near_trans _ _ _ _ _ N1 N) as (A1 & A2 & A3). repeat split; lra. }
  split; [exact N2|].
  assert (Cb' : 0 < cos b'). { assert (Rabs (cos b' - cos b) <= 4 / 10000000) by (eapply Rle_trans; [apply cos_lip | exact Db]). apply Rabs_le_inv in H. lra. }
  split; [|exact Cb']. destruct N2 as (A1 & A2 & A3). unfold dir in *. cbn [vx vy vz] in *. rewrite sin_0 in *.
  assert (D1 : Rabs (cos b' - 1) <= 1 / 1000000).
  { pose proof (sc1 b') as Q. pose proof (COS_bound b') as CB. rewrite Rminus_0_r in A3. assert (S2 : sin b' * sin b' <= 2 / 1000000 * (2 / 1000000)). { assert (A : Rabs (sin b') * Rabs (sin b') <= 2 / 1000000 * (2 / 1000000)) by (apply Rmult_le_compat; try apply Rabs_pos; lra). rewrite <- Rabs_mult, Rabs_pos_eq in A by nra. exact A. }
    apply Rabs_le. nra. }
  unfold near. cbn [vx vy vz]. split; [|split].
  - replace (cos l' - cos 0 * cos L) with (cos b' * cos l' - cos 0 * cos L + - (cos b' - 1) * cos l') by ring. eapply Rle_trans; [apply Rabs_triang|].
    assert (Rabs (- (cos b' - 1) * cos l') <= 1 / 1000000) by (apply mul_le1; [rewrite Rabs_Ropp; exact D1 | apply rabs_cos]). lra.
  - replace (sin l' - cos 0 * sin L) with (cos b' * sin l' - cos 0 * sin L + - (cos b' - 1) * sin l') by ring. eapply Rle_trans; [apply Rabs_triang|].
    assert (Rabs (- (cos b' - 1) * sin l') <= 1 / 1000000) by (apply mul_le1; [rewrite Rabs_Ropp; exact D1 | apply rabs_sin]). lra.
  - lra.
Qed.
Lemma fk5_near l b L : - (PI / 2) <= b <= PI / 2 -> near (1 / 1000000) (dir l b) (dir L 0) -> let '(l', b') := ToFK5 l b 2451545 in
  near (2 / 1000000) (dir l' b') (dir L 0) /\ near (3 / 1000000) (mkvec (cos l') (sin l') (sin b')) (dir L 0) /\ 0 < cos b'.
Proof. apply fk5_near_t. Qed.

(** Two bodies at rest near 2000: the geocentric vector. *)
Lemma fixed_geocentric L0 L r D0 : 0 <= r <= 20 -> 0 <= D0 <= 50 -> let g := geocentric (fixed L0 1) (fixed L r) 2451545 D0 in
  gr g = r /\ 0 < cos (gb g) /\ near (2 / 1000000) (dir (gl g) (gb g)) (dir L 0) /\ near (1 / 10000) (gvec g) (vsub (scale r (dir L 0)) (dir L0 0)).
Proof.
  intros Hr HD. cbv zeta. destruct (geocentric_value (fixed L0 1) (fixed L r) 2451545 D0) as (V & _ & D1 & l1 & b1 & P1 & F1 & l2 & b2 & r2 & l3 & b3 & P2 & F2 & ED).
  set (g := geocentric (fixed L0 1) (fixed L r) 2451545 D0) in *.
  assert (EP : near (3 / 1000000) (evec (earth_place (fixed L0 1) 2451545)) (dir L0 0)).
  { unfold earth_place. pose proof (fixed_near L0 1 2451545) as N. rewrite Rminus_eq_0, Rabs_R0 in N. specialize (N ltac:(lra)).
    destruct (PlanetPosition (fixed L0 1) 2451545) as [[l b] R0]. destruct N as (-> & B & N). pose proof (fk5_near l b L0 B N) as K. destruct (ToFK5 l b 2451545) as [l0 b0]. destruct K as (_ & K & _).
    unfold evec. destruct K as (K1 & K2 & K3). cbn [vx vy vz] in K1, K2, K3. unfold near. cbn [vx vy vz]. rewrite !Rmult_1_l. auto. }
  set (E := evec (earth_place (fixed L0 1) 2451545)) in *.
  assert (BE : Rabs (vx E) <= 2 /\ Rabs (vy E) <= 2 /\ Rabs (vz E) <= 2).
  { destruct EP as (A & B & C). unfold dir in A, B, C. cbn [vx vy vz] in A, B, C. rewrite cos_0, Rmult_1_l in A, B. rewrite sin_0 in C. pose proof (COS_bound L0). pose proof (SIN_bound L0). apply Rabs_le_inv in A, B, C. repeat split; apply Rabs_le; lra. }
  assert (T1 : Rabs (2451545 - LightTime D0 - 2451545) <= 1) by (unfold LightTime; apply Rabs_le; lra).
  pose proof (fixed_near L r _ T1) as N2. rewrite P2 in N2. destruct N2 as (-> & B2 & N2).
  assert (HD1 : 0 <= D1 <= 50).
  { rewrite ED. unfold norm. split; [apply sqrt_pos|]. rewrite <- (sqrt_square 50) by lra. apply sqrt_le_1_alt. unfold vsub, vadd, scale, dir, dot. cbn [vx vy vz].
    destruct BE as (X & Y & Z). apply Rabs_le_inv in X. apply Rabs_le_inv in Y. apply Rabs_le_inv in Z.
    assert (Q : forall c e, -1 <= c <= 1 -> -2 <= e <= 2 -> (r * c + -1 * e) * (r * c + -1 * e) <= 22 * 22). { intros c e C E'. assert (-20 <= r * c <= 20) by nra. assert (-22 <= r * c + -1 * e <= 22) by lra. nra. }
    assert (CS : forall u v, -1 <= u <= 1 -> -1 <= v <= 1 -> -1 <= u * v <= 1) by (intros; nra).
    pose proof (COS_bound l3). pose proof (SIN_bound l3). pose proof (COS_bound b3). pose proof (SIN_bound b3).
    pose proof (Q (cos b3 * cos l3) _ (CS _ _ H1 H) X). pose proof (Q (cos b3 * sin l3) _ (CS _ _ H1 H0) Y). pose proof (Q (sin b3) _ H2 Z). lra. }
  assert (T2 : Rabs (2451545 - LightTime D1 - 2451545) <= 1) by (unfold LightTime; apply Rabs_le; lra).
  pose proof (fixed_near L r _ T2) as N1. rewrite P1 in N1. destruct N1 as (ER & B1 & N1). pose proof (fk5_near l1 b1 L B1 N1) as K. rewrite F1 in K. destruct K as (K & _ & CB).
  split; [exact ER|]. split; [exact CB|]. split; [exact K|]. rewrite V, ER.
  destruct K as (K1 & K2 & K3). destruct EP as (A & B & C). apply Rabs_le_inv in K1, K2, K3, A, B, C. unfold near, vsub, vadd, scale. cbn [vx vy vz].
  assert (Q : forall p q e f, -(2 / 1000000) <= p - q <= 2 / 1000000 -> - (3 / 1000000) <= e - f <= 3 / 1000000 -> Rabs (r * p + -1 * e - (r * q + -1 * f)) <= 1 / 10000).
  { intros p q e f Hp He. replace (r * p + -1 * e - (r * q + -1 * f)) with (r * (p - q) - (e - f)) by ring. apply Rabs_le. nra. }
  repeat split; apply Q; assumption.
Qed.

Lemma atan2_q2 x y : x < 0 -> 0 <= y -> PI / 2 < atan2 y x.
Proof. intros X Y. unfold atan2. destruct (Rlt_dec 0 x); [lra|]. destruct (Rlt_dec x 0); [|lra]. destruct (Rle_dec 0 y); [|lra]. pose proof (atan_bound (y / x)). lra. Qed.
Lemma atan2_q3 x y : x < 0 -> y < 0 -> atan2 y x < - (PI / 2).
Proof. intros X Y. unfold atan2. destruct (Rlt_dec 0 x); [lra|]. destruct (Rlt_dec x 0); [|lra]. destruct (Rle_dec 0 y); [lra|]. pose proof (atan_bound (y / x)). lra. Qed.
Lemma ring_oU jde earth saturn : let T := (jde - 2451545) / 36525 in let g := geocentric earth saturn jde 9 in let '(l', b') := ring_sun T (gl g) (gb g) (gr g) in
  oU (Ring jde earth saturn) = Rabs (ring_U (ring_i T) b' (l' - ring_node T) - ring_U (ring_i T) (atan (gz g / hypot (gx g) (gy g))) (atan2 (gy g) (gx g) - ring_node T)).
Proof.
  cbv zeta. unfold Ring, ring_f1. cbv zeta. rewrite century. set (T := (jde - 2451545) / 36525). set (g := geocentric earth saturn jde 9). destruct (ring_sun T (gl g) (gb g) (gr g)) as [l' b'].
  destruct (ring_f2 _ _ _) as [[[B' P] a] b]. reflexivity.
Qed.
Lemma Rmult_neg a b : 0 < a -> b < 0 -> a * b < 0.
Proof. intros A B. nra. Qed.
Lemma side_c k c m : 0 < k < m -> -1 <= c <= 1 -> - m <= - (k * c) <= m.
Proof. intros A B. nra. Qed.
Lemma side_neg si ci z Y : 0 < si <= 1 -> 1 / 2 < ci <= 1 -> z <= 1 / 100 -> Y <= - (1 / 2) -> si * z + ci * Y < 0.
Proof. intros A B C D. assert (si * z <= 1 / 100) by nra. assert (ci * Y <= - (1 / 4)) by nra. lra. Qed.
Lemma side_pos si ci z Y : 0 < si <= 1 -> 1 / 2 < ci <= 1 -> - (1 / 1000) <= z -> 2 / 100 <= Y -> 0 <= si * z + ci * Y.
Proof. intros A B C D. assert (- (1 / 1000) <= si * z) by nra. assert (1 / 100 <= ci * Y) by nra. lra. Qed.
Lemma ring_wrap : let W := ring_node 0 in let o := Ring 2451545 (fixed (W + PI / 2) 1) (fixed (W + PI - asin (3 / 100)) 10) in PI < oU o.
Proof.
  cbv zeta. set (W := ring_node 0). set (x := asin (3 / 100)). set (L := W + PI - x). set (L0 := W + PI / 2).
  pose proof (ring_oU 2451545 (fixed L0 1) (fixed L 10)) as O. cbv zeta in O. replace ((2451545 - 2451545) / 36525) with 0 in O by field.
  destruct (fixed_geocentric L0 L 10 9 ltac:(lra) ltac:(lra)) as (ER & CB & NB & NV). set (g := geocentric (fixed L0 1) (fixed L 10) 2451545 9) in *.
  clearbody g. fold W in O. set (i := ring_i 0) in *. unfold ring_sun in O. cbv zeta in O. set (l' := gl g - AngleFromDeg (1759 / 100000) / gr g) in *. set (b' := gb g - AngleFromDeg (764 / 1000000) * _) in *. set (lam := atan2 (gy g) (gx g)) in *. set (be := atan (gz g / hypot (gx g) (gy g))) in *.
  assert (HP := PI_fine). assert (Hx : -1 <= 3 / 100 <= 1) by lra. assert (Sx : sin x = 3 / 100) by (apply sin_asin, Hx). assert (Bx : - (PI / 2) <= x <= PI / 2) by (apply asin_bound).
  assert (Cx : 99 / 100 <= cos x). { assert (0 <= cos x) by (apply cos_ge_0; lra). pose proof (sc1 x) as Q. rewrite Sx in Q. nra. }
  assert (Cx1 : cos x <= 1) by apply COS_bound.
  assert (Ii : 0 < i < PI / 3). { unfold i, ring_i. rewrite HornerR3. unfold AngleFromDeg. lra. }
  assert (Ci : 1 / 2 < cos i <= 1). { split; [|apply COS_bound]. replace (1 / 2) with (cos (PI / 3)) by apply cos_PI3. apply cos_decreasing_1; lra. }
  assert (Si : 0 < sin i <= 1) by (split; [apply sin_gt_0; lra | apply SIN_bound]).
  pose proof (SIN_bound W) as BS. pose proof (COS_bound W) as BC.
  assert (EL : dir L 0 = mkvec (- cos W * cos x - sin W * sin x) (- sin W * cos x + cos W * sin x) 0).
  { unfold dir. rewrite sin_0, cos_0. replace L with (W - x + PI) by (unfold L; ring). destruct (pi_shift (W - x)) as [-> ->]. rewrite cos_minus, sin_minus. apply mkvec_eq; ring. }
  assert (EL0 : dir L0 0 = mkvec (- sin W) (cos W) 0).
  { unfold dir, L0. rewrite sin_0, cos_0, cos_plus, sin_plus, cos_PI2, sin_PI2. apply mkvec_eq; ring. }
  rewrite EL in NB. rewrite EL, EL0 in NV. clear EL EL0. unfold near, vsub, vadd, scale, gvec, dir in NB, NV. cbn [vx vy vz] in NB, NV. destruct NV as (V1 & V2 & V3). destruct NB as (B1 & B2 & B3).
  apply Rabs_le_inv in V1. apply Rabs_le_inv in V2. apply Rabs_le_inv in V3. apply Rabs_le_inv in B1. apply Rabs_le_inv in B2. apply Rabs_le_inv in B3.
  rewrite O. clear O. clear L L0. clearbody W x i. pose proof (sc1 W) as SW.
  (* the planet seen from the Earth, turned to the node *)
  assert (TV : forall a b c d e, - e <= a - c <= e -> - e <= b - d <= e -> - (2 * e) <= (cos W * a + sin W * b) - (cos W * c + sin W * d) <= 2 * e).
  { intros a b c d e A B. replace (_ - _) with (cos W * (a - c) + sin W * (b - d)) by ring. assert (- e <= cos W * (a - c) <= e) by nra. assert (- e <= sin W * (b - d) <= e) by nra. lra. }
  assert (TW : forall a b c d e, - e <= a - c <= e -> - e <= b - d <= e -> - (2 * e) <= (- sin W * a + cos W * b) - (- sin W * c + cos W * d) <= 2 * e).
  { intros a b c d e A B. replace (_ - _) with (- sin W * (a - c) + cos W * (b - d)) by ring. assert (- e <= - sin W * (a - c) <= e) by nra. assert (- e <= cos W * (b - d) <= e) by nra. lra. }
  pose proof (TV _ _ _ _ _ V1 V2) as X2. pose proof (TW _ _ _ _ _ V1 V2) as Y2. 
  replace (cos W * (10 * (- cos W * cos x - sin W * sin x) + -1 * - sin W) + sin W * (10 * (- sin W * cos x + cos W * sin x) + -1 * cos W)) with (-10 * cos x * (sin W * sin W + cos W * cos W)) in X2 by ring.
  replace (- sin W * (10 * (- cos W * cos x - sin W * sin x) + -1 * - sin W) + cos W * (10 * (- sin W * cos x + cos W * sin x) + -1 * cos W)) with ((10 * sin x - 1) * (sin W * sin W + cos W * cos W)) in Y2 by ring.
  rewrite SW in X2, Y2.
  (* the Sun's side *)
  pose proof (TV _ _ _ _ _ B1 B2) as X1. pose proof (TW _ _ _ _ _ B1 B2) as Y1.
  replace (cos W * (- cos W * cos x - sin W * sin x) + sin W * (- sin W * cos x + cos W * sin x)) with (- cos x * (sin W * sin W + cos W * cos W)) in X1 by ring.
  replace (- sin W * (- cos W * cos x - sin W * sin x) + cos W * (- sin W * cos x + cos W * sin x)) with (sin x * (sin W * sin W + cos W * cos W)) in Y1 by ring.
  rewrite SW in X1, Y1.
  assert (HN : gx g <> 0 \/ gy g <> 0). { destruct (Req_dec (gx g) 0) as [Z|Z]; [|left; exact Z]. right. intros Z'. rewrite Z, Z' in X2. lra. }
  destruct (dir_rect (gx g) (gy g) (gz g) HN) as [Bb Db]. fold lam be in Bb, Db. pose proof (norm_pos (gx g) (gy g) (gz g) HN) as NP. unfold unit_of in Db. set (n := norm _) in *. clearbody n lam be.
  assert (IN : 0 < / n) by (apply Rinv_0_lt_compat, NP).
  assert (U2 : ring_U i be (lam - W) < - (PI / 2)).
  { unfold dir, scale in Db. cbn [vx vy vz] in Db. injection Db as D1 D2 D3. unfold ring_U. rewrite sin_minus, cos_minus. apply atan2_q3.
    - replace (cos be * (cos lam * cos W + sin lam * sin W)) with (cos be * cos lam * cos W + cos be * sin lam * sin W) by ring. rewrite D1, D2.
      replace (/ n * gx g * cos W + / n * gy g * sin W) with (/ n * (cos W * gx g + sin W * gy g)) by ring. apply Rmult_neg; lra.
    - replace (sin i * sin be + cos i * cos be * (sin lam * cos W - cos lam * sin W)) with (sin i * sin be + cos i * (cos be * sin lam) * cos W - cos i * (cos be * cos lam) * sin W) by ring. rewrite D1, D2, D3.
      replace (sin i * (/ n * gz g) + cos i * (/ n * gy g) * cos W - cos i * (/ n * gx g) * sin W) with (/ n * (sin i * gz g + cos i * (- sin W * gx g + cos W * gy g))) by ring. apply Rmult_neg; [exact IN|].
      set (Y := - sin W * gx g + cos W * gy g) in *. apply side_neg; lra. }
  assert (U1 : PI / 2 < ring_U i b' (l' - W)).
  { assert (Dl : Rabs (l' - gl g) <= 4 / 100000). { unfold l'. rewrite ER. unfold AngleFromDeg. replace (gl g - _ - gl g) with (- (1759 / 100000 * (PI / 180) / 10)) by field. apply Rabs_le. lra. }
    assert (Dbb : Rabs (b' - gb g) <= 4 / 100000). { unfold b'. rewrite ER. unfold AngleFromDeg. set (c := cos _). assert (-1 <= c <= 1) by apply COS_bound. replace (gb g - _ - gb g) with (- (764 / 1000000 * (PI / 180) / 10 * c)) by field. apply Rabs_le. apply side_c; lra. }
    destruct (dir_near l' b' (gl g) (gb g) _ _ Dl Dbb) as (E1 & E2 & E3). unfold dir in E1, E2, E3. cbn [vx vy vz] in E1, E2, E3. apply Rabs_le_inv in E1. apply Rabs_le_inv in E2. apply Rabs_le_inv in E3.
    pose proof (TV _ _ _ _ _ E1 E2) as X3. pose proof (TW _ _ _ _ _ E1 E2) as Y3. unfold ring_U. rewrite sin_minus, cos_minus. apply atan2_q2.
    - replace (cos b' * (cos l' * cos W + sin l' * sin W)) with (cos W * (cos b' * cos l') + sin W * (cos b' * sin l')) by ring. lra.
    - replace (sin i * sin b' + cos i * cos b' * (sin l' * cos W - cos l' * sin W)) with (sin i * sin b' + cos i * (- sin W * (cos b' * cos l') + cos W * (cos b' * sin l'))) by ring.
      assert (YY : 2 / 100 <= - sin W * (cos b' * cos l') + cos W * (cos b' * sin l')) by lra. assert (ZZ : - (1 / 1000) <= sin b') by lra. apply side_pos; lra. }
  rewrite Rabs_pos_eq; lra.
Qed.
(** Hypotheses of the theorems are met. *)
Lemma not_aligned a0 d0 a d : degrees 60 <= d0 <= degrees 66 -> Rabs d <= degrees 10 -> (dot (dir a0 d0) (dir a d)) ^ 2 <> 1.
Proof.
  intros A B. apply Rabs_le_inv in B. unfold degrees in *. assert (HP := PI_fine). rewrite dot_dir. pose proof (COS_bound (a0 - a)) as C. set (c := cos (a0 - a)) in *.
  assert (P : 0 < cos d0 * cos d) by (apply Rmult_lt_0_compat; apply cos_gt_0; lra).
  assert (K1 : cos (d0 - d) < 1). { rewrite <- cos_0. apply cos_decreasing_1; lra. } assert (K2 : cos (d0 + d) < 1). { rewrite <- cos_0. apply cos_decreasing_1; lra. }
  rewrite cos_minus in K1. rewrite cos_plus in K2. set (s := sin d0 * sin d) in *. set (q := cos d0 * cos d) in *.
  assert (- q <= q * c <= q) by (split; nra). set (v := s + q * c). assert (V : -1 < v < 1) by (unfold v; lra). clearbody v. clear - V. simpl. rewrite Rmult_1_r. nra.
Qed.
Lemma mars_beta0_range T : Rabs T <= 20 -> degrees 60 <= mars_beta0 T <= degrees 66.
Proof. intros H. apply Rabs_le_inv in H. unfold mars_beta0, degrees, deg. assert (HP := PI_fine). set (p := PI / 180). assert (0 < p) by (unfold p; lra). nra. Qed.
Lemma jup_pole_range jde : Rabs ((jde - 2433282.5) / 36525) <= 20 -> degrees 60 <= snd (jup_pole jde) <= degrees 66.
Proof.
  intros H. apply Rabs_le_inv in H. decimals_in H. unfold jup_pole, degrees, deg. cbv zeta. cbn [snd]. assert (HP := PI_fine). set (p := PI / 180). assert (0 < p) by (unfold p; lra).
  replace (24332825 * / 10) with (24332825 / 10) in H by reflexivity. set (T := (jde - 24332825 / 10) / 36525) in *. nra.
Qed.
Lemma ring_i_range T : Rabs T <= 20 -> degrees 27 <= ring_i T <= degrees 29.
Proof. intros H. apply Rabs_le_inv in H. unfold ring_i, AngleFromDeg, degrees. rewrite HornerR3. assert (HP := PI_fine). set (p := PI / 180). assert (0 < p) by (unfold p; lra). assert (0 <= T * T <= 400) by nra. nra. Qed.
Lemma fixed_example r D0 : 2 <= r <= 20 -> 0 <= D0 <= 50 -> let g := geocentric (fixed (PI / 2) 1) (fixed 0 r) 2451545 D0 in 0 < gx g /\ 0 < gr g /\ 0 < gD g /\ 0 < cos (gb g).
Proof.
  intros Hr HD. cbv zeta. destruct (fixed_geocentric (PI / 2) 0 r D0 ltac:(lra) HD) as (ER & CB & _ & (V & _ & _)). destruct (geocentric_value (fixed (PI / 2) 1) (fixed 0 r) 2451545 D0) as (_ & ND & _).
  set (g := geocentric (fixed (PI / 2) 1) (fixed 0 r) 2451545 D0) in *. clearbody g. unfold vsub, vadd, scale, dir, gvec in V. cbn [vx] in V. rewrite !cos_0, cos_PI2 in V. apply Rabs_le_inv in V.
  assert (X : 0 < gx g) by lra. split; [exact X|]. split; [lra|]. split; [|exact CB]. rewrite ND. apply norm_pos. left. lra.
Qed.
Lemma fixed_example_5 : let g := geocentric (fixed (PI / 2) 1) (fixed 0 5) 2451545 4 in 0 < gx g /\ 0 < gr g /\ 0 < gD g /\ 0 < cos (gb g).
Proof. apply fixed_example; lra. Qed.
Lemma fixed_example_10 : let g := geocentric (fixed (PI / 2) 1) (fixed 0 10) 2451545 9 in 0 < gx g /\ 0 < gr g /\ 0 < gD g /\ 0 < cos (gb g).
Proof. apply fixed_example; lra. Qed.
