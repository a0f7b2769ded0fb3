(** Lemmas for planetposition.ToFK5. *)
From Coq Require Import ZArith Reals Lra Psatz.
From Flocq Require Import Core.
From Verif Require Import GoFloat GoMath S_Sphere S_precess S_fk5 M_base M_solar L_trig L_angle L_kepler L_apparent L_refraction.
Local Open Scope R_scope.

Lemma sin_tangent0 a h : 0 <= h -> sin (a + h) - sin a - h * cos a <= h * h / 2.
Proof.
  intros Hh. destruct (Req_dec h 0) as [->|N]; [rewrite Rplus_0_r; lra|].
  set (f := fun t => t * t / 2 - (sin (a + t) - sin a - t * cos a)). set (f' := fun t => t - (cos (a + t) - cos a)).
  assert (D : forall t, derivable_pt_lim f t (f' t)).
  { intros t. unfold f, f'. apply derivable_pt_lim_minus.
    - replace t with ((1 * t + t * 1) * / 2) at 2 by field. apply (derivable_pt_lim_ext (fun t => (t * t) * / 2)); [intros; reflexivity|]. apply (derivable_pt_lim_scal_right (fun t => t * t)). apply (derivable_pt_lim_mult id id); apply derivable_pt_lim_id.
    - replace (cos (a + t) - cos a) with (cos (a + t) * (0 + 1) - 0 - (1 * cos a + t * 0)) by ring. apply derivable_pt_lim_minus; [apply derivable_pt_lim_minus|].
      + apply (derivable_pt_lim_comp (fun t => a + t) sin); [apply (derivable_pt_lim_plus (fun _ => a) id); [apply derivable_pt_lim_const|apply derivable_pt_lim_id]|apply derivable_pt_lim_sin].
      + apply derivable_pt_lim_const.
      + apply (derivable_pt_lim_mult id (fun _ => cos a)); [apply derivable_pt_lim_id|apply derivable_pt_lim_const]. }
  destruct (MVT_cor2 f f' 0 h ltac:(lra) (fun c _ => D c)) as (c & E & C). assert (F0 : f 0 = 0) by (unfold f; rewrite Rplus_0_r; field).
  assert (P : 0 <= f' c). { unfold f'. pose proof (cos_lip (a + c) a) as L. replace (a + c - a) with c in L by ring. rewrite (Rabs_pos_eq c) in L by lra. apply Rabs_le_inv in L. lra. }
  assert (0 <= f' c * (h - 0)) by (apply Rmult_le_pos; lra). unfold f in E at 1. lra.
Qed.
Lemma sin_tangent a h : Rabs (sin (a + h) - sin a - h * cos a) <= h * h / 2.
Proof.
  assert (G : forall a h, 0 <= h -> Rabs (sin (a + h) - sin a - h * cos a) <= h * h / 2).
  { clear. intros a h Hh. pose proof (sin_tangent0 a h Hh) as A. pose proof (sin_tangent0 (a + PI) h Hh) as B. replace (a + PI + h) with (a + h + PI) in B by ring. rewrite !neg_sin, neg_cos in B. apply Rabs_le. lra. }
  destruct (Rle_dec 0 h) as [P|P]; [apply G; exact P|]. pose proof (G (- a) (- h) ltac:(lra)) as H. replace (- a + - h) with (- (a + h)) in H by ring. rewrite !sin_neg, cos_neg in H.
  apply Rabs_le_inv in H. apply Rabs_le. lra.
Qed.
Lemma cos_tangent a h : Rabs (cos (a + h) - cos a + h * sin a) <= h * h / 2.
Proof. pose proof (sin_tangent (PI / 2 + a) h) as H. replace (PI / 2 + a + h) with (PI / 2 + (a + h)) in H by ring. rewrite <- !cos_sin in H. replace (cos (PI / 2 + a)) with (- sin a) in H by (rewrite (sin_cos a); ring). replace (cos (a + h) - cos a + h * sin a) with (cos (a + h) - cos a - h * - sin a) by ring. exact H. Qed.

(** A direction whose coordinates change by (x, y) moves along the velocity, up to second order. *)
Lemma dir_tangent l b x y : norm (vsub (dir (l + x) (b + y)) (vadd (dir l b) (velocity l b x y))) <= 867 / 1000 * (x * x + y * y).
Proof.
  assert (Q : 0 <= x * x + y * y) by (apply Rplus_le_le_0_compat; apply Rle_0_sqr). apply norm_le; [lra|].
  pose proof (cos_tangent (b + l) (x + y)) as A1. pose proof (cos_tangent (b - l) (y - x)) as A2. pose proof (sin_tangent (b + l) (x + y)) as A3. pose proof (sin_tangent (b - l) (y - x)) as A4. pose proof (sin_tangent b y) as A5.
  replace (b + l + (x + y)) with (b + y + (l + x)) in A1, A3 by ring. replace (b - l + (y - x)) with (b + y - (l + x)) in A2, A4 by ring.
  set (B' := b + y) in *. set (L' := l + x) in *. assert (EB : b + y = B') by reflexivity. assert (EL : l + x = L') by reflexivity. clearbody B' L'.
  rewrite !cos_plus, sin_plus in A1. rewrite !cos_minus, sin_minus in A2. rewrite !sin_plus, cos_plus in A3. rewrite !sin_minus, cos_minus in A4.
  unfold dot, vsub, vadd, scale, velocity, vadd, scale, east, north, dir. cbn [vx vy vz].
  set (q := x * x + y * y) in *.
  set (e1 := cos B' * cos L' + -1 * _). set (e2 := cos B' * sin L' + -1 * _). set (e3 := sin B' + -1 * _).
  apply Rabs_le_inv in A1, A2, A3, A4, A5.
  assert (H1 : Rabs e1 <= q / 2). { apply Rabs_le. unfold e1, q. split; lra. }
  assert (H2 : Rabs e2 <= q / 2). { apply Rabs_le. unfold e2, q. split; lra. }
  assert (H3 : Rabs e3 <= q / 2). { apply Rabs_le. unfold e3, q. pose proof (Rle_0_sqr x) as X. unfold Rsqr in X. split; lra. }
  clearbody e1 e2 e3 q. assert (S : forall e, Rabs e <= q / 2 -> e * e <= q / 2 * (q / 2)). { intros e He. apply Rabs_le_inv in He. nra. }
  pose proof (S _ H1). pose proof (S _ H2). pose proof (S _ H3). assert (0 <= q * q) by (apply Rle_0_sqr). lra.
Qed.

Lemma fk5_motion L B jde : cos B <> 0 -> let '(L5, B5) := ToFK5 L B jde in velocity L B (L5 - L) (B5 - B) = cross (fk5_rotation (centuries jde)) (dir L B).
Proof.
  intros C. unfold ToFK5, J2000Century. cbv zeta. cbn. replace ((jde - 2451545 / 1) / (36525 / 1)) with (centuries jde) by (unfold centuries; field).
  replace (L - AngleFromDeg (1397 / 1000 * centuries jde + 31 / 100000 * centuries jde * centuries jde)) with (L - carried (centuries jde)) by (unfold carried, AngleFromDeg; field).
  set (p := carried (centuries jde)). unfold fk5_rotation. fold p. unfold velocity, vadd, scale, east, north, cross, app, rot_z, dir, dot. cbn [vx vy vz r1 r2 r3].
  rewrite cos_neg, sin_neg, cos_minus, sin_minus. unfold AngleFromSec, arcsec, tan. pose proof (sc1 L) as E. set (sl := sin L) in *. set (cl := cos L) in *. set (sp := sin p). set (cp := cos p). set (k := 3916 / 100000). set (a := 9033 / 100000). clearbody sl cl sp cp k a.
  f_equal.
  - match goal with |- ?l = ?r => transitivity (r + (sl * sl + cl * cl - 1) * (- k * (PI / 180 / 3600) * (sp + cp) * sin B)); [field; exact C|rewrite E; ring] end.
  - match goal with |- ?l = ?r => transitivity (r + (sl * sl + cl * cl - 1) * (k * (PI / 180 / 3600) * (cp - sp) * sin B)); [field; exact C|rewrite E; ring] end.
  - field. exact C.
Qed.

Lemma fk5_shift L B jde : cos B <> 0 -> let '(L5, B5) := ToFK5 L B jde in (L5 - L) * (L5 - L) + (B5 - B) * (B5 - B) <= 46 / 10 ^ 14 / (cos B * cos B).
Proof.
  intros C. unfold ToFK5. cbv zeta. set (p := L - _). clearbody p. cbn beta iota.
  replace (L + _ - L) with (AngleFromSec (- (9033 / 100000) + 3916 / 100000 * (cos p + sin p) * tan B)) by ring. replace (B + _ - B) with (AngleFromSec (3916 / 100000 * (cos p - sin p))) by ring.
  pose proof (sc1 p) as P1. pose proof (sc1 B) as P2. set (c := cos p) in *. set (s := sin p) in *. clearbody c s. set (t := tan B). assert (T : / (cos B * cos B) = 1 + t * t). { unfold t, tan. transitivity ((sin B * sin B + cos B * cos B) / (cos B * cos B)); [rewrite P2; field; exact C|field; exact C]. }
  replace (46 / 10 ^ 14 / (cos B * cos B)) with (46 / 10 ^ 14 * (1 + t * t)) by (rewrite <- T; field; exact C). clear T. clearbody t. unfold AngleFromSec. set (k := PI / 180 / 3600). assert (K : 0 < k < 48482 / 10 ^ 10) by (unfold k; pose proof PI_fine; lra). clearbody k.
  replace ((- (9033 / 100000) + 3916 / 100000 * (c + s) * t) * k * ((- (9033 / 100000) + 3916 / 100000 * (c + s) * t) * k) + 3916 / 100000 * (c - s) * k * (3916 / 100000 * (c - s) * k))
    with ((k * k) * ((- (9033 / 100000) + 3916 / 100000 * (c + s) * t) * (- (9033 / 100000) + 3916 / 100000 * (c + s) * t) + 3916 / 100000 * (3916 / 100000) * ((c - s) * (c - s)))) by ring.
  assert (K2 : 0 <= k * k <= 48482 / 10 ^ 10 * (48482 / 10 ^ 10)) by (split; [nra|apply Rmult_le_compat; lra]).
  assert (A1 : (c - s) * (c - s) <= 2) by (pose proof (Rle_0_sqr (c + s)) as Q; unfold Rsqr in Q; lra). assert (A2 : (c + s) * (c + s) <= 2) by (pose proof (Rle_0_sqr (c - s)) as Q; unfold Rsqr in Q; lra).
  assert (T2 : 0 <= t * t) by apply Rle_0_sqr.
  assert (A3 : ((c + s) * (c + s)) * (t * t) <= 2 * (t * t)) by (apply Rmult_le_compat_r; assumption).
  assert (A4 : (- (9033 / 100000) + 3916 / 100000 * (c + s) * t) * (- (9033 / 100000) + 3916 / 100000 * (c + s) * t) <= 2 * (9033 / 100000 * (9033 / 100000)) + 2 * (3916 / 100000 * (3916 / 100000) * (2 * (t * t)))).
  { pose proof (Rle_0_sqr (9033 / 100000 + 3916 / 100000 * (c + s) * t)) as Q. unfold Rsqr in Q. assert ((3916 / 100000 * (c + s) * t) * (3916 / 100000 * (c + s) * t) <= 3916 / 100000 * (3916 / 100000) * (2 * (t * t))) by (replace ((3916 / 100000 * (c + s) * t) * (3916 / 100000 * (c + s) * t)) with (3916 / 100000 * (3916 / 100000) * (((c + s) * (c + s)) * (t * t))) by ring; lra). lra. }
  apply Rle_trans with (48482 / 10 ^ 10 * (48482 / 10 ^ 10) * (2 * (9033 / 100000 * (9033 / 100000)) + 2 * (3916 / 100000 * (3916 / 100000) * (2 * (t * t))) + 3916 / 100000 * (3916 / 100000) * 2)).
  - apply Rmult_le_compat; try lra. apply Rplus_le_le_0_compat; [apply Rle_0_sqr|]. apply Rmult_le_pos; [lra|apply Rle_0_sqr].
  - lra.
Qed.
Lemma fk5_rotates L B jde : cos B <> 0 -> let '(L5, B5) := ToFK5 L B jde in
  norm (vsub (dir L5 B5) (vadd (dir L B) (cross (fk5_rotation (centuries jde)) (dir L B)))) <= 4 / 10 ^ 13 / (cos B * cos B).
Proof.
  intros C. pose proof (fk5_motion L B jde C) as M. pose proof (fk5_shift L B jde C) as S. destruct (ToFK5 L B jde) as [L5 B5]. rewrite <- M. pose proof (dir_tangent L B (L5 - L) (B5 - B)) as D. replace (L + (L5 - L)) with L5 in D by ring. replace (B + (B5 - B)) with B5 in D by ring.
  apply Rle_trans with (1 := D). assert (P : 0 < / (cos B * cos B)) by (apply Rinv_0_lt_compat; nra). replace (46 / 10 ^ 14 / (cos B * cos B)) with (46 / 10 ^ 14 * / (cos B * cos B)) in S by reflexivity. replace (4 / 10 ^ 13 / (cos B * cos B)) with (4 / 10 ^ 13 * / (cos B * cos B)) by reflexivity. lra.
Qed.
Lemma fk5_size T : norm (fk5_rotation T) <= arcsec (106 / 1000).
Proof.
  assert (K : 0 < PI / 180 / 3600) by (pose proof PI_fine; lra). apply norm_le; [unfold arcsec; lra|]. unfold fk5_rotation, app, rot_z, dot. cbn [vx vy vz r1 r2 r3]. rewrite cos_neg, sin_neg. pose proof (sc1 (carried T)) as E. set (s := sin _) in *. set (c := cos _) in *. clearbody s c.
  replace (arcsec (3916 / 100000)) with (3916 / 100000 * (PI / 180 / 3600)) by (unfold arcsec; field). replace (arcsec (9033 / 100000)) with (9033 / 100000 * (PI / 180 / 3600)) by (unfold arcsec; field). replace (arcsec (106 / 1000)) with (106 / 1000 * (PI / 180 / 3600)) by (unfold arcsec; field). set (k := PI / 180 / 3600) in *. clearbody k.
  match goal with |- ?l <= _ => replace l with ((k * k) * (2 * (3916 / 100000) * (3916 / 100000) * (s * s + c * c) + 9033 / 100000 * (9033 / 100000))) by ring end. rewrite E. assert (0 < k * k) by nra. lra.
Qed.
Lemma norm_cross w u : norm u = 1 -> norm (cross w u) <= norm w.
Proof.
  intros U. apply norm_le; [apply norm_pos0|]. rewrite norm2. assert (U2 : dot u u = 1) by (rewrite <- norm2, U; ring). pose proof (Rle_0_sqr (dot w u)) as Q. unfold Rsqr in Q.
  assert (E : dot (cross w u) (cross w u) = dot w w * dot u u - dot w u * dot w u) by (unfold dot, cross; cbn [vx vy vz]; ring). rewrite E, U2. lra.
Qed.
Lemma norm_dir l b : norm (dir l b) = 1.
Proof. unfold norm. rewrite dir_unit. apply sqrt_1. Qed.
Lemma fk5_moves L B jde : cos B <> 0 -> let '(L5, B5) := ToFK5 L B jde in norm (vsub (dir L5 B5) (dir L B)) <= arcsec (106 / 1000) + 4 / 10 ^ 13 / (cos B * cos B).
Proof.
  intros C. pose proof (fk5_rotates L B jde C) as M. destruct (ToFK5 L B jde) as [L5 B5]. set (w := fk5_rotation _) in *. pose proof (norm_sub3 (dir L5 B5) (vadd (dir L B) (cross w (dir L B))) (dir L B)) as T.
  replace (vsub (vadd (dir L B) (cross w (dir L B))) (dir L B)) with (cross w (dir L B)) in T by (unfold vsub, vadd, scale, cross; cbn [vx vy vz]; f_equal; ring). pose proof (norm_cross w _ (norm_dir L B)). pose proof (fk5_size (centuries jde)) as Z. fold w in Z. lra.
Qed.
(** Separations are kept. *)
Lemma fk5_isometry L B l b jde : cos B <> 0 -> cos b <> 0 -> let '(L5, B5) := ToFK5 L B jde in let '(l5, b5) := ToFK5 l b jde in
  Rabs (dot (dir L5 B5) (dir l5 b5) - dot (dir L B) (dir l b)) <= 6 / 10 ^ 13 * (/ (cos B * cos B) + / (cos b * cos b)).
Proof.
  intros C1 C2. pose proof (fk5_rotates L B jde C1) as M1. pose proof (fk5_rotates l b jde C2) as M2. destruct (ToFK5 L B jde) as [L5 B5]. destruct (ToFK5 l b jde) as [l5 b5]. set (w := fk5_rotation _) in *. pose proof (fk5_size (centuries jde)) as Z. fold w in Z. clearbody w.
  set (u := dir L B) in *. set (v := dir l b) in *. set (u5 := dir L5 B5) in *. set (v5 := dir l5 b5) in *. set (ru := vadd u (cross w u)) in *. set (rv := vadd v (cross w v)) in *.
  pose proof (norm_cross w u (norm_dir L B)) as N1. pose proof (norm_cross w v (norm_dir l b)) as N2.
  assert (E : dot u5 v5 - dot u v = dot (vsub u5 ru) v5 + dot ru (vsub v5 rv) + dot (cross w u) (cross w v)) by (unfold ru, rv, dot, vsub, vadd, scale, cross; cbn [vx vy vz]; ring).
  rewrite E. pose proof (cauchy (vsub u5 ru) v5) as K1. pose proof (cauchy ru (vsub v5 rv)) as K2. pose proof (cauchy (cross w u) (cross w v)) as K3. rewrite (norm_dir l5 b5 : norm v5 = 1) in K1.
  assert (R : norm ru <= 1 + norm w). { pose proof (norm_add u (cross w u)) as A. rewrite (norm_dir L B : norm u = 1) in A. fold ru in A. lra. }
  assert (W : 0 <= norm w <= 52 / 10 ^ 8) by (split; [apply norm_pos0|apply Rle_trans with (1 := Z); unfold arcsec; pose proof PI_fine; lra]).
  assert (I : forall x, cos x <> 0 -> 1 <= / (cos x * cos x)). { intros x Hx. pose proof (sc1 x). pose proof (Rle_0_sqr (sin x)) as S. unfold Rsqr in S. rewrite <- Rinv_1. apply Rinv_le_contravar; [nra|lra]. }
  pose proof (I B C1) as I1. pose proof (I b C2) as I2. change (4 / 10 ^ 13 / (cos B * cos B)) with (4 / 10 ^ 13 * / (cos B * cos B)) in M1. change (4 / 10 ^ 13 / (cos b * cos b)) with (4 / 10 ^ 13 * / (cos b * cos b)) in M2. set (i1 := / (cos B * cos B)) in *. set (i2 := / (cos b * cos b)) in *. clearbody i1 i2.
  assert (P2 : norm ru * norm (vsub v5 rv) <= (1 + 52 / 10 ^ 8) * (4 / 10 ^ 13 * i2)) by (apply Rmult_le_compat; try apply norm_pos0; lra).
  assert (P3 : norm (cross w u) * norm (cross w v) <= 52 / 10 ^ 8 * (52 / 10 ^ 8)) by (apply Rmult_le_compat; try apply norm_pos0; lra).
  apply Rabs_le_inv in K1, K2, K3. apply Rabs_le. split; lra.
Qed.
Lemma fk5_example : cos 0 <> 0 /\ ToFK5 0 0 2451545 = (arcsec (- (9033 / 100000)), arcsec (3916 / 100000)) /\ carried (centuries 2451545) = 0 /\ carried (centuries (2451545 + 36525)) <> 0.
Proof.
  split; [rewrite cos_0; lra|]. split; [|split; [unfold carried, centuries; field|]].
  - unfold ToFK5, J2000Century. cbv zeta. cbn. rewrite tan_0. replace (0 - AngleFromDeg _) with 0 by (unfold AngleFromDeg; field). rewrite cos_0, sin_0. unfold AngleFromSec, arcsec. f_equal; field.
  - unfold carried, centuries. replace (2451545 + 36525 - 2451545) with 36525 by ring. pose proof PI_fine. lra.
Qed.
