(** Reduction of orbital elements; proper motion, nutation and aberration as
    displacements on the sphere. *)
From Coq Require Import ZArith Reals List Lra Psatz Bool Nsatz.
From Flocq Require Import Core.
From Verif Require Import GoFloat GoMath M_base M_angle M_coord M_precess S_Sphere S_precess L_trig L_angle L_vec L_coord L_precess.
Import ListNotations.
Local Open Scope R_scope.

(** atan2 of the components S sin t, S cos t. *)
Lemma atan2_of S y x : 0 < S -> x * x + y * y = S * S -> S * cos (atan2 y x) = x /\ S * sin (atan2 y x) = y.
Proof.
  intros HS H. assert (N : x <> 0 \/ y <> 0).
  { destruct (Req_dec x 0) as [Ex|Ex]; [|left; exact Ex]. destruct (Req_dec y 0) as [Ey|Ey]; [|right; exact Ey].
    exfalso. rewrite Ex, Ey in H. assert (0 < S * S) by (apply Rmult_lt_0_compat; assumption). lra. }
  destruct (atan2_spec x y N) as [A B]. assert (E : hypot x y = S). { unfold hypot. rewrite H. apply sqrt_square. lra. }
  rewrite E in *. split; assumption.
Qed.

Lemma rot_z_add a b v : app (rot_z a) (app (rot_z b) v) = app (rot_z (a + b)) v.
Proof.
  destruct v as [x y z]. unfold app, rot_z, dot. cbn [r1 r2 r3 vx vy vz]. rewrite cos_plus, sin_plus. apply mkvec_eq; ring.
Qed.

Section Euler.
Variables i N et : R.
Let ci := cos i. Let si := sin i. Let cN := cos N. Let sN := sin N. Let ce := cos et. Let se := sin et.
Let C := ci * ce + si * se * cN.
Let i' := acos C.
Let a := atan2 (si * sN) (ce * si * cN - se * ci).
Let b := atan2 (- se * sN) (si * ce - ci * se * cN).

Lemma euler_C2 : (si * sN) * (si * sN) + (ce * si * cN - se * ci) * (ce * si * cN - se * ci) = 1 - C * C.
Proof. pose proof (sc1 i) as I1. pose proof (sc1 N) as N1. pose proof (sc1 et) as E1. fold si ci sN cN se ce in I1, N1, E1. unfold C. clearbody si ci sN cN se ce. clear - I1 N1 E1. nsatz. Qed.
Lemma euler_C2' : (- se * sN) * (- se * sN) + (si * ce - ci * se * cN) * (si * ce - ci * se * cN) = 1 - C * C.
Proof. pose proof (sc1 i) as I1. pose proof (sc1 N) as N1. pose proof (sc1 et) as E1. fold si ci sN cN se ce in I1, N1, E1. unfold C. clearbody si ci sN cN se ce. clear - I1 N1 E1. nsatz. Qed.
Lemma euler_C : -1 <= C <= 1.
Proof. pose proof euler_C2 as H. pose proof (Rle_0_sqr (si * sN)). pose proof (Rle_0_sqr (ce * si * cN - se * ci)). unfold Rsqr in *. split; nra. Qed.

Lemma euler v : sin i' <> 0 ->
  app (rot_z b) (app (rot_x i') (app (rot_z a) (app (rot_x et) v))) = app (rot_x i) (app (rot_z N) v).
Proof.
  intros HS. pose proof euler_C as BC.
  assert (Ec : cos i' = C) by (apply cos_acos, BC).
  assert (S0 : 0 < sin i'). { pose proof (acos_bound C) as B. pose proof (sin_ge_0 i' (proj1 B) (proj2 B)). lra. }
  pose proof (sc1 i') as I'. rewrite Ec in I'. set (S := sin i') in *.
  destruct (atan2_of S (si * sN) (ce * si * cN - se * ci) S0) as [Ca Sa]. { pose proof euler_C2. lra. }
  destruct (atan2_of S (- se * sN) (si * ce - ci * se * cN) S0) as [Cb Sb]. { pose proof euler_C2'. lra. }
  fold a in Ca, Sa. fold b in Cb, Sb.
  pose proof (sc1 a) as A1. pose proof (sc1 b) as B1.
  pose proof (sc1 i) as I1. pose proof (sc1 N) as N1. pose proof (sc1 et) as E1. fold si ci sN cN se ce in I1, N1, E1.
  destruct v as [x y z]. unfold app, rot_z, rot_x, dot. cbn [r1 r2 r3 vx vy vz].
  rewrite Ec. fold S. fold si ci sN cN se ce. unfold C in *.
  clearbody S. set (ca := cos a) in *. set (sa := sin a) in *. set (cb := cos b) in *. set (sb := sin b) in *.
  clearbody ca sa cb sb si ci sN cN se ce. clear BC Ec HS i' a b C.
  assert (S2 : S * S <> 0) by (intros K; apply Rmult_integral in K; lra).
  (* the upper left block, multiplied by S^2 *)
  set (C := ci * ce + si * se * cN) in *.
  assert (Q11 : cb * ca - sb * C * sa = cN).
  { apply Rmult_eq_reg_l with (S * S); [|exact S2].
    transitivity ((S * cb) * (S * ca) - C * ((S * sb) * (S * sa))); [ring|]. rewrite Ca, Sa, Cb, Sb.
    replace (S * S) with (1 - C * C) by lra. unfold C. clear - I1 N1 E1. nsatz. }
  assert (Q12 : cb * sa + sb * C * ca = sN * ce).
  { apply Rmult_eq_reg_l with (S * S); [|exact S2].
    transitivity ((S * cb) * (S * sa) + C * ((S * sb) * (S * ca))); [ring|]. rewrite Ca, Sa, Cb, Sb.
    replace (S * S) with (1 - C * C) by lra. unfold C. clear - I1 N1 E1. nsatz. }
  assert (Q21 : - sb * ca - cb * C * sa = - ci * sN).
  { apply Rmult_eq_reg_l with (S * S); [|exact S2].
    transitivity (- ((S * sb) * (S * ca)) - C * ((S * cb) * (S * sa))); [ring|]. rewrite Ca, Sa, Cb, Sb.
    replace (S * S) with (1 - C * C) by lra. unfold C. clear - I1 N1 E1. nsatz. }
  assert (Q22 : - sb * sa + cb * C * ca = ci * cN * ce + si * se).
  { apply Rmult_eq_reg_l with (S * S); [|exact S2].
    transitivity (- ((S * sb) * (S * sa)) + C * ((S * cb) * (S * ca))); [ring|]. rewrite Ca, Sa, Cb, Sb.
    replace (S * S) with (1 - C * C) by lra. unfold C. clear - I1 N1 E1. nsatz. }
  set (w1 := ce * y + se * z). set (w2 := - se * y + ce * z).
  assert (Ew1 : ce * w1 - se * w2 = y). { unfold w1, w2. transitivity (y * (se * se + ce * ce)); [ring|]. rewrite E1. ring. }
  assert (Ew2 : se * w1 + ce * w2 = z). { unfold w1, w2. transitivity (z * (se * se + ce * ce)); [ring|]. rewrite E1. ring. }
  apply mkvec_eq.
  - transitivity ((cb * ca - sb * C * sa) * x + (cb * sa + sb * C * ca) * w1 + (S * sb) * w2); [unfold w1, w2; ring|].
    rewrite Q11, Q12, Sb. transitivity (cN * x + sN * (ce * w1 - se * w2)); [ring|]. rewrite Ew1. ring.
  - transitivity ((- sb * ca - cb * C * sa) * x + (- sb * sa + cb * C * ca) * w1 + (S * cb) * w2); [unfold w1, w2; ring|].
    rewrite Q21, Q22, Cb. transitivity (- ci * sN * x + ci * cN * (ce * w1 - se * w2) + si * (se * w1 + ce * w2)); [ring|]. rewrite Ew1, Ew2. ring.
  - transitivity ((S * sa) * x - (S * ca) * w1 + C * w2); [unfold w1, w2; ring|].
    rewrite Sa, Ca. unfold C. transitivity (si * sN * x - si * cN * (ce * w1 - se * w2) + ci * (se * w1 + ce * w2)); [ring|]. rewrite Ew1, Ew2. ring.
Qed.
End Euler.

Lemma rot_z_mod a v : app (rot_z (Mod1 a)) v = app (rot_z a) v.
Proof. unfold app, rot_z, dot. cbn [r1 r2 r3 vx vy vz]. rewrite cos_Mod1, sin_Mod1. reflexivity. Qed.

Lemma ReduceElements_frame p e v : let e' := ReduceElements p e in 0 <= Inc e' <= PI /\
  (sin (Inc e') <> 0 ->
   orbit_frame (Inc e') (Peri e') (Node e') (ecliptic_precession (epeta p) (eppi p) (epp p) v) = orbit_frame (Inc e) (Peri e) (Node e) v).
Proof.
  destruct p as [et pi p]. destruct e as [i w n]. unfold ReduceElements, orbit_frame, ecliptic_precession. cbn [Inc Peri Node epeta eppi epp].
  split; [apply acos_bound|]. intros HS. rewrite rot_z_add.
  set (A := atan2 (sin i * sin (n - pi)) _). set (B := atan2 (- sin et * _) _).
  replace (pi + p + A + - (pi + p)) with A by ring. rewrite <- rot_z_add. unfold A, B. rewrite euler by exact HS.
  rewrite rot_z_add. replace (n - pi + pi) with n by ring. reflexivity.
Qed.

Lemma ReduceFK_frame e v : let e' := ReduceB1950FK4ToJ2000FK5 e in
  0 <= Inc e' <= PI /\ 0 <= Node e' < 2 * PI /\ 0 <= Peri e' < 2 * PI /\
  (sin (Inc e') <> 0 ->
   orbit_frame (Inc e') (Peri e') (Node e') (app (rot_z FK_Lp) (app (rot_x (- FK_J)) (app (rot_z (- FK_L)) v))) = orbit_frame (Inc e) (Peri e) (Node e) v).
Proof.
  destruct e as [i w n]. unfold ReduceB1950FK4ToJ2000FK5, orbit_frame. cbn [Inc Peri Node].
  split; [apply acos_bound|]. split; [apply Mod1_bound|]. split; [apply Mod1_bound|]. intros HS.
  rewrite !rot_z_mod, rot_z_add.
  assert (Ec : forall i N, acos (cos i * cos FK_J - sin i * sin FK_J * cos N) = acos (cos i * cos (- FK_J) + sin i * sin (- FK_J) * cos N)).
  { intros. rewrite cos_neg, sin_neg. f_equal. ring. }
  assert (Ea : forall i N, atan2 (sin i * sin N) (cos i * sin FK_J + sin i * cos FK_J * cos N) = atan2 (sin i * sin N) (cos (- FK_J) * sin i * cos N - sin (- FK_J) * cos i)).
  { intros. rewrite cos_neg, sin_neg. f_equal. ring. }
  assert (Eb : forall i N, atan2 (sin FK_J * sin N) (sin i * cos FK_J + cos i * sin FK_J * cos N) = atan2 (- sin (- FK_J) * sin N) (sin i * cos (- FK_J) - cos i * sin (- FK_J) * cos N)).
  { intros. rewrite cos_neg, sin_neg. f_equal; ring. }
  rewrite Ec in *. rewrite Ea, Eb. set (A := atan2 (sin i * _) _). set (B := atan2 (- sin (- FK_J) * _) _).
  replace (A - FK_Lp + FK_Lp) with A by ring. rewrite <- rot_z_add. unfold A, B. rewrite euler by exact HS.
  rewrite rot_z_add. replace (FK_L + n + - FK_L) with n by ring. reflexivity.
Qed.

(** ReduceElements for an orbit in the ecliptic and no precession at all. *)
Lemma atan2_00 : atan2 0 0 = 0.
Proof. unfold atan2. destruct (Rlt_dec 0 0); [lra|]. destruct (Rlt_dec 0 0); [lra|]. destruct (Rlt_dec 0 0); lra. Qed.
Lemma ReduceElements_flat : let p := NewEclipticPrecessor 2000 2000 in let e' := ReduceElements p (mkElements 0 0 0) in
  epeta p = 0 /\ epp p = 0 /\
  orbit_frame (Inc e') (Peri e') (Node e') (mkvec 1 0 0) <> orbit_frame 0 0 0 (mkvec 1 0 0).
Proof.
  cbv zeta. destruct (NewEclipticPrecessor_same 2000) as [E1 E2]. split; [exact E1|]. split; [exact E2|].
  destruct (NewEclipticPrecessor_poly 2000 2000) as (_ & E3 & _). unfold ReduceElements. cbn [Inc Peri Node].
  rewrite E1, E2, sin_0, cos_0.
  replace (1 * 1 + 0 * 0 * cos (0 - eppi (NewEclipticPrecessor 2000 2000))) with 1 by ring. rewrite acos_1.
  rewrite !Rmult_0_l, !Rmult_0_r, !Rmult_0_l, Ropp_0, !Rmult_0_l, !Rminus_0_r, atan2_00, !Rplus_0_r.
  replace (eppi (NewEclipticPrecessor 2000 2000)) with (AngleFromDeg 174.876384) by (rewrite E3; unfold AngleFromSec; field).
  unfold orbit_frame, app, rot_z, rot_x, dot. cbn [r1 r2 r3 vx vy vz]. rewrite sin_0, cos_0. intros K. injection K as K _ _.
  assert (cos (AngleFromDeg 174.876384) < 0); [|lra].
  pose proof PI_RGT_0. apply cos_lt_0; unfold AngleFromDeg; decimals; lra.
Qed.

(** ReduceB1950ToJ2000. *)
Section B1950.
Variable e : Elements.
Let W := Node e - AngleFromDeg (174298782 / 1000000).
Let A := sin (Inc e) * sin W.
Let B := B1950_C * sin (Inc e) * cos W - B1950_S * cos (Inc e).
Lemma B1950_AB : A * A + B * B <= 1.
Proof.
  unfold A, B. pose proof (sc1 W) as W1. pose proof (sc1 (Inc e)) as I1. set (si := sin (Inc e)) in *. set (ci := cos (Inc e)) in *. set (s := sin W) in *. set (c := cos W) in *.
  clearbody si ci s c. assert (Q : B1950_C * B1950_C + B1950_S * B1950_S <= 1) by (unfold B1950_C, B1950_S; lra).
  assert (T : (B1950_C * (si * c) - B1950_S * ci) * (B1950_C * (si * c) - B1950_S * ci) <= si * c * (si * c) + ci * ci).
  { set (x := si * c). clearbody x. pose proof (Rle_0_sqr (B1950_S * x + B1950_C * ci)) as P. pose proof (Rle_0_sqr x) as P1. pose proof (Rle_0_sqr ci) as P2. unfold Rsqr in *. nra. }
  replace (B1950_C * si * c) with (B1950_C * (si * c)) by ring.
  assert (si * s * (si * s) + si * c * (si * c) = si * si). { transitivity (si * si * (s * s + c * c)); [ring|]. rewrite W1. ring. }
  lra.
Qed.
Lemma B1950_range : let e' := ReduceB1950ToJ2000 e in
  0 <= Inc e' <= PI / 2 /\ 0 <= Node e' < 2 * PI /\ 0 <= Peri e' < 2 * PI.
Proof.
  unfold ReduceB1950ToJ2000. cbn [Inc Node Peri]. fold W. fold A. fold B.
  assert (H : 0 <= hypot A B <= 1). { split; [apply hypot_pos|]. unfold hypot. rewrite <- sqrt_1. apply sqrt_le_1_alt. apply B1950_AB. }
  split; [|split; apply Mod1_bound]. pose proof (asin_bound (hypot A B)) as Q. split; [|lra].
  apply Rnot_lt_le. intros N. pose proof PI_bounds. assert (sin (asin (hypot A B)) < 0). { rewrite <- sin_0. apply sin_increasing_1; lra. }
  rewrite sin_asin in H1 by lra. lra.
Qed.
(** The new inclination and node give the part (A, B) of the orbit's pole. *)
Lemma B1950_pole : let e' := ReduceB1950ToJ2000 e in
  sin (Inc e') * sin (Node e' - AngleFromDeg (174997194 / 1000000)) = A /\
  sin (Inc e') * cos (Node e' - AngleFromDeg (174997194 / 1000000)) = B.
Proof.
  unfold ReduceB1950ToJ2000. cbn [Inc Node Peri]. fold W. fold A. fold B.
  assert (H : 0 <= hypot A B <= 1). { split; [apply hypot_pos|]. unfold hypot. rewrite <- sqrt_1. apply sqrt_le_1_alt. apply B1950_AB. }
  rewrite sin_asin by lra. set (K := AngleFromDeg (174997194 / 1000000)).
  rewrite !cos_minus, !sin_minus, cos_Mod1, sin_Mod1, <- sin_minus, <- cos_minus. replace (K + atan2 A B - K) with (atan2 A B) by ring.
  destruct (Req_dec (hypot A B) 0) as [Z|NZ].
  - pose proof (hypot_sqr A B) as Q. rewrite Z in Q. rewrite Z. pose proof (Rle_0_sqr A). pose proof (Rle_0_sqr B). unfold Rsqr in *.
    assert (A = 0) by nra. assert (B = 0) by nra. split; lra.
  - assert (N : B <> 0 \/ A <> 0). { destruct (Req_dec B 0); [|tauto]. destruct (Req_dec A 0); [|tauto]. exfalso. apply NZ. unfold hypot. rewrite H0, H1. replace (0 * 0 + 0 * 0) with 0 by ring. apply sqrt_0. }
    destruct (atan2_spec B A N) as [E1 E2]. assert (hypot B A = hypot A B) by (unfold hypot; f_equal; ring). rewrite H0 in *. split; assumption.
Qed.
End B1950.

Lemma B1950_n_close : 1 - 1 / 100000000000 <= B1950_n <= 1.
Proof.
  unfold B1950_n, hypot, B1950_C, B1950_S. split.
  - apply Rsqr_incr_0_var; [|apply sqrt_pos]. rewrite Rsqr_sqrt by lra. unfold Rsqr. lra.
  - rewrite <- sqrt_1. apply sqrt_le_1_alt. lra.
Qed.
Lemma B1950_SC : B1950_S = B1950_n * sin B1950_eta /\ B1950_C = B1950_n * cos B1950_eta.
Proof. unfold B1950_n, B1950_eta. destruct (atan2_spec B1950_C B1950_S) as [X Y]; [left; unfold B1950_C; lra|]. split; lra. Qed.

(** The pole of an orbit in the frame of its elements. *)
Lemma pole_vec inc peri node v : vz (orbit_frame inc peri node v) = dot (mkvec (sin inc * sin node) (- sin inc * cos node) (cos inc)) v.
Proof. destruct v as [x y z]. unfold orbit_frame, app, rot_z, rot_x, dot. cbn [r1 r2 r3 vx vy vz]. ring. Qed.


Lemma Rabs_small x k : - k <= x <= k -> Rabs x <= k.
Proof. intros. apply Rabs_le. lra. Qed.

Lemma B1950_pole_close e : let e' := ReduceB1950ToJ2000 e in
  let u := orbit_pole (Inc e') (Node e') in let w := B1950_frame (orbit_pole (Inc e) (Node e)) in
  Rabs (vx u - vx w) <= 1 / 10000000000 /\ Rabs (vy u - vy w) <= 1 / 10000000000 /\ 0 <= vz u.
Proof.
  cbv zeta. destruct (B1950_pole e) as [PA PB]. pose proof (B1950_range e) as (RI & _ & _).
  set (e' := ReduceB1950ToJ2000 e) in *. set (K := AngleFromDeg (174997194 / 1000000)) in *.
  destruct B1950_SC as [ES EC]. destruct B1950_n_close as [L1 L2]. rewrite ES, EC in PB.
  unfold orbit_pole, B1950_frame. fold K. set (P := AngleFromDeg (174298782 / 1000000)) in *.
  unfold app, rot_z, rot_x, dot. cbn [r1 r2 r3 vx vy vz].
  set (W := Node e - P) in *. replace (Node e) with (W + P) by (unfold W; ring). rewrite sin_plus, cos_plus.
  replace (Node e') with ((Node e' - K) + K) by ring. rewrite (sin_plus (Node e' - K) K), (cos_plus (Node e' - K) K).
  rewrite cos_neg, sin_neg.
  assert (CI : 0 <= cos (Inc e')) by (apply cos_ge_0; lra).
  set (si' := sin (Inc e')) in *. set (sn' := sin (Node e' - K)) in *. set (cn' := cos (Node e' - K)) in *. set (ci' := cos (Inc e')) in *. set (n := B1950_n) in *.
  pose proof (sc1 K) as K1. pose proof (sc1 P) as P1. pose proof (sc1 W) as W1. pose proof (sc1 (Inc e)) as I1. pose proof (sc1 B1950_eta) as E1.
  set (sK := sin K) in *. set (cK := cos K) in *. set (sP := sin P) in *. set (cP := cos P) in *. set (si := sin (Inc e)) in *. set (ci := cos (Inc e)) in *.
  set (sW := sin W) in *. set (cW := cos W) in *. set (se := sin B1950_eta) in *. set (ce := cos B1950_eta) in *.
  clearbody si' sn' cn' ci' n sK cK sP cP si ci sW cW se ce. clear ES EC RI.
  assert (EX : cP * (si * (sW * cP + cW * sP)) + sP * (- (si * (cW * cP - sW * sP))) + 0 * ci = si * sW).
  { transitivity (si * sW * (sP * sP + cP * cP)); [ring|]. rewrite P1. ring. }
  assert (EY : - sP * (si * (sW * cP + cW * sP)) + cP * (- (si * (cW * cP - sW * sP))) + 0 * ci = - (si * cW)).
  { transitivity (- (si * cW * (sP * sP + cP * cP))); [ring|]. rewrite P1. ring. }
  rewrite EX, EY. set (B0 := ce * si * cW - se * ci). assert (EB : si' * cn' = n * B0) by (rewrite PB; unfold B0; ring).
  assert (BB : -1 <= B0 <= 1).
  { unfold B0. assert (Q : (ce * si * cW - se * ci) * (ce * si * cW - se * ci) <= 1).
    { set (x := si * cW). assert (T : x * x + ci * ci <= 1). { unfold x. assert (0 <= si * sW * (si * sW)) by (pose proof (Rle_0_sqr (si * sW)); unfold Rsqr in *; lra).
        assert (si * sW * (si * sW) + si * cW * (si * cW) = si * si) by (transitivity (si * si * (sW * sW + cW * cW)); [ring|rewrite W1; ring]). lra. }
      replace (ce * si * cW) with (ce * x) by (unfold x; ring). clearbody x. clear - T E1.
      pose proof (Rle_0_sqr (se * x + ce * ci)). unfold Rsqr in *. nra. }
    split; nra. }
  assert (BK : -1 <= sK <= 1) by (split; nra). assert (BKc : -1 <= cK <= 1) by (split; nra).
  split; [|split; [|exact CI]].
  - apply Rabs_small.
    replace (si' * (sn' * cK + cn' * sK) - _) with (sK * ((n - 1) * B0)); [|unfold B0].
    + set (d := 1 - n). replace (n - 1) with (- d) by (unfold d; ring). assert (0 <= d <= 1 / 100000000000) by (unfold d; lra).
      clearbody d. assert (- d <= - d * B0 <= d) by (split; nra). split; nra.
    + transitivity (cK * (si' * sn') + sK * (si' * cn') - cK * (si * sW) - sK * (ce * si * cW - se * ci)); [rewrite PA, EB; unfold B0; ring|ring].
  - apply Rabs_small.
    replace (- (si' * (cn' * cK - sn' * sK)) - _) with (- cK * ((n - 1) * B0)); [|unfold B0].
    + set (d := 1 - n). replace (n - 1) with (- d) by (unfold d; ring). assert (0 <= d <= 1 / 100000000000) by (unfold d; lra).
      clearbody d. assert (- d <= - d * B0 <= d) by (split; nra). split; nra.
    + transitivity (- (cK * (si' * cn')) + sK * (si' * sn') - sK * (si * sW) + cK * (ce * si * cW - se * ci)); [rewrite PA, EB; unfold B0; ring|ring].
Qed.

(** A retrograde orbit comes out direct. *)
Lemma B1950_retrograde : let e' := ReduceB1950ToJ2000 (mkElements (2 * PI / 3) 0 (AngleFromDeg (174298782 / 1000000))) in
  cos (Inc e') >= 0 /\ vz (B1950_frame (orbit_pole (2 * PI / 3) (AngleFromDeg (174298782 / 1000000)))) < - (4 / 10).
Proof.
  cbv zeta. split.
  - pose proof (B1950_range (mkElements (2 * PI / 3) 0 (AngleFromDeg (174298782 / 1000000)))) as (R1 & _ & _). apply Rle_ge, cos_ge_0; lra.
  - set (P := AngleFromDeg _). unfold B1950_frame, orbit_pole. fold P. unfold app, rot_z, rot_x, dot. cbn [r1 r2 r3 vx vy vz].
    replace (2 * PI / 3) with (2 * (PI / 3)) by field.
    rewrite sin_2a, cos_2a_cos, sin_PI3, cos_PI3. pose proof (sc1 P) as P1. set (sP := sin P) in *. set (cP := cos P) in *.
    assert (E0 : B1950_eta = atan (B1950_S / B1950_C)). { unfold B1950_eta, atan2. destruct (Rlt_dec 0 B1950_C) as [|n]; [reflexivity|]. exfalso. apply n. unfold B1950_C. lra. }
    destruct B1950_SC as [ES EC]. destruct B1950_n_close as [L1 L2]. set (se := sin B1950_eta) in *. set (ce := cos B1950_eta) in *.
    assert (Hs : 0 <= se <= 2 / 10000). { unfold B1950_S in ES. clear - ES L1 L2. split; nra. }
    assert (Hc : 99 / 100 <= ce). { unfold B1950_C in EC. clear - EC L1 L2. nra. }
    assert (S3 : 0 <= sqrt 3 <= 2). { split; [apply sqrt_pos|]. replace 2 with (sqrt 4) by (replace 4 with (2 * 2) by ring; apply sqrt_square; lra). apply sqrt_le_1_alt. lra. }
    match goal with |- ?L < _ => replace L with (se * (2 * (sqrt 3 / 2) * (1 / 2)) * (sP * sP + cP * cP) + ce * (2 * (1 / 2) * (1 / 2) - 1)) by ring end.
    rewrite P1. nra.
Qed.

(** The argument of perihelion is that of the exact rotation. *)
Lemma B1950_peri e : sin (Inc e) <> 0 \/ sin (Node e - AngleFromDeg (174298782 / 1000000)) <> 0 ->
  let K := AngleFromDeg (174997194 / 1000000) in let P := AngleFromDeg (174298782 / 1000000) in
  let e' := ReduceB1950ToJ2000 e in let x := ReduceElements (mkEclP B1950_eta P (K - P)) e in
  sin (Peri e') = sin (Peri x) /\ cos (Peri e') = cos (Peri x).
Proof.
  intros H. cbv zeta. unfold ReduceB1950ToJ2000, ReduceElements. cbn [Inc Node Peri epeta eppi epp].
  rewrite sin_Mod1, cos_Mod1. set (P := AngleFromDeg (174298782 / 1000000)) in *. set (W := Node e - P) in *.
  destruct B1950_SC as [ES EC]. destruct B1950_n_close as [L1 L2].
  set (Y := - sin B1950_eta * sin W). set (X := sin (Inc e) * cos B1950_eta - cos (Inc e) * sin B1950_eta * cos W).
  replace (- B1950_S * sin W) with (B1950_n * Y) by (rewrite ES; unfold Y; ring).
  replace (B1950_C * sin (Inc e) - B1950_S * cos (Inc e) * cos W) with (B1950_n * X) by (rewrite ES, EC; unfold X; ring).
  assert (Se : sin B1950_eta <> 0). { intros K. rewrite K in ES. unfold B1950_S in ES. lra. }
  assert (Sc : cos B1950_eta <> 0). { intros K. rewrite K in EC. unfold B1950_C in EC. lra. }
  destruct (Req_dec X 0) as [EX|NX]; [destruct (Req_dec Y 0) as [EY|NY]|].
  - rewrite EX, EY, !Rmult_0_r. split; reflexivity.
  - destruct (atan2_scale B1950_n X Y ltac:(lra) (or_intror NY)) as [A B]. rewrite !sin_plus, !cos_plus, A, B. split; reflexivity.
  - destruct (atan2_scale B1950_n X Y ltac:(lra) (or_introl NX)) as [A B]. rewrite !sin_plus, !cos_plus, A, B. split; reflexivity.
Qed.

(** ** Displacements *)
Lemma frame_complete l b w : w = vadd (vadd (scale (dot w (east l b)) (east l b)) (scale (dot w (north l b)) (north l b))) (scale (dot w (dir l b)) (dir l b)).
Proof.
  destruct w as [x y z]. unfold vadd, scale, east, north, dir, dot. cbn [vx vy vz]. pose proof (sc1 l) as L1. pose proof (sc1 b) as B1.
  set (sl := sin l) in *. set (cl := cos l) in *. set (sb := sin b) in *. set (cb := cos b) in *. clearbody sl cl sb cb.
  apply mkvec_eq; nsatz.
Qed.
Lemma across_frame l b w : across w (dir l b) = vadd (scale (dot w (east l b)) (east l b)) (scale (dot w (north l b)) (north l b)).
Proof.
  unfold across. set (k := dot w (dir l b)). rewrite (frame_complete l b w) at 1. fold k.
  destruct (vadd (scale (dot w (east l b)) (east l b)) (scale (dot w (north l b)) (north l b))) as [x y z]. destruct (dir l b) as [x' y' z'].
  unfold vsub, vadd, scale. cbn [vx vy vz]. apply mkvec_eq; ring.
Qed.
Lemma velocity_perp l b ml mb : dot (velocity l b ml mb) (dir l b) = 0.
Proof. unfold velocity, vadd, scale, east, north, dir, dot. cbn [vx vy vz]. pose proof (sc1 l) as L1. 
  transitivity (mb * sin b * cos b * (1 - (sin l * sin l + cos l * cos l))); [ring|]. rewrite L1. ring. Qed.

(** A displacement vector u perpendicular to (l, b) is the velocity with the given rates. *)
Lemma velocity_of w l b ml mb : dot w (dir l b) = 0 -> cos b * ml = dot w (east l b) -> mb = dot w (north l b) -> velocity l b ml mb = w.
Proof.
  intros P E N. rewrite (frame_complete l b w). rewrite P. unfold velocity. rewrite E, N.
  destruct (vadd (scale (dot w (east l b)) (east l b)) (scale (dot w (north l b)) (north l b))) as [x y z]. destruct (dir l b) as [x' y' z'].
  unfold vadd, scale. cbn [vx vy vz]. apply mkvec_eq; ring.
Qed.
Lemma velocity_across w l b ml mb : cos b * ml = dot w (east l b) -> mb = dot w (north l b) -> velocity l b ml mb = across w (dir l b).
Proof. intros E N. rewrite across_frame, <- E, <- N. reflexivity. Qed.

Lemma properMotion_velocity eps ma md pos : - (PI / 2) < eclLat pos < PI / 2 ->
  let '(a, d) := EclToEq (eclLon pos) (eclLat pos) (sin eps) (cos eps) in
  let '(ml, mb) := properMotionToEcl eps ma md pos in
  dir a d = app (rot_x (- eps)) (dir (eclLon pos) (eclLat pos)) /\
  velocity (eclLon pos) (eclLat pos) ml mb = app (rot_x eps) (velocity a d ma md).
Proof.
  intros H. pose proof (EclToEq_dir (eclLon pos) (eclLat pos) eps H) as Q. unfold properMotionToEcl.
  destruct (EclToEq (eclLon pos) (eclLat pos) (sin eps) (cos eps)) as [a d]. destruct Q as (_ & _ & E). split; [exact E|].
  assert (E' : dir (eclLon pos) (eclLat pos) = app (rot_x eps) (dir a d)) by (rewrite E, (proj2 (rot_x_inv _ _)); reflexivity).
  pose proof (cos_pos_lat _ H) as C. destruct pos as [l b]. cbn [eclLon eclLat] in *.
  apply velocity_of.
  - rewrite E', rot_x_dot. apply velocity_perp.
  - apply Rmult_eq_reg_l with (cos b); [|lra].
    transitivity (dot (app (rot_x eps) (velocity a d ma md)) (mkvec (- vy (dir l b)) (vx (dir l b)) 0)).
    2:{ generalize (app (rot_x eps) (velocity a d ma md)); intros w. unfold dot, east, dir. cbn [vx vy vz]. ring. }
    rewrite E'. unfold app, rot_x, velocity, vadd, scale, east, north, dir, dot. cbn [r1 r2 r3 vx vy vz].
    pose proof (sc1 a) as A1. pose proof (sc1 d) as D1. pose proof (sc1 eps) as E1.
    set (sa := sin a) in *. set (ca := cos a) in *. set (sd := sin d) in *. set (cd := cos d) in *. set (se := sin eps) in *. set (ce := cos eps) in *.
    match goal with |- cos b * (cos b * (?P / (cos b * cos b))) = _ => replace (cos b * (cos b * (P / (cos b * cos b)))) with P by (field; lra) end.
    clearbody sa ca sd cd se ce. clear - A1 D1 E1. nsatz.
  - apply Rmult_eq_reg_l with (cos b); [|lra].
    transitivity (vz (app (rot_x eps) (velocity a d ma md)) - vz (dir l b) * dot (app (rot_x eps) (velocity a d ma md)) (dir l b)).
    + replace (dot (app (rot_x eps) (velocity a d ma md)) (dir l b)) with 0 by (rewrite E', rot_x_dot; symmetry; apply velocity_perp).
      unfold app, rot_x, velocity, vadd, scale, east, north, dot. cbn [r1 r2 r3 vx vy vz].
      field. lra.
    + generalize (app (rot_x eps) (velocity a d ma md)); intros [x y z]. unfold dot, north, dir. cbn [vx vy vz]. pose proof (sc1 l) as L1. pose proof (sc1 b) as B1.
      set (sl := sin l) in *. set (cl := cos l) in *. set (sb := sin b) in *. set (cb := cos b) in *. clearbody sl cl sb cb. clear - L1 B1. nsatz.
Qed.

Lemma ProperMotion3D_line eq e1 e2 r mr ma md : 0 < r ->
  let t := e2 - e1 in
  let P := vadd (scale r (dir (eqRA eq) (eqDec eq)))
                (scale t (vadd (scale mr (dir (eqRA eq) (eqDec eq))) (scale r (velocity (eqRA eq) (eqDec eq) ma md)))) in
  let q := ProperMotion3D eq e1 e2 r mr ma md in
  P <> vzero -> 0 <= eqRA q < 2 * PI /\ - (PI / 2) <= eqDec q <= PI / 2 /\ scale (norm P) (dir (eqRA q) (eqDec q)) = P.
Proof.
  intros Hr t P q HP. destruct eq as [a d]. cbn [eqRA eqDec] in P. unfold q, ProperMotion3D. cbn [eqRA eqDec]. cbv zeta.
  fold t.
  set (xp := r * cos d * cos a + t * _). set (yp := r * cos d * sin a + t * _). set (zp := r * sin d + t * _).
  assert (EP : P = mkvec xp yp zp).
  { unfold P, xp, yp, zp, velocity, vadd, scale, east, north, dir. cbn [vx vy vz]. apply mkvec_eq; field; lra. }
  rewrite EP in *. clearbody xp yp zp. clear EP P. split; [apply RAFromRad_bound|].
  pose proof (hypot_pos xp yp) as Hh. pose proof (hypot_sqr xp yp) as Hs. pose proof PI_bounds as PB.
  assert (N : hypot xp yp <> 0 \/ zp <> 0).
  { destruct (Req_dec zp 0) as [Z|Z]; [|right; exact Z]. left. intros K. rewrite K in Hs. apply HP. unfold vzero.
    pose proof (Rle_0_sqr xp). pose proof (Rle_0_sqr yp). unfold Rsqr in *. apply mkvec_eq; nra. }
  destruct (atan2_spec _ _ N) as [C S]. set (h := hypot xp yp) in *. set (D := hypot h zp) in *.
  assert (DP : 0 < D) by (apply hypot_gt0; exact N).
  assert (ED : norm (mkvec xp yp zp) = D). { unfold norm, dot, D, hypot. cbn [vx vy vz]. f_equal. fold h. lra. }
  set (b := atan2 zp h) in *. pose proof (atan2_bound zp h) as Bb. fold b in Bb.
  split.
  - assert (0 <= cos b). { apply Rmult_le_reg_l with D; lra. }
    split; apply Rnot_lt_le; intros K.
    + assert (cos b < 0); [|lra]. rewrite <- cos_neg. apply cos_lt_0; lra.
    + assert (cos b < 0); [|lra]. apply cos_lt_0; lra.
  - rewrite ED. unfold scale, dir. cbn [vx vy vz]. rewrite cos_RAFromRad, sin_RAFromRad.
    rewrite <- !Rmult_assoc, C, S. destruct (Req_dec xp 0) as [X0|X0]; [destruct (Req_dec yp 0) as [Y0|Y0]|].
    + assert (h = 0) by (unfold h, hypot; rewrite X0, Y0; replace (0 * 0 + 0 * 0) with 0 by ring; apply sqrt_0). rewrite H, X0, Y0. apply mkvec_eq; ring.
    + destruct (atan2_spec xp yp (or_intror Y0)) as [C' S']. unfold h. rewrite C', S'. reflexivity.
    + destruct (atan2_spec xp yp (or_introl X0)) as [C' S']. unfold h. rewrite C', S'. reflexivity.
Qed.

Lemma Nutation_velocity dpsi deps ra dec jd : - (PI / 2) < dec < PI / 2 ->
  let '(da, dd) := NutationCorr dpsi deps ra dec jd in
  velocity ra dec da dd = vadd (scale dpsi (cross (app (rot_x (- MeanObliquity jd)) (mkvec 0 0 1)) (dir ra dec)))
                               (scale deps (cross (mkvec 1 0 0) (dir ra dec))).
Proof.
  intros H. pose proof (cos_pos_lat _ H) as C. unfold NutationCorr. cbv zeta. set (eps := MeanObliquity jd). clearbody eps.
  unfold velocity, app, rot_x, tan, cross, vadd, scale, east, north, dir, dot. cbn [r1 r2 r3 vx vy vz]. rewrite sin_neg, cos_neg.
  pose proof (sc1 ra) as A1. pose proof (sc1 dec) as D1.
  set (sa := sin ra) in *. set (ca := cos ra) in *. set (sd := sin dec) in *. set (cd := cos dec) in *. set (se := sin eps) in *. set (ce := cos eps) in *.
  replace (cd * ((ce + se * sa * (sd / cd)) * dpsi - ca * (sd / cd) * deps)) with ((ce * cd + se * sa * sd) * dpsi - ca * sd * deps) by (field; lra).
  clearbody sa ca sd cd se ce. clear - A1 D1. apply mkvec_eq; nsatz.
Qed.


Lemma EclAberration_velocity lon lat jd : - (PI / 2) < lat < PI / 2 ->
  let '(dl, db) := EclipticAberration lon lat jd in velocity lon lat dl db = across (earthV jd) (dir lon lat).
Proof.
  intros H. pose proof (cos_pos_lat _ H) as C. unfold EclipticAberration, earthV. cbv zeta. set (T := J2000Century (fl := RFlt) jd).
  set (s := fst (solarTrue T)). set (e := solarEccentricity T). set (p := perihelion T). clearbody s e p.
  apply velocity_across; unfold earth_velocity, scale, dot, east, north; cbn [vx vy vz]; rewrite ?cos_minus, ?sin_minus.
  - field. lra.
  - ring.
Qed.
Lemma EqAberration_velocity ra dec jd : - (PI / 2) < dec < PI / 2 -> cos (MeanObliquity jd) <> 0 ->
  let '(da, dd) := Aberration ra dec jd in velocity ra dec da dd = across (app (rot_x (- MeanObliquity jd)) (earthV jd)) (dir ra dec).
Proof.
  intros H HE. pose proof (cos_pos_lat _ H) as C. unfold Aberration, earthV. cbv zeta. set (T := J2000Century (fl := RFlt) jd). set (eps := MeanObliquity jd) in *.
  set (s := fst (solarTrue T)). set (e := solarEccentricity T). set (p := perihelion T). clearbody s e p eps.
  apply velocity_across; unfold earth_velocity, scale, app, rot_x, dot, east, north, tan; cbn [r1 r2 r3 vx vy vz]; rewrite ?cos_neg, ?sin_neg.
  - field. lra.
  - field. exact HE.
Qed.
Lemma Aberration_agree lon lat ra dec jd : - (PI / 2) < lat < PI / 2 -> - (PI / 2) < dec < PI / 2 -> cos (MeanObliquity jd) <> 0 ->
  dir lon lat = app (rot_x (MeanObliquity jd)) (dir ra dec) ->
  let '(dl, db) := EclipticAberration lon lat jd in let '(da, dd) := Aberration ra dec jd in
  velocity lon lat dl db = app (rot_x (MeanObliquity jd)) (velocity ra dec da dd).
Proof.
  intros H1 H2 H3 E. pose proof (EclAberration_velocity lon lat jd H1) as A. pose proof (EqAberration_velocity ra dec jd H2 H3) as B.
  destruct (EclipticAberration lon lat jd) as [dl db]. destruct (Aberration ra dec jd) as [da dd]. rewrite A, B, E.
  set (eps := MeanObliquity jd). set (v := earthV jd). unfold across.
  replace (dot v (app (rot_x eps) (dir ra dec))) with (dot (app (rot_x (- eps)) v) (dir ra dec)).
  2:{ rewrite <- (rot_x_dot eps), (proj2 (rot_x_inv _ _)). reflexivity. }
  set (k := dot (app (rot_x (- eps)) v) (dir ra dec)).
  rewrite <- (proj2 (rot_x_inv eps v)) at 1. set (w := app (rot_x (- eps)) v). destruct w as [x y z]. destruct (dir ra dec) as [x' y' z'].
  unfold vsub, vadd, scale, app, rot_x, dot. cbn [r1 r2 r3 vx vy vz]. apply mkvec_eq; ring.
Qed.
Lemma RonVondrak_velocity X Y Z ra dec : - (PI / 2) < dec < PI / 2 ->
  let '(da, dd) := RonVondrakCorr X Y Z ra dec in velocity ra dec da dd = across (scale (/ 17314463350) (mkvec X Y Z)) (dir ra dec).
Proof.
  intros H. pose proof (cos_pos_lat _ H) as C. unfold RonVondrakCorr, rvC. cbv zeta.
  apply velocity_across; unfold scale, dot, east, north; cbn [vx vy vz].
  - field. lra.
  - field.
Qed.

(** ** Statements of the property file *)
Lemma precession_dot ze z th u v : dot (precession ze z th u) (precession ze z th v) = dot u v.
Proof. unfold precession. rewrite rot_z_dot, rot_y_dot, rot_z_dot. reflexivity. Qed.
Lemma ecliptic_precession_dot et pi p u v : dot (ecliptic_precession et pi p u) (ecliptic_precession et pi p v) = dot u v.
Proof. unfold ecliptic_precession. rewrite rot_z_dot, rot_x_dot, rot_z_dot. reflexivity. Qed.
Lemma Precess_sep p u v th : separation (dir (eqRA u) (eqDec u)) (dir (eqRA v) (eqDec v)) th ->
  separation (dir (eqRA (Precess p u)) (eqDec (Precess p u))) (dir (eqRA (Precess p v)) (eqDec (Precess p v))) th.
Proof. unfold separation. rewrite !(proj2 (proj2 (Precess_dir p _))), precession_dot. tauto. Qed.
Lemma EclPrecess_sep p u v th : separation (dir (eclLon u) (eclLat u)) (dir (eclLon v) (eclLat v)) th ->
  separation (dir (eclLon (EclPrecess p u)) (eclLat (EclPrecess p u))) (dir (eclLon (EclPrecess p v)) (eclLat (EclPrecess p v))) th.
Proof. unfold separation. rewrite !(proj2 (proj2 (EclPrecess_dir p _))), ecliptic_precession_dot. tauto. Qed.

Lemma Position_dir eq e1 e2 ma md : let q := Position eq e1 e2 ma md in let p := NewPrecessor e1 e2 in let t := e2 - e1 in
  0 <= eqRA q < 2 * PI /\ - (PI / 2) <= eqDec q <= PI / 2 /\
  dir (eqRA q) (eqDec q) = precession (pzeta p) (pz p) (ptheta p) (dir (eqRA eq + ma * t) (eqDec eq + md * t)).
Proof.
  cbv zeta. unfold Position. cbv zeta. destruct (Precess_dir (NewPrecessor e1 e2) (mkEq (RAFromRad (eqRA eq + ma * (e2 - e1))) (eqDec eq + md * (e2 - e1)))) as (A & B & C).
  split; [exact A|]. split; [exact B|]. rewrite C. cbn [eqRA eqDec]. f_equal. unfold dir. rewrite cos_RAFromRad, sin_RAFromRad. reflexivity.
Qed.
Lemma EclipticPosition_dir ecl e1 e2 ma md : - (PI / 2) < eclLat ecl < PI / 2 ->
  let q := EclipticPosition ecl e1 e2 ma md in let p := NewEclipticPrecessor e1 e2 in let t := e2 - e1 in
  let eps := MeanObliquity (JulianYearToJDE (fl := RFlt) e1) in
  - (PI / 2) <= eclLat q <= PI / 2 /\
  exists ml mb a d,
    dir a d = app (rot_x (- eps)) (dir (eclLon ecl) (eclLat ecl)) /\
    velocity (eclLon ecl) (eclLat ecl) ml mb = app (rot_x eps) (velocity a d ma md) /\
    dir (eclLon q) (eclLat q) = ecliptic_precession (epeta p) (eppi p) (epp p) (dir (eclLon ecl + ml * t) (eclLat ecl + mb * t)).
Proof.
  intros H q p t eps.
  pose proof (properMotion_velocity eps ma md ecl H) as V.
  destruct (EclToEq (eclLon ecl) (eclLat ecl) (sin eps) (cos eps)) as [a d].
  unfold q, EclipticPosition. fold p. destruct (negb (Req_bool ma 0) || negb (Req_bool md 0)) eqn:G.
  - unfold eqProperMotionToEcl. fold eps. destruct (properMotionToEcl eps ma md ecl) as [ml mb]. destruct V as [V1 V2]. cbv zeta. fold t.
    destruct (EclPrecess_dir p (mkEcl (eclLon ecl + ml * t) (eclLat ecl + mb * t))) as (_ & B & C). split; [exact B|].
    exists ml, mb, a, d. split; [exact V1|]. split; [exact V2|]. exact C.
  - apply orb_false_elim in G. destruct G as [G1 G2]. apply negb_false_iff in G1, G2.
    revert G1 G2. case Req_bool_spec; [|discriminate]. intros -> _. case Req_bool_spec; [|discriminate]. intros -> _.
    destruct (EclPrecess_dir p ecl) as (_ & B & C). split; [exact B|]. exists 0, 0, a, d.
    destruct (properMotionToEcl eps 0 0 ecl) as [ml mb]. destruct V as [V1 _]. split; [exact V1|]. split.
    + unfold velocity, app, rot_x, vadd, scale, dot. cbn [r1 r2 r3 vx vy vz]. apply mkvec_eq; ring.
    + rewrite C. do 2 f_equal; ring.
Qed.

Lemma alias_example : eqRA (Precess_ptr (NewPrecessor 2000 2000) (fun _ => mkEq 1 0) 0%nat 0%nat 0%nat) = 1.
Proof.
  destruct (Precess_dir (NewPrecessor 2000 2000) (mkEq 1 0)) as (A & B & C).
  assert (E : Precess (NewPrecessor 2000 2000) (mkEq 1 0) = mkEq 1 0).
  { apply Precess_same; cbn [eqRA eqDec]; pose proof PI_bounds; lra. }
  assert (W : Precess_ptr (NewPrecessor 2000 2000) (fun _ => mkEq 1 0) 0%nat 0%nat 0%nat = Precess (NewPrecessor 2000 2000) (mkEq 1 0)).
  { unfold Precess_ptr, Precess, poleSafe. cbv zeta. case (Rlt_bool (Rabs _) _); [reflexivity|]. case (Rlt_bool _ 0); reflexivity. }
  rewrite W, E. reflexivity.
Qed.

Lemma obliquity_J2000 : 0 < MeanObliquity 2451545 < PI / 4 /\ cos (MeanObliquity 2451545) <> 0.
Proof.
  assert (E : MeanObliquity 2451545 = AngleFromSec (84381448 / 1000)).
  { unfold MeanObliquity, J2000Century, J2000, JulianCentury, HornerR, Horner. cbn [rev List.app horner_loop fadd fmul fsub fdiv fconst RFlt].
    f_equal. field. }
  assert (B : 0 < MeanObliquity 2451545 < PI / 4). { rewrite E. unfold AngleFromSec. pose proof PI_RGT_0. split; lra. }
  split; [exact B|]. assert (0 < cos (MeanObliquity 2451545)); [|lra]. apply cos_gt_0; pose proof PI_RGT_0; lra.
Qed.
