(** Lemmas on eclipses. *)
From Coq Require Import ZArith Reals List Lra Lia Bool.
From Flocq Require Import Core.
From Verif Require Import GoMath M_precess M_lunar M_eclipse S_event S_eclipse L_trig L_kepler L_precess L_event.
Import ListNotations.
Local Open Scope R_scope.

Lemma ec_E_eq T : ec_E T = E_ T. Proof. exact (mp_E_eq T). Qed.
Lemma ec_u_bound E M M1 : Rabs E <= 1.026 -> -0.018 <= ec_u E M M1 <= 0.0298.
Proof.
  intros HE. assert (H : Rabs (ec_u E M M1 - 0.0059) <= 0.02382).
  { unfold ec_u. match goal with |- Rabs (?a + ?b + ?c + ?d + ?e - ?a) <= _ => replace (a + b + c + d + e - a) with (b + c + d + e) by ring end. bound. }
  apply Rabs_le_inv in H. revert H. decimals. lra.
Qed.

(** ** The early test is sound *)
Lemma final_poly x y : x * x + y * y = 1 -> 0 <= y -> 0 < 0.09323 - 0.0865 * x - y * (0.0402 - 0.02154 * x).
Proof.
  intros H Y.
  assert (Y1 : y <= (1.0784 - x * x) / 0.56).
  { assert (0 <= (y - 0.28) * (y - 0.28)) by apply Rle_0_sqr. apply Rmult_le_reg_r with 0.56; [decimals; lra|].
    unfold Rdiv. rewrite Rmult_assoc, Rinv_l by (decimals; lra). revert H0. decimals. intros. lra. }
  assert (X : -1 <= x <= 1) by nra.
  assert (C : 0 < 0.0402 - 0.02154 * x) by (decimals; lra).
  assert (B : y * (0.0402 - 0.02154 * x) <= (1.0784 - x * x) / 0.56 * (0.0402 - 0.02154 * x)) by (apply Rmult_le_compat_r; lra).
  assert (D : 0 < 0.09323 - 0.0865 * x - (1.0784 - x * x) / 0.56 * (0.0402 - 0.02154 * x)); [|lra].
  replace ((1.0784 - x * x) / 0.56) with ((1.0784 - x * x) * (100 / 56)) by (decimals; field).
  clear - X. assert (0 <= (1 - x) * ((x - 433 / 1000) * (x - 433 / 1000))) by (apply Rmult_le_pos; [lra|apply Rle_0_sqr]).
  decimals. nra.
Qed.
Lemma prefilter_core e m l x y s c u P Q :
  Rabs e <= 1.026 -> m * m + l * l = 1 -> x * x + y * y = 1 -> s * s + c * c = 1 -> 0.3595 <= Rabs s ->
  P = e * l * (0.207 - 0.014 * x) + 0.0048 * (l * (e * m)) - y * (0.0392 - 0.0232 * x) - 0.0006 * (y * (e * m)) + 0.0236 * s * c ->
  Q = 5.2207 - 0.3299 * x - 0.0048 * (e * m) + 0.002 * (e * (m * m - l * l)) - 0.0019 * (x * (e * m)) + 0.0101 * (y * (e * l)) ->
  u = 0.0059 + 0.0046 * (e * m) - 0.0182 * x + 0.0004 * (x * x - y * y) - 0.0005 * (m * x - l * y) ->
  1.5573 + u < Rabs ((P * c + Q * s) * (1 - 0.0048 * Rabs c)).
Proof.
  intros He Hm Hx Hs Bs HP HQ Hu.
  assert (Am : Rabs m <= 1) by (apply Rabs_le; nra).
  assert (Al : Rabs l <= 1) by (apply Rabs_le; nra).
  assert (Ax : Rabs x <= 1) by (apply Rabs_le; nra).
  assert (Ay : Rabs y <= 1) by (apply Rabs_le; nra).
  assert (Aml : Rabs (m * m - l * l) <= 1) by (apply Rabs_le; nra).
  assert (Axy : Rabs (x * x - y * y) <= 1) by (apply Rabs_le; nra).
  assert (Amx : Rabs (m * x - l * y) <= 1).
  { apply Rabs_le. pose proof (Rle_0_sqr (m * y + l * x)). pose proof (Rle_0_sqr (m * x - l * y)). unfold Rsqr in *.
    assert ((m * x - l * y) * (m * x - l * y) + (m * y + l * x) * (m * y + l * x) = 1) by (transitivity ((m * m + l * l) * (x * x + y * y)); [ring|rewrite Hm, Hx; ring]).
    nra. }
  assert (Aem : Rabs (e * m) <= 1.026) by bound.
  assert (Ael : Rabs (e * l) <= 1.026) by bound.
  (* the three bounds *)
  assert (X := Rabs_le_inv _ _ Ax).
  set (Y := Rabs y).
  assert (BP : Rabs (P - 0.0236 * s * c) <= 1.026 * (0.207 - 0.014 * x) + 0.0056 + Y * (0.0392 - 0.0232 * x)).
  { replace (P - 0.0236 * s * c) with (e * l * (0.207 - 0.014 * x) + (0.0048 * (l * (e * m)) - 0.0006 * (y * (e * m))) - y * (0.0392 - 0.0232 * x)) by (rewrite HP; ring).
    apply bn_sub; [apply bn_add|].
    - apply bn_mul; [exact Ael|apply bn_const; decimals; lra].
    - bound.
    - apply bn_mul; [unfold Y; lra|apply bn_const; decimals; lra]. }
  assert (BQ : 5.2117 - 0.3299 * x - 0.0104 * Y <= Q).
  { assert (Rabs (Q - (5.2207 - 0.3299 * x)) <= 0.009 + 0.0104 * Y); [|apply Rabs_le_inv in H; revert H; decimals; lra].
    replace (Q - (5.2207 - 0.3299 * x)) with (- (0.0048 * (e * m)) + 0.002 * (e * (m * m - l * l)) - 0.0019 * (x * (e * m)) + 0.0101 * (y * (e * l))) by (rewrite HQ; ring).
    apply bn_add; [bound|]. eapply Rle_trans.
    - apply bn_mul; [apply bn_const; decimals; lra|apply bn_mul; [apply Rle_refl|exact Ael]].
    - fold Y. assert (0 <= Y) by apply Rabs_pos. decimals. lra. }
  assert (Bu : u <= 0.01153 - 0.0182 * x).
  { assert (Rabs (u - (0.0059 - 0.0182 * x)) <= 0.00563); [|apply Rabs_le_inv in H; revert H; decimals; lra].
    replace (u - (0.0059 - 0.0182 * x)) with (0.0046 * (e * m) + 0.0004 * (x * x - y * y) - 0.0005 * (m * x - l * y)) by (rewrite Hu; ring).
    bound. }
  set (C := Rabs c). set (S := Rabs s) in *.
  assert (SC : S * S + C * C = 1). { unfold S, C. rewrite <- !Rabs_mult, !Rabs_right by nra. exact Hs. }
  assert (C0 : 0 <= C) by apply Rabs_pos. assert (Y0 : 0 <= Y) by apply Rabs_pos.
  assert (C1 : C <= 0.9332). { clear - SC Bs C0. revert Bs. decimals. intros. apply Rnot_lt_le. intros K. nra. }
  assert (S1 : S <= 1) by nra.
  assert (Y1 : Y <= 1) by exact Ay.
  assert (Q0 : 0 < Q) by (revert BQ; decimals; lra).
  set (P0 := Rabs (P - 0.0236 * s * c)) in *. assert (P00 : 0 <= P0) by apply Rabs_pos.
  assert (L1 : Q * S - P0 * C <= Rabs (P * c + Q * s)).
  { replace (P * c + Q * s) with ((P - 0.0236 * s * c) * c + s * (Q + 0.0236 * (c * c))) by ring.
    pose proof (Rabs_triang_inv (s * (Q + 0.0236 * (c * c))) (- ((P - 0.0236 * s * c) * c))) as T.
    rewrite Rabs_Ropp, !Rabs_mult in T. fold P0 C S in T.
    replace (s * (Q + 0.0236 * (c * c)) - - ((P - 0.0236 * s * c) * c)) with ((P - 0.0236 * s * c) * c + s * (Q + 0.0236 * (c * c))) in T by ring.
    assert (Q <= Rabs (Q + 0.0236 * (c * c))). { rewrite Rabs_right; [assert (0 <= c * c) by apply Rle_0_sqr; decimals; lra|apply Rle_ge; assert (0 <= c * c) by apply Rle_0_sqr; decimals; lra]. }
    assert (Q * S <= S * Rabs (Q + 0.0236 * (c * c))). { rewrite (Rmult_comm Q). apply Rmult_le_compat_l; [apply Rabs_pos|assumption]. }
    lra. }
  rewrite Rabs_mult. rewrite (Rabs_right (1 - 0.0048 * C)) by (revert C1; decimals; lra).
  assert (L2 : 0.3595 * Q - 0.9332 * P0 <= Q * S - P0 * C).
  { assert (0.3595 * Q <= Q * S) by (rewrite (Rmult_comm Q); apply Rmult_le_compat_r; lra).
    assert (P0 * C <= 0.9332 * P0) by (rewrite (Rmult_comm 0.9332); apply Rmult_le_compat_l; lra). lra. }
  assert (Yx : 0 <= 1 - x) by lra. assert (Yp : 0 <= Y * (1 - x)) by nra.
  assert (Hxy : x * x + Y * Y = 1). { unfold Y. rewrite <- Rabs_mult, (Rabs_right (y * y)) by nra. exact Hx. }
  pose proof (final_poly x Y Hxy Y0) as FP.
  assert (L3 : 1.5573 + u < 0.9952 * (0.3595 * Q - 0.9332 * P0)).
  { clear - BP BQ Bu FP X Y0 Yp. revert BP BQ Bu FP. decimals. intros. lra. }
  eapply Rlt_le_trans; [exact L3|].
  assert (0 <= 0.3595 * Q - 0.9332 * P0). { assert (Yq : 0 <= Y * (1 + x)) by nra. clear - BP BQ X Y0 Yp Y1 Ay Yq. revert BP BQ. decimals. intros. lra. }
  rewrite Rmult_comm. apply Rmult_le_compat; try (decimals; lra).
Qed.
Lemma prefilter E M M1 F F1 :
  Rabs E <= 1.026 -> Rabs (F1 - F) <= 0.0005 -> 0.36 < Rabs (sin F) -> 1.5573 + ec_u E M M1 < Rabs (ec_gam E M M1 F1).
Proof.
  intros HE HF HS.
  assert (S1 : 0.3595 <= Rabs (sin F1)).
  { pose proof (sin_lip F1 F) as L. pose proof (Rabs_triang_inv (sin F) (sin F1)) as T. rewrite Rabs_minus_sym in T.
    revert HF HS L T. decimals. intros. lra. }
  assert (SCm : cos M * cos M + sin M * sin M = 1) by (pose proof (sin2_cos2 M) as K; unfold Rsqr in K; lra).
  assert (SCx : cos M1 * cos M1 + sin M1 * sin M1 = 1) by (pose proof (sin2_cos2 M1) as K; unfold Rsqr in K; lra).
  assert (SCf : sin F1 * sin F1 + cos F1 * cos F1 = 1) by (pose proof (sin2_cos2 F1) as K; unfold Rsqr in K; lra).
  unfold ec_gam. cbv zeta.
  apply (prefilter_core E (cos M) (sin M) (cos M1) (sin M1) (sin F1) (cos F1) _ _ _ HE SCm SCx SCf S1).
  - unfold ec_P. rewrite !sin_2a, sin_plus, sin_minus. decimals. field.
  - unfold ec_Q. rewrite cos_2a, cos_plus, cos_minus. decimals. field.
  - unfold ec_u. rewrite cos_2a, cos_plus. decimals. field.
Qed.

(** ** Lunar eclipses *)
Ltac kinds := unfold lunarKind, disc_inside, disc_meets, disc_outside, umbra, penumbra, moonRadius.
Lemma lunarKind_unique g u t t' : -0.1 <= u -> lunarKind g u t -> lunarKind g u t' -> t = t'.
Proof.
  intros U H1 H2. destruct t, t'; try reflexivity; exfalso; revert U H1 H2; kinds; decimals; intros; lra.
Qed.
Lemma Rlt_bool_cases a b : (Rlt_bool a b = true /\ a < b) \/ (Rlt_bool a b = false /\ b <= a).
Proof. destruct (Rlt_bool_spec a b); auto. Qed.
Lemma lunarType_kind gam u M1 : -0.1 <= u -> lunarKind (Rabs gam) u (fst (fst (fst (fst (lunarType gam u M1))))).
Proof.
  intros U. unfold lunarType. cbv zeta. set (g := Rabs gam).
  replace ((1.0128 - u - g) / 0.545) with ((1.0128 - u - g) * (1000 / 545)) by (decimals; field).
  replace ((1.5573 + u - g) / 0.545) with ((1.5573 + u - g) * (1000 / 545)) by (decimals; field).
  destruct (Rlt_bool_cases 1 ((1.0128 - u - g) * (1000 / 545))) as [[-> A]|[-> A]]; cbn [fst].
  { revert A U. kinds. decimals. intros. lra. }
  destruct (Rlt_bool_cases 0 ((1.0128 - u - g) * (1000 / 545))) as [[-> B]|[-> B]]; cbn [fst].
  { revert A B U. kinds. decimals. intros. split; lra. }
  destruct (Rlt_bool_cases ((1.5573 + u - g) * (1000 / 545)) 0) as [[-> C]|[-> C]]; cbn [fst].
  { revert A B C U. kinds. decimals. intros. lra. }
  revert A B C U. kinds. decimals. intros. split; lra.
Qed.
Lemma track_contact g n r : 0 < n -> Rabs g <= r -> track (Rabs g) n (TimeFromHour (sqrt (r * r - g * g) / n) / 3600) = r.
Proof.
  intros N H. unfold track, TimeFromHour.
  assert (0 <= r) by (pose proof (Rabs_pos g); lra).
  assert (G : Rabs g * Rabs g = g * g) by (rewrite <- Rabs_mult; apply Rabs_right; nra).
  assert (g * g <= r * r) by (rewrite <- G; apply Rmult_le_compat; try apply Rabs_pos; assumption).
  replace (n * (sqrt (r * r - g * g) / n * 3600 / 3600)) with (sqrt (r * r - g * g)) by (field; lra).
  rewrite sqrt_sqrt by lra. rewrite G. replace (g * g + (r * r - g * g)) with (r * r) by ring. apply sqrt_square. assumption.
Qed.
Lemma lunarMotion_pos M1 : 0.5 < lunarMotion M1.
Proof. unfold lunarMotion. pose proof (COS_bound M1). decimals. lra. Qed.
Lemma lunarType_contacts gam u M1 t mag a b c : -0.1 <= u ->
  lunarType gam u M1 = (t, mag, a, b, c) ->
  let g := Rabs gam in let n := lunarMotion M1 in
  match t with
  | ETotal =>
      track g n (a / 3600) = umbra u - moonRadius /\ track g n (b / 3600) = umbra u + moonRadius /\
      track g n (c / 3600) = penumbra u + moonRadius
  | EUmbral => a = 0 /\ track g n (b / 3600) = umbra u + moonRadius /\ track g n (c / 3600) = penumbra u + moonRadius
  | EPenumbral => a = 0 /\ b = 0 /\ track g n (c / 3600) = penumbra u + moonRadius
  | _ => a = 0 /\ b = 0 /\ c = 0
  end.
Proof.
  intros U H. pose proof (lunarType_kind gam u M1 U) as K. rewrite H in K. cbn [fst] in K. cbv zeta.
  pose proof (lunarMotion_pos M1) as N. assert (N0 : 0 < lunarMotion M1) by (revert N; decimals; lra).
  unfold lunarType in H. cbv zeta in H. fold (lunarMotion M1) in H.
  match type of H with (let '(_, _) := ?x in _) = _ => destruct x as [t0 m0] end.
  assert (E1 : umbra u - moonRadius = 0.4678 - u) by (unfold umbra, moonRadius; decimals; field).
  assert (E2 : umbra u + moonRadius = 1.0128 - u) by (unfold umbra, moonRadius; decimals; field).
  assert (E3 : penumbra u + moonRadius = 1.5573 + u) by (unfold penumbra, moonRadius; decimals; field).
  rewrite E1, E2, E3.
  destruct t0; injection H as <- <- <- <- <-; auto; try (destruct K; fail).
  - split; [reflexivity|]. split; [reflexivity|]. apply track_contact; [exact N0|].
    revert K. kinds. decimals. lra.
  - split; [reflexivity|]. split; apply track_contact; try exact N0; revert K U; kinds; decimals; lra.
  - repeat split; apply track_contact; try exact N0; revert K U; kinds; decimals; lra.
Qed.
Lemma semi_le g n r s : 0 < n -> r <= s -> 0 <= r -> TimeFromHour (sqrt (r * r - g) / n) <= TimeFromHour (sqrt (s * s - g) / n).
Proof.
  intros N H R0. unfold TimeFromHour. apply Rmult_le_compat_r; [lra|]. apply Rmult_le_compat_r; [apply Rlt_le, Rinv_0_lt_compat; lra|].
  apply sqrt_le_1_alt. nra.
Qed.
Lemma semi_pos x n : 0 < n -> 0 <= TimeFromHour (sqrt x / n).
Proof. intros. unfold TimeFromHour. apply Rmult_le_pos; [|lra]. apply Rmult_le_pos; [apply sqrt_pos|apply Rlt_le, Rinv_0_lt_compat; lra]. Qed.
Lemma lunarType_order gam u M1 t mag a b c : Rabs u <= 0.1 -> lunarType gam u M1 = (t, mag, a, b, c) -> 0 <= a /\ a <= b /\ b <= c.
Proof.
  intros U0 H. pose proof (Rabs_le_inv _ _ U0) as U. unfold lunarType in H. cbv zeta in H. fold (lunarMotion M1) in H.
  pose proof (lunarMotion_pos M1) as N. assert (N0 : 0 < lunarMotion M1) by (revert N; decimals; lra).
  match type of H with (let '(_, _) := ?x in _) = _ => destruct x as [t0 m0] end.
  destruct t0; injection H as <- <- <- <- <-; repeat split; try lra; try (apply semi_pos; exact N0);
    apply semi_le; try exact N0; revert U; decimals; lra.
Qed.
Lemma lunarType_mag gam u M1 t mag a b c :
  lunarType gam u M1 = (t, mag, a, b, c) ->
  match t with
  | ETotal | EUmbral => mag = (umbra u + moonRadius - Rabs gam) / (2 * moonRadius)
  | _ => mag = (penumbra u + moonRadius - Rabs gam) / (2 * moonRadius)
  end.
Proof.
  intros H. unfold lunarType in H. cbv zeta in H.
  replace (umbra u + moonRadius) with (1.0128 - u) by (unfold umbra, moonRadius; decimals; field).
  replace (penumbra u + moonRadius) with (1.5573 + u) by (unfold penumbra, moonRadius; decimals; field).
  replace (2 * moonRadius) with 0.545 by (unfold moonRadius; decimals; field).
  destruct (Rlt_bool 1 _); [injection H as <- <- <- <- <-; reflexivity|].
  destruct (Rlt_bool 0 _); [injection H as <- <- <- <- <-; reflexivity|].
  destruct (Rlt_bool _ 0); injection H as <- <- <- <- <-; reflexivity.
Qed.

(** ** The lunation *)
Lemma ec_T y q : 0 <= q <= 1 -> 1001 <= y <= 2999 -> Rabs (ec_snap y q * ec_ck) <= 10.
Proof.
  intros Q Y. change ec_ck with mp_ck. apply mp_T. unfold ec_snap. cbv zeta. pose proof (snap_near q ((y - 2000) * 12.3685)) as N. apply Rabs_le_inv in N.
  apply Rabs_le. revert N. decimals. intros [? ?]. lra.
Qed.
Lemma uOf_bound y q : 0 <= q <= 1 -> 1001 <= y <= 2999 -> -0.018 <= uOf (ec_snap y q) <= 0.0298.
Proof. intros Q Y. unfold uOf. cbv zeta. apply ec_u_bound. rewrite ec_E_eq. apply E_bound, ec_T; assumption. Qed.
Lemma lunation_prefilter y q : 0 <= q <= 1 -> 1001 <= y <= 2999 ->
  0.36 < Rabs (sin (ec_F (ec_snap y q * ec_ck))) -> 1.5573 + uOf (ec_snap y q) < Rabs (gammaOf (ec_snap y q)).
Proof.
  intros Q Y H. unfold uOf, gammaOf. cbv zeta. eapply prefilter; [rewrite ec_E_eq; apply E_bound, ec_T; assumption| |exact H].
  unfold ec_F1. match goal with |- Rabs (?f - ?c - ?f) <= _ => replace (f - c - f) with (- c) by ring end. rewrite Rabs_Ropp.
  assert (Rabs (0.02665 * p_) <= 0.0005).
  { unfold p_. pose proof PI_bounds. rewrite Rabs_right; decimals; lra. }
  bound.
Qed.
Theorem Lunar_correct y : 1001 <= y <= 2999 ->
  let k := ec_snap y 0.5 in let g := Rabs (gammaOf k) in let u := uOf k in
  let '(t, jmax, gam, rho, sigma, mag, a, b, c) := Lunar y in
  nearest_index 0.5 ((y - 2000) * 12.3685) k /\
  (forall t', t' = t <-> lunarKind g u t') /\
  0 <= a <= b /\ b <= c /\
  (t <> ENone -> gam = gammaOf k /\ rho = penumbra u /\ sigma = umbra u /\
     mag = (match t with EPenumbral => rho | _ => sigma end + moonRadius - g) / (2 * moonRadius) /\
     let n := lunarMotion (ec_M1 (k * ec_ck)) in
     match t with
     | ETotal => track g n (a / 3600) = sigma - moonRadius /\ track g n (b / 3600) = sigma + moonRadius
     | EUmbral => a = 0 /\ track g n (b / 3600) = sigma + moonRadius
     | _ => a = 0 /\ b = 0
     end /\ track g n (c / 3600) = rho + moonRadius).
Proof.
  intros Y k g u. assert (Q : 0 <= 0.5 <= 1) by (decimals; lra). pose proof (uOf_bound y 0.5 Q Y) as U. fold k u in U.
  assert (U1 : -0.1 <= u) by (revert U; decimals; lra).
  assert (NI : nearest_index 0.5 ((y - 2000) * 12.3685) k) by apply snap_nearest.
  unfold Lunar, ec_g. fold k. cbv zeta. fold u.
  destruct (Rlt_bool_cases 0.36 (Rabs (sin (ec_F (k * ec_ck))))) as [[-> S]|[-> S]]; cbn [negb].
  - pose proof (lunation_prefilter y 0.5 Q Y S) as P. fold k u g in P.
    assert (K : lunarKind g u ENone) by (revert P; kinds; decimals; lra).
    split; [exact NI|]. split.
    { intros t'. split; [intros ->; exact K|]. intros K'. apply (lunarKind_unique g u); assumption. }
    split; [lra|]. split; [lra|]. intros C. now contradiction C.
  - destruct (lunarType (gammaOf k) u (ec_M1 (k * ec_ck))) as [[[[t mag] a] b] c] eqn:L.
    pose proof (lunarType_kind (gammaOf k) u (ec_M1 (k * ec_ck)) U1) as K. rewrite L in K. cbn [fst] in K.
    pose proof (lunarType_contacts _ _ _ _ _ _ _ _ U1 L) as C. cbv zeta in C.
    assert (UA : Rabs u <= 0.1) by (apply Rabs_le; revert U; decimals; lra).
    pose proof (lunarType_order _ _ _ _ _ _ _ _ UA L) as O. pose proof (lunarType_mag _ _ _ _ _ _ _ _ L) as MG.
    split; [exact NI|]. split.
    { intros t'. split; [intros ->; exact K|]. intros K'. apply (lunarKind_unique g u); assumption. }
    split; [lra|]. split; [lra|]. intros TN. split; [reflexivity|]. split; [reflexivity|]. split; [reflexivity|].
    fold (umbra u) (penumbra u). fold g in C, MG. destruct t; try (contradiction (TN eq_refl)); try (destruct K; fail); tauto.
Qed.

(** ** Solar eclipses *)
Ltac skinds := unfold solarKind, disc_meets, disc_outside, solarPenumbra, earthRadius.
Lemma solarKind_unique g u t t' : Rabs u <= 0.1 -> solarKind g u t -> solarKind g u t' -> t = t'.
Proof.
  intros U0 H1 H2. pose proof (Rabs_le_inv _ _ U0) as U. set (w := sqrt (1 - g * g)) in *.
  destruct t, t'; try reflexivity; exfalso; revert U0 U H1 H2; skinds; fold w; set (a := Rabs u) in *; decimals; intros; lra.
Qed.
Lemma solarType_kind gam u : Rabs u <= 0.1 -> solarKind (Rabs gam) u (fst (fst (solarType gam u))).
Proof.
  intros U0. pose proof (Rabs_le_inv _ _ U0) as U. unfold solarType. cbv zeta.
  replace (gam * gam) with (Rabs gam * Rabs gam) by (rewrite <- Rabs_mult; apply Rabs_right; nra).
  set (g := Rabs gam). set (w := sqrt (1 - g * g)).
  destruct (Rlt_bool_cases (1.5433 + u) g) as [[-> A]|[-> A]]; cbn [fst].
  { revert A. skinds. decimals. lra. }
  destruct (Rlt_bool_cases g 0.9972) as [[-> B]|[-> B]]; cbn [fst negb].
  - destruct (Rlt_bool_cases u 0) as [[-> C]|[-> C]]. { revert B. skinds. decimals. lra. }
    destruct (Rlt_bool_cases 0.0047 u) as [[-> D]|[-> D]]. { revert B D. skinds. fold w. decimals. lra. }
    destruct (Rlt_bool_cases u (0.00464 * w)) as [[-> D']|[-> D']]; revert B D D'; skinds; fold w; decimals; lra.
  - destruct (Rlt_bool_cases g 1.026) as [[-> C]|[-> C]]; cbn [andb].
    + destruct (Rlt_bool_cases g (0.9972 + Rabs u)) as [[-> D]|[-> D]]; revert A B C D; skinds; set (a := Rabs u); decimals; lra.
    + revert A B C; skinds; set (a := Rabs u); decimals; lra.
Qed.
Theorem Solar_correct y : 1001 <= y <= 2999 ->
  let k := ec_snap y 0 in let g := Rabs (gammaOf k) in let u := uOf k in
  let '(t, central, jmax, gam, u', p, mag) := Solar y in
  nearest_index 0 ((y - 2000) * 12.3685) k /\
  (forall t', t' = t <-> solarKind g u t') /\
  (central = true <-> g < earthRadius) /\
  (t <> ENone -> gam = gammaOf k /\ u' = u /\ p = solarPenumbra u) /\
  (t = EPartial -> mag = (earthRadius + p - g) / (p + u) /\ 0 <= mag <= 1) /\
  (t <> EPartial -> mag = 0).
Proof.
  intros Y k g u. assert (Q : 0 <= 0 <= 1) by lra. pose proof (uOf_bound y 0 Q Y) as U. fold k u in U.
  assert (UA : Rabs u <= 0.1) by (apply Rabs_le; revert U; decimals; lra).
  assert (NI : nearest_index 0 ((y - 2000) * 12.3685) k) by apply snap_nearest.
  unfold Solar, ec_g. fold k. cbv zeta. fold u.
  destruct (Rlt_bool_cases 0.36 (Rabs (sin (ec_F (k * ec_ck))))) as [[-> S]|[-> S]]; cbn [negb].
  - pose proof (lunation_prefilter y 0 Q Y S) as P. fold k u g in P.
    assert (K : solarKind g u ENone) by (revert P; skinds; decimals; lra).
    split; [exact NI|]. split.
    { intros t'. split; [intros ->; exact K|]. intros K'. apply (solarKind_unique g u); assumption. }
    split. { split; [discriminate|]. revert P U. unfold earthRadius. decimals. lra. }
    split; [intros C; now contradiction C|]. split; [discriminate|reflexivity].
  - pose proof (solarType_kind (gammaOf k) u UA) as K. fold g in K.
    unfold solarType in *. cbv zeta in *. fold g in K |- *.
    destruct (Rlt_bool_cases (1.5433 + u) g) as [[E A]|[E A]]; rewrite E in K |- *; cbn [fst] in K.
    { split; [exact NI|]. split.
      { intros t'. split; [intros ->; exact K|]. intros K'. apply (solarKind_unique g u); assumption. }
      split. { split; [discriminate|]. revert A U. unfold earthRadius. decimals. lra. }
      split; [intros C; now contradiction C|]. split; [discriminate|reflexivity]. }
    match type of K with solarKind _ _ ?x => set (t := x) in K |- * end.
    split; [exact NI|]. split.
    { intros t'. split; [intros ->; exact K|]. intros K'. apply (solarKind_unique g u); assumption. }
    split. { destruct (Rlt_bool_spec g 0.9972) as [C|C]; unfold earthRadius; split; intros; try lra; try reflexivity; discriminate. }
    split; [intros _; repeat split|]. split.
    { intros T. rewrite T in K |- *. split.
      - unfold earthRadius, solarPenumbra. f_equal; decimals; field.
      - assert (D0 : 0 < 0.5461 + 2 * u) by (revert U; decimals; lra). split.
        + apply Rmult_le_pos; [lra|]. apply Rlt_le, Rinv_0_lt_compat. exact D0.
        + apply Rmult_le_reg_r with (0.5461 + 2 * u); [exact D0|]. unfold Rdiv. rewrite Rmult_assoc, Rinv_l, Rmult_1_r, Rmult_1_l by lra.
          destruct K as (_ & K1 & K2). assert (1.0269 - 0.03 <= g \/ earthRadius + u <= g).
          { left. revert K1. unfold earthRadius. decimals. lra. }
          destruct (Rlt_le_dec g 1.026) as [C|C].
          * assert (~ disc_meets g (Rabs u) earthRadius) by tauto. revert H0. unfold disc_meets, earthRadius. pose proof (Rle_abs (- u)) as RA. rewrite Rabs_Ropp in RA. decimals. lra.
          * revert C U. decimals. lra. }
    intros T. destruct t; try reflexivity; contradiction.
Qed.

(** ** Time of greatest eclipse and time of the phase *)
Lemma jmax_phase c1 c2 nc E M M1 F F1 Om A1 a jm :
  (nc = mp_nc /\ c1 = -0.4075 /\ c2 = 0.1721) \/ (nc = mp_fc /\ c1 = -0.4065 /\ c2 = 0.1727) ->
  Rabs E <= 1.026 -> Rabs a <= 0.0013 ->
  Rabs (ec_jmax jm c1 c2 E M M1 F1 Om A1 - (jm + nfc nc E M M1 F Om + a)) <= 0.04.
Proof.
  intros HC HE HA. unfold ec_jmax, nfc.
  match goal with |- Rabs (?j + ?a1 + ?a2 + ?a3 + ?a4 + ?a5 + ?a6 + ?a7 + ?a8 + ?a9 + ?a10 + ?a11 + ?a12 + ?a13 + ?a14 + ?a15 + ?a16 -
    (?j + (?b1 + ?b2 + ?b3 + ?b4 + ?b5 + ?b6 + ?b7 + ?b8 + ?b9 + ?b10 + ?b11 + ?b12 + ?b13 + ?b14 + ?b15 + ?b16 + ?b17 + ?b18 + ?b19 + ?b20 + ?b21 + ?b22 + ?b23 + ?b24 + ?b25) + ?z)) <= _ =>
    replace (j + a1 + a2 + a3 + a4 + a5 + a6 + a7 + a8 + a9 + a10 + a11 + a12 + a13 + a14 + a15 + a16 -
      (j + (b1 + b2 + b3 + b4 + b5 + b6 + b7 + b8 + b9 + b10 + b11 + b12 + b13 + b14 + b15 + b16 + b17 + b18 + b19 + b20 + b21 + b22 + b23 + b24 + b25) + z))
    with ((c1 - nth 0 nc 0) * sin M1 + (c2 - nth 1 nc 0) * sin M * E + (0.0161 - nth 2 nc 0) * sin (2 * M1) + (0.0073 - nth 4 nc 0) * sin (M1 - M) * E +
      (-0.005 - nth 5 nc 0) * sin (M1 + M) * E + (0.0021 - nth 6 nc 0 * E) * sin (2 * M) * E + (0.0006 - nth 9 nc 0) * sin (2 * M1 + M) * E + (a4 + a7 + a9 + a11 + a12 + a13 + a14 + a15 + a16) -
      (b4 + b8 + b9 + b11 + b12 + b13 + b14 + b15 + b16 + b17 + b18 + b19 + b20 + b21 + b22 + b23 + b24 + b25 + z)) by ring
  end.
  destruct HC as [[-> [-> ->]]|[-> [-> ->]]]; unfold mp_nc, mp_fc; cbn [nth]; 
  match goal with |- Rabs (?x1 * _ + ?x2 * _ * _ + ?x3 * _ + ?x4 * _ * _ + ?x5 * _ * _ + _ * _ * _ + ?x7 * _ * _ + _ - _) <= _ =>
    assert (X1 : Rabs x1 <= 0.0004) by (apply Rabs_le; decimals; lra); assert (X2 : Rabs x2 <= 0.0004) by (apply Rabs_le; decimals; lra);
    assert (X3 : Rabs x3 <= 0.0004) by (apply Rabs_le; decimals; lra); assert (X4 : Rabs x4 <= 0.0004) by (apply Rabs_le; decimals; lra);
    assert (X5 : Rabs x5 <= 0.0004) by (apply Rabs_le; decimals; lra); assert (X7 : Rabs x7 <= 0.0004) by (apply Rabs_le; decimals; lra) end; bound.
Qed.
Lemma Solar_jmax y : 1001 <= y <= 2999 -> let '(t, _, jmax, _, _, _, _) := Solar y in t <> ENone -> Rabs (jmax - mpNew y) <= 0.04.
Proof.
  intros Y. assert (Q : 0 <= 0 <= 1) by lra. pose proof (ec_T y 0 Q Y) as HT. unfold Solar, ec_g. cbv zeta.
  destruct (Rlt_bool 0.36 _); cbn [negb]; [intros C; now contradiction C|].
  destruct (solarType _ _) as [[t c] m]. intros _. unfold mpNew. cbv zeta. unfold MeanNew. change (mp_snap y 0) with (ec_snap y 0).
  change mp_ck with ec_ck. apply jmax_phase; [left; auto|rewrite ec_E_eq; apply E_bound; exact HT|apply mp_a_bound].
Qed.
Lemma Lunar_jmax y : 1001 <= y <= 2999 -> let '(t, jmax, _, _, _, _, _, _, _) := Lunar y in t <> ENone -> Rabs (jmax - mpFull y) <= 0.04.
Proof.
  intros Y. assert (Q : 0 <= 0.5 <= 1) by (decimals; lra). pose proof (ec_T y 0.5 Q Y) as HT. unfold Lunar, ec_g. cbv zeta.
  destruct (Rlt_bool 0.36 _); cbn [negb]; [intros C; now contradiction C|].
  destruct (lunarType _ _ _) as [[[[t m] a] b] c]. intros _. unfold mpFull. cbv zeta. unfold MeanFull. change (mp_snap y 0.5) with (ec_snap y 0.5).
  change mp_ck with ec_ck. apply jmax_phase; [right; auto|rewrite ec_E_eq; apply E_bound; exact HT|apply mp_a_bound].
Qed.
