(** Leading terms of the lunar theory; parallax; nodes. *)
From Coq Require Import ZArith Reals Lra Lia List Psatz.
From Flocq Require Import Core.
From Verif Require L_kepler.
From Verif Require Import GoFloat GoMath S_Sphere S_precess M_base M_coord M_precess M_vsop M_light M_moonconst M_solar M_moon M_physical S_solar S_physical S_moon
  L_trig L_angle L_vec L_coord L_precess L_elements L_light L_moonconst L_solar L_refraction L_parallactic L_solardisk L_physical L_moon L_moon2 L_moon3 L_moon4.
Import ListNotations.
Local Open Scope R_scope.

Definition stepA D M N F E := fun (acc : R * R) (row : Z * Z * Z * Z * Z * Z) => let '(d, m, n, f, cl, cr) := row in let '(sl, sr) := acc in
      let a := D * IZR d + M * IZR m + N * IZR n + F * IZR f in
      (sl + IZR cl * sin a * Efactor E m, sr + IZR cr * cos a * Efactor E m).
Definition stepB D M N F E := fun (sb : R) (row : Z * Z * Z * Z * Z) => let '(d, m, n, f, cb) := row in
      sb + IZR cb * sin (D * IZR d + M * IZR m + N * IZR n + F * IZR f) * Efactor E m.
Lemma stepA_shift D M N F E l : forall a b x y, fold_left (stepA D M N F E) l (a + x, b + y) = (fst (fold_left (stepA D M N F E) l (a, b)) + x, snd (fold_left (stepA D M N F E) l (a, b)) + y).
Proof.
  induction l as [|[[[[[d m] n] f] cl] cr] l IH]; intros a b x y; [reflexivity|]. cbn [fold_left]. unfold stepA at 2 4 6. cbv zeta. rewrite <- IH. f_equal. f_equal; ring.
Qed.
Lemma stepB_shift D M N F E l : forall a x, fold_left (stepB D M N F E) l (a + x) = fold_left (stepB D M N F E) l a + x.
Proof.
  induction l as [|[[[[d m] n] f] cb] l IH]; intros a x; [reflexivity|]. cbn [fold_left]. unfold stepB at 2 4. rewrite <- IH. f_equal. ring.
Qed.
Lemma rest_A T D M N F sl0 : Rabs T <= 20 -> Rabs sl0 <= IZR 623800 / 100 ->
  exists u v, Rabs u <= 790500 /\ Rabs v <= 1592500 /\
    sumA D M N F (moonE T) (sl0, 0) = (6288774 * sin N + 1274027 * sin (2 * D - N) + 658314 * sin (2 * D) + 213618 * sin (2 * N) + u, - 20905355 * cos N - 3699111 * cos (2 * D - N) - 2955968 * cos (2 * D) - 569925 * cos (2 * N) + v).
Proof.
  intros HT H0. change (sumA D M N F (moonE T) (sl0, 0)) with (fold_left (stepA D M N F (moonE T)) ta (sl0, 0)).
  set (l := skipn 4 ta). assert (Et : ta = firstn 4 ta ++ l) by (symmetry; apply firstn_skipn). rewrite Et. change (firstn 4 ta) with [(0, 0, 1, 0, 6288774, (-20905355)); (2, 0, (-1), 0, 1274027, (-3699111)); (2, 0, 0, 0, 658314, (-2955968)); (0, 0, 2, 0, 213618, (-569925))]%Z.
  cbn [List.app fold_left]. 
  assert (B : Rabs (fst (fold_left (stepA D M N F (moonE T)) l (sl0, 0))) <= IZR (fold_left (fun s row => let '(d, m, n, f, cl, cr) := row in s + wE m * Z.abs cl)%Z l 623800%Z) / 100 /\
    Rabs (snd (fold_left (stepA D M N F (moonE T)) l (sl0, 0))) <= IZR (fold_left (fun s row => let '(d, m, n, f, cl, cr) := row in s + wE m * Z.abs cr)%Z l 0%Z) / 100)
    by exact (sumA_bound T D M N F HT l sl0 0 623800 0 H0 ltac:(rewrite Rabs_R0; lra)).
  destruct B as (B1 & B2).
  assert (E1 : fold_left (fun s row => let '(d, m, n, f, cl, cr) := row in s + wE m * Z.abs cl)%Z l 623800%Z = 79029024%Z) by (vm_compute; reflexivity).
  assert (E2 : fold_left (fun s row => let '(d, m, n, f, cl, cr) := row in s + wE m * Z.abs cr)%Z l 0%Z = 159239955%Z) by (vm_compute; reflexivity).
  rewrite E1 in B1. rewrite E2 in B2. clear E1 E2.
  exists (fst (fold_left (stepA D M N F (moonE T)) l (sl0, 0))), (snd (fold_left (stepA D M N F (moonE T)) l (sl0, 0))). split; [lra|]. split; [lra|].
  match goal with |- fold_left _ l ?a = _ => assert (Ea : a = (sl0 + (6288774 * sin N + 1274027 * sin (2 * D - N) + 658314 * sin (2 * D) + 213618 * sin (2 * N)), 0 + (- 20905355 * cos N - 3699111 * cos (2 * D - N) - 2955968 * cos (2 * D) - 569925 * cos (2 * N)))) end.
  { unfold stepA, Efactor. cbn [Z.abs]. cbv zeta.
    replace (D * 0 + M * 0 + N * 1 + F * 0) with N by ring. replace (D * 2 + M * 0 + N * (-1) + F * 0) with (2 * D - N) by ring. replace (D * 2 + M * 0 + N * 0 + F * 0) with (2 * D) by ring. replace (D * 0 + M * 0 + N * 2 + F * 0) with (2 * N) by ring.
    f_equal; ring. }
  rewrite Ea, stepA_shift. f_equal; ring.
Qed.
Lemma rest_B T D M N F sb0 : Rabs T <= 20 -> Rabs sb0 <= IZR 320900 / 100 ->
  exists u, Rabs u <= 229500 /\ sumB D M N F (moonE T) sb0 = 5128122 * sin F + 280602 * sin (N + F) + 277693 * sin (N - F) + 173237 * sin (2 * D - F) + u.
Proof.
  intros HT H0. change (sumB D M N F (moonE T) sb0) with (fold_left (stepB D M N F (moonE T)) tb sb0).
  set (l := skipn 4 tb). assert (Et : tb = firstn 4 tb ++ l) by (symmetry; apply firstn_skipn). rewrite Et. change (firstn 4 tb) with [(0, 0, 0, 1, 5128122); (0, 0, 1, 1, 280602); (0, 0, 1, (-1), 277693); (2, 0, 0, (-1), 173237)]%Z.
  cbn [List.app fold_left].
  assert (B : Rabs (fold_left (stepB D M N F (moonE T)) l sb0) <= IZR (fold_left (fun s row => let '(d, m, n, f, cb) := row in s + wE m * Z.abs cb)%Z l 320900%Z) / 100) by exact (sumB_bound T D M N F HT l sb0 320900 H0).
  assert (E1 : fold_left (fun s row => let '(d, m, n, f, cb) := row in s + wE m * Z.abs cb)%Z l 320900%Z = 22946944%Z) by (vm_compute; reflexivity).
  rewrite E1 in B. clear E1. exists (fold_left (stepB D M N F (moonE T)) l sb0). split; [lra|].
  match goal with |- fold_left _ l ?a = _ => assert (Ea : a = sb0 + (5128122 * sin F + 280602 * sin (N + F) + 277693 * sin (N - F) + 173237 * sin (2 * D - F))) end.
  { unfold stepB, Efactor. cbn [Z.abs].
    replace (D * 0 + M * 0 + N * 0 + F * 1) with F by ring. replace (D * 0 + M * 0 + N * 1 + F * 1) with (N + F) by ring. replace (D * 0 + M * 0 + N * 1 + F * (-1)) with (N - F) by ring. replace (D * 2 + M * 0 + N * 0 + F * (-1)) with (2 * D - F) by ring. ring. }
  rewrite Ea, stepB_shift. ring.
Qed.
(** The leading terms: equation of the centre, evection, variation; latitude from the node. *)
Lemma MoonPosition_leading jde : let T := (jde - 2451545) / 36525 in Rabs T <= 20 -> let '(lam, be, r) := MoonPosition jde in let D := dmf_D T in let N := dmf_N T in let F := dmf_F T in
  near_turns (lam - (moonL T + degrees (6.288774 * sin N + 1.274027 * sin (2 * D - N) + 0.658314 * sin (2 * D) + 0.213618 * sin (2 * N)))) (degrees 0.7905) /\
  Rabs (be - degrees (5.128122 * sin F + 0.280602 * sin (N + F) + 0.277693 * sin (N - F) + 0.173237 * sin (2 * D - F))) <= degrees 0.2295 /\
  Rabs (r - (385000.56 - 20905.355 * cos N - 3699.111 * cos (2 * D - N) - 2955.968 * cos (2 * D) - 569.925 * cos (2 * N))) <= 1592.5.
Proof.
  intros T HT. unfold MoonPosition. rewrite century. fold T. assert (Ed : dmf T = (dmf_D T, dmf_M T, dmf_N T, dmf_F T)) by reflexivity. rewrite Ed. set (D := dmf_D T). set (M := dmf_M T). set (N := dmf_N T). set (F := dmf_F T). clearbody D M N F. cbv zeta.
  set (sl0 := 3958 * sin (moonA1 T) + 1962 * sin (moonL T - F) + 318 * sin (moonA2 T)).
  set (sb0 := - 2235 * sin (moonL T) + 382 * sin (moonA3 T) + 175 * sin (moonA1 T - F) + 175 * sin (moonA1 T + F) + 127 * sin (moonL T - N) - 115 * sin (moonL T + N)).
  assert (Hl : Rabs sl0 <= IZR 623800 / 100).
  { unfold sl0. pose proof (k_sin_le 3958 (moonA1 T) ltac:(lra)). pose proof (k_sin_le 1962 (moonL T - F) ltac:(lra)). pose proof (k_sin_le 318 (moonA2 T) ltac:(lra)). apply Rabs_le. lra. }
  assert (Hb : Rabs sb0 <= IZR 320900 / 100).
  { unfold sb0. pose proof (k_sin_le 2235 (moonL T) ltac:(lra)). pose proof (k_sin_le 382 (moonA3 T) ltac:(lra)). pose proof (k_sin_le 175 (moonA1 T - F) ltac:(lra)). pose proof (k_sin_le 175 (moonA1 T + F) ltac:(lra)).
    pose proof (k_sin_le 127 (moonL T - N) ltac:(lra)). pose proof (k_sin_le 115 (moonL T + N) ltac:(lra)). apply Rabs_le. lra. }
  destruct (rest_A T D M N F sl0 HT Hl) as (u & v & Hu & Hv & ->). destruct (rest_B T D M N F sb0 HT Hb) as (w & Hw & ->). clear Hl Hb. clearbody sl0 sb0. split; [|split].
  - destruct (Mod1_same (moonL T)) as (k & Ek). exists k. rewrite Ek. apply Rle_trans with (degrees (790500 * (1 / 1000000))); [|unfold degrees; decimals; pose proof PI_RGT_0; lra]. eapply deg_abs with (a := u * (1 / 1000000)).
    + unfold AngleFromDeg, degrees. decimals. field.
    + rewrite Rabs_mult, (Rabs_pos_eq (1 / 1000000)) by lra. lra.
  - apply Rle_trans with (degrees (229500 * (1 / 1000000))); [|unfold degrees; decimals; pose proof PI_RGT_0; lra]. eapply deg_abs with (a := w * (1 / 1000000)).
    + unfold AngleFromDeg, degrees. decimals. field.
    + rewrite Rabs_mult, (Rabs_pos_eq (1 / 1000000)) by lra. lra.
  - apply Rabs_le_inv in Hv. apply Rabs_le. decimals. lra.
Qed.

(** ** Parallax and nodes *)
Lemma asin_nonneg x : 0 <= x <= 1 -> 0 <= asin x.
Proof. intros H. pose proof (asin_bound x) as B. apply Rnot_lt_le. intros K. pose proof (sin_asin x ltac:(lra)). pose proof PI_RGT_0. assert (sin (asin x) < 0) by (apply sin_lt_0_var; lra). lra. Qed.
Lemma MoonParallax_value r : 6378.14 <= r -> 0 <= MoonParallax r <= PI / 2 /\ r * sin (MoonParallax r) = 6378.14.
Proof.
  intros H. decimals_in H. unfold MoonParallax. assert (B : 0 <= 637814 / 100 / r <= 1) by (split; [apply Rlt_le, Rdiv_lt_0_compat; lra|apply (Rmult_le_reg_r r); [lra|]; unfold Rdiv; rewrite Rmult_assoc, Rinv_l; lra]).
  rewrite sin_asin by lra. split; [split; [apply asin_nonneg, B|apply asin_bound]|]. decimals. field. lra.
Qed.
Lemma parallax_range jde : let T := (jde - 2451545) / 36525 in Rabs T <= 20 -> let '(_, _, r) := MoonPosition jde in degrees 0.881 <= MoonParallax r <= degrees 1.029.
Proof.
  intros T HT. pose proof (MoonPosition_range jde HT) as H. destruct (MoonPosition jde) as [[lam be] r]. destruct H as (H & _). destruct (MoonParallax_value r ltac:(decimals; lra)) as (B & E). set (P := MoonParallax r) in *. clearbody P.
  pose proof (degrees_val 0.881 ltac:(decimals; lra)) as V1. pose proof (degrees_val 1.029 ltac:(decimals; lra)) as V2. decimals_in V1. decimals_in V2. decimals_in E. decimals. set (d := degrees (881 * / 1000)) in *. set (d' := degrees (1029 * / 1000)) in *. clearbody d d'.
  pose proof PI_fine. split.
  - assert (sin P <= P). { destruct (Req_dec P 0) as [->|N]; [rewrite sin_0; lra|]. apply L_kepler.sin_le_x; lra. }
    apply Rnot_lt_le. intros K. nra.
  - apply Rnot_lt_le. intros K. assert (sin d' < sin P) by (apply sin_increasing_1; lra). destruct (small_trig d' ltac:(lra)) as ((S1 & _) & _). assert (d' * d' <= 18 / 1000 * (18 / 1000)) by nra. assert (d' * d' * d' <= 18 / 1000 * (18 / 1000) * d') by nra. nra.
Qed.
Lemma TrueNode_near jde : Rabs (TrueNode jde - Node jde) <= degrees 1.9682.
Proof.
  unfold TrueNode. destruct (dmf _) as [[[D M] N] F]. match goal with |- Rabs (?n + AngleFromDeg ?x - ?n) <= _ => replace (n + AngleFromDeg x - n) with (AngleFromDeg x) by ring; set (y := x) end. eapply deg_abs; [reflexivity|]. unfold y.
  pose proof (k_sin_le (14979 / 10000) (2 * (D - F)) ltac:(lra)). pose proof (k_sin_le (15 / 100) M ltac:(lra)). pose proof (k_sin_le (1226 / 10000) (2 * D) ltac:(lra)). pose proof (k_sin_le (1176 / 10000) (2 * F) ltac:(lra)). pose proof (k_sin_le (801 / 10000) (2 * (N - F)) ltac:(lra)).
  apply Rabs_le. decimals. lra.
Qed.
(** The four arguments as angles between the mean longitudes and the published node, perigee and solar elements. *)
Lemma mean_arguments jde : let T := (jde - 2451545) / 36525 in Rabs T <= 20 ->
  near_turns (dmf_F T - (moonL T - Node jde)) (degrees 0.021) /\ near_turns (dmf_N T - (moonL T - Perigee jde)) (degrees 0.11) /\
  near_turns (dmf_M T - MeanAnomaly T) (degrees 0.001) /\ near_turns (dmf_D T - (moonL T - degrees (280.46646 + 36000.76983 * T + 0.0003032 * T ^ 2))) (degrees 0.002).
Proof.
  intros T HT. destruct (arguments T HT) as (A & B & C & D). unfold Node, Perigee. change (M_moonconst.century jde) with ((jde - 2451545) / 36525). fold T.
  assert (flip : forall x y d, Rabs (x - y) <= d -> forall k z, z = y - x + IZR k * (2 * PI) -> near_turns z d).
  { intros x y d H k z ->. exists k. replace (y - x + IZR k * (2 * PI) - IZR k * (2 * PI)) with (- (x - y)) by ring. rewrite Rabs_Ropp. exact H. }
  destruct (Mod1_same (AngleFromDeg (nodeDeg T))) as (k & Ek). destruct (Mod1_same (AngleFromDeg (perigeeDeg T))) as (k' & Ek'). repeat split.
  - apply (flip _ _ _ A k). rewrite Ek. ring.
  - apply (flip _ _ _ B k'). rewrite Ek'. ring.
  - exists 0%Z. replace (dmf_M T - MeanAnomaly T - 0 * (2 * PI)) with (dmf_M T - MeanAnomaly T) by ring. exact C.
  - apply (flip _ _ _ D 1%Z). unfold AngleFromDeg, degrees. ring.
Qed.
