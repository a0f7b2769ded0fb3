(** Lemmas for C80: Bennett's and Saemundsson's formulas are inverse to each other within 4 arc seconds.
    The arguments of the two cotangents differ by a small angle d; on a cell of altitudes the cotangent c of the one and the
    tangent t of d are enclosed, and the other cotangent is (c - t) / (1 + c t). *)
From Coq Require Import ZArith Reals List Lra Lia Psatz Bool.
From Flocq Require Import Core.
From Verif Require Import GoMath S_solar M_refraction L_trig L_kepler L_precess L_solar L_refraction L_refraction2 L_moon3.
Import ListNotations.
Local Open Scope R_scope.

Lemma cot_plus B d : sin B <> 0 -> cos d <> 0 -> 1 + cot B * tan d <> 0 -> cot (B + d) = (cot B - tan d) / (1 + cot B * tan d).
Proof.
  intros HB Hd N. unfold cot, tan in *. rewrite cos_plus, sin_plus. assert (M : cos d * sin B + sin d * cos B <> 0).
  { intros E. apply N. apply Rmult_eq_reg_r with (sin B * cos d); [|apply Rmult_integral_contrapositive_currified; assumption]. field_simplify; [|split; assumption]. lra. }
  field. repeat split; lra || assumption.
Qed.
Lemma tan_small x : 0 <= x <= 1 / 100 -> 9999 / 10000 * x <= tan x <= 10001 / 10000 * x /\ 0 < cos x.
Proof.
  intros H. destruct (small_trig x ltac:(lra)) as [[S1 S2] C]. pose proof (COS_bound x) as [_ C1]. assert (X : x * x <= 1 / 10000) by nra. assert (C0 : 0 < cos x) by lra. unfold tan. split; [|exact C0]. split; apply Rmult_le_reg_r with (cos x); try exact C0; unfold Rdiv; rewrite !Rmult_assoc, ?Rinv_l by lra.
  - assert (x * cos x <= x * 1) by (apply Rmult_le_compat_l; lra). assert (x * (x * x) <= x * (1 / 10000)) by (apply Rmult_le_compat_l; lra). lra.
  - assert (x * (1 - 1 / 20000) <= x * cos x) by (apply Rmult_le_compat_l; lra). lra.
Qed.

(** ** The angle between the two arguments *)
Definition h1 (u x : R) : R := - x + 1030 / 100 / (u - x + 511 / 100) - 731 / 100 / (u + 440 / 100).
Definition h2 (u y : R) : R := - y - 731 / 100 / (u + y + 440 / 100) + 1030 / 100 / (u + 511 / 100).
Lemma inv_prod a b k : 0 < a -> 0 < b -> k <= a * b -> 0 < k -> / (a * b) <= / k.
Proof. intros A B K K0. apply Rinv_le_contravar; assumption. Qed.
Lemma h1_mono u u' x x' : 0 <= u -> u <= u' -> 0 <= x -> x <= x' -> x' <= 6 / 10 -> h1 u' x' <= h1 u x.
Proof.
  intros U U' X X' X1. apply Rle_trans with (h1 u' x).
  - assert (E : h1 u' x - h1 u' x' = (x' - x) * (1 - 1030 / 100 * / ((u' - x + 511 / 100) * (u' - x' + 511 / 100)))) by (unfold h1; field; lra).
    assert (K : / ((u' - x + 511 / 100) * (u' - x' + 511 / 100)) <= / 20) by (apply inv_prod; try lra; nra).
    assert (0 <= (x' - x) * (1 - 1030 / 100 * / ((u' - x + 511 / 100) * (u' - x' + 511 / 100)))) by (apply Rmult_le_pos; lra). lra.
  - set (P := (u + 440 / 100) * (u' + 440 / 100)). set (Q := (u - x + 511 / 100) * (u' - x + 511 / 100)).
    assert (E : h1 u x - h1 u' x = (u' - u) * (1030 / 100 * / Q - 731 / 100 * / P)) by (unfold h1, P, Q; field; lra).
    assert (HP : 0 < P) by (unfold P; apply Rmult_lt_0_compat; lra). assert (HQ : 0 < Q) by (unfold Q; apply Rmult_lt_0_compat; lra).
    assert (QP : Q <= 118 / 100 * (118 / 100) * P). { unfold P, Q. replace (118 / 100 * (118 / 100) * ((u + 440 / 100) * (u' + 440 / 100))) with ((118 / 100 * (u + 440 / 100)) * (118 / 100 * (u' + 440 / 100))) by ring. apply Rmult_le_compat; lra. }
    assert (K : 731 / 100 * / P <= 1030 / 100 * / Q). { apply Rmult_le_reg_r with (P * Q); [apply Rmult_lt_0_compat; assumption|]. replace (731 / 100 * / P * (P * Q)) with (731 / 100 * Q) by (field; lra). replace (1030 / 100 * / Q * (P * Q)) with (1030 / 100 * P) by (field; lra). lra. }
    assert (0 <= (u' - u) * (1030 / 100 * / Q - 731 / 100 * / P)) by (apply Rmult_le_pos; lra). lra.
Qed.
Lemma h2_mono u u' y y' : -1 <= u -> u <= u' -> y <= y' -> 3 <= u + y + 440 / 100 -> u + 511 / 100 <= 118 / 100 * (u + y + 440 / 100) -> h2 u' y' <= h2 u y.
Proof.
  intros U U' Y Y3 C. apply Rle_trans with (h2 u' y).
  - assert (E : h2 u' y - h2 u' y' = (y' - y) * (1 - 731 / 100 * / ((u' + y + 440 / 100) * (u' + y' + 440 / 100)))) by (unfold h2; field; lra).
    assert (K : / ((u' + y + 440 / 100) * (u' + y' + 440 / 100)) <= / 9) by (apply inv_prod; try lra; nra).
    assert (0 <= (y' - y) * (1 - 731 / 100 * / ((u' + y + 440 / 100) * (u' + y' + 440 / 100)))) by (apply Rmult_le_pos; lra). lra.
  - set (P := (u + y + 440 / 100) * (u' + y + 440 / 100)). set (Q := (u + 511 / 100) * (u' + 511 / 100)).
    assert (E : h2 u y - h2 u' y = (u' - u) * (1030 / 100 * / Q - 731 / 100 * / P)) by (unfold h2, P, Q; field; lra).
    assert (HP : 0 < P) by (unfold P; apply Rmult_lt_0_compat; lra). assert (HQ : 0 < Q) by (unfold Q; apply Rmult_lt_0_compat; lra).
    assert (QP : Q <= 118 / 100 * (118 / 100) * P). { unfold P, Q. replace (118 / 100 * (118 / 100) * ((u + y + 440 / 100) * (u' + y + 440 / 100))) with ((118 / 100 * (u + y + 440 / 100)) * (118 / 100 * (u' + y + 440 / 100))) by ring. apply Rmult_le_compat; lra. }
    assert (K : 731 / 100 * / P <= 1030 / 100 * / Q). { apply Rmult_le_reg_r with (P * Q); [apply Rmult_lt_0_compat; assumption|]. replace (731 / 100 * / P * (P * Q)) with (731 / 100 * Q) by (field; lra). replace (1030 / 100 * / Q * (P * Q)) with (1030 / 100 * P) by (field; lra). lra. }
    assert (0 <= (u' - u) * (1030 / 100 * / Q - 731 / 100 * / P)) by (apply Rmult_le_pos; lra). lra.
Qed.

(** ** The difference of the two formulas *)
Lemma diff1 c c0 c1 t t0 t1 : 0 <= c1 -> c1 <= c -> c <= c0 -> 0 <= t0 -> t0 <= t -> t <= t1 ->
  15 * (2 / 100 * c0 - 102 / 100 * t0 - c1 * c1 * t0) <= 1 + c1 * t0 -> - (15 * (2 / 100 * c1 - 102 / 100 * t1 - c0 * c0 * t1)) <= 1 + c1 * t0 ->
  0 < 1 + c * t /\ Rabs (102 / 100 * ((c - t) / (1 + c * t)) - c) <= 4 / 60.
Proof.
  intros C1 Hc1 Hc0 T0 Ht0 Ht1 I1 I2. assert (D0 : c1 * t0 <= c * t) by (apply Rmult_le_compat; lra). assert (Z0 : 0 <= c1 * t0) by (apply Rmult_le_pos; lra).
  assert (Q1 : c1 * c1 <= c * c) by (apply Rmult_le_compat; lra). assert (Q0 : c * c <= c0 * c0) by (apply Rmult_le_compat; lra).
  assert (W1 : c1 * c1 * t0 <= c * c * t) by (apply Rmult_le_compat; try lra; nra). assert (W0 : c * c * t <= c0 * c0 * t1) by (apply Rmult_le_compat; try lra; nra).
  split; [lra|]. replace (102 / 100 * ((c - t) / (1 + c * t)) - c) with ((2 / 100 * c - 102 / 100 * t - c * c * t) / (1 + c * t)) by (field; lra). set (N := 2 / 100 * c - 102 / 100 * t - c * c * t).
  apply Rabs_le. split; apply Rmult_le_reg_r with (1 + c * t); try lra; unfold Rdiv; rewrite (Rmult_assoc N), Rinv_l by lra; unfold N; lra.
Qed.
Lemma diff2 c c0 c1 q t t0 t1 : - c0 <= c1 -> c1 <= c -> c <= c0 -> 0 <= c0 -> 0 <= q -> q <= c * c -> 0 <= t0 -> t0 <= t -> t <= t1 -> 0 < 1 - c0 * t1 ->
  15 * (- (2 / 100 * c1) + t1 + 102 / 100 * (c0 * c0 * t1)) <= 1 - c0 * t1 -> - (15 * (- (2 / 100 * c0) + t0 + 102 / 100 * (q * t0))) <= 1 - c0 * t1 ->
  0 < 1 - c * t /\ Rabs ((c + t) / (1 - c * t) - 102 / 100 * c) <= 4 / 60.
Proof.
  intros C1 Hc1 Hc0 P0 Q0 Hq T0 Ht0 Ht1 D0 I1 I2. assert (Hct : c * t <= c0 * t1). { apply Rle_trans with (c0 * t); [apply Rmult_le_compat_r; lra|apply Rmult_le_compat_l; lra]. }
  assert (Q1 : c * c <= c0 * c0). { replace (c * c) with (Rabs c * Rabs c) by (rewrite <- Rabs_mult; apply Rabs_pos_eq; nra). assert (Rabs c <= c0) by (apply Rabs_le; lra). apply Rmult_le_compat; auto using Rabs_pos. }
  assert (W1 : q * t0 <= c * c * t) by (apply Rmult_le_compat; lra). assert (W0 : c * c * t <= c0 * c0 * t1) by (apply Rmult_le_compat; lra).
  split; [lra|]. replace ((c + t) / (1 - c * t) - 102 / 100 * c) with ((- (2 / 100 * c) + t + 102 / 100 * (c * c * t)) / (1 - c * t)) by (field; lra). set (N := - (2 / 100 * c) + t + 102 / 100 * (c * c * t)).
  apply Rabs_le. split; apply Rmult_le_reg_r with (1 - c * t); try lra; unfold Rdiv; rewrite (Rmult_assoc N), Rinv_l by lra; unfold N; lra.
Qed.

(** ** Cells, with numbers in units of 2^-32 *)
Definition SS : Z := 18446744073709551616.
Definition tan_hi (d : Z) : Z := (d * 3141906819266 / 180000000000000 + 1)%Z.
Definition tan_lo (d : Z) : Z := (d * 3141278490735 / 180000000000000)%Z.
Definition f511 (P : Z) : Z := (1030 * SS / (100 * P + 511 * 4294967296))%Z.
Definition f440 (P : Z) : Z := (731 * SS / (100 * P + 440 * 4294967296))%Z.
Definition cell1 (p q : Z) : bool :=
  if r_ok 731 440 p then if r_ok 731 440 q then
    let cp := r_hi 100 731 440 p in let cq := r_lo 100 731 440 q in
    let x1 := (cq / 60)%Z in let x0 := (cp / 60 + 1)%Z in
    let dh := (f511 (4096 * p - x1) - x1 + 1 - f440 (4096 * p))%Z in
    let dl := (f511 (4096 * q - x0) - x0 - 1 - f440 (4096 * q))%Z in
    let t1 := tan_hi dh in let t0 := tan_lo dl in
    if (0 <=? p)%Z then if (q <=? 94371840)%Z then if (0 <=? cq)%Z then if (x0 <=? 2576980377)%Z then if (0 <=? dl)%Z then if (dh <=? 2147483648)%Z then
      let r := (100 * SS * 4294967296 + 100 * cq * t0 * 4294967296)%Z in
      if (15 * (2 * cp * SS - 102 * t0 * SS - 100 * (cq * cq) * t0) <=? r)%Z then (- (15 * (2 * cq * SS - 102 * t1 * SS - 100 * (cp * cp) * t1)) <=? r)%Z else false
    else false else false else false else false else false else false
  else false else false.
Definition cell2 (p q : Z) : bool :=
  if r_ok 1030 511 p then if r_ok 1030 511 q then
    let cp := r_hi 100 1030 511 p in let cq := r_lo 100 1030 511 q in
    let y1 := (17 * cq / 1000)%Z in let y0 := (17 * cp / 1000 + 1)%Z in
    let dh := (f511 (4096 * p) - y1 + 1 - f440 (4096 * p + y1))%Z in
    let dl := (f511 (4096 * q) - y0 - 1 - f440 (4096 * q + y0))%Z in
    let t1 := tan_hi dh in let t0 := tan_lo dl in let s := (if 0 <=? cq then cq * cq else 0)%Z in
    if (-1048576 <=? p)%Z then if (q <=? 94371840)%Z then if (- cp <=? cq)%Z then if (0 <=? cp)%Z then if (0 <=? dl)%Z then if (dh <=? 2147483648)%Z then
    if (300 * 4294967296 <=? 100 * (4096 * p + y1) + 440 * 4294967296)%Z then
    if (100 * (100 * (4096 * p) + 511 * 4294967296) <=? 118 * (100 * (4096 * p + y1) + 440 * 4294967296))%Z then
      let r := (100 * SS * 4294967296 - 100 * cp * t1 * 4294967296)%Z in
      if (0 <? r)%Z then
      if (15 * (- (2 * cq * SS) + 100 * t1 * SS + 102 * (cp * cp) * t1) <=? r)%Z then (- (15 * (- (2 * cp * SS) + 100 * t0 * SS + 102 * s * t0)) <=? r)%Z else false
      else false
    else false else false else false else false else false else false else false else false
  else false else false.
Definition chain1 : list Z :=
  [12208; 27328; 46048; 68512; 95488; 118640; 139776; 159072; 176688; 192752; 207872; 221664; 234640; 247232; 259072; 270224; 281024; 291520; 301696;
   311552; 321120; 330400; 339680; 348688; 357696; 366432; 375168; 383904; 392640; 401376; 410112; 419120; 428128; 437136; 446416; 455984; 465552;
   475408; 485584; 496080; 506880; 518384; 530224; 542432; 555408; 569200; 583424; 598544; 614608; 631680; 650400; 670304; 691440; 714592; 739968;
   767776; 798240; 831648; 869376; 910704; 957392; 1010128; 1071552; 1140928; 1212448; 1281824; 1351200; 1420576; 1487872; 1555168; 1624544; 1693920;
   1765440; 1839184; 1915216; 1996032; 2079328; 2170608; 2267616; 2377200; 2497264; 2637088; 2799920; 2995392; 3244816; 3572912; 3954992; 4361056;
   4767120; 5173184; 5567072; 5949152; 6319760; 6679248; 7017504; 7345600; 7663856; 7972560; 8272000; 8571440; 8870880; 9179584; 9497840; 9836096;
   10195584; 10601648; 11074512; 11642208; 12388960; 13465216; 15271552; 20059040; 40715984; 61372928; 82029872; 94266983]%Z.
Definition chain2 : list Z :=
  [-628946; -628646; -628146; -627646; -627146; -626954; -624218; -620730; -616282; -610762; -603706; -594970; -584170; -570778; -554202; -533690; -509066; -482890; -459738; -439226; -421082;
   -404506; -389386; -375594; -363002; -351162; -340362; -330186; -320618; -311610; -303146; -295178; -287450; -280170; -273114; -266490; -260058;
   -253994; -248122; -242426; -236906; -231562; -226362; -221322; -216426; -211690; -207098; -202506; -198058; -193738; -189418; -185226; -181034;
   -176954; -172874; -168922; -164970; -161018; -157194; -153370; -149546; -145722; -141898; -138074; -134250; -130426; -126602; -122778; -118954;
   -115130; -111306; -107482; -103658; -99706; -95754; -91802; -87850; -83770; -79690; -75498; -71306; -66986; -62666; -58218; -53626; -49034; -44298;
   -39402; -34362; -29322; -24122; -18778; -13258; -7562; -1690; 4374; 10630; 17254; 24086; 31142; 38630; 46358; 54326; 62790; 71798; 81078; 90934;
   101430; 112582; 124086; 136294; 149270; 163494; 178614; 194678; 212294; 231014; 251526; 273990; 297878; 324054; 353606; 386006; 421510; 461606;
   505542; 555174; 611238; 674566; 746086; 817606; 886982; 954278; 1021574; 1088870; 1154150; 1219430; 1286726; 1354022; 1421318; 1490694; 1562214;
   1635958; 1714342; 1797638; 1886166; 1983174; 2089462; 2209526; 2345142; 2503078; 2692694; 2927382; 3226822; 3608902; 4002790; 4408854; 4814918;
   5208806; 5590886; 5961494; 6310198; 6638294; 6956550; 7255990; 7546454; 7828198; 8101478; 8374758; 8639846; 8913126; 9186406; 9476870; 9785574;
   10113670; 10484278; 10902902; 11405478; 12046726; 12916326; 14289558; 17142070; 37799014; 58455958; 79112902; 94371840]%Z.
Lemma run1 : run cell1 0 chain1 = true. Proof. vm_cast_no_check (eq_refl true). Qed.
Lemma run2 : run cell2 (-629146) chain2 = true. Proof. vm_cast_no_check (eq_refl true). Qed.
