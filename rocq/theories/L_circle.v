(** Lemmas for package circle. *)
From Coq Require Import ZArith Reals Bool List Lra Psatz.
From Verif Require Import GoMath S_Sphere S_Plane L_trig M_angle L_angle.
Local Open Scope R_scope.

Definition core (a b c : R) : R * bool :=
  if Rle_dec (b * b + c * c) (a * a) then (a, true)
  else (2 * a * b * c / sqrt ((a + b + c) * (a + b - c) * (b + c - a) * (a + c - b)), false).

Definition sq (p q : pt) : R := (px p - px q) * (px p - px q) + (py p - py q) * (py p - py q).
Lemma sq_pos p q : 0 <= sq p q.
Proof. unfold sq. pose proof (Rle_0_sqr (px p - px q)). pose proof (Rle_0_sqr (py p - py q)). unfold Rsqr in *. lra. Qed.
Lemma pdist_sq p q : pdist p q * pdist p q = sq p q.
Proof. unfold pdist. apply sqrt_sqrt, sq_pos. Qed.
Lemma pdist_pos p q : 0 <= pdist p q. Proof. apply sqrt_pos. Qed.
Lemma pdist_sym p q : pdist p q = pdist q p. Proof. unfold pdist. f_equal. ring. Qed.
Lemma pdist_le p q r : 0 <= r -> sq p q <= r * r -> pdist p q <= r.
Proof. intros Hr H. rewrite <- (sqrt_square r Hr). unfold pdist. apply sqrt_le_1_alt. exact H. Qed.
Lemma sq_le p q r : pdist p q <= r -> sq p q <= r * r.
Proof. intros H. rewrite <- pdist_sq. pose proof (pdist_pos p q). apply Rmult_le_compat; lra. Qed.

Lemma encloses_perm o r a b c : encloses o r a b c <-> encloses o r b a c. Proof. unfold encloses. tauto. Qed.
Lemma smallest_perm12 r a b c : smallest_enclosing r a b c -> smallest_enclosing r b a c.
Proof.
  intros [[o H] K]. split.
  - exists o. unfold encloses in *. tauto.
  - intros o' r' H'. apply (K o'). unfold encloses in *. tauto.
Qed.
Lemma smallest_perm13 r a b c : smallest_enclosing r a b c -> smallest_enclosing r c b a.
Proof.
  intros [[o H] K]. split.
  - exists o. unfold encloses in *. tauto.
  - intros o' r' H'. apply (K o'). unfold encloses in *. tauto.
Qed.

Lemma core_smallest a b c A B C : 0 <= b -> 0 <= c -> b <= a -> c <= a ->
  pdist B C = a -> pdist C A = b -> pdist A B = c ->
  smallest_enclosing (fst (core a b c) / 2) A B C.
Proof.
  intros Hb Hc Hba Hca Ea Eb Ec.
  assert (Sa : sq B C = a * a) by (rewrite <- pdist_sq, Ea; reflexivity).
  assert (Sb : sq C A = b * b) by (rewrite <- pdist_sq, Eb; reflexivity).
  assert (Sc : sq A B = c * c) by (rewrite <- pdist_sq, Ec; reflexivity).
  clear Ea Eb Ec. unfold core. destruct (Rle_dec (b * b + c * c) (a * a)) as [H|H]; cbn [fst].
  - split.
    + exists (mkpt ((px B + px C) / 2) ((py B + py C) / 2)).
      destruct A as [ax ay], B as [bx by_], C as [cx cy]. unfold encloses, sq in *. cbn [px py] in *.
      repeat split; apply pdist_le; try lra; unfold sq; cbn [px py]; nra.
    + intros o r [_ [H2 H3]]. pose proof (pdist_pos o B). pose proof (sq_le _ _ _ H2) as L2. pose proof (sq_le _ _ _ H3) as L3.
      assert (K : a * a <= (2 * r) * (2 * r)).
      { rewrite <- Sa. unfold sq in *.
        pose proof (Rle_0_sqr ((px o - px B) + (px o - px C))). pose proof (Rle_0_sqr ((py o - py B) + (py o - py C))). unfold Rsqr in *. lra. }
      assert (a <= 2 * r); [|lra]. destruct (Rle_dec a (2 * r)); [assumption|]. exfalso. nra.
  - set (W := (a + b + c) * (a + b - c) * (b + c - a) * (a + c - b)).
    assert (Pc : 0 < c).
    { destruct Hc as [Hc|Hc]; [exact Hc|]. subst c. exfalso. apply H. assert (b * b <= a * a) by (apply Rmult_le_compat; lra). lra. }
    assert (Pb : 0 < b).
    { destruct Hb as [Hb|Hb]; [exact Hb|]. subst b. exfalso. apply H. assert (c * c <= a * a) by (apply Rmult_le_compat; lra). lra. }
    assert (Pa : 0 < a) by lra.
    assert (Tri : 0 < b + c - a). { destruct (Rlt_dec a (b + c)); [lra|]. exfalso. apply H. assert ((b + c) * (b + c) <= a * a) by (apply Rmult_le_compat; lra). assert (0 < b * c) by (apply Rmult_lt_0_compat; lra). lra. }
    assert (PW : 0 < W). { unfold W. repeat apply Rmult_lt_0_compat; lra. }
    pose proof (sqrt_lt_R0 W PW) as Ps. pose proof (sqrt_sqrt W ltac:(lra)) as Ss. fold W.
    set (rho := 2 * a * b * c / sqrt W / 2).
    assert (Pr : 0 < rho). { unfold rho. assert (0 < a * b * c / sqrt W) by (apply Rdiv_lt_0_compat; [repeat apply Rmult_lt_0_compat; lra|lra]). lra. }
    assert (Er : W * (rho * rho) = (a * a) * (b * b) * (c * c)).
    { unfold rho. rewrite <- Ss at 1. field. lra. }
    set (wA := (a * a) * (b * b + c * c - a * a)). set (wB := (b * b) * (a * a + c * c - b * b)). set (wC := (c * c) * (a * a + b * b - c * c)).
    assert (PA : 0 <= wA). { apply Rmult_le_pos; [apply Rle_0_sqr|lra]. }
    assert (Lb : b * b <= a * a) by (apply Rmult_le_compat; lra). assert (Lc : c * c <= a * a) by (apply Rmult_le_compat; lra).
    pose proof (Rle_0_sqr b) as Qb. pose proof (Rle_0_sqr c) as Qc. unfold Rsqr in Qb, Qc.
    assert (PB : 0 <= wB). { apply Rmult_le_pos; lra. }
    assert (PC : 0 <= wC). { apply Rmult_le_pos; lra. }
    assert (SW : wA + wB + wC = W) by (unfold wA, wB, wC, W; ring).
    assert (Key : forall P, W * (wA * sq P A + wB * sq P B + wC * sq P C) =
       ((W * px P - (wA * px A + wB * px B + wC * px C)) * (W * px P - (wA * px A + wB * px B + wC * px C)) +
        (W * py P - (wA * py A + wB * py B + wC * py C)) * (W * py P - (wA * py A + wB * py B + wC * py C))) + W * (W * (rho * rho))).
    { intros P. rewrite Er, <- SW. unfold wA, wB, wC. rewrite <- Sa, <- Sb, <- Sc. unfold sq. ring. }
    split.
    + set (o := mkpt ((wA * px A + wB * px B + wC * px C) / W) ((wA * py A + wB * py B + wC * py C) / W)).
      exists o.
      assert (Ex : W * px o = wA * px A + wB * px B + wC * px C) by (unfold o; cbn [px]; field; lra).
      assert (Ey : W * py o = wA * py A + wB * py B + wC * py C) by (unfold o; cbn [py]; field; lra).
      assert (G : forall V, (W * W) * sq o V = (wA * (px A - px V) + wB * (px B - px V) + wC * (px C - px V)) * (wA * (px A - px V) + wB * (px B - px V) + wC * (px C - px V)) +
         (wA * (py A - py V) + wB * (py B - py V) + wC * (py C - py V)) * (wA * (py A - py V) + wB * (py B - py V) + wC * (py C - py V))).
      { intros V. unfold sq. transitivity ((W * px o - W * px V) * (W * px o - W * px V) + (W * py o - W * py V) * (W * py o - W * py V)); [ring|].
        rewrite Ex, Ey, <- SW. ring. }
      assert (WW : 0 < W * W) by (apply Rmult_lt_0_compat; lra).
      assert (K : forall V, (W * W) * sq o V = W * (W * (rho * rho)) -> pdist o V <= rho).
      { intros V E. apply pdist_le; [lra|]. apply Rmult_le_reg_l with (W * W); [exact WW|]. rewrite E. apply Req_le. ring. }
      split; [|split]; apply K; rewrite G, Er, <- SW; unfold wA, wB, wC; rewrite <- Sa, <- Sb, <- Sc; unfold sq; ring.
    + intros P r [H1 [H2 H3]]. pose proof (pdist_pos P A).
      pose proof (sq_le _ _ _ H1) as L1. pose proof (sq_le _ _ _ H2) as L2. pose proof (sq_le _ _ _ H3) as L3.
      assert (U : wA * sq P A + wB * sq P B + wC * sq P C <= W * (r * r)).
      { rewrite <- SW. assert (wA * sq P A <= wA * (r * r)) by (apply Rmult_le_compat_l; lra).
        assert (wB * sq P B <= wB * (r * r)) by (apply Rmult_le_compat_l; lra).
        assert (wC * sq P C <= wC * (r * r)) by (apply Rmult_le_compat_l; lra). lra. }
      assert (V : W * (W * (rho * rho)) <= W * (W * (r * r))).
      { apply Rle_trans with (W * (wA * sq P A + wB * sq P B + wC * sq P C)); [|apply Rmult_le_compat_l; lra].
        rewrite Key. match goal with |- _ <= ?x * ?x + ?y * ?y + _ => pose proof (Rle_0_sqr x); pose proof (Rle_0_sqr y) end. unfold Rsqr in *. lra. }
      apply Rmult_le_reg_l in V; [|exact PW]. apply Rmult_le_reg_l in V; [|exact PW].
      destruct (Rle_dec rho r); [assumption|]. exfalso. nra.
Qed.

Lemma core_ge a b c : 0 <= b -> 0 <= c -> b <= a -> c <= a -> a <= fst (core a b c).
Proof.
  intros Hb Hc Hba Hca. unfold core. destruct (Rle_dec _ _) as [H|H]; cbn [fst]; [lra|].
  set (W := (a + b + c) * (a + b - c) * (b + c - a) * (a + c - b)).
  assert (Pc : 0 < c).
  { destruct Hc as [Hc|Hc]; [exact Hc|]. subst c. exfalso. apply H. assert (b * b <= a * a) by (apply Rmult_le_compat; lra). lra. }
  assert (Pb : 0 < b).
  { destruct Hb as [Hb|Hb]; [exact Hb|]. subst b. exfalso. apply H. assert (c * c <= a * a) by (apply Rmult_le_compat; lra). lra. }
  assert (Tri : 0 < b + c - a). { destruct (Rlt_dec a (b + c)); [lra|]. exfalso. apply H. assert ((b + c) * (b + c) <= a * a) by (apply Rmult_le_compat; lra). assert (0 < b * c) by (apply Rmult_lt_0_compat; lra). lra. }
  assert (PW : 0 < W). { unfold W. repeat apply Rmult_lt_0_compat; lra. }
  pose proof (sqrt_lt_R0 W PW) as Ps.
  assert (L : sqrt W <= 2 * (b * c)).
  { assert (0 < b * c) by (apply Rmult_lt_0_compat; lra). rewrite <- (sqrt_square (2 * (b * c))) by lra. apply sqrt_le_1_alt. unfold W.
    pose proof (Rle_0_sqr (b * b + c * c - a * a)). unfold Rsqr in *. lra. }
  apply Rmult_le_reg_r with (sqrt W); [exact Ps|]. unfold Rdiv. rewrite Rmult_assoc, Rinv_l by lra. nra.
Qed.

(** The code sorts the largest side to the front. *)
Definition sides (a b c : R) : R * bool :=
  let '(a, b) := if Rlt_dec a b then (b, a) else (a, b) in
  let '(a, c) := if Rlt_dec a c then (c, a) else (a, c) in
  core a b c.

Lemma Smallest_sides r1 d1 r2 d2 r3 d3 :
  Smallest r1 d1 r2 d2 r3 d3 = sides (SepHav r1 d1 r2 d2) (SepHav r2 d2 r3 d3) (SepHav r3 d3 r1 d1).
Proof. reflexivity. Qed.

Lemma core_sym a b c : core a b c = core a c b.
Proof.
  unfold core. rewrite (Rplus_comm (c * c)). destruct (Rle_dec _ _); [reflexivity|]. f_equal. f_equal; [ring|]. f_equal. ring.
Qed.
Lemma sides_max a b c : exists p q, sides a b c = core (Rmax a (Rmax b c)) p q /\ p <= Rmax a (Rmax b c) /\ q <= Rmax a (Rmax b c).
Proof.
  unfold sides. destruct (Rlt_dec a b) as [H|H].
  - destruct (Rlt_dec b c) as [K|K].
    + rewrite (Rmax_right b c), (Rmax_right a c) by lra. exists a, b. split; [reflexivity|lra].
    + rewrite (Rmax_left b c), (Rmax_right a b) by lra. exists a, c. split; [reflexivity|lra].
  - destruct (Rlt_dec a c) as [K|K].
    + rewrite (Rmax_right b c), (Rmax_right a c) by lra. exists b, a. split; [reflexivity|lra].
    + rewrite (Rmax_left a) by (apply Rmax_lub; lra). exists b, c. split; [reflexivity|lra].
Qed.
Lemma sides_perm12 a b c : sides a b c = sides b a c.
Proof.
  unfold sides. destruct (Rlt_dec a b) as [H|H]; destruct (Rlt_dec b a) as [K|K]; try lra; try reflexivity.
  assert (a = b) by lra. subst. reflexivity.
Qed.
Lemma sides_perm23 a b c : sides a b c = sides a c b.
Proof.
  unfold sides.
  repeat (match goal with |- context [Rlt_dec ?x ?y] => destruct (Rlt_dec x y) end; cbv iota beta);
    first [exfalso; lra | reflexivity | apply core_sym | replace c with b by lra; (reflexivity || apply core_sym)
          | replace c with a by lra; (reflexivity || apply core_sym) | replace b with a by lra; (reflexivity || apply core_sym)].
Qed.

Lemma SepHav_sym r1 d1 r2 d2 : SepHav r1 d1 r2 d2 = SepHav r2 d2 r1 d1.
Proof. apply separation_unique with (dir r1 d1) (dir r2 d2); [apply SepHav_sep|apply separation_sym, SepHav_sep]. Qed.

Lemma Smallest_perm r1 d1 r2 d2 r3 d3 :
  Smallest r1 d1 r2 d2 r3 d3 = Smallest r2 d2 r1 d1 r3 d3 /\ Smallest r1 d1 r2 d2 r3 d3 = Smallest r2 d2 r3 d3 r1 d1.
Proof.
  rewrite !Smallest_sides. rewrite (SepHav_sym r2 d2 r1 d1), (SepHav_sym r1 d1 r3 d3), (SepHav_sym r3 d3 r2 d2).
  set (a := SepHav r1 d1 r2 d2). set (b := SepHav r2 d2 r3 d3). set (c := SepHav r3 d3 r1 d1). split.
  - apply sides_perm23.
  - rewrite sides_perm12. apply sides_perm23.
Qed.

Local Ltac sm := first [solve [apply core_smallest; congruence || lra] | solve [rewrite core_sym; apply core_smallest; congruence || lra]].
Lemma sides_smallest a b c A B C : 0 <= a -> 0 <= b -> 0 <= c -> pdist A B = a -> pdist B C = b -> pdist C A = c ->
  smallest_enclosing (fst (sides a b c) / 2) A B C.
Proof.
  intros Pa Pb Pc Ea Eb Ec. pose proof (pdist_sym A B) as S1. pose proof (pdist_sym B C) as S2. pose proof (pdist_sym C A) as S3.
  unfold sides. destruct (Rlt_dec a b) as [H|H].
  - destruct (Rlt_dec b c) as [K|K].
    + (* c largest: side CA opposite B *) apply smallest_perm12. sm.
    + (* b largest, opposite A *) sm.
  - destruct (Rlt_dec a c) as [K|K].
    + apply smallest_perm12. sm.
    + (* a largest: AB opposite C *) apply smallest_perm13. sm.
Qed.

Lemma sep_pos u v t : separation u v t -> 0 <= t. Proof. intros [? _]. lra. Qed.

Lemma Smallest_spec r1 d1 r2 d2 r3 d3 s12 s23 s31 A B C :
  separation (dir r1 d1) (dir r2 d2) s12 -> separation (dir r2 d2) (dir r3 d3) s23 -> separation (dir r3 d3) (dir r1 d1) s31 ->
  pdist A B = s12 -> pdist B C = s23 -> pdist C A = s31 ->
  smallest_enclosing (fst (Smallest r1 d1 r2 d2 r3 d3) / 2) A B C.
Proof.
  intros H1 H2 H3. rewrite Smallest_sides.
  rewrite (separation_unique _ _ _ _ (SepHav_sep r1 d1 r2 d2) H1), (separation_unique _ _ _ _ (SepHav_sep r2 d2 r3 d3) H2), (separation_unique _ _ _ _ (SepHav_sep r3 d3 r1 d1) H3).
  apply sides_smallest; eapply sep_pos; eassumption.
Qed.

Lemma Smallest_ge r1 d1 r2 d2 r3 d3 s12 s23 s31 :
  separation (dir r1 d1) (dir r2 d2) s12 -> separation (dir r2 d2) (dir r3 d3) s23 -> separation (dir r3 d3) (dir r1 d1) s31 ->
  let D := fst (Smallest r1 d1 r2 d2 r3 d3) in s12 <= D /\ s23 <= D /\ s31 <= D.
Proof.
  intros H1 H2 H3. rewrite Smallest_sides.
  rewrite (separation_unique _ _ _ _ (SepHav_sep r1 d1 r2 d2) H1), (separation_unique _ _ _ _ (SepHav_sep r2 d2 r3 d3) H2), (separation_unique _ _ _ _ (SepHav_sep r3 d3 r1 d1) H3).
  apply sep_pos in H1, H2, H3. cbv zeta. unfold sides.
  destruct (Rlt_dec s12 s23); [destruct (Rlt_dec s23 s31)|destruct (Rlt_dec s12 s31)];
    (match goal with |- context [core ?a ?b ?c] => pose proof (core_ge a b c) as G end); lra.
Qed.

Lemma Smallest_type r1 d1 r2 d2 r3 d3 s12 s23 s31 :
  separation (dir r1 d1) (dir r2 d2) s12 -> separation (dir r2 d2) (dir r3 d3) s23 -> separation (dir r3 d3) (dir r1 d1) s31 ->
  let m := Rmax s12 (Rmax s23 s31) in
  (snd (Smallest r1 d1 r2 d2 r3 d3) = true <-> s12 * s12 + s23 * s23 + s31 * s31 <= 2 * (m * m)) /\
  (snd (Smallest r1 d1 r2 d2 r3 d3) = true -> fst (Smallest r1 d1 r2 d2 r3 d3) = m).
Proof.
  intros H1 H2 H3. rewrite Smallest_sides.
  rewrite (separation_unique _ _ _ _ (SepHav_sep r1 d1 r2 d2) H1), (separation_unique _ _ _ _ (SepHav_sep r2 d2 r3 d3) H2), (separation_unique _ _ _ _ (SepHav_sep r3 d3 r1 d1) H3).
  cbv zeta. unfold sides.
  destruct (Rlt_dec s12 s23) as [L|L]; [destruct (Rlt_dec s23 s31) as [K|K]|destruct (Rlt_dec s12 s31) as [K|K]];
   [rewrite (Rmax_right s23 s31), (Rmax_right s12 s31) by lra
   |rewrite (Rmax_left s23 s31), (Rmax_right s12 s23) by lra
   |rewrite (Rmax_right s23 s31), (Rmax_right s12 s31) by lra
   |rewrite (Rmax_left s12) by (apply Rmax_lub; lra)];
   unfold core; destruct (Rle_dec _ _); cbn [fst snd]; (split; [split; [intros; try discriminate; lra|intros; try reflexivity; lra]|intros; try discriminate; reflexivity]).
Qed.

Lemma octant a b : dot (dir a 0) (dir b (PI / 2)) = 0 /\ dot (dir a 0) (dir (a + PI / 2) 0) = 0.
Proof.
  rewrite !dot_dir. rewrite sin_0, cos_0, cos_PI2, sin_PI2.
  replace (a - (a + PI / 2)) with (- (PI / 2)) by ring. rewrite cos_neg, cos_PI2. split; ring.
Qed.
Lemma octant_sep u v : dot u v = 0 -> separation u v (PI / 2).
Proof. intros E. pose proof PI_RGT_0. split; [lra|]. rewrite E. apply cos_PI2. Qed.

Lemma Smallest_example : let D := fst (Smallest 0 0 (PI / 2) 0 0 (PI / 2)) in
  snd (Smallest 0 0 (PI / 2) 0 0 (PI / 2)) = false /\ D * D = PI * PI / 3.
Proof.
  rewrite Smallest_sides. pose proof PI_RGT_0 as HP.
  destruct (octant 0 0) as [A B]. rewrite Rplus_0_l in B. destruct (octant (PI / 2) 0) as [C _].
  rewrite (separation_unique _ _ _ _ (SepHav_sep 0 0 (PI / 2) 0) (octant_sep _ _ B)).
  rewrite (separation_unique _ _ _ _ (SepHav_sep (PI / 2) 0 0 (PI / 2)) (octant_sep _ _ C)).
  rewrite (SepHav_sym 0 (PI / 2)), (separation_unique _ _ _ _ (SepHav_sep 0 0 0 (PI / 2)) (octant_sep _ _ A)).
  unfold sides. repeat (match goal with |- context [Rlt_dec ?x ?y] => destruct (Rlt_dec x y); [lra|] end; cbv iota beta). unfold core.
  match goal with |- context [Rle_dec ?x ?y] => destruct (Rle_dec x y) as [H|H] end.
  - exfalso. assert (0 < PI / 2 * (PI / 2)) by (apply Rmult_lt_0_compat; lra). lra.
  - cbn [fst snd]. split; [reflexivity|]. set (p := PI / 2) in *.
    replace ((p + p + p) * (p + p - p) * (p + p - p) * (p + p - p)) with (3 * (p * p * (p * p))) by ring.
    assert (Pp : 0 < p) by (unfold p; lra). assert (Ep : PI = 2 * p) by (unfold p; field). clearbody p.
    assert (P4 : 0 < p * p * (p * p)) by (repeat apply Rmult_lt_0_compat; exact Pp).
    set (w := sqrt (3 * (p * p * (p * p)))). assert (W : w * w = 3 * (p * p * (p * p))) by (apply sqrt_sqrt; lra).
    assert (Wp : 0 < w) by (apply sqrt_lt_R0; lra).
    transitivity (4 * (p * p) * (p * p * (p * p)) / (w * w)); [field; lra|]. rewrite W.
    rewrite Ep. field. lra.
Qed.
