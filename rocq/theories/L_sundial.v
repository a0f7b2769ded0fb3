(** Lemmas for sundials. *)
From Coq Require Import ZArith Reals List Lra Lia Bool.
From Flocq Require Import Core.
From Verif Require Import GoMath M_sundial S_Sphere S_sundial L_trig L_vec L_angle L_coord L_precess L_light.
Import ListNotations.
Local Open Scope R_scope.

Lemma hourAngle_of i : hourAngle i = hour_angle_of i.
Proof. unfold hourAngle, hour_angle_of. rewrite minus_IZR. field. Qed.
Lemma hour_range i : (0 <= i < 24)%Z -> - PI <= hour_angle_of i < PI.
Proof.
  intros [A B]. unfold hour_angle_of. pose proof PI_RGT_0 as P. apply IZR_le in A. assert (IZR i <= 23) by (apply IZR_le; lia).
  split.
  - replace (- PI) with (-12 * (PI / 12)) by field. apply Rmult_le_compat_r; lra.
  - replace PI with (12 * (PI / 12)) at 2 by field. apply Rmult_lt_compat_r; lra.
Qed.
Lemma In_allHours i : In i allHours <-> (0 <= i < 24)%Z.
Proof.
  unfold allHours. rewrite in_map_iff. split.
  - intros [n [<- H]]. apply in_seq in H. lia.
  - intros H. exists (Z.to_nat i). split; [lia|]. apply in_seq. lia.
Qed.
Lemma In_decs d : In d decs <-> drawn_declination d.
Proof.
  unfold decs, drawn_declination. cbn [In]. replace (-11.47) with (- 11.47) by (decimals; field). replace (-20.15) with (- 20.15) by (decimals; field). replace (-23.44) with (- 23.44) by (decimals; field).
  generalize 11.47 20.15 23.44. intros a b c. split.
  - intros [H|[H|[H|[H|[H|[H|[H|[]]]]]]]]; symmetry in H; tauto.
  - intros [H|[H|[H|[H|[H|[H|H]]]]]]; symmetry in H; tauto.
Qed.
Lemma keep_In f l p : In p (keep f l) <-> exists d, In d l /\ f (tanDec d) = Some p.
Proof.
  induction l as [|d l IH]; cbn [keep]; [firstorder|]. destruct (f (tanDec d)) as [q|] eqn:E.
  - cbn [In]. rewrite IH. split.
    + intros [->|[e [A B]]]; [exists d; auto|exists e; auto].
    + intros [e [[->|A] B]]; [left; congruence|right; exists e; auto].
  - rewrite IH. split; intros [e [A B]]; [exists e; cbn; auto|]. destruct A as [->|A]; [congruence|exists e; auto].
Qed.
Lemma hours_In f l i ps : In (i, ps) (hours f l) <-> In i l /\ ps = keep (f (hourAngle i)) decs /\ ps <> [].
Proof.
  induction l as [|j l IH]; cbn [hours]; [firstorder|]. destruct (keep (f (hourAngle j)) decs) as [|p r] eqn:E.
  - rewrite IH. split; [intros (A & B & C); split; [now right|auto]|]. intros ([->|A] & B & C); [congruence|auto].
  - cbn [In]. rewrite IH. split.
    + intros [K|(A & B & C)]; [|auto]. injection K as <- <-. split; [now left|]. split; [now symmetry|discriminate].
    + intros ([->|A] & B & C); [left; congruence|right; auto].
Qed.
Lemma lines_In f i ps : In (i, ps) (linesOf f) <-> (0 <= i < 24)%Z /\ ps = keep (f (hourAngle i)) decs /\ ps <> [].
Proof. unfold linesOf. rewrite hours_In, In_allHours. reflexivity. Qed.
Lemma lines_point f i p : (exists ps, In (i, ps) (linesOf f) /\ In p ps) <-> (0 <= i < 24)%Z /\ exists d, drawn_declination d /\ f (hour_angle_of i) (tanDec d) = Some p.
Proof.
  split.
  - intros (ps & A & B). apply lines_In in A. destruct A as (A & -> & _). split; [exact A|]. apply keep_In in B. destruct B as (d & D & E). exists d. rewrite <- hourAngle_of. split; [now apply In_decs|exact E].
  - intros (A & d & D & E). exists (keep (f (hourAngle i)) decs). assert (K : In p (keep (f (hourAngle i)) decs)) by (apply keep_In; exists d; rewrite hourAngle_of; split; [now apply In_decs|exact E]).
    split; [|exact K]. apply lines_In. split; [exact A|]. split; [reflexivity|]. intros Z. rewrite Z in K. destruct K.
Qed.
Lemma lines_ext f g : (forall i d, (0 <= i < 24)%Z -> drawn_declination d -> f (hour_angle_of i) (tanDec d) = g (hour_angle_of i) (tanDec d)) -> linesOf f = linesOf g.
Proof.
  intros H. unfold linesOf. assert (I : forall i, In i allHours -> (0 <= i < 24)%Z) by (intros; now apply In_allHours). revert I. generalize allHours as l.
  induction l as [|i l IH]; intros I; cbn [hours]; [reflexivity|].
  assert (E : keep (f (hourAngle i)) decs = keep (g (hourAngle i)) decs).
  { assert (J : forall d, In d decs -> drawn_declination d) by (intros; now apply In_decs). revert J. generalize decs as m. induction m as [|d m IHm]; intros J; cbn [keep]; [reflexivity|].
    rewrite hourAngle_of, H by (try (apply I; now left); apply J; now left). rewrite <- hourAngle_of, IHm by (intros; apply J; now right). reflexivity. }
  rewrite E, IH by (intros; apply I; now right). reflexivity.
Qed.

Lemma dec_cos d : drawn_declination d -> - (PI / 6) < rad d < PI / 6 /\ 0 < cos (rad d).
Proof.
  intros H. pose proof PI_RGT_0 as P. assert (B : - (PI / 6) < rad d < PI / 6).
  { unfold rad. destruct H as [->|[->|[->|[->|[->|[->| ->]]]]]]; decimals; lra. }
  split; [exact B|]. apply cos_gt_0; lra.
Qed.
Lemma tanDec_eq d : cos (rad d) <> 0 -> cos (rad d) * tanDec d = sin (rad d).
Proof. intros H. unfold tanDec. fold (rad d). unfold tan. field. exact H. Qed.

(** The horizon test. *)
Lemma acos_lt x H : -1 <= x <= 1 -> 0 <= H <= PI -> (acos x < H <-> cos H < x).
Proof.
  intros Hx HH. pose proof (acos_bound x) as B. pose proof (cos_acos x Hx) as C. split; intros K.
  - rewrite <- C. apply cos_decreasing_1; lra.
  - apply Rnot_le_lt. intros L. destruct L as [L|L]; [|rewrite L, C in K; lra].
    assert (cos (acos x) < cos H) by (apply cos_decreasing_1; lra). lra.
Qed.
Lemma horizon_test phi td H : 0 < cos phi -> - PI <= H <= PI -> -1 <= tan phi * td <= 1 ->
  belowHorizon (sin phi) (cos phi) td H = Rlt_bool (cos phi * cos H + sin phi * td) 0.
Proof.
  intros C HH T. unfold belowHorizon. cbv zeta. rewrite Req_bool_false by lra. change (sin phi / cos phi) with (tan phi).
  assert (AX : -1 <= - tan phi * td <= 1) by lra. rewrite Rlt_bool_false by (apply Rabs_le; exact AX).
  assert (AH : 0 <= Rabs H <= PI) by (split; [apply Rabs_pos|apply Rabs_le; exact HH]).
  assert (CA : cos (Rabs H) = cos H) by (unfold Rabs; destruct (Rcase_abs H); [apply cos_neg|reflexivity]).
  pose proof (acos_lt _ _ AX AH) as K. rewrite CA in K.
  assert (TP : sin phi = tan phi * cos phi) by (unfold tan; field; lra).
  case Rlt_bool_spec; intros A; case Rlt_bool_spec; intros B; try reflexivity; exfalso.
  - apply K in A. rewrite TP in B. nra.
  - assert (~ (cos H < - tan phi * td)) by (intros Z; apply K in Z; lra). rewrite TP in B. nra.
Qed.
(** Polar day and night. *)
Lemma horizon_polar phi td H : 1 < Rabs (tan phi * td) -> belowHorizon (sin phi) (cos phi) td H = false.
Proof.
  intros T. unfold belowHorizon. cbv zeta. case Req_bool_spec; intros; [reflexivity|]. change (sin phi / cos phi) with (tan phi).
  rewrite Rlt_bool_true; [reflexivity|]. replace (- tan phi * td) with (- (tan phi * td)) by ring. now rewrite Rabs_Ropp.
Qed.
Lemma sun_zenith phi d H : cos (rad d) <> 0 -> dot (sun phi (rad d) H) zenith = cos (rad d) * (cos phi * cos H + sin phi * tanDec d).
Proof. intros C. unfold dot, sun, zenith. cbn [vx vy vz]. rewrite <- (tanDec_eq d C). ring. Qed.
Lemma sun_stylus phi D z d H : cos (rad d) <> 0 -> dot (sun phi (rad d) H) (stylus D z) = cos (rad d) * genQ phi D z H (tanDec d).
Proof. intros C. unfold dot, sun, stylus, genQ, genP. cbn [vx vy vz]. rewrite <- (tanDec_eq d C). ring. Qed.
Lemma up_iff phi d H : drawn_declination d -> (up (sun phi (rad d) H) <-> 0 <= cos phi * cos H + sin phi * tanDec d).
Proof.
  intros D. destruct (dec_cos d D) as [_ C]. unfold up. rewrite sun_zenith by lra. split; intros K.
  - apply Rmult_le_reg_l with (cos (rad d)); lra.
  - apply Rmult_le_pos; lra.
Qed.
Lemma faces_iff phi D z d H : drawn_declination d -> (faces D z (sun phi (rad d) H) <-> 0 <= genQ phi D z H (tanDec d)).
Proof.
  intros Dd. destruct (dec_cos d Dd) as [_ C]. unfold faces. rewrite sun_stylus by lra. split; intros K.
  - apply Rmult_le_reg_l with (cos (rad d)); lra.
  - apply Rmult_le_pos; lra.
Qed.
(** The shadow. *)
Lemma frame_expand D z v : v = vadd (on_plane D z (dot v (axis_x D z)) (dot v (axis_y D z))) (scale (dot v (stylus D z)) (stylus D z)).
Proof.
  destruct v as [x y w]. unfold vadd, on_plane, scale, dot, axis_x, axis_y, stylus, vadd. cbn [vx vy vz].
  pose proof (sc1 D) as A. pose proof (sc1 z) as B. apply mkvec_eq.
  - transitivity (x * (sin D * sin D + cos D * cos D * (sin z * sin z + cos z * cos z)) + y * (cos D * sin D * (sin z * sin z + cos z * cos z - 1))); [rewrite B, Rmult_1_r, A|]; ring.
  - transitivity (y * (cos D * cos D + sin D * sin D * (sin z * sin z + cos z * cos z)) + x * (cos D * sin D * (sin z * sin z + cos z * cos z - 1))); [rewrite B, Rmult_1_r, (Rplus_comm (cos D * cos D)), A|]; ring.
  - transitivity (w * (sin z * sin z + cos z * cos z) + cos z * sin z * 0); [rewrite B|]; ring.
Qed.
Lemma shadow_point phi D z a d H : drawn_declination d -> 0 < a -> 0 < genQ phi D z H (tanDec d) ->
  shadow D z a (sun phi (rad d) H) (a * genNx phi D z H (tanDec d) / genQ phi D z H (tanDec d)) (a * genNy phi D z H (tanDec d) / genQ phi D z H (tanDec d)).
Proof.
  intros Dd Ha HQ. destruct (dec_cos d Dd) as [_ C]. set (c := cos (rad d)) in *. set (t := tanDec d) in *. set (Q := genQ phi D z H t) in *.
  exists (a / (c * Q)). split; [apply Rdiv_lt_0_compat; nra|].
  set (s := sun phi (rad d) H).
  assert (Ex : dot s (axis_x D z) = - c * genNx phi D z H t).
  { unfold s, sun, dot, axis_x, genNx. cbn [vx vy vz]. rewrite <- (tanDec_eq d) by (fold c; lra). fold c t. ring. }
  assert (Ey : dot s (axis_y D z) = - c * genNy phi D z H t).
  { unfold s, sun, dot, axis_y, genNy. cbn [vx vy vz]. rewrite <- (tanDec_eq d) by (fold c; lra). fold c t. ring. }
  assert (En : dot s (stylus D z) = c * Q) by (unfold s; apply sun_stylus; fold c; lra).
  rewrite (frame_expand D z s), Ex, Ey, En. set (Nx := genNx phi D z H t). set (Ny := genNy phi D z H t). clearbody Nx Ny Q s.
  unfold vadd, on_plane, scale, axis_x, axis_y, stylus, vadd. cbn [vx vy vz]. apply mkvec_eq; field; lra.
Qed.
Lemma shadow_unique D z a s x y x' y' : 0 < dot s (stylus D z) -> shadow D z a s x y -> shadow D z a s x' y' -> x = x' /\ y = y'.
Proof.
  intros HS (t & T & E) (t' & T' & E').
  assert (ON : forall u v, dot (on_plane D z u v) (stylus D z) = 0).
  { intros u v. unfold on_plane, dot, vadd, scale, axis_x, axis_y, stylus. cbn [vx vy vz]. pose proof (sc1 D) as S.
    transitivity (v * cos z * sin z * (1 - (sin D * sin D + cos D * cos D))); [ring|rewrite S; ring]. }
  assert (OX : forall u v, dot (on_plane D z u v) (axis_x D z) = u).
  { intros u v. unfold on_plane, dot, vadd, scale, axis_x, axis_y. cbn [vx vy vz]. pose proof (sc1 D) as S. transitivity (u * (sin D * sin D + cos D * cos D)); [ring|rewrite S; ring]. }
  assert (OY : forall u v, dot (on_plane D z u v) (axis_y D z) = v).
  { intros u v. unfold on_plane, dot, vadd, scale, axis_x, axis_y. cbn [vx vy vz]. pose proof (sc1 D) as S. pose proof (sc1 z) as S2.
    transitivity (v * (cos z * cos z * (sin D * sin D + cos D * cos D) + sin z * sin z)); [ring|rewrite S, Rmult_1_r, Rplus_comm, S2; ring]. }
  assert (DA : forall u v w, dot (vadd u v) w = dot u w + dot v w) by (intros; unfold dot, vadd; cbn; ring).
  assert (DS : forall k u w, dot (scale k u) w = k * dot u w) by (intros; unfold dot, scale; cbn; ring).
  rewrite <- E' in E. assert (EN : t * dot s (stylus D z) = t' * dot s (stylus D z)).
  { assert (K : dot (vadd (on_plane D z x y) (scale t s)) (stylus D z) = dot (vadd (on_plane D z x' y') (scale t' s)) (stylus D z)) by now rewrite E. rewrite !DA, !ON, !DS in K. lra. }
  apply Rmult_eq_reg_r in EN; [|lra]. subst t'.
  split; [assert (K : dot (vadd (on_plane D z x y) (scale t s)) (axis_x D z) = dot (vadd (on_plane D z x' y') (scale t s)) (axis_x D z)) by now rewrite E
         |assert (K : dot (vadd (on_plane D z x y) (scale t s)) (axis_y D z) = dot (vadd (on_plane D z x' y') (scale t s)) (axis_y D z)) by now rewrite E];
    rewrite !DA, ?OX, ?OY in K; lra.
Qed.

(** ** General *)
Definition nonpolar (phi : R) : Prop := 0 < cos phi /\ forall d, drawn_declination d -> -1 <= tan phi * tanDec d <= 1.
Lemma genPoint_visible phi D a z i d p : nonpolar phi -> 0 < a -> (0 <= i < 24)%Z -> drawn_declination d ->
  genPoint phi D a z (hour_angle_of i) (tanDec d) = Some p ->
  let s := sun phi (rad d) (hour_angle_of i) in
  up s /\ faces D z s /\
  (0 < dot s (stylus D z) -> exists x y, p = (Some x, Some y) /\ shadow D z a s x y) /\
  (dot s (stylus D z) = 0 -> p = (None, None)).
Proof.
  intros [CP NP] Ha Hi Dd E s. pose proof (hour_range i Hi) as HR. destruct (dec_cos d Dd) as [_ C]. unfold genPoint in E.
  rewrite horizon_test in E by (try (apply NP; exact Dd); lra). revert E. case Rlt_bool_spec; intros E1; [discriminate|]. case Rlt_bool_spec; intros E2; [discriminate|]. intros E. injection E as <-.
  split; [unfold s; now apply up_iff|]. split; [unfold s; now apply faces_iff|]. unfold s. rewrite sun_stylus by lra. set (Q := genQ phi D z (hour_angle_of i) (tanDec d)) in *. split; intros K.
  - assert (QP : 0 < Q) by nra. unfold fdiv. rewrite !Req_bool_false by lra. eexists _, _. split; [reflexivity|]. now apply shadow_point.
  - assert (QZ : Q = 0) by nra. unfold fdiv. now rewrite !Req_bool_true by exact QZ.
Qed.
Lemma genPoint_some phi D a z i d : nonpolar phi -> (0 <= i < 24)%Z -> drawn_declination d ->
  let s := sun phi (rad d) (hour_angle_of i) in up s -> faces D z s -> genPoint phi D a z (hour_angle_of i) (tanDec d) <> None.
Proof.
  intros [CP NP] Hi Dd s U F. pose proof (hour_range i Hi) as HR. unfold s in U, F. apply up_iff in U; [|exact Dd]. apply faces_iff in F; [|exact Dd]. unfold genPoint.
  rewrite horizon_test by (try (apply NP; exact Dd); lra). rewrite !Rlt_bool_false by lra. discriminate.
Qed.
Lemma General_lines phi D a z : fst (fst (fst (General phi D a z))) = linesOf (genPoint phi D a z).
Proof. reflexivity. Qed.
Lemma General_points phi D a z : nonpolar phi -> 0 < a -> 
  forall i p, (exists ps, In (i, ps) (fst (fst (fst (General phi D a z)))) /\ In p ps) ->
  (0 <= i < 24)%Z /\ exists d, drawn_declination d /\
  let s := sun phi (rad d) (hour_angle_of i) in
  up s /\ faces D z s /\
  (0 < dot s (stylus D z) -> exists x y, p = (Some x, Some y) /\ shadow D z a s x y) /\
  (dot s (stylus D z) = 0 -> p = (None, None)).
Proof.
  intros NP Ha i p K. rewrite General_lines in K. apply lines_point in K. destruct K as (Hi & d & Dd & E). split; [exact Hi|]. exists d. split; [exact Dd|]. now apply (genPoint_visible phi D a z i d p).
Qed.
Lemma General_complete phi D a z : nonpolar phi -> 0 < a -> 
  forall i d, (0 <= i < 24)%Z -> drawn_declination d ->
  let s := sun phi (rad d) (hour_angle_of i) in
  up s -> 0 < dot s (stylus D z) ->
  exists ps x y, In (i, ps) (fst (fst (fst (General phi D a z)))) /\ In (Some x, Some y) ps /\ shadow D z a s x y.
Proof.
  intros NP Ha i d Hi Dd s U F. rewrite General_lines. assert (F' : faces D z s) by (unfold faces; lra).
  destruct (genPoint phi D a z (hour_angle_of i) (tanDec d)) as [p|] eqn:E; [|exfalso; now apply (genPoint_some phi D a z i d NP Hi Dd U F')].
  destruct (genPoint_visible phi D a z i d p NP Ha Hi Dd E) as (_ & _ & K & _). destruct (K F) as (x & y & -> & S).
  assert (L : exists ps, In (i, ps) (linesOf (genPoint phi D a z)) /\ In (Some x, Some y) ps) by (apply lines_point; split; [exact Hi|]; exists d; auto).
  destruct L as (ps & L1 & L2). exists ps, x, y. auto.
Qed.
(** Each hour appears at most once. *)
Lemma hours_nodup f l : NoDup l -> NoDup (map fst (hours f l)).
Proof.
  induction 1 as [|i l N ND IH]; cbn [hours]; [constructor|]. destruct (keep (f (hourAngle i)) decs) as [|p r]; [exact IH|]. cbn [map fst]. constructor; [|exact IH].
  intros K. apply in_map_iff in K. destruct K as ([j ps] & E & K). cbn in E. subst j. apply hours_In in K. tauto.
Qed.
Lemma lines_nodup f : NoDup (map fst (linesOf f)).
Proof. apply hours_nodup. unfold allHours. apply FinFun.Injective_map_NoDup; [intros x y; lia|apply seq_NoDup]. Qed.

(** The centre and the polar stylus. *)
Lemma General_center phi D a z : 0 < a -> genP phi D z <> 0 ->
  exists cx cy u, 
    let '(_, c, uo, psi) := General phi D a z in c = (Some cx, Some cy) /\ uo = Some u /\
    (exists k, vadd (on_plane D z cx cy) (scale k (pole phi)) = scale a (stylus D z)) /\
    u = norm (vsub (scale a (stylus D z)) (on_plane D z cx cy)) /\
    0 <= psi <= PI / 2 /\ sin psi = Rabs (dot (pole phi) (stylus D z)).
Proof.
  intros Ha NP. set (P := genP phi D z) in *. exists (a / P * cos phi * sin D), (- a / P * (sin phi * sin z + cos phi * cos z * cos D)), (a / Rabs P).
  unfold General. cbv beta iota zeta. fold P. assert (AP : Rabs P <> 0) by now apply Rabs_no_R0.
  unfold fdiv. rewrite (Req_bool_false P) by exact NP. rewrite (Req_bool_false (Rabs P)) by exact AP. cbn [fmulo].
  split; [reflexivity|]. split; [reflexivity|].
  assert (PD : dot (pole phi) (stylus D z) = P) by (unfold dot, pole, stylus, P, genP; cbn [vx vy vz]; ring).
  assert (V : vadd (on_plane D z (a / P * cos phi * sin D) (- a / P * (sin phi * sin z + cos phi * cos z * cos D))) (scale (a / P) (pole phi)) = scale a (stylus D z)).
  { rewrite (frame_expand D z (pole phi)), PD. 
    replace (dot (pole phi) (axis_x D z)) with (- (cos phi * sin D)) by (unfold dot, pole, axis_x; cbn [vx vy vz]; ring).
    replace (dot (pole phi) (axis_y D z)) with (sin phi * sin z + cos phi * cos z * cos D) by (unfold dot, pole, axis_y; cbn [vx vy vz]; ring).
    clearbody P. unfold vadd, on_plane, scale, axis_x, axis_y, stylus, vadd. cbn [vx vy vz]. apply mkvec_eq; field; exact NP. }
  split; [exists (a / P); exact V|].
  assert (PB : Rabs P <= 1).
  { rewrite <- PD. assert (U1 : dot (pole phi) (pole phi) = 1) by (unfold dot, pole; cbn [vx vy vz]; pose proof (sc1 phi); lra).
    assert (U2 : dot (stylus D z) (stylus D z) = 1). { unfold dot, stylus. cbn [vx vy vz]. pose proof (sc1 D) as S1. pose proof (sc1 z) as S2. transitivity (sin z * sin z * (sin D * sin D + cos D * cos D) + cos z * cos z); [ring|rewrite S1; lra]. }
    pose proof (cauchy (pole phi) (stylus D z)) as CC. rewrite U1, U2 in CC. apply Rabs_le. split; nra. }
  split.
  - rewrite <- V. transitivity (norm (scale (a / P) (pole phi))).
    + unfold norm. replace (dot _ _) with (a / P * (a / P)).
      * change (a / P * (a / P)) with (Rsqr (a / P)). rewrite sqrt_Rsqr_abs. unfold Rdiv. rewrite Rabs_mult, Rabs_inv, (Rabs_right a) by lra. reflexivity.
      * unfold dot, scale, pole. cbn [vx vy vz]. pose proof (sc1 phi) as S. transitivity (a / P * (a / P) * (sin phi * sin phi + cos phi * cos phi)); [rewrite S|]; ring.
    + f_equal. unfold vsub. destruct (on_plane _ _ _ _) as [x y w]. destruct (scale (a / P) (pole phi)) as [x' y' w']. unfold vadd, scale. cbn [vx vy vz]. apply mkvec_eq; ring.
  - pose proof (Rabs_pos P) as P0. split; [|rewrite sin_asin, PD; [reflexivity|lra]]. pose proof (asin_bound (Rabs P)) as AB. split; [|lra].
    rewrite <- asin_0. destruct P0 as [P0|P0]; [|rewrite <- P0; lra]. apply Rnot_lt_le. intros K. pose proof (sin_asin (Rabs P)) as SA.
    rewrite asin_0 in K. pose proof PI_RGT_0. assert (sin (asin (Rabs P)) < 0) by (apply sin_lt_0_var; lra). rewrite SA in H0; lra.
Qed.
(** All points of one hour line are on one line through the centre. *)
Lemma hour_line_through_center phi D a z H td td' : genP phi D z <> 0 -> genQ phi D z H td <> 0 -> genQ phi D z H td' <> 0 ->
  let cx := a / genP phi D z * cos phi * sin D in let cy := - a / genP phi D z * (sin phi * sin z + cos phi * cos z * cos D) in
  let x t := a * genNx phi D z H t / genQ phi D z H t in let y t := a * genNy phi D z H t / genQ phi D z H t in
  (x td - cx) * (y td' - cy) = (x td' - cx) * (y td - cy).
Proof.
  intros HP H1 H2. cbv beta zeta.
  assert (KX : forall t, genQ phi D z H t <> 0 -> a * genNx phi D z H t / genQ phi D z H t - a / genP phi D z * cos phi * sin D =
     a / (genP phi D z * genQ phi D z H t) * (genNx phi D z H 0 * genP phi D z - cos phi * sin D * genQ phi D z H 0)).
  { intros t N. assert (EX : genNx phi D z H t = genNx phi D z H 0 + sin D * cos phi * t) by (unfold genNx; ring).
    assert (EQ : genQ phi D z H t = genQ phi D z H 0 + genP phi D z * t) by (unfold genQ; ring).
    rewrite EX, EQ. rewrite EQ in N. field. split; assumption. }
  assert (KY : forall t, genQ phi D z H t <> 0 -> a * genNy phi D z H t / genQ phi D z H t - - a / genP phi D z * (sin phi * sin z + cos phi * cos z * cos D) =
     a / (genP phi D z * genQ phi D z H t) * (genNy phi D z H 0 * genP phi D z + (sin phi * sin z + cos phi * cos z * cos D) * genQ phi D z H 0)).
  { intros t N. assert (EX : genNy phi D z H t = genNy phi D z H 0 - (sin phi * sin z + cos phi * cos z * cos D) * t) by (unfold genNy; ring).
    assert (EQ : genQ phi D z H t = genQ phi D z H 0 + genP phi D z * t) by (unfold genQ; ring).
    rewrite EX, EQ. rewrite EQ in N. field. split; assumption. }
  rewrite (KX td H1), (KX td' H2), (KY td H1), (KY td' H2). ring.
Qed.

(** ** Special cases *)
Lemma pair4 (A B C D : Type) (a a' : A) (x x' y y' : B) (c c' : C) (d d' : D) : a = a' -> x = x' -> y = y' -> c = c' -> d = d' -> (a, (x, y), c, d) = (a', (x', y'), c', d').
Proof. now intros -> -> -> -> ->. Qed.
Lemma General_Vertical phi D a : cos phi <> 0 ->
  General phi D a (PI / 2) = (fst (fst (Vertical phi D a)), snd (fst (Vertical phi D a)), snd (Vertical phi D a), asin (Rabs (cos phi * cos D))).
Proof.
  intros C. unfold General, Vertical. cbv zeta. cbn [fst snd].
  assert (EP : genP phi D (PI / 2) = - (cos phi * cos D)) by (unfold genP; rewrite cos_PI2, sin_PI2; ring). rewrite EP, Rabs_Ropp.
  assert (L : linesOf (genPoint phi D a (PI / 2)) = linesOf (verPoint phi D a)).
  { apply lines_ext. intros i d _ _. generalize (hour_angle_of i) as H. generalize (tanDec d) as t. intros t H. unfold genPoint, verPoint. cbv zeta.
    replace (genQ phi D (PI / 2) H t) with (sin D * sin H + sin phi * cos D * cos H - cos phi * cos D * t) by (unfold genQ, genP; rewrite cos_PI2, sin_PI2; ring).
    replace (genNx phi D (PI / 2) H t) with (cos D * sin H - sin phi * sin D * cos H + cos phi * sin D * t) by (unfold genNx; ring).
    replace (a * genNy phi D (PI / 2) H t) with (- a * (cos phi * cos H + sin phi * t)) by (unfold genNy; rewrite cos_PI2, sin_PI2; ring). reflexivity. }
  rewrite L. rewrite cos_PI2, sin_PI2. unfold fdiv. rewrite (Req_bool_false (cos phi)) by exact C.
  destruct (Req_dec (cos D) 0) as [Z|Z].
  - rewrite (Req_bool_true (cos D)) by exact Z. rewrite (Req_bool_true (- (cos phi * cos D))) by (rewrite Z; ring). reflexivity.
  - rewrite (Req_bool_false (cos D)) by exact Z. assert (N : cos phi * cos D <> 0) by (apply Rmult_integral_contrapositive_currified; assumption).
    rewrite (Req_bool_false (- (cos phi * cos D))) by lra. cbn [fmulo]. unfold Point. apply pair4; try reflexivity; f_equal; field; split; assumption.
Qed.
Lemma General_Horizontal phi a : nonpolar phi -> sin phi <> 0 ->
  General phi 0 a 0 = (fst (fst (Horizontal phi a)), snd (fst (Horizontal phi a)), snd (Horizontal phi a), asin (Rabs (sin phi))).
Proof.
  intros [C NP] S. unfold General, Horizontal. cbv zeta. cbn [fst snd].
  assert (EP : genP phi 0 0 = sin phi) by (unfold genP; rewrite cos_0, sin_0; ring). rewrite EP.
  assert (L : linesOf (genPoint phi 0 a 0) = linesOf (horPoint phi a)).
  { apply lines_ext. intros i d Hi Dd. pose proof (hour_range i Hi) as HR. unfold genPoint, horPoint. cbv zeta.
    rewrite horizon_test by (try (apply NP; exact Dd); lra). generalize (hour_angle_of i) as H. generalize (tanDec d) as t. intros t H.
    replace (genQ phi 0 0 H t) with (cos phi * cos H + sin phi * t) by (unfold genQ, genP; rewrite cos_0, sin_0; ring).
    replace (genNx phi 0 0 H t) with (sin H) by (unfold genNx; rewrite cos_0, sin_0; ring).
    replace (genNy phi 0 0 H t) with (sin phi * cos H - cos phi * t) by (unfold genNy; rewrite cos_0, sin_0; ring).
    destruct (Rlt_bool (cos phi * cos H + sin phi * t) 0); reflexivity. }
  rewrite L. rewrite cos_0, sin_0. unfold fdiv. rewrite (Req_bool_false (cos phi)) by lra. rewrite (Req_bool_false (sin phi)) by exact S.
  assert (T : sin phi / cos phi <> 0) by (unfold Rdiv; apply Rmult_integral_contrapositive_currified; [exact S|apply Rinv_neq_0_compat; lra]).
  rewrite (Req_bool_false _ _ T). cbn [fmulo]. unfold Point. apply pair4; try (destruct (Req_bool (Rabs (sin phi)) 0)); try reflexivity; f_equal; field; repeat split; lra.
Qed.

(** ** Equatorial *)
Lemma Equatorial_north phi a : fst (Equatorial phi a) = fst (fst (fst (General phi PI a (PI / 2 - phi)))).
Proof.
  rewrite General_lines. unfold Equatorial. cbn [fst]. apply lines_ext. intros i d _ _. generalize (hour_angle_of i) as H. generalize (tanDec d) as t. intros t H.
  unfold eqPoint, genPoint. cbv zeta. pose proof (sc1 phi) as SC.
  replace (genQ phi PI (PI / 2 - phi) H t) with t.
  2:{ unfold genQ, genP. rewrite cos_PI, sin_PI, sin_shift, cos_shift. transitivity (t * (sin phi * sin phi + cos phi * cos phi)); [rewrite SC|]; ring. }
  replace (genNx phi PI (PI / 2 - phi) H t) with (- sin H) by (unfold genNx; rewrite cos_PI, sin_PI; ring).
  replace (genNy phi PI (PI / 2 - phi) H t) with (- cos H).
  2:{ unfold genNy. rewrite cos_PI, sin_PI, sin_shift, cos_shift. transitivity (- (sin phi * sin phi + cos phi * cos phi) * cos H); [rewrite SC|]; ring. }
  destruct (belowHorizon (sin phi) (cos phi) t H); [reflexivity|]. case Rlt_bool_spec; intros Ht; [reflexivity|]. unfold fdiv.
  case Req_bool_spec; intros Z; cbn [fmulo]; [reflexivity|].
  replace (- a * sin H / t) with (a * - sin H / t) by (field; exact Z). replace (a * cos H / t * -1) with (a * - cos H / t) by (field; exact Z). reflexivity.
Qed.

Lemma eqSouth_point phi a H t : t <> 0 -> eqPoint false phi a H t = genPoint phi 0 a (PI / 2 + phi) H t.
Proof.
  intros NT. unfold eqPoint, genPoint. cbv zeta. pose proof (sc1 phi) as SC. rewrite (Rplus_comm (PI / 2)).
  assert (SZ : sin (phi + PI / 2) = cos phi) by (rewrite sin_plus, sin_PI2, cos_PI2; ring).
  assert (CZ : cos (phi + PI / 2) = - sin phi) by (rewrite cos_plus, sin_PI2, cos_PI2; ring).
  replace (genQ phi 0 (phi + PI / 2) H t) with (- t).
  2:{ unfold genQ, genP. rewrite cos_0, sin_0, SZ, CZ. transitivity (- t * (sin phi * sin phi + cos phi * cos phi)); [rewrite SC|]; ring. }
  replace (genNx phi 0 (phi + PI / 2) H t) with (sin H) by (unfold genNx; rewrite cos_0, sin_0; ring).
  replace (genNy phi 0 (phi + PI / 2) H t) with (- cos H).
  2:{ unfold genNy. rewrite cos_0, sin_0, SZ, CZ. transitivity (- (sin phi * sin phi + cos phi * cos phi) * cos H); [rewrite SC|]; ring. }
  destruct (belowHorizon (sin phi) (cos phi) t H); [reflexivity|]. unfold fdiv. rewrite (Req_bool_false t) by exact NT. rewrite (Req_bool_false (- t)) by lra.
  case Rlt_bool_spec; intros Ht.
  - rewrite Rlt_bool_false by lra. replace (- a * sin H / t) with (a * sin H / - t) by (field; exact NT). replace (a * cos H / t) with (a * - cos H / - t) by (field; exact NT). reflexivity.
  - rewrite Rlt_bool_true by lra. reflexivity.
Qed.
Lemma tanDec_sign d : drawn_declination d -> (tanDec d = 0 <-> d = 0) /\ (tanDec d < 0 <-> d < 0).
Proof.
  intros Dd. destruct (dec_cos d Dd) as [B C]. pose proof PI_RGT_0 as PP. pose proof (tanDec_eq d ltac:(lra)) as T.
  assert (S1 : 0 < d -> 0 < tanDec d). { intros H. assert (0 < rad d) by (unfold rad; nra). assert (0 < sin (rad d)) by (apply sin_gt_0; lra). nra. }
  assert (S2 : d < 0 -> tanDec d < 0). { intros H. assert (rad d < 0) by (unfold rad; nra). assert (sin (rad d) < 0) by (apply sin_lt_0_var; lra). nra. }
  assert (S3 : d = 0 -> tanDec d = 0). { intros ->. unfold tanDec. replace (0 * PI / 180) with 0 by field. apply tan_0. }
  destruct (Rtotal_order d 0) as [H|[H|H]]; split; split; intros K; try assumption; try lra; try (specialize (S1 ltac:(lra)); lra); try (specialize (S2 ltac:(lra)); lra); try (specialize (S3 ltac:(lra)); lra).
Qed.
Lemma Equatorial_snd phi a : snd (Equatorial phi a) = linesOf (eqPoint false phi a). Proof. reflexivity. Qed.
Lemma Equatorial_fst phi a : fst (Equatorial phi a) = linesOf (eqPoint true phi a). Proof. reflexivity. Qed.
Lemma Horizontal_fst phi a : fst (fst (Horizontal phi a)) = linesOf (horPoint phi a). Proof. reflexivity. Qed.
Lemma Equatorial_south phi a : nonpolar phi -> 0 < a ->
  forall i p, (exists ps, In (i, ps) (snd (Equatorial phi a)) /\ In p ps) ->
  (0 <= i < 24)%Z /\ exists d x y, drawn_declination d /\ d < 0 /\ p = (Some x, Some y) /\
  let s := sun phi (rad d) (hour_angle_of i) in up s /\ shadow 0 (PI / 2 + phi) a s x y.
Proof.
  intros NP Ha i p K. rewrite Equatorial_snd in K. apply lines_point in K. destruct K as (Hi & d & Dd & E). split; [exact Hi|].
  destruct (tanDec_sign d Dd) as [T0 T1]. destruct (dec_cos d Dd) as [_ C].
  assert (NEG : tanDec d < 0).
  { unfold eqPoint in E. cbv zeta in E. destruct (belowHorizon _ _ _ _); [discriminate|]. revert E. case Rlt_bool_spec; intros; [assumption|discriminate]. }
  rewrite eqSouth_point in E by lra. destruct (genPoint_visible phi 0 a (PI / 2 + phi) i d p NP Ha Hi Dd E) as (U & F & V & _).
  assert (POS : 0 < dot (sun phi (rad d) (hour_angle_of i)) (stylus 0 (PI / 2 + phi))).
  { rewrite sun_stylus by lra. apply Rmult_lt_0_compat; [exact C|]. unfold genQ, genP. rewrite cos_0, sin_0. rewrite (Rplus_comm (PI / 2)), sin_plus, cos_plus, sin_PI2, cos_PI2. pose proof (sc1 phi) as SC.
    replace (_ + _ + _) with (- tanDec d * (sin phi * sin phi + cos phi * cos phi)) by ring. rewrite SC. lra. }
  destruct (V POS) as (x & y & -> & SH). exists d, x, y. split; [exact Dd|]. split; [now apply T1|]. split; [reflexivity|]. split; assumption.
Qed.
(** ** Points at infinity *)
Lemma drawn_0 : drawn_declination 0. Proof. now left. Qed.
Lemma tanDec_0 : tanDec 0 = 0. Proof. unfold tanDec. replace (0 * PI / 180) with 0 by field. apply tan_0. Qed.
Lemma equinox_visible phi H : Rabs H <= PI / 2 -> belowHorizon (sin phi) (cos phi) 0 H = false.
Proof.
  intros K. unfold belowHorizon. cbv zeta. case Req_bool_spec; intros; [reflexivity|]. rewrite Rmult_0_r, Rabs_R0, Rlt_bool_false by lra.
  rewrite acos_0. apply Rlt_bool_false. exact K.
Qed.
Lemma hour_half i : (6 <= i <= 18)%Z -> Rabs (hour_angle_of i) <= PI / 2.
Proof.
  intros [A B]. apply IZR_le in A, B. unfold hour_angle_of. pose proof PI_RGT_0. apply Rabs_le. split; nra.
Qed.
Lemma Equatorial_infinite phi a i : (6 <= i <= 18)%Z -> exists ps, In (i, ps) (fst (Equatorial phi a)) /\ In (None, None) ps.
Proof.
  intros Hi. rewrite Equatorial_fst. apply lines_point. split; [lia|]. exists 0. split; [exact drawn_0|]. rewrite tanDec_0. unfold eqPoint. rewrite (equinox_visible phi _ (hour_half i Hi)). cbv zeta.
  rewrite Rlt_bool_false by lra. unfold fdiv. rewrite Req_bool_true by reflexivity. reflexivity.
Qed.
Lemma Horizontal_infinite phi a : exists ps, In (18%Z, ps) (fst (fst (Horizontal phi a))) /\ In (None, None) ps.
Proof.
  rewrite Horizontal_fst. apply lines_point. split; [lia|]. exists 0. split; [exact drawn_0|]. rewrite tanDec_0. unfold horPoint. rewrite (equinox_visible phi _ (hour_half 18 ltac:(lia))). cbv zeta.
  replace (hour_angle_of 18) with (PI / 2) by (unfold hour_angle_of; field). rewrite cos_PI2. unfold fdiv. rewrite Req_bool_true by ring. reflexivity.
Qed.
(** ** Polar night *)
Lemma tan_obliquity : 1 / 10 < tanDec 23.44.
Proof.
  unfold tanDec. set (x := 23.44 * PI / 180). pose proof PI_RGT_0 as PP. assert (X : PI / 8 < x < PI / 4) by (unfold x; decimals; lra).
  set (t := tan (PI / 8)). assert (T8 : 1 / 10 < t).
  { assert (E : tan (2 * (PI / 8)) = 2 * tan (PI / 8) / (1 - tan (PI / 8) * tan (PI / 8))).
    { apply tan_2a; [| |].
      - apply Rgt_not_eq, cos_gt_0; lra.
      - apply Rgt_not_eq, cos_gt_0; lra.
      - fold t. assert (t < 1); [|assert (0 < t) by (apply tan_gt_0; lra); nra]. rewrite <- tan_PI4. apply tan_increasing; lra. }
    replace (2 * (PI / 8)) with (PI / 4) in E by field. rewrite tan_PI4 in E. fold t in E.
    assert (T0 : 0 < t) by (apply tan_gt_0; lra). assert (T1 : t < 1) by (rewrite <- tan_PI4; apply tan_increasing; lra).
    assert (Q : 1 - t * t = 2 * t). { apply Rmult_eq_reg_r with (/ (1 - t * t)); [|apply Rinv_neq_0_compat; nra]. rewrite Rinv_r by nra. exact E. }
    nra. }
  apply Rlt_trans with t; [exact T8|]. apply tan_increasing; lra.
Qed.
Lemma Horizontal_night a : 0 < a -> exists phi ps x y, 0 < phi < PI / 2 /\
  In (12%Z, ps) (fst (fst (Horizontal phi a))) /\ In (Some x, Some y) ps /\
  forall d, drawn_declination d -> ~ shadow 0 0 a (sun phi (rad d) (hour_angle_of 12)) x y.
Proof.
  intros Ha. set (phi := atan 100). pose proof PI_RGT_0 as PP. pose proof (atan_bound 100) as AB. fold phi in AB.
  assert (TP : tan phi = 100) by apply tan_atan. assert (C : 0 < cos phi) by (apply cos_gt_0; lra).
  assert (S : sin phi = 100 * cos phi) by (rewrite <- TP; unfold tan; field; lra).
  assert (P4 : PI / 4 < phi) by (rewrite <- atan_1; apply atan_increasing; lra).
  set (t := tanDec (- 23.44)). assert (T : t < - (1 / 10)).
  { unfold t, tanDec. replace (- 23.44 * PI / 180) with (- (23.44 * PI / 180)) by (decimals; field). rewrite tan_neg. pose proof tan_obliquity as K. unfold tanDec in K. lra. }
  assert (Dd : drawn_declination (- 23.44)) by (unfold drawn_declination; tauto).
  set (Q := cos phi * cos (hour_angle_of 12) + sin phi * t). set (Y := a * (sin phi * cos (hour_angle_of 12) - cos phi * t)).
  assert (H0 : hour_angle_of 12 = 0) by (unfold hour_angle_of; field).
  assert (QN : Q < 0) by (unfold Q; rewrite H0, cos_0, S; nra). assert (YP : 0 < Y) by (unfold Y; rewrite H0, cos_0, S; apply Rmult_lt_0_compat; nra).
  assert (PT : horPoint phi a (hour_angle_of 12) t = Some (Some (a * sin (hour_angle_of 12) / Q), Some (Y / Q))).
  { unfold horPoint. rewrite horizon_polar by (rewrite TP, Rabs_left; lra). cbv zeta. fold Q. fold Y. unfold fdiv. rewrite Req_bool_false by lra. reflexivity. }
  assert (L : exists ps, In (12%Z, ps) (linesOf (horPoint phi a)) /\ In (Some (a * sin (hour_angle_of 12) / Q), Some (Y / Q)) ps).
  { apply lines_point. split; [lia|]. exists (- 23.44). split; [exact Dd|exact PT]. }
  destruct L as (ps & L1 & L2). exists phi, ps, (a * sin (hour_angle_of 12) / Q), (Y / Q). rewrite Horizontal_fst. split; [lra|]. split; [exact L1|]. split; [exact L2|].
  intros d D (k & K & E). destruct (dec_cos d D) as [DB DC]. rewrite H0 in E. unfold vadd, on_plane, scale, axis_x, axis_y, sun, stylus, vadd in E. cbn [vx vy vz] in E. injection E as E1 _ _.
  rewrite sin_0, cos_0 in E1. 
  assert (SP : 0 < sin (phi - rad d)) by (apply sin_gt_0; lra). rewrite sin_minus in SP.
  assert (YN : Y / Q < 0). { unfold Rdiv. assert (/ Q < 0) by now apply Rinv_lt_0_compat. nra. }
  assert (0 < k * (sin phi * cos (rad d) - cos phi * sin (rad d))) by (apply Rmult_lt_0_compat; assumption). nra.
Qed.
(** The latitudes without polar day or night. *)
Lemma tanDec_bound d : drawn_declination d -> Rabs (tanDec d) <= tanDec 23.44.
Proof.
  intros D. pose proof PI_RGT_0 as PP. assert (M : forall u v, - 30 < u -> v < 30 -> u <= v -> tanDec u <= tanDec v).
  { intros u v A B K. unfold tanDec. destruct K as [K| ->]; [|lra]. left. apply tan_increasing; nra. }
  assert (N : forall u, tanDec (- u) = - tanDec u) by (intros u; unfold tanDec; replace (- u * PI / 180) with (- (u * PI / 180)) by (unfold Rdiv; ring); apply tan_neg).
  assert (B : - 23.44 <= d <= 23.44) by (destruct D as [->|[->|[->|[->|[->|[->| ->]]]]]]; decimals; lra).
  assert (X : 23.44 < 30) by (decimals; lra). apply Rabs_le. split; [rewrite <- N|]; apply M; lra.
Qed.
Lemma nonpolar_latitude phi : - (PI / 2 - rad 23.44) <= phi <= PI / 2 - rad 23.44 -> nonpolar phi.
Proof.
  intros B. pose proof PI_RGT_0 as PP. assert (D : drawn_declination 23.44) by (unfold drawn_declination; tauto). destruct (dec_cos _ D) as [DB DC].
  assert (RP : 0 < rad 23.44) by (unfold rad; decimals; lra).
  assert (TP : 0 < tanDec 23.44) by (unfold tanDec; fold (rad 23.44); apply tan_gt_0; lra).
  split; [apply cos_gt_0; lra|]. intros d Dd. pose proof (tanDec_bound d Dd) as TB.
  assert (T : Rabs (tan phi) <= / tanDec 23.44).
  { assert (E : / tanDec 23.44 = tan (PI / 2 - rad 23.44)).
    { unfold tanDec. fold (rad 23.44). unfold tan. rewrite sin_shift, cos_shift. assert (sin (rad 23.44) <> 0) by (apply Rgt_not_eq, sin_gt_0; lra). field. split; lra. }
    rewrite E. apply Rabs_le. split.
    - rewrite <- tan_neg. destruct B as [[B1|B1] B2]; [left; apply tan_increasing; lra|rewrite <- B1; lra].
    - destruct B as [B1 [B2|B2]]; [left; apply tan_increasing; lra|rewrite B2; lra]. }
  assert (K : Rabs (tan phi * tanDec d) <= 1).
  { rewrite Rabs_mult. apply Rle_trans with (/ tanDec 23.44 * tanDec 23.44); [|rewrite Rinv_l; lra]. apply Rmult_le_compat; try apply Rabs_pos; assumption. }
  now apply Rabs_le_inv in K.
Qed.
Lemma pole_stylus phi D z : dot (pole phi) (stylus D z) = genP phi D z.
Proof. unfold dot, pole, stylus, genP. cbn [vx vy vz]. ring. Qed.
Lemma General_center_pole phi D a z : 0 < a -> dot (pole phi) (stylus D z) <> 0 ->
  exists cx cy u,
    let '(_, c, uo, psi) := General phi D a z in c = (Some cx, Some cy) /\ uo = Some u /\
    (exists k, vadd (on_plane D z cx cy) (scale k (pole phi)) = scale a (stylus D z)) /\
    u = norm (vsub (scale a (stylus D z)) (on_plane D z cx cy)) /\
    0 <= psi <= PI / 2 /\ sin psi = Rabs (dot (pole phi) (stylus D z)).
Proof. intros H K. rewrite pole_stylus in K. now apply General_center. Qed.
Lemma General_Horizontal_temperate phi a : temperate phi -> phi <> 0 ->
  General phi 0 a 0 = (fst (fst (Horizontal phi a)), snd (fst (Horizontal phi a)), snd (Horizontal phi a), asin (Rabs (sin phi))).
Proof.
  intros T N. apply General_Horizontal; [now apply nonpolar_latitude|]. pose proof PI_RGT_0 as PP. unfold temperate in T.
  assert (RP : 0 < rad 23.44) by (unfold rad; decimals; lra).
  destruct (Rtotal_order phi 0) as [H|[H|H]]; [|contradiction|]; [apply Rlt_not_eq, sin_lt_0_var; lra|apply Rgt_not_eq, sin_gt_0; lra].
Qed.
Lemma genPoint_value phi D a z H td x y : genPoint phi D a z H td = Some (Some x, Some y) ->
  genQ phi D z H td <> 0 /\ x = a * genNx phi D z H td / genQ phi D z H td /\ y = a * genNy phi D z H td / genQ phi D z H td.
Proof.
  unfold genPoint. destruct (belowHorizon _ _ _ _); [discriminate|]. destruct (Rlt_bool _ _); [discriminate|]. unfold fdiv.
  case Req_bool_spec; intros Z; [discriminate|]. intros E. injection E as <- <-. auto.
Qed.
Lemma hour_lines_meet phi D a z : dot (pole phi) (stylus D z) <> 0 ->
  forall cx cy, snd (fst (fst (General phi D a z))) = (Some cx, Some cy) ->
  forall i ps x y x' y', In (i, ps) (fst (fst (fst (General phi D a z)))) -> In (Some x, Some y) ps -> In (Some x', Some y') ps ->
  (x - cx) * (y' - cy) = (x' - cx) * (y - cy).
Proof.
  intros NP cx cy C i ps x y x' y'. rewrite pole_stylus in NP. rewrite General_lines. intros L P1 P2. apply lines_In in L. destruct L as (Hi & -> & _).
  apply keep_In in P1, P2. destruct P1 as (d & _ & P1). destruct P2 as (d' & _ & P2). apply genPoint_value in P1, P2. destruct P1 as (Q1 & -> & ->). destruct P2 as (Q2 & -> & ->).
  unfold General in C. cbn [fst snd] in C. unfold fdiv in C. rewrite Req_bool_false in C by exact NP. cbn [fmulo] in C. injection C as <- <-.
  exact (hour_line_through_center phi D a z (hourAngle i) (tanDec d) (tanDec d') NP Q1 Q2).
Qed.

(** ** Every latitude but the poles *)
Lemma horizon_any phi d H : 0 < cos phi -> - PI <= H <= PI -> drawn_declination d ->
  if belowHorizon (sin phi) (cos phi) (tanDec d) H then ~ up (sun phi (rad d) H) else up (sun phi (rad d) H) \/ polar_night phi d.
Proof.
  intros C HH Dd. assert (TP : sin phi = tan phi * cos phi) by (unfold tan; field; lra).
  destruct (Rle_dec (-1) (tan phi * tanDec d)) as [A|A]; [destruct (Rle_dec (tan phi * tanDec d) 1) as [B|B]|].
  - rewrite horizon_test by lra. case Rlt_bool_spec; intros K; rewrite up_iff by exact Dd; [lra|now left].
  - assert (F : belowHorizon (sin phi) (cos phi) (tanDec d) H = false).
    { unfold belowHorizon. cbv zeta. rewrite Req_bool_false by lra. change (sin phi / cos phi) with (tan phi). rewrite Rlt_bool_true; [reflexivity|]. rewrite Rabs_left; lra. }
    rewrite F. left. rewrite up_iff by exact Dd. rewrite TP. pose proof (COS_bound H). nra.
  - assert (F : belowHorizon (sin phi) (cos phi) (tanDec d) H = false).
    { unfold belowHorizon. cbv zeta. rewrite Req_bool_false by lra. change (sin phi / cos phi) with (tan phi). rewrite Rlt_bool_true; [reflexivity|]. rewrite Rabs_pos_eq; lra. }
    rewrite F. right. intros H'. rewrite up_iff by exact Dd. rewrite TP. pose proof (COS_bound H'). nra.
Qed.
Lemma genPoint_any phi D a z i d p : 0 < cos phi -> 0 < a -> (0 <= i < 24)%Z -> drawn_declination d ->
  genPoint phi D a z (hour_angle_of i) (tanDec d) = Some p ->
  let s := sun phi (rad d) (hour_angle_of i) in
  (up s \/ polar_night phi d) /\ faces D z s /\
  (0 < dot s (stylus D z) -> exists x y, p = (Some x, Some y) /\ shadow D z a s x y) /\
  (dot s (stylus D z) = 0 -> p = (None, None)).
Proof.
  intros CP Ha Hi Dd E s. pose proof (hour_range i Hi) as HR. destruct (dec_cos d Dd) as [_ C]. unfold genPoint in E.
  pose proof (horizon_any phi d (hour_angle_of i) CP (conj (proj1 HR) (Rlt_le _ _ (proj2 HR))) Dd) as HA. destruct (belowHorizon _ _ _ _); [discriminate|]. revert E. case Rlt_bool_spec; intros E2; [discriminate|]. intros E. injection E as <-.
  split; [exact HA|]. split; [unfold s; now apply faces_iff|]. unfold s. rewrite sun_stylus by lra. set (Q := genQ phi D z (hour_angle_of i) (tanDec d)) in *. split; intros K.
  - assert (QP : 0 < Q) by nra. unfold fdiv. rewrite !Req_bool_false by lra. eexists _, _. split; [reflexivity|]. now apply shadow_point.
  - assert (QZ : Q = 0) by nra. unfold fdiv. now rewrite !Req_bool_true by exact QZ.
Qed.
Lemma lat_cos phi : - (PI / 2) < phi < PI / 2 -> 0 < cos phi. Proof. intros H. apply cos_gt_0; lra. Qed.
Lemma General_points_any phi D a z : - (PI / 2) < phi < PI / 2 -> 0 < a ->
  forall i p, (exists ps, In (i, ps) (fst (fst (fst (General phi D a z)))) /\ In p ps) ->
  (0 <= i < 24)%Z /\ exists d, drawn_declination d /\
  let s := sun phi (rad d) (hour_angle_of i) in
  (up s \/ polar_night phi d) /\ faces D z s /\
  (0 < dot s (stylus D z) -> exists x y, p = (Some x, Some y) /\ shadow D z a s x y) /\
  (dot s (stylus D z) = 0 -> p = (None, None)).
Proof.
  intros L Ha i p K. rewrite General_lines in K. apply lines_point in K. destruct K as (Hi & d & Dd & E). split; [exact Hi|]. exists d. split; [exact Dd|]. now apply (genPoint_any phi D a z i d p (lat_cos phi L)).
Qed.
Lemma General_complete_any phi D a z : - (PI / 2) < phi < PI / 2 -> 0 < a ->
  forall i d, (0 <= i < 24)%Z -> drawn_declination d ->
  let s := sun phi (rad d) (hour_angle_of i) in
  up s \/ polar_night phi d -> 0 < dot s (stylus D z) ->
  exists ps x y, In (i, ps) (fst (fst (fst (General phi D a z)))) /\ In (Some x, Some y) ps /\ shadow D z a s x y.
Proof.
  intros L Ha i d Hi Dd s U F. rewrite General_lines. assert (F' : faces D z s) by (unfold faces; lra). pose proof (lat_cos phi L) as CP. pose proof (hour_range i Hi) as HR.
  destruct (genPoint phi D a z (hour_angle_of i) (tanDec d)) as [p|] eqn:E.
  - destruct (genPoint_any phi D a z i d p CP Ha Hi Dd E) as (_ & _ & K & _). destruct (K F) as (x & y & -> & S).
    assert (G : exists ps, In (i, ps) (linesOf (genPoint phi D a z)) /\ In (Some x, Some y) ps) by (apply lines_point; split; [exact Hi|]; exists d; auto).
    destruct G as (ps & L1 & L2). exists ps, x, y. auto.
  - exfalso. unfold genPoint in E. pose proof (horizon_any phi d (hour_angle_of i) CP (conj (proj1 HR) (Rlt_le _ _ (proj2 HR))) Dd) as HA. apply faces_iff in F'; [|exact Dd].
    assert (NB : belowHorizon (sin phi) (cos phi) (tanDec d) (hour_angle_of i) = false).
    { destruct U as [U|N]; [destruct (belowHorizon _ _ _ _); [contradiction|reflexivity]|]. unfold belowHorizon. cbv zeta. rewrite Req_bool_false by lra. change (sin phi / cos phi) with (tan phi). rewrite Rlt_bool_true; [reflexivity|].
      specialize (N 0). rewrite up_iff in N by exact Dd. rewrite cos_0 in N. assert (TP : sin phi = tan phi * cos phi) by (unfold tan; field; lra). rewrite TP in N. assert (tan phi * tanDec d < -1) by nra. rewrite Rabs_pos_eq; lra. }
    rewrite NB in E. rewrite Rlt_bool_false in E by lra. discriminate.
Qed.
Lemma Horizontal_points_any phi a : - (PI / 2) < phi < PI / 2 -> 0 < a ->
  forall i p, (exists ps, In (i, ps) (fst (fst (Horizontal phi a))) /\ In p ps) ->
  (0 <= i < 24)%Z /\ exists d, drawn_declination d /\
  let s := sun phi (rad d) (hour_angle_of i) in
  (up s /\ (0 < dot s zenith -> exists x y, p = (Some x, Some y) /\ shadow 0 0 a s x y) /\ (dot s zenith = 0 -> p = (None, None))) \/ polar_night phi d.
Proof.
  intros L Ha i p K. pose proof (lat_cos phi L) as CP. rewrite Horizontal_fst in K. apply lines_point in K. destruct K as (Hi & d & Dd & E). split; [exact Hi|]. exists d. split; [exact Dd|]. intros s. pose proof (hour_range i Hi) as HR.
  pose proof (horizon_any phi d (hour_angle_of i) CP (conj (proj1 HR) (Rlt_le _ _ (proj2 HR))) Dd) as HA. unfold horPoint in E. cbv zeta in E. destruct (belowHorizon (sin phi) (cos phi) (tanDec d) (hour_angle_of i)) eqn:B; [discriminate|]. destruct HA as [U|N]; [left|right; exact N].
  split; [exact U|]. assert (Z0 : stylus 0 0 = zenith) by (unfold stylus, zenith; rewrite sin_0, cos_0; f_equal; ring).
  assert (EG : genPoint phi 0 a 0 (hour_angle_of i) (tanDec d) = Some p).
  { unfold genPoint. rewrite B. replace (genQ phi 0 0 (hour_angle_of i) (tanDec d)) with (cos phi * cos (hour_angle_of i) + sin phi * tanDec d) by (unfold genQ, genP; rewrite cos_0, sin_0; ring).
    replace (genNx phi 0 0 (hour_angle_of i) (tanDec d)) with (sin (hour_angle_of i)) by (unfold genNx; rewrite cos_0, sin_0; ring). replace (genNy phi 0 0 (hour_angle_of i) (tanDec d)) with (sin phi * cos (hour_angle_of i) - cos phi * tanDec d) by (unfold genNy; rewrite cos_0, sin_0; ring).
    apply up_iff in U; [|exact Dd]. rewrite Rlt_bool_false by exact U. exact E. }
  destruct (genPoint_any phi 0 a 0 i d p CP Ha Hi Dd EG) as (_ & _ & V & W). rewrite Z0 in V, W. split; assumption.
Qed.
Lemma Equatorial_south_any phi a : - (PI / 2) < phi < PI / 2 -> 0 < a ->
  forall i p, (exists ps, In (i, ps) (snd (Equatorial phi a)) /\ In p ps) ->
  (0 <= i < 24)%Z /\ exists d x y, drawn_declination d /\ d < 0 /\ p = (Some x, Some y) /\
  let s := sun phi (rad d) (hour_angle_of i) in (up s \/ polar_night phi d) /\ shadow 0 (PI / 2 + phi) a s x y.
Proof.
  intros L Ha i p K. rewrite Equatorial_snd in K. apply lines_point in K. destruct K as (Hi & d & Dd & E). split; [exact Hi|].
  destruct (tanDec_sign d Dd) as [T0 T1]. destruct (dec_cos d Dd) as [_ C].
  assert (NEG : tanDec d < 0).
  { unfold eqPoint in E. cbv zeta in E. destruct (belowHorizon _ _ _ _); [discriminate|]. revert E. case Rlt_bool_spec; intros; [assumption|discriminate]. }
  rewrite eqSouth_point in E by lra. destruct (genPoint_any phi 0 a (PI / 2 + phi) i d p (lat_cos phi L) Ha Hi Dd E) as (U & F & V & _).
  assert (POS : 0 < dot (sun phi (rad d) (hour_angle_of i)) (stylus 0 (PI / 2 + phi))).
  { rewrite sun_stylus by lra. apply Rmult_lt_0_compat; [exact C|]. unfold genQ, genP. rewrite cos_0, sin_0. rewrite (Rplus_comm (PI / 2)), sin_plus, cos_plus, sin_PI2, cos_PI2. pose proof (sc1 phi) as SC.
    replace (_ + _ + _) with (- tanDec d * (sin phi * sin phi + cos phi * cos phi)) by ring. rewrite SC. lra. }
  destruct (V POS) as (x & y & -> & SH). exists d, x, y. split; [exact Dd|]. split; [now apply T1|]. split; [reflexivity|]. split; assumption.
Qed.
Lemma polar_night_exists : exists phi d, 0 < phi < PI / 2 /\ drawn_declination d /\ polar_night phi d.
Proof.
  exists (atan 100), (- 23.44). pose proof PI_RGT_0 as PP. pose proof (atan_bound 100) as AB.
  assert (TP : tan (atan 100) = 100) by apply tan_atan. assert (C : 0 < cos (atan 100)) by (apply cos_gt_0; lra).
  assert (S1 : sin (atan 100) = 100 * cos (atan 100)) by (rewrite <- TP at 2; unfold tan; field; lra).
  assert (P4 : 0 < atan 100) by (rewrite <- atan_0; apply atan_increasing; lra).
  assert (Dd : drawn_declination (- 23.44)) by (unfold drawn_declination; tauto).
  assert (T : tanDec (- 23.44) < - (1 / 10)).
  { unfold tanDec. replace (- 23.44 * PI / 180) with (- (23.44 * PI / 180)) by (decimals; field). rewrite tan_neg. pose proof tan_obliquity as K. unfold tanDec in K. lra. }
  split; [lra|]. split; [exact Dd|]. intros H. rewrite up_iff by exact Dd. rewrite S1. pose proof (COS_bound H). nra.
Qed.
Lemma Horizontal_complete_any phi a : - (PI / 2) < phi < PI / 2 -> 0 < a ->
  forall i d, (0 <= i < 24)%Z -> drawn_declination d ->
  let s := sun phi (rad d) (hour_angle_of i) in 0 < dot s zenith ->
  exists ps x y, In (i, ps) (fst (fst (Horizontal phi a))) /\ In (Some x, Some y) ps /\ shadow 0 0 a s x y.
Proof.
  intros L Ha i d Hi Dd s F. assert (Z0 : stylus 0 0 = zenith) by (unfold stylus, zenith; rewrite sin_0, cos_0; f_equal; ring).
  assert (U : up s) by (unfold up; lra). rewrite <- Z0 in F. pose proof (lat_cos phi L) as CP. pose proof (hour_range i Hi) as HR.
  destruct (horPoint phi a (hour_angle_of i) (tanDec d)) as [p|] eqn:E.
  - assert (G : exists ps, In (i, ps) (fst (fst (Horizontal phi a))) /\ In p ps) by (rewrite Horizontal_fst; apply lines_point; split; [exact Hi|]; exists d; auto).
    assert (EG : genPoint phi 0 a 0 (hour_angle_of i) (tanDec d) = Some p).
    { unfold horPoint in E. cbv zeta in E. unfold genPoint. destruct (belowHorizon (sin phi) (cos phi) (tanDec d) (hour_angle_of i)) eqn:B; [discriminate|]. replace (genQ phi 0 0 (hour_angle_of i) (tanDec d)) with (cos phi * cos (hour_angle_of i) + sin phi * tanDec d) by (unfold genQ, genP; rewrite cos_0, sin_0; ring).
      replace (genNx phi 0 0 (hour_angle_of i) (tanDec d)) with (sin (hour_angle_of i)) by (unfold genNx; rewrite cos_0, sin_0; ring). replace (genNy phi 0 0 (hour_angle_of i) (tanDec d)) with (sin phi * cos (hour_angle_of i) - cos phi * tanDec d) by (unfold genNy; rewrite cos_0, sin_0; ring).
      apply up_iff in U; [|exact Dd]. rewrite Rlt_bool_false by exact U. exact E. }
    destruct (genPoint_any phi 0 a 0 i d p CP Ha Hi Dd EG) as (_ & _ & V & _). destruct (V F) as (x & y & -> & SH). destruct G as (ps & G1 & G2). exists ps, x, y. auto.
  - exfalso. unfold horPoint in E. pose proof (horizon_any phi d (hour_angle_of i) CP (conj (proj1 HR) (Rlt_le _ _ (proj2 HR))) Dd) as HA. cbv zeta in E. destruct (belowHorizon _ _ _ _); [contradiction|discriminate].
Qed.
