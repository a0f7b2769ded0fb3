(** Lemmas for P_apparent: vectors and their norms, the terms of the Ron-Vondrak expression. *)
From Coq Require Import ZArith Reals List Lra Lia Psatz.
From Verif Require Import GoFloat GoMath M_base M_precess M_solar M_apparent S_Sphere S_precess S_solar S_apparent L_trig L_precess L_solar.
Import ListNotations.
Local Open Scope R_scope.

(** ** norms *)
Lemma dot_pos u : 0 <= dot u u.
Proof. unfold dot. nra. Qed.
Lemma norm_pos0 u : 0 <= norm u. Proof. apply sqrt_pos. Qed.
Lemma norm2 u : norm u * norm u = dot u u. Proof. apply sqrt_sqrt, dot_pos. Qed.
Lemma norm_le u k : 0 <= k -> dot u u <= k * k -> norm u <= k.
Proof. intros A B. rewrite <- (sqrt_square k A). apply sqrt_le_1_alt, B. Qed.
Lemma cauchy u v : Rabs (dot u v) <= norm u * norm v.
Proof.
  rewrite <- (Rabs_pos_eq (norm u * norm v)) by (apply Rmult_le_pos; apply norm_pos0). apply Rsqr_le_abs_0. unfold Rsqr.
  replace (norm u * norm v * (norm u * norm v)) with (dot u u * dot v v) by (rewrite <- !norm2; ring).
  destruct u as [a b c], v as [d e f]. unfold dot. cbn [vx vy vz].
  pose proof (Rle_0_sqr (a * e - b * d)). pose proof (Rle_0_sqr (a * f - c * d)). pose proof (Rle_0_sqr (b * f - c * e)). unfold Rsqr in *. nra.
Qed.
Lemma norm_add u v : norm (vadd u v) <= norm u + norm v.
Proof.
  pose proof (norm_pos0 u). pose proof (norm_pos0 v). apply norm_le; [lra|].
  pose proof (cauchy u v) as C. pose proof (Rle_abs (dot u v)). pose proof (norm2 u). pose proof (norm2 v).
  replace (dot (vadd u v) (vadd u v)) with (dot u u + 2 * dot u v + dot v v) by (unfold dot, vadd; cbn [vx vy vz]; ring). nra.
Qed.
Lemma norm_opp1 v : norm (scale (-1) v) = norm v.
Proof. unfold norm. f_equal. unfold dot, scale. cbn [vx vy vz]. ring. Qed.
Lemma norm_sub3 u v w : norm (vsub u w) <= norm (vsub u v) + norm (vsub v w).
Proof.
  eapply Rle_trans; [|apply norm_add]. right. f_equal. destruct u as [u1 u2 u3], v as [v1 v2 v3], w as [w1 w2 w3]. unfold vsub, vadd, scale. cbn [vx vy vz]. f_equal; ring.
Qed.
Lemma norm_scale k v : norm (scale k v) = Rabs k * norm v.
Proof.
  unfold norm. rewrite <- (sqrt_Rsqr_abs k), <- sqrt_mult_alt by apply Rle_0_sqr. f_equal. unfold Rsqr, dot, scale. cbn [vx vy vz]. ring.
Qed.
Lemma norm_xyz x y z : norm (mkvec x y z) <= Rabs x + Rabs y + Rabs z.
Proof.
  pose proof (Rabs_pos x). pose proof (Rabs_pos y). pose proof (Rabs_pos z). apply norm_le; [lra|].
  unfold dot. cbn [vx vy vz]. pose proof (Rsqr_abs x). pose proof (Rsqr_abs y). pose proof (Rsqr_abs z). unfold Rsqr in *. nra.
Qed.

(** ** one row *)
Definition zq (q : rvq) : (Z * Z) * (Z * Z) := let '(a, a', b, b') := q in ((a, b), (a', b')).
(** The square N of the greatest length of a sin A + b cos A. *)
Definition gram (a b : Z * Z * Z) (N : Z) : bool :=
  let '(a1, a2, a3) := a in let '(b1, b2, b3) := b in
  let p := (a1 * a1 + a2 * a2 + a3 * a3)%Z in let q := (b1 * b1 + b2 * b2 + b3 * b3)%Z in
  let r := (a1 * b1 + a2 * b2 + a3 * b3)%Z in
  (0 <=? N)%Z && (p <=? N * N)%Z && (q <=? N * N)%Z && (r * r <=? (N * N - p) * (N * N - q))%Z.
Lemma gram_spec a b N s c : gram a b N = true -> s * s + c * c = 1 ->
  let '(a1, a2, a3) := a in let '(b1, b2, b3) := b in
  norm (mkvec (IZR a1 * s + IZR b1 * c) (IZR a2 * s + IZR b2 * c) (IZR a3 * s + IZR b3 * c)) <= IZR N.
Proof.
  destruct a as [[a1 a2] a3], b as [[b1 b2] b3]. unfold gram. intros H E.
  apply andb_prop in H as [H H4]. apply andb_prop in H as [H H3]. apply andb_prop in H as [H1 H2].
  apply Z.leb_le in H1, H2, H3, H4. apply IZR_le in H1, H2, H3, H4.
  repeat rewrite ?mult_IZR, ?plus_IZR, ?minus_IZR in *. apply norm_le; [exact H1|]. unfold dot. cbn [vx vy vz].
  set (p := IZR a1 * IZR a1 + IZR a2 * IZR a2 + IZR a3 * IZR a3) in *. set (q := IZR b1 * IZR b1 + IZR b2 * IZR b2 + IZR b3 * IZR b3) in *.
  set (r := IZR a1 * IZR b1 + IZR a2 * IZR b2 + IZR a3 * IZR b3) in *.
  apply Rle_trans with (p * s * s + 2 * r * s * c + q * c * c). { right. unfold p, q, r. ring. }
  clearbody p q r. clear - H2 H3 H4 E. set (M := IZR N * IZR N) in *. clearbody M.
  assert (0 <= (M - p) * (s * s) - 2 * r * s * c + (M - q) * (c * c)); [|assert (M * (s * s + c * c) = M) by (rewrite E; ring); lra].
  destruct (Req_dec (M - p) 0) as [Z|Z].
  - rewrite Z in *. assert (r = 0) by nra. subst r. nra.
  - assert (0 < M - p) by lra. assert (0 <= (M - p) * ((M - p) * (s * s) - 2 * r * s * c + (M - q) * (c * c))); [|nra].
    replace ((M - p) * ((M - p) * (s * s) - 2 * r * s * c + (M - q) * (c * c))) with (((M - p) * s - r * c) * ((M - p) * s - r * c) + ((M - p) * (M - q) - r * r) * (c * c)) by ring.
    pose proof (Rle_0_sqr ((M - p) * s - r * c)). pose proof (Rle_0_sqr c). unfold Rsqr in *. nra.
Qed.
(** Bounds of the constant part and of the part with T. *)
Definition row_ok (row : rvrow) (n : Z * Z) : bool :=
  let '(_, ((a1, a1', b1, b1'), (a2, a2', b2, b2'), (a3, a3', b3, b3'))) := row in
  gram (a1, a2, a3) (b1, b2, b3) (fst n) && gram (a1', a2', a3') (b1', b2', b3') (snd n).
Lemma row_spec T row n : row_ok row n = true -> norm (vec_of (rv_value T row)) <= IZR (fst n) + Rabs T * IZR (snd n).
Proof.
  destruct row as [m [[[[[a1 a1'] b1] b1'] [[[a2 a2'] b2] b2']] [[[a3 a3'] b3] b3']]]. unfold row_ok. intros H. apply andb_prop in H as [H1 H2].
  unfold rv_value, rv_coord, vec_of. set (A := rv_arg m (rv_args T)). clearbody A.
  pose proof (gram_spec _ _ _ (sin A) (cos A) H1 (sc1 A)) as G1. pose proof (gram_spec _ _ _ (sin A) (cos A) H2 (sc1 A)) as G2. cbn beta iota in G1, G2. clear H1 H2.
  match type of G1 with norm ?u <= _ => match type of G2 with norm ?v <= _ =>
    apply Rle_trans with (norm (vadd u (scale T v))) end end.
  - right. f_equal. unfold vadd, scale. cbn [vx vy vz]. f_equal; ring.
  - eapply Rle_trans; [apply norm_add|]. rewrite norm_scale. pose proof (Rabs_pos T). nra.
Qed.
Definition vsum (l : list vec) : vec := fold_right vadd vzero l.
Lemma vadd_comm u v : vadd u v = vadd v u. Proof. unfold vadd. f_equal; ring. Qed.
Lemma vadd_assoc u v w : vadd u (vadd v w) = vadd (vadd u v) w. Proof. unfold vadd. cbn [vx vy vz]. f_equal; ring. Qed.
Lemma rv_fold T l s : vec_of (fold_left (fun s row => let '(x, y, z) := s in let '(dx, dy, dz) := rv_value T row in (x + dx, y + dy, z + dz)) l s)
  = vadd (vec_of s) (vsum (map (fun row => vec_of (rv_value T row)) l)).
Proof.
  revert s. induction l as [|row l IH]; intros [[x y] z]; cbn [fold_left map vsum fold_right].
  - unfold vadd, vzero. cbn. f_equal; ring.
  - rewrite IH. destruct (rv_value T row) as [[dx dy] dz]. rewrite vadd_assoc. reflexivity.
Qed.
Lemma vsum_app l l' : vsum (l ++ l') = vadd (vsum l) (vsum l').
Proof. unfold vsum. induction l as [|v l IH]; cbn. { unfold vadd, vzero. destruct (fold_right _ _ _) as [u1 u2 u3]. cbn. f_equal; ring. } rewrite IH. apply vadd_assoc. Qed.
Lemma vsum_rev l : vsum (rev l) = vsum l.
Proof. induction l as [|v l IH]; cbn [rev]; [reflexivity|]. rewrite vsum_app, IH, vadd_comm. cbn. f_equal. unfold vadd, vzero. destruct v as [v1 v2 v3]. cbn. f_equal; ring. Qed.
Lemma rv_sum_vsum T : vec_of (rv_sum T) = vsum (map (fun row => vec_of (rv_value T row)) rvTerm).
Proof. unfold rv_sum. rewrite rv_fold, map_rev, vsum_rev. set (l := map _ rvTerm). clearbody l. destruct (vsum l) as [u1 u2 u3]. unfold vec_of, vadd. cbn. f_equal; ring. Qed.
Lemma rows_bound T l ns : Rabs T <= 1 -> forallb (fun p => row_ok (fst p) (snd p)) (combine l ns) = true -> length ns = length l ->
  norm (vsum (map (fun row => vec_of (rv_value T row)) l)) <= IZR (fold_right Z.add 0%Z (map (fun n => fst n + snd n)%Z ns)).
Proof.
  intros HT. revert ns. induction l as [|row l IH]; intros [|n ns] H L; try discriminate.
  - cbn. unfold norm, vzero, dot. cbn. replace (0 * 0 + 0 * 0 + 0 * 0) with 0 by ring. rewrite sqrt_0. lra.
  - cbn [combine forallb fst snd] in H. apply andb_prop in H as [H1 H2]. injection L as L. cbn [map vsum fold_right]. eapply Rle_trans; [apply norm_add|].
    specialize (IH ns H2 L). fold (vsum (map (fun row => vec_of (rv_value T row)) l)).
    pose proof (row_spec T row n H1) as A. rewrite !plus_IZR.
    assert (0 <= IZR (snd n)). { clear - H1. unfold row_ok in H1. destruct row as [m [[[[[a1 a1'] b1] b1'] [[[a2 a2'] b2] b2']] [[[a3 a3'] b3] b3']]]. apply andb_prop in H1 as [_ H]. unfold gram in H.
      apply andb_prop in H as [H _]. apply andb_prop in H as [H _]. apply andb_prop in H as [H _]. apply Z.leb_le in H. apply IZR_le, H. }
    pose proof (Rabs_pos T). nra.
Qed.
