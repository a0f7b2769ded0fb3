(** Lemmas for C62: the series of Length4 converges to the length of the ellipse; Length1 is shorter, Length2 longer. *)
From Coq Require Import Reals Lra Lia Psatz Ranalysis RiemannInt.
From Verif Require Import GoMath S_ellipse M_orbit L_trig L_orbit2.
Local Open Scope R_scope.

(** ** The coefficients of the square root of 1 - z *)
Fixpoint dc (n : nat) : R := match n with O => 1 | S k => dc k * ((INR k - / 2) / (INR k + 1)) end.
Lemma dc_S k : (INR k + 1) * dc (S k) = (INR k - / 2) * dc k.
Proof. cbn [dc]. pose proof (pos_INR k). field. lra. Qed.
Lemma dc_neg k : dc (S k) < 0.
Proof.
  induction k as [|k IH]. { cbn. lra. }
  change (dc (S (S k))) with (dc (S k) * ((INR (S k) - / 2) / (INR (S k) + 1))). rewrite S_INR. pose proof (pos_INR k). assert (0 < (INR k + 1 - / 2) / (INR k + 1 + 1)) by (apply Rdiv_lt_0_compat; lra). nra.
Qed.
Fixpoint psum (f : nat -> R) (n : nat) : R := match n with O => f O | S k => psum f k + f (S k) end.
Lemma psum_ext f g n : (forall k, (k <= n)%nat -> f k = g k) -> psum f n = psum g n.
Proof. induction n as [|n IH]; intros H; cbn [psum]; [apply H; lia|]. rewrite IH, H by (intros; try apply H; lia). reflexivity. Qed.
Lemma psum_le f g n : (forall k, (k <= n)%nat -> f k <= g k) -> psum f n <= psum g n.
Proof. induction n as [|n IH]; intros H; cbn [psum]; [apply H; lia|]. apply Rplus_le_compat; [apply IH; intros; apply H; lia|apply H; lia]. Qed.
Lemma psum_scal c f n : psum (fun k => c * f k) n = c * psum f n.
Proof. induction n as [|n IH]; cbn [psum]; [reflexivity|]. rewrite IH. ring. Qed.
Lemma psum_plus f g n : psum (fun k => f k + g k) n = psum f n + psum g n.
Proof. induction n as [|n IH]; cbn [psum]; [reflexivity|]. rewrite IH. ring. Qed.
Lemma psum_head f n : psum f (S n) = f O + psum (fun k => f (S k)) n.
Proof. induction n as [|n IH]; [reflexivity|]. change (psum f (S (S n))) with (psum f (S n) + f (S (S n))). rewrite IH. cbn [psum]. ring. Qed.
Lemma psum_rev f n : psum f n = psum (fun k => f (n - k)%nat) n.
Proof.
  revert f. induction n as [|n IH]; intros f; [reflexivity|]. rewrite psum_head. rewrite (IH (fun k => f (S k))). cbn [psum]. rewrite Nat.sub_diag. rewrite Rplus_comm. f_equal.
  apply psum_ext. intros k Hk. f_equal. lia.
Qed.
(** The partial sums at z = 1, and the sum of the absolute values. *)
Lemma dc_sum n : psum dc n = - 2 * (INR n + 1) * dc (S n).
Proof.
  induction n as [|n IH]. { cbn. lra. }
  cbn [psum]. rewrite IH. pose proof (dc_S (S n)) as E. rewrite S_INR in *. lra.
Qed.
Lemma dc_abs_sum n : psum (fun k => Rabs (dc k)) n = 2 - psum dc n.
Proof.
  induction n as [|n IH]; cbn [psum]. { cbn. rewrite Rabs_R1. lra. } rewrite IH, Rabs_left by apply dc_neg. lra.
Qed.
Lemma dc_sum_pos n : 0 < psum dc n.
Proof. rewrite dc_sum. pose proof (dc_neg n). pose proof (pos_INR n). nra. Qed.
Lemma dc_abs_sum_le n : psum (fun k => Rabs (dc k)) n <= 2.
Proof. rewrite dc_abs_sum. pose proof (dc_sum_pos n). lra. Qed.
(** The square of the series is 1 - z. *)
Definition conv (k : nat) : R := psum (fun i => dc i * dc (k - i)) k.
Lemma conv_weighted k : 2 * psum (fun i => INR i * (dc i * dc (k - i))) k = INR k * conv k.
Proof.
  unfold conv. assert (E : psum (fun i => INR i * (dc i * dc (k - i))) k = psum (fun i => INR (k - i) * (dc i * dc (k - i))) k).
  { rewrite psum_rev at 1. apply psum_ext. intros i Hi. replace (k - (k - i))%nat with i by lia. ring. }
  replace (2 * psum (fun i => INR i * (dc i * dc (k - i))) k) with (psum (fun i => INR i * (dc i * dc (k - i))) k + psum (fun i => INR (k - i) * (dc i * dc (k - i))) k) by lra.
  rewrite <- psum_plus, <- psum_scal. apply psum_ext. intros i Hi. rewrite <- Rmult_plus_distr_r, <- plus_INR. do 2 f_equal. lia.
Qed.
Lemma conv_S k : (INR k + 1) * conv (S k) = (INR k - 1) * conv k.
Proof.
  rewrite <- S_INR, <- conv_weighted, psum_head. change (INR 0) with 0. rewrite Rmult_0_l, Rplus_0_l.
  rewrite (psum_ext _ (fun j => INR j * (dc j * dc (k - j)) + (- / 2) * (dc j * dc (k - j)))).
  - rewrite psum_plus, psum_scal. fold (conv k). pose proof (conv_weighted k). lra.
  - intros j Hj. replace (S k - S j)%nat with (k - j)%nat by lia. rewrite S_INR. pose proof (dc_S j) as E. rewrite <- Rmult_assoc, E. ring.
Qed.
Lemma conv_0 : conv 0 = 1. Proof. unfold conv. cbn. lra. Qed.
Lemma conv_1 : conv 1 = -1. Proof. unfold conv. cbn. lra. Qed.
Lemma conv_SS k : conv (S (S k)) = 0.
Proof.
  induction k as [|k IH].
  - pose proof (conv_S 1) as E. cbn [INR] in E. replace (1 - 1) with 0 in E by ring. rewrite Rmult_0_l in E. lra.
  - pose proof (conv_S (S (S k))) as E. rewrite IH, Rmult_0_r in E. pose proof (pos_INR (S (S k))). nra.
Qed.

(** ** Complex numbers *)
Definition cx := (R * R)%type.
Definition cadd (p q : cx) : cx := (fst p + fst q, snd p + snd q).
Definition cmul (p q : cx) : cx := (fst p * fst q - snd p * snd q, fst p * snd q + snd p * fst q).
Definition copp (p : cx) : cx := (- fst p, - snd p).
Definition csub (p q : cx) : cx := cadd p (copp q).
Definition creal (x : R) : cx := (x, 0).
Lemma c_ring : ring_theory (creal 0) (creal 1) cadd cmul csub copp (@eq cx).
Proof. split; intros; repeat match goal with x : cx |- _ => destruct x end; unfold csub, cadd, cmul, copp, creal; cbn [fst snd]; f_equal; ring. Qed.
Add Ring c_ring_inst : c_ring.
Definition n1 (p : cx) : R := Rabs (fst p) + Rabs (snd p).
Definition nn (p : cx) : R := fst p * fst p + snd p * snd p.
Lemma n1_add p q : n1 (cadd p q) <= n1 p + n1 q.
Proof. unfold n1, cadd. cbn [fst snd]. pose proof (Rabs_triang (fst p) (fst q)). pose proof (Rabs_triang (snd p) (snd q)). lra. Qed.
Lemma n1_scal c p : n1 (cmul (creal c) p) = Rabs c * n1 p.
Proof. unfold n1, cmul, creal. cbn [fst snd]. replace (c * fst p - 0 * snd p) with (c * fst p) by ring. replace (c * snd p + 0 * fst p) with (c * snd p) by ring. rewrite !Rabs_mult. ring. Qed.
Lemma nn_mul p q : nn (cmul p q) = nn p * nn q.
Proof. unfold nn, cmul. cbn [fst snd]. ring. Qed.
Lemma nn_pos p : 0 <= nn p. Proof. unfold nn. pose proof (Rle_0_sqr (fst p)). pose proof (Rle_0_sqr (snd p)). unfold Rsqr in *. lra. Qed.
Lemma n1_pos p : 0 <= n1 p. Proof. unfold n1. pose proof (Rabs_pos (fst p)). pose proof (Rabs_pos (snd p)). lra. Qed.
Lemma norm_add p q : sqrt (nn (cadd p q)) <= sqrt (nn p) + n1 q.
Proof.
  pose proof (n1_pos q) as N. pose proof (nn_pos p) as P. pose proof (sqrt_pos (nn p)) as S0. pose proof (sqrt_sqrt _ P) as E. set (w := sqrt (nn p)) in *.
  rewrite <- (sqrt_Rsqr (w + n1 q)) by lra. apply sqrt_le_1_alt. unfold Rsqr.
  assert (A : Rabs (fst p) <= w) by (unfold w; rewrite <- sqrt_Rsqr_abs; apply sqrt_le_1_alt; unfold nn, Rsqr; pose proof (Rle_0_sqr (snd p)); unfold Rsqr in *; lra).
  assert (B : Rabs (snd p) <= w) by (unfold w; rewrite <- sqrt_Rsqr_abs; apply sqrt_le_1_alt; unfold nn, Rsqr; pose proof (Rle_0_sqr (fst p)); unfold Rsqr in *; lra).
  unfold nn, cadd in *. cbn [fst snd]. unfold n1 in *. set (x := fst p) in *. set (y := snd p) in *. set (u := fst q) in *. set (v := snd q) in *. clearbody w x y u v.
  assert (X : x * u <= w * Rabs u). { eapply Rle_trans; [apply Rle_abs|]. rewrite Rabs_mult. apply Rmult_le_compat_r; [apply Rabs_pos|exact A]. }
  assert (Y : y * v <= w * Rabs v). { eapply Rle_trans; [apply Rle_abs|]. rewrite Rabs_mult. apply Rmult_le_compat_r; [apply Rabs_pos|exact B]. }
  assert (U : u * u = Rabs u * Rabs u) by (rewrite <- Rabs_mult, Rabs_pos_eq; [reflexivity|apply Rle_0_sqr]). assert (V : v * v = Rabs v * Rabs v) by (rewrite <- Rabs_mult, Rabs_pos_eq; [reflexivity|apply Rle_0_sqr]).
  pose proof (Rabs_pos u). pose proof (Rabs_pos v). nra.
Qed.
Lemma norm_diff p q : Rabs (sqrt (nn (cadd p q)) - sqrt (nn p)) <= n1 q.
Proof.
  apply Rabs_le. pose proof (norm_add p q). pose proof (norm_add (cadd p q) (copp q)) as B. replace (cadd (cadd p q) (copp q)) with p in B by ring.
  assert (E : n1 (copp q) = n1 q) by (unfold n1, copp; cbn [fst snd]; rewrite !Rabs_Ropp; reflexivity). lra.
Qed.
Fixpoint csum (f : nat -> cx) (n : nat) : cx := match n with O => f O | S k => cadd (csum f k) (f (S k)) end.
Lemma csum_ext f g n : (forall k, (k <= n)%nat -> f k = g k) -> csum f n = csum g n.
Proof. induction n as [|n IH]; intros H; cbn [csum]; [apply H; lia|]. rewrite IH, H by (intros; try apply H; lia). reflexivity. Qed.
Lemma csum_add f g n : csum (fun k => cadd (f k) (g k)) n = cadd (csum f n) (csum g n).
Proof. induction n as [|n IH]; cbn [csum]; [reflexivity|]. rewrite IH. ring. Qed.
Lemma csum_mul c f n : csum (fun k => cmul c (f k)) n = cmul c (csum f n).
Proof. induction n as [|n IH]; cbn [csum]; [reflexivity|]. rewrite IH. ring. Qed.
Lemma csum_n1 f g n : (forall k, (k <= n)%nat -> n1 (f k) <= g k) -> n1 (csum f n) <= psum g n.
Proof. induction n as [|n IH]; intros H; cbn [csum psum]; [apply H; lia|]. eapply Rle_trans; [apply n1_add|]. apply Rplus_le_compat; [apply IH; intros; apply H; lia|apply H; lia]. Qed.
Lemma csum_real f z n : csum (fun k => cmul (creal (f k)) z) n = cmul (creal (psum f n)) z.
Proof. induction n as [|n IH]; cbn [csum psum]; [reflexivity|]. rewrite IH. unfold cmul, cadd, creal. cbn [fst snd]. f_equal; ring. Qed.

(** ** Powers of z = m (cos phi + i sin phi) *)
Definition zp (m phi : R) (k : nat) : cx := (m ^ k * cos (INR k * phi), m ^ k * sin (INR k * phi)).
Lemma zp_add m phi i j : zp m phi (i + j) = cmul (zp m phi i) (zp m phi j).
Proof. unfold zp, cmul. cbn [fst snd]. rewrite plus_INR, Rmult_plus_distr_r, pow_add, cos_plus, sin_plus. f_equal; ring. Qed.
Lemma zp_n1 m phi k : 0 <= m -> n1 (zp m phi k) <= 2 * m ^ k.
Proof.
  intros M. unfold n1, zp. cbn [fst snd]. assert (P : 0 <= m ^ k) by (apply pow_le, M). rewrite !Rabs_mult, (Rabs_pos_eq (m ^ k)) by exact P.
  assert (A : Rabs (cos (INR k * phi)) <= 1) by (apply Rabs_le; apply COS_bound). assert (B : Rabs (sin (INR k * phi)) <= 1) by (apply Rabs_le; apply SIN_bound).
  assert (m ^ k * Rabs (cos (INR k * phi)) <= m ^ k * 1) by (apply Rmult_le_compat_l; lra). assert (m ^ k * Rabs (sin (INR k * phi)) <= m ^ k * 1) by (apply Rmult_le_compat_l; lra). lra.
Qed.
Definition PN (m phi : R) (n : nat) : cx := csum (fun k => cmul (creal (dc k)) (zp m phi k)) n.
Lemma creal_mul a b : creal (a * b) = cmul (creal a) (creal b).
Proof. unfold creal, cmul. cbn [fst snd]. f_equal; ring. Qed.
(** The part of the square of degree at most n. *)
Lemma cauchy m phi n : csum (fun i => cmul (cmul (creal (dc i)) (zp m phi i)) (PN m phi (n - i))) n = csum (fun k => cmul (creal (conv k)) (zp m phi k)) n.
Proof.
  induction n as [|n IH]. { cbn [csum Nat.sub]. unfold PN. cbn [csum]. rewrite conv_0. unfold zp, cmul, creal. cbn [fst snd dc pow INR]. rewrite Rmult_0_l, cos_0, sin_0. f_equal; ring. }
  cbn [csum]. rewrite Nat.sub_diag. rewrite (csum_ext _ (fun i => cadd (cmul (cmul (creal (dc i)) (zp m phi i)) (PN m phi (n - i))) (cmul (creal (dc i * dc (S n - i))) (zp m phi (S n))))).
  - rewrite csum_add, IH, csum_real. change (conv (S n)) with (psum (fun i => dc i * dc (S n - i)) n + dc (S n) * dc (S n - S n)). rewrite Nat.sub_diag. unfold PN at 1. cbn [csum dc]. set (X := csum _ n). set (Y := psum _ n).
    assert (Z0 : zp m phi 0 = creal 1) by (unfold zp, creal; cbn [pow INR]; rewrite Rmult_0_l, cos_0, sin_0; f_equal; ring). rewrite Z0. set (w := dc n * _). unfold creal, cmul, cadd. cbn [fst snd]. f_equal; ring.
  - intros i Hi. replace (S n - i)%nat with (S (n - i)) by lia. unfold PN. cbn [csum]. rewrite creal_mul. assert (Z : zp m phi (S n) = cmul (zp m phi i) (zp m phi (S (n - i)))) by (rewrite <- zp_add; f_equal; lia). rewrite Z. ring.
Qed.
Lemma conv_sum m phi n : csum (fun k => cmul (creal (conv k)) (zp m phi k)) (S n) = csub (creal 1) (zp m phi 1).
Proof.
  induction n as [|n IH].
  - cbn [csum]. rewrite conv_0, conv_1. assert (Z0 : zp m phi 0 = creal 1) by (unfold zp, creal; cbn [pow INR]; rewrite Rmult_0_l, cos_0, sin_0; f_equal; ring). rewrite Z0. unfold creal, cmul, cadd, csub, copp, cadd. cbn [fst snd]. f_equal; ring.
  - cbn [csum] in IH |- *. rewrite IH, conv_SS. ring.
Qed.
Lemma pow_dec m i j : 0 <= m <= 1 -> (i <= j)%nat -> m ^ j <= m ^ i.
Proof. intros M H. replace j with (i + (j - i))%nat by lia. rewrite pow_add. assert (0 <= m ^ i) by (apply pow_le; lra). assert (m ^ (j - i) <= 1) by (rewrite <- (pow1 (j - i)); apply pow_incr; lra). nra. Qed.
(** The rest of the square. *)
Lemma tail_sum m phi n i : 0 <= m <= 1 -> (i <= n)%nat -> n1 (cmul (zp m phi i) (csub (PN m phi n) (PN m phi (n - i)))) <= 4 * m ^ (S n).
Proof.
  intros M H. assert (G : forall j, (j <= i)%nat -> n1 (cmul (zp m phi i) (csub (PN m phi (n - i + j)) (PN m phi (n - i)))) <= 2 * m ^ (S n) * (psum (fun k => Rabs (dc k)) (n - i + j) - psum (fun k => Rabs (dc k)) (n - i))).
  { induction j as [|j IH]; intros Hj.
    - rewrite Nat.add_0_r. replace (csub (PN m phi (n - i)) (PN m phi (n - i))) with (creal 0) by ring. replace (cmul (zp m phi i) (creal 0)) with (creal 0) by ring. unfold n1, creal. cbn [fst snd]. rewrite Rabs_R0. lra.
    - specialize (IH ltac:(lia)). replace (n - i + S j)%nat with (S (n - i + j)) by lia. set (p := (n - i + j)%nat) in *.
      replace (cmul (zp m phi i) (csub (PN m phi (S p)) (PN m phi (n - i)))) with (cadd (cmul (zp m phi i) (csub (PN m phi p) (PN m phi (n - i)))) (cmul (creal (dc (S p))) (zp m phi (i + S p)))) by (rewrite zp_add; unfold PN; cbn [csum]; ring).
      eapply Rle_trans; [apply n1_add|]. rewrite n1_scal. cbn [psum]. pose proof (zp_n1 m phi (i + S p) (proj1 M)) as Z. assert (D : m ^ (i + S p) <= m ^ S n) by (apply pow_dec; [exact M|unfold p; lia]).
      pose proof (Rabs_pos (dc (S p))) as A. assert (Rabs (dc (S p)) * n1 (zp m phi (i + S p)) <= Rabs (dc (S p)) * (2 * m ^ S n)) by (apply Rmult_le_compat_l; lra). lra. }
  specialize (G i ltac:(lia)). replace (n - i + i)%nat with n in G by lia. eapply Rle_trans; [exact G|]. pose proof (dc_abs_sum_le n) as A. assert (B : 0 <= psum (fun k => Rabs (dc k)) (n - i)) by (rewrite dc_abs_sum; destruct (n - i)%nat as [|k]; [cbn; lra|]; rewrite dc_sum; pose proof (dc_abs_sum (S k)) as E; rewrite dc_sum in E; rewrite <- E; clear; induction (S k) as [|q IH]; cbn [psum]; [apply Rabs_pos|]; pose proof (Rabs_pos (dc (S q))); lra).
  assert (0 <= m ^ S n) by (apply pow_le; lra). nra.
Qed.
Lemma PN_square m phi n : 0 <= m <= 1 -> exists r, cmul (PN m phi (S n)) (PN m phi (S n)) = cadd (csub (creal 1) (zp m phi 1)) r /\ n1 r <= 8 * m ^ (S (S n)).
Proof.
  intros M. set (N := S n). exists (csum (fun i => cmul (creal (dc i)) (cmul (zp m phi i) (csub (PN m phi N) (PN m phi (N - i))))) N). split.
  - rewrite <- (conv_sum m phi n). fold N. rewrite <- cauchy, <- csum_add. unfold PN at 1. rewrite (csum_ext (fun i => cadd _ _) (fun i => cmul (PN m phi N) (cmul (creal (dc i)) (zp m phi i)))).
    + rewrite csum_mul. unfold PN. ring.
    + intros i Hi. ring.
  - eapply Rle_trans; [apply (csum_n1 _ (fun i => 4 * m ^ S N * Rabs (dc i)))|].
    + intros i Hi. rewrite n1_scal. pose proof (tail_sum m phi N i M Hi) as T. pose proof (Rabs_pos (dc i)). rewrite Rmult_comm. apply Rmult_le_compat_r; assumption.
    + rewrite psum_scal. pose proof (dc_abs_sum_le N). assert (0 <= m ^ S N) by (apply pow_le; lra). nra.
Qed.
Lemma PN_norm m phi n : 0 <= m <= 1 -> Rabs (nn (PN m phi (S n)) - sqrt (1 + m * m - 2 * m * cos phi)) <= 8 * m ^ (S (S n)).
Proof.
  intros M. destruct (PN_square m phi n M) as [r [E B]]. pose proof (norm_diff (csub (creal 1) (zp m phi 1)) r) as D. rewrite <- E, nn_mul in D.
  rewrite (sqrt_square (nn (PN m phi (S n)))) in D by apply nn_pos. replace (nn (csub (creal 1) (zp m phi 1))) with (1 + m * m - 2 * m * cos phi) in D.
  - lra.
  - unfold nn, csub, zp, creal, copp, cadd. cbn [fst snd pow INR]. rewrite !Rmult_1_l, Rmult_1_r. pose proof (sin2_cos2 phi) as SC. unfold Rsqr in SC. replace ((1 + - (m * cos phi)) * (1 + - (m * cos phi)) + (0 + - (m * sin phi)) * (0 + - (m * sin phi))) with (1 - 2 * m * cos phi + m * m * (sin phi * sin phi + cos phi * cos phi)) by ring. rewrite SC. ring.
Qed.

(** ** An antiderivative of the square of the norm *)
Definition cdot (p q : cx) : R := fst p * fst q + snd p * snd q.
Lemma nn_add p q : nn (cadd p q) = nn p + 2 * cdot p q + nn q.
Proof. unfold nn, cdot, cadd. cbn [fst snd]. ring. Qed.
Lemma dot_term m phi k n : (k < n)%nat -> cdot (cmul (creal (dc k)) (zp m phi k)) (zp m phi n) = dc k * m ^ (k + n) * cos (INR (n - k) * phi).
Proof.
  intros H. rewrite minus_INR by lia. replace ((INR n - INR k) * phi) with (INR n * phi - INR k * phi) by ring. rewrite cos_minus, pow_add. unfold cdot, cmul, creal, zp. cbn [fst snd]. ring.
Qed.
Lemma prim_cos c q : (0 < q)%nat -> exists J, (forall t, derivable_pt_lim J t (c * cos (INR q * (2 * t)))) /\ J (2 * PI) = J 0.
Proof.
  intros Q. pose proof (lt_0_INR q Q) as P. set (w := INR q * 2). exists (fun t => c / w * sin (w * t)). split.
  - intros t. replace (c * cos (INR q * (2 * t))) with (c / w * (cos (w * t) * (w * 1))) by (replace (INR q * (2 * t)) with (w * t) by (unfold w; ring); field; unfold w; lra).
    apply (derivable_pt_lim_scal (fun t => sin (w * t))). apply (derivable_pt_lim_comp (fun t => w * t) sin); [apply (derivable_pt_lim_scal id), derivable_pt_lim_id|apply derivable_pt_lim_sin].
  - replace (w * (2 * PI)) with (0 + 2 * INR (q + q) * PI) by (unfold w; rewrite plus_INR; ring). rewrite sin_period, Rmult_0_r. reflexivity.
Qed.
Lemma prim_dot m n j : (j < n)%nat -> exists J, (forall t, derivable_pt_lim J t (cdot (PN m (2 * t) j) (zp m (2 * t) n))) /\ J (2 * PI) = J 0.
Proof.
  induction j as [|j IH]; intros H.
  - destruct (prim_cos (dc 0 * m ^ (0 + n)) (n - 0) ltac:(lia)) as [J [D E]]. exists J. split; [|exact E]. intros t. unfold PN. cbn [csum]. rewrite dot_term by lia. apply D.
  - destruct (IH ltac:(lia)) as [J1 [D1 E1]]. destruct (prim_cos (dc (S j) * m ^ (S j + n)) (n - S j) ltac:(lia)) as [J2 [D2 E2]].
    exists (fun t => J1 t + J2 t). split; [|rewrite E1, E2; reflexivity]. intros t. unfold PN. cbn [csum].
    match goal with |- derivable_pt_lim _ _ (cdot (cadd ?a ?b) ?c) => replace (cdot (cadd a b) c) with (cdot a c + cdot b c) by (unfold cdot, cadd; cbn [fst snd]; ring) end.
    rewrite dot_term by lia. apply (derivable_pt_lim_plus J1 J2); [apply D1|apply D2].
Qed.
Lemma zp_nn m phi k : nn (zp m phi k) = m ^ k * m ^ k.
Proof. unfold nn, zp. cbn [fst snd]. pose proof (sin2_cos2 (INR k * phi)) as E. unfold Rsqr in E. replace (m ^ k * cos (INR k * phi) * (m ^ k * cos (INR k * phi)) + m ^ k * sin (INR k * phi) * (m ^ k * sin (INR k * phi))) with (m ^ k * m ^ k * (sin (INR k * phi) * sin (INR k * phi) + cos (INR k * phi) * cos (INR k * phi))) by ring. rewrite E. ring. Qed.
Definition hsum (h : R) (n : nat) : R := psum (fun k => dc k * dc k * h ^ k) n.
Lemma prim_nn m n : exists K, (forall t, derivable_pt_lim K t (nn (PN m (2 * t) n))) /\ K (2 * PI) - K 0 = 2 * PI * hsum (m * m) n.
Proof.
  assert (T : forall k phi, nn (cmul (creal (dc k)) (zp m phi k)) = dc k * dc k * (m * m) ^ k).
  { intros k phi. rewrite nn_mul, zp_nn, Rpow_mult_distr. unfold nn, creal. cbn [fst snd]. ring. }
  assert (L : forall c, forall t, derivable_pt_lim (fun t => c * t) t c).
  { intros c t. pose proof (derivable_pt_lim_scal id c t 1 (derivable_pt_lim_id t)) as D. rewrite Rmult_1_r in D. exact D. }
  induction n as [|n [K [D E]]].
  - exists (fun t => dc 0 * dc 0 * (m * m) ^ 0 * t). split; [|unfold hsum; cbn [psum]; ring]. intros t. unfold PN. cbn [csum]. rewrite T. apply L.
  - destruct (prim_dot m (S n) n ltac:(lia)) as [J [DJ EJ]].
    exists (fun t => (K t + 2 * dc (S n) * J t) + dc (S n) * dc (S n) * (m * m) ^ S n * t). split; [|rewrite EJ; unfold hsum in *; cbn [psum]; lra].
    intros t. change (PN m (2 * t) (S n)) with (cadd (PN m (2 * t) n) (cmul (creal (dc (S n))) (zp m (2 * t) (S n)))). rewrite nn_add, T.
    replace (2 * cdot (PN m (2 * t) n) (cmul (creal (dc (S n))) (zp m (2 * t) (S n)))) with (2 * dc (S n) * cdot (PN m (2 * t) n) (zp m (2 * t) (S n))) by (unfold cdot, cmul, creal; cbn [fst snd]; ring).
    apply (derivable_pt_lim_plus (fun t => K t + 2 * dc (S n) * J t) (fun t => dc (S n) * dc (S n) * (m * m) ^ S n * t)); [|apply L].
    apply (derivable_pt_lim_plus K (fun t => 2 * dc (S n) * J t)); [apply D|]. apply (derivable_pt_lim_scal J). apply DJ.
Qed.

(** ** The length *)
Lemma speed_norm a b t : 0 < b <= a -> let m := (a - b) / (a + b) in speed a b t = (a + b) / 2 * sqrt (1 + m * m - 2 * m * cos (2 * t)).
Proof.
  intros H m. unfold speed. rewrite <- (sqrt_Rsqr ((a + b) / 2)) by lra. rewrite <- sqrt_mult_alt by apply Rle_0_sqr. f_equal. rewrite cos_2a. pose proof (sin2_cos2 t) as E. unfold Rsqr in *.
  replace (1 + m * m - 2 * m * (cos t * cos t - sin t * sin t)) with ((1 + m * m) * (sin t * sin t + cos t * cos t) - 2 * m * (cos t * cos t - sin t * sin t)) by (rewrite E; ring). unfold m. field. lra.
Qed.
Lemma m_range a b : 0 < b <= a -> 0 <= (a - b) / (a + b) < 1.
Proof.
  intros H. split; [apply Rmult_le_pos; [lra|left; apply Rinv_0_lt_compat; lra]|]. apply Rmult_lt_reg_r with (a + b); [lra|]. replace ((a - b) / (a + b) * (a + b)) with (a - b) by (field; lra). lra.
Qed.
Lemma perimeter_series a b L n : 0 < b <= a -> perimeter a b L ->
  let m := (a - b) / (a + b) in Rabs (L - PI * (a + b) * hsum (m * m) (S n)) <= 8 * PI * (a + b) * m ^ (S (S n)).
Proof.
  intros H [s [Ds ->]] m. pose proof (m_range a b H) as M. fold m in M. destruct (prim_nn m (S n)) as [K [DK EK]]. pose proof PI_RGT_0 as P.
  set (g := fun t => s t - (a + b) / 2 * K t). set (g' := fun t => speed a b t - (a + b) / 2 * nn (PN m (2 * t) (S n))).
  assert (Dg : forall t, 0 <= t <= 2 * PI -> derivable_pt_lim g t (g' t)).
  { intros t Ht. apply (derivable_pt_lim_minus s (fun t => (a + b) / 2 * K t)); [apply Ds, Ht|]. apply (derivable_pt_lim_scal K). apply DK. }
  destruct (MVT_cor2 g g' 0 (2 * PI) ltac:(lra) Dg) as [c [E Hc]].
  replace (s (2 * PI) - s 0 - PI * (a + b) * hsum (m * m) (S n)) with (g (2 * PI) - g 0).
  2:{ unfold g. replace (s (2 * PI) - (a + b) / 2 * K (2 * PI) - (s 0 - (a + b) / 2 * K 0)) with (s (2 * PI) - s 0 - (a + b) / 2 * (K (2 * PI) - K 0)) by ring. rewrite EK. field. }
  rewrite E. unfold g'. rewrite (speed_norm a b c H). fold m. pose proof (PN_norm m (2 * c) n ltac:(lra)) as B.
  set (x := sqrt (1 + m * m - 2 * m * cos (2 * c))) in *. set (y := nn (PN m (2 * c) (S n))) in *. set (e := m ^ S (S n)) in *. clearbody x y e. clear - H B P.
  replace (((a + b) / 2 * x - (a + b) / 2 * y) * (2 * PI - 0)) with (- (PI * (a + b)) * (y - x)) by field.
  rewrite Rabs_mult, Rabs_Ropp, Rabs_pos_eq by nra. assert (0 <= PI * (a + b)) by nra. nra.
Qed.
Lemma perimeter_exists a b : exists L, perimeter a b L.
Proof.
  assert (P : 0 <= 2 * PI) by (pose proof PI_RGT_0; lra). assert (C0 : forall x, 0 <= x <= 2 * PI -> continuity_pt (speed a b) x).
  { intros x _. unfold speed. apply (continuity_pt_comp (fun t => (a * sin t) ^ 2 + (b * cos t) ^ 2) sqrt).
    - apply derivable_continuous_pt. reg.
    - apply continuity_pt_sqrt. pose proof (pow2_ge_0 (a * sin x)). pose proof (pow2_ge_0 (b * cos x)). lra. }
  exists (primitive P (FTC_P1 P C0) (2 * PI) - primitive P (FTC_P1 P C0) 0). exists (primitive P (FTC_P1 P C0)). split; [|reflexivity]. intros t Ht. apply RiemannInt_P28. exact Ht.
Qed.

(** ** Length4 *)
Lemma L4_hsum h n : forall k, Length4_loop h (dc (S k) * dc (S k) * h ^ S k) (2 * INR k - 1) (2 * INR k + 2) (hsum h k) (hsum h (S k)) n = hsum h (n + k).
Proof.
  induction n as [|n IH]; intros k; [reflexivity|]. cbn [Length4_loop]. specialize (IH (S k)). replace (S n + k)%nat with (n + S k)%nat by lia. rewrite <- IH. rewrite S_INR. pose proof (pos_INR k) as P.
  replace (2 * INR k - 1 + 2) with (2 * (INR k + 1) - 1) by ring. replace (2 * INR k + 2 + 2) with (2 * (INR k + 1) + 2) by ring.
  assert (E : dc (S k) * dc (S k) * h ^ S k * ((2 * (INR k + 1) - 1) * (2 * (INR k + 1) - 1) * h / ((2 * (INR k + 1) + 2) * (2 * (INR k + 1) + 2))) = dc (S (S k)) * dc (S (S k)) * h ^ S (S k)).
  { change (dc (S (S k))) with (dc (S k) * ((INR (S k) - / 2) / (INR (S k) + 1))). rewrite S_INR. cbn [pow]. field. lra. }
  rewrite E. reflexivity.
Qed.
Lemma L4_value n a e : 0 < a -> 0 <= e < 1 -> let b := a * sqrt (1 - e * e) in let m := (a - b) / (a + b) in
  Length4_after n a e = PI * (a + b) * hsum (m * m) n.
Proof.
  intros Ha He b m. unfold Length4_after. cbv zeta. fold b. fold m. destruct (minor_axis a e Ha He) as [Bp Bl]. fold b in Bp, Bl. pose proof (L4_hsum (m * m) n 0) as E. cbn [INR] in E.
  rewrite Nat.add_0_r in E. rewrite <- E. replace (dc 1 * dc 1 * (m * m) ^ 1) with (m * m * (25 / 100)) by (cbn; lra). replace (2 * 0 - 1) with (-1) by ring. replace (2 * 0 + 2) with 2 by ring.
  replace (hsum (m * m) 0) with 1 by (unfold hsum; cbn; ring). replace (hsum (m * m) 1) with (1 + m * m * (25 / 100)) by (unfold hsum; cbn; lra).
  set (X := Length4_loop _ _ _ _ _ _ _). clearbody X. unfold m. field. lra.
Qed.
Lemma Length4_limit a e L : 0 < a -> 0 <= e < 1 -> perimeter a (a * sqrt (1 - e * e)) L ->
  let b := a * sqrt (1 - e * e) in let m := (a - b) / (a + b) in
  (forall n, (1 <= n)%nat -> Rabs (L - Length4_after n a e) <= 8 * PI * (a + b) * m ^ S n) /\ Un_cv (fun n => Length4_after n a e) L.
Proof.
  intros Ha He HL b m. destruct (minor_axis a e Ha He) as [Bp Bl]. fold b in Bp, Bl, HL. pose proof (m_range a b (conj Bp Bl)) as M. fold m in M. pose proof PI_RGT_0 as P.
  assert (B : forall n, (1 <= n)%nat -> Rabs (L - Length4_after n a e) <= 8 * PI * (a + b) * m ^ S n).
  { intros n Hn. destruct n as [|n]; [lia|]. rewrite (L4_value (S n) a e Ha He). exact (perimeter_series a b L n (conj Bp Bl) HL). }
  split; [exact B|]. intros eps Heps. assert (C0 : 0 < 8 * PI * (a + b)) by (apply Rmult_lt_0_compat; lra).
  destruct (pow_lt_1_zero m ltac:(rewrite Rabs_pos_eq; lra) (eps / (8 * PI * (a + b)))) as [N HN]; [apply Rdiv_lt_0_compat; lra|].
  exists (S N). intros n Hn. unfold R_dist. rewrite Rabs_minus_sym. eapply Rle_lt_trans; [apply B; lia|]. specialize (HN (S n) ltac:(lia)). rewrite Rabs_pos_eq in HN by (apply pow_le; lra).
  apply Rmult_lt_reg_r with (/ (8 * PI * (a + b))); [apply Rinv_0_lt_compat, C0|]. replace (8 * PI * (a + b) * m ^ S n * / (8 * PI * (a + b))) with (m ^ S n) by (field; lra). exact HN.
Qed.

(** ** The series of the square root of 1 - h, and the other two formulas *)
Definition qsum (h : R) (n : nat) : R := psum (fun k => dc k * h ^ k) n.
Lemma qsum_PN h n : PN h 0 n = creal (qsum h n).
Proof.
  assert (Z : forall k, cmul (creal (dc k)) (zp h 0 k) = creal (dc k * h ^ k)). { intros k. unfold cmul, creal, zp. cbn [fst snd]. rewrite Rmult_0_r, cos_0, sin_0. f_equal; ring. }
  unfold PN, qsum. induction n as [|n IH]; cbn [csum psum]; rewrite Z; [reflexivity|]. rewrite IH. unfold cadd, creal. cbn [fst snd]. f_equal; ring.
Qed.
Lemma qsum_pos h n : 0 <= h <= 1 -> 0 < qsum h n.
Proof.
  intros H. apply Rlt_le_trans with (psum dc n); [apply dc_sum_pos|]. apply psum_le. intros k _. destruct k as [|k]; [cbn; lra|]. pose proof (dc_neg k). assert (h ^ S k <= 1) by (rewrite <- (pow1 (S k)); apply pow_incr; lra). nra.
Qed.
Lemma cv_of_bound u l c m : 0 <= m < 1 -> 0 <= c -> (forall n, (1 <= n)%nat -> Rabs (u n - l) <= c * m ^ S n) -> Un_cv u l.
Proof.
  intros M C0 B eps Heps. destruct (pow_lt_1_zero m ltac:(rewrite Rabs_pos_eq; lra) (eps / (c + 1))) as [N HN]; [apply Rdiv_lt_0_compat; lra|].
  exists (S N). intros n Hn. unfold R_dist. eapply Rle_lt_trans; [apply B; lia|]. specialize (HN (S n) ltac:(lia)). assert (P : 0 <= m ^ S n) by (apply pow_le; lra). rewrite Rabs_pos_eq in HN by exact P.
  assert ((c + 1) * m ^ S n < eps). { apply Rmult_lt_reg_r with (/ (c + 1)); [apply Rinv_0_lt_compat; lra|]. replace ((c + 1) * m ^ S n * / (c + 1)) with (m ^ S n) by (field; lra). exact HN. } nra.
Qed.
Lemma qsum_sqrt h : 0 <= h < 1 -> Un_cv (qsum h) (sqrt (1 - h)).
Proof.
  intros H. assert (P : 0 < sqrt (1 - h)) by (apply sqrt_lt_R0; lra). apply (cv_of_bound _ _ (8 / sqrt (1 - h)) h H); [apply Rmult_le_pos; [lra|left; apply Rinv_0_lt_compat, P]|].
  intros n Hn. destruct n as [|n]; [lia|]. pose proof (PN_norm h 0 n ltac:(lra)) as B. rewrite qsum_PN, cos_0 in B. replace (1 + h * h - 2 * h * 1) with ((1 - h) * (1 - h)) in B by ring. rewrite sqrt_square in B by lra.
  unfold nn, creal in B. cbn [fst snd] in B. pose proof (qsum_pos h (S n) ltac:(lra)) as Q. pose proof (sqrt_sqrt (1 - h) ltac:(lra)) as E. set (s := sqrt (1 - h)) in *. set (q := qsum h (S n)) in *. set (p := h ^ S (S n)) in *. clearbody s q p.
  replace (q * q + 0 * 0 - (1 - h)) with ((q - s) * (q + s)) in B by (rewrite <- E; ring). rewrite Rabs_mult, (Rabs_pos_eq (q + s)) in B by lra. pose proof (Rabs_pos (q - s)) as A. set (x := Rabs (q - s)) in *. clearbody x.
  apply Rmult_le_reg_r with s; [exact P|]. replace (8 / s * p * s) with (8 * p) by (field; lra). nra.
Qed.
Lemma dc_mono k : dc (S k) <= dc (S (S k)).
Proof.
  pose proof (dc_S (S k)) as E. pose proof (dc_neg k) as A. pose proof (pos_INR (S k)) as P. set (x := INR (S k)) in *. set (u := dc (S k)) in *. set (v := dc (S (S k))) in *. clearbody x u v. nra.
Qed.
Lemma dc_le j k : (j <= k)%nat -> dc (S j) <= dc (S k).
Proof. intros H. induction H as [|k H IH]; [lra|]. eapply Rle_trans; [exact IH|apply dc_mono]. Qed.
Lemma dc_small k : dc (S k) * 4 ^ S k <= -2.
Proof.
  induction k as [|k IH]; [cbn; lra|]. pose proof (dc_S (S k)) as E. rewrite S_INR in E. pose proof (pos_INR k) as P. pose proof (dc_neg (S k)) as A. change (4 ^ S (S k)) with (4 * 4 ^ S k). assert (Q : 0 < 4 ^ S k) by (apply pow_lt; lra).
  pose proof (dc_neg k). set (x := INR k) in *. set (u := dc (S k)) in *. set (v := dc (S (S k))) in *. set (f := 4 ^ S k) in *. clearbody x u v f.
  assert (4 * v <= u) by nra. nra.
Qed.
Lemma dc_sq_sum n : psum (fun k => dc k * dc k) n <= 1 + 1 / 4 + 1 / 64 + 1 / 100.
Proof.
  assert (G : forall j, psum (fun k => dc k * dc k) (8 + j) <= psum (fun k => dc k * dc k) 8 + - dc 9 * (psum dc 8 - psum dc (8 + j))).
  { induction j as [|j IH]; [rewrite Nat.add_0_r; lra|]. replace (8 + S j)%nat with (S (8 + j)) by lia. cbn [psum] in IH |- *. change (psum ?f (8 + j)) with (psum f (8 + j)). pose proof (dc_neg (8 + j)) as A. pose proof (dc_le 8 (8 + j) ltac:(lia)) as B.
    set (d := dc (S (8 + j))) in *. assert (d * d <= - dc 9 * - d) by (clear IH; nra). cbn [Nat.add] in *. lra. }
  specialize (G n). pose proof (dc_sum_pos (8 + n)) as P. assert (D : dc 9 < 0) by apply dc_neg.
  assert (Mn : psum (fun k => dc k * dc k) n <= psum (fun k => dc k * dc k) (8 + n)).
  { clear. assert (Q : forall i, psum (fun k => dc k * dc k) n <= psum (fun k => dc k * dc k) (i + n)); [|apply Q]. induction i as [|i IH]; [apply Rle_refl|]. cbn [Nat.add psum]. pose proof (Rle_0_sqr (dc (S (i + n)))). unfold Rsqr in *. lra. }
  eapply Rle_trans; [exact Mn|]. eapply Rle_trans; [exact G|]. assert (- dc 9 * (psum dc 8 - psum dc (8 + n)) <= - dc 9 * psum dc 8) by (set (p := psum dc (8 + n)) in *; clearbody p; set (x := psum dc 8); clearbody x; set (y := dc 9) in *; clearbody y; nra).
  eapply Rle_trans; [apply Rplus_le_compat_l; exact H|]. cbn. lra.
Qed.
(** Length1 against the series. *)
Lemma one_terms h n : 0 <= h <= 1 -> 0 <= hsum h n - (3 - 2 * qsum (h / 4) n) <= h ^ 3 / 100.
Proof.
  intros H. set (w := fun k => (dc k * dc k + 2 * dc k / 4 ^ k) * h ^ k).
  assert (W : hsum h n - (3 - 2 * qsum (h / 4) n) = psum w n - 3).
  { unfold hsum, qsum, w. rewrite <- (psum_scal 2). replace (psum (fun k => dc k * dc k * h ^ k) n - (3 - psum (fun k => 2 * (dc k * (h / 4) ^ k)) n)) with (psum (fun k => dc k * dc k * h ^ k) n + psum (fun k => 2 * (dc k * (h / 4) ^ k)) n - 3) by ring.
    rewrite <- psum_plus. f_equal. apply psum_ext. intros k _. unfold Rdiv. rewrite Rpow_mult_distr, pow_inv. ring. }
  rewrite W. assert (W0 : w O = 3) by (unfold w; cbn; lra). assert (W1 : w 1%nat = 0) by (unfold w; cbn; lra). assert (W2 : w 2%nat = 0) by (unfold w; cbn; lra).
  assert (Wp : forall k, 0 <= w (S k)).
  { intros k. unfold w. apply Rmult_le_pos; [|apply pow_le; lra]. pose proof (dc_small k) as A. pose proof (dc_neg k) as B. assert (Q : 0 < 4 ^ S k) by (apply pow_lt; lra). set (f := 4 ^ S k) in *. set (d := dc (S k)) in *. clearbody f d.
    apply Rmult_le_reg_r with f; [exact Q|]. replace ((d * d + 2 * d / f) * f) with (- d * (- (d * f) - 2)) by (field; lra). nra. }
  split.
  - assert (G : 3 <= psum w n); [|lra]. clear W. induction n as [|n IH]; cbn [psum]; [lra|]. pose proof (Wp n). lra.
  - assert (P3 : 0 <= h ^ 3) by (apply pow_le; lra). destruct n as [|[|[|n]]]; [cbn [psum]; lra|cbn [psum]; lra|cbn [psum]; lra|].
    assert (G : psum w (S (S (S n))) <= 3 + h ^ 3 * (psum (fun k => dc k * dc k) (S (S (S n))) - (1 + 1 / 4 + 1 / 64))).
    { clear W. induction n as [|n IH].
      - cbn [psum]. rewrite W0, W1, W2. unfold w. cbn. lra.
      - change (psum ?f (S (S (S (S n))))) with (psum f (S (S (S n))) + f (S (S (S (S n))))). set (k := S (S (S n))) in *. assert (T : w (S k) <= h ^ 3 * (dc (S k) * dc (S k))).
        { unfold w. pose proof (dc_neg k) as B. assert (Q : 0 < 4 ^ S k) by (apply pow_lt; lra). assert (D : h ^ S k <= h ^ 3) by (apply pow_dec; [exact H|unfold k; lia]). assert (E0 : 0 <= h ^ S k) by (apply pow_le; lra).
          assert (N0 : 2 * dc (S k) / 4 ^ S k <= 0) by (apply Rmult_le_reg_r with (4 ^ S k); [exact Q|]; replace (2 * dc (S k) / 4 ^ S k * 4 ^ S k) with (2 * dc (S k)) by (field; lra); lra).
          set (x := h ^ S k) in *. set (y := h ^ 3) in *. set (d := dc (S k)) in *. set (z := 2 * d / 4 ^ S k) in *. clearbody x y z d. nra. }
        lra. }
    eapply Rle_trans; [apply Rplus_le_compat_r, G|]. pose proof (dc_sq_sum (S (S (S n)))) as D. set (x := psum (fun k => dc k * dc k) _) in *. clearbody x. nra.
Qed.
(** Length2 against the series. *)
Lemma two_terms h n : 0 <= h <= 1 -> let d := (18 + 3 * h - 2 * qsum h (S n)) / 16 - hsum h (S n) in 0 <= d <= h ^ 3 * (3 / 64).
Proof.
  intros H. cbv zeta. assert (P3 : 0 <= h ^ 3) by (apply pow_le; lra).
  assert (G : 0 <= (18 + 3 * h - 2 * qsum h (S n)) / 16 - hsum h (S n) /\ (n <> O -> (18 + 3 * h - 2 * qsum h (S n)) / 16 - hsum h (S n) <= h ^ 3 / 8 * (3 / 8 - psum dc (S n)))).
  { induction n as [|n [IH1 IH2]]; [unfold qsum, hsum; cbn; split; [lra|intros N; now contradiction N]|].
    change (qsum h (S (S n))) with (qsum h (S n) + dc (S (S n)) * h ^ S (S n)). change (hsum h (S (S n))) with (hsum h (S n) + dc (S (S n)) * dc (S (S n)) * h ^ S (S n)). change (psum dc (S (S n))) with (psum dc (S n) + dc (S (S n))).
    pose proof (dc_neg (S n)) as B. pose proof (dc_le 1 (S n) ltac:(lia)) as A. assert (D2 : dc 2 = - / 8) by (cbn; lra). rewrite D2 in A. assert (E0 : 0 <= h ^ S (S n)) by (apply pow_le; lra).
    split.
    - set (x := h ^ S (S n)) in *. set (d := dc (S (S n))) in *. set (u := qsum h (S n)) in *. set (v := hsum h (S n)) in *. clearbody x d u v. clear IH2. assert (0 <= x * (- d * (1 / 8 + d))) by (apply Rmult_le_pos; [exact E0|nra]). lra.
    - intros _. destruct n as [|n].
      + unfold qsum, hsum. cbn. lra.
      + specialize (IH2 ltac:(discriminate)). assert (D : h ^ S (S (S n)) <= h ^ 3) by (apply pow_dec; [exact H|lia]).
        set (x := h ^ S (S (S n))) in *. set (y := h ^ 3) in *. set (d := dc (S (S (S n)))) in *. set (u := qsum h (S (S n))) in *. set (v := hsum h (S (S n))) in *. set (p := psum dc (S (S n))) in *. clearbody x y d u v p.
        assert (x * (- d * (1 / 8 + d)) <= y * (- d * (1 / 8))). { apply Rmult_le_compat; [exact E0|nra|exact D|nra]. } lra. }
  destruct G as [G1 G2]. split; [exact G1|]. destruct n as [|n]; [unfold qsum, hsum; cbn in *; lra|]. eapply Rle_trans; [apply G2; discriminate|]. pose proof (dc_sum_pos (S (S n))). set (p := psum dc (S (S n))) in *. clearbody p. nra.
Qed.
Lemma cv_ext u v l : (forall n, u n = v n) -> Un_cv u l -> Un_cv v l.
Proof. intros E H eps He. destruct (H eps He) as [N HN]. exists N. intros n Hn. rewrite <- E. apply HN, Hn. Qed.
Lemma cv_const c : Un_cv (fun _ => c) c.
Proof. intros eps He. exists O. intros n _. unfold R_dist. rewrite Rminus_diag_eq, Rabs_R0 by reflexivity. exact He. Qed.
Lemma cv_shift u l : Un_cv u l -> Un_cv (fun n => u (S n)) l.
Proof. intros H eps He. destruct (H eps He) as [N HN]. exists N. intros n Hn. apply HN. lia. Qed.
Lemma Length12 a e L : 0 < a -> 0 <= e < 1 -> perimeter a (a * sqrt (1 - e * e)) L ->
  let b := a * sqrt (1 - e * e) in let m := (a - b) / (a + b) in
  0 <= L - Length1 a e <= PI * (a + b) * (m ^ 6 / 100) /\ 0 <= Length2 a e - L <= PI * (a + b) * (3 / 64 * m ^ 6).
Proof.
  intros Ha He HL b m. destruct (minor_axis a e Ha He) as [Bp Bl]. fold b in Bp, Bl. pose proof (m_range a b (conj Bp Bl)) as M. fold m in M. pose proof PI_RGT_0 as P.
  destruct (Length4_limit a e L Ha He HL) as [_ CV]. set (h := m * m). assert (H : 0 <= h < 1) by (unfold h; nra). set (A := PI * (a + b)). assert (A0 : 0 < A) by (apply Rmult_lt_0_compat; lra).
  assert (C4 : Un_cv (fun n => A * hsum h n) L) by (eapply cv_ext; [|exact CV]; intros n; exact (L4_value n a e Ha He)).
  assert (M6 : h ^ 3 = m ^ 6) by (unfold h; ring). rewrite <- M6. set (s := (a + b) / 2). assert (S0 : 0 < s) by (unfold s; lra). assert (EA : a = s * (1 + m)) by (unfold s, m; field; lra). assert (EB : b = s * (1 - m)) by (unfold s, m; field; lra).
  assert (E1 : Length1 a e = A * (3 - 2 * sqrt (1 - h / 4))).
  { unfold Length1. cbv zeta. fold b. replace ((a + 3 * b) * (3 * a + b)) with ((4 * s) * (4 * s) * (1 - h / 4)) by (rewrite EA, EB; unfold h; field). rewrite sqrt_mult_alt by nra. rewrite sqrt_square by lra. unfold A, s. field. }
  assert (E2 : Length2 a e = A * ((18 + 3 * h - 2 * sqrt (1 - h)) / 16)).
  { unfold Length2. cbv zeta. fold b. replace (a * b) with (s * s * (1 - h)) by (rewrite EA, EB; unfold h; ring). rewrite sqrt_mult_alt by nra. rewrite sqrt_square by lra. unfold A. replace (a + b) with (2 * s) by (unfold s; field). field. lra. }
  pose proof (qsum_sqrt (h / 4) ltac:(lra)) as Q1. pose proof (qsum_sqrt h H) as Q2.
  assert (T1 : Un_cv (fun n => A * (hsum h n - (3 - 2 * qsum (h / 4) n))) (L - Length1 a e)).
  { rewrite E1. eapply cv_ext; [|apply (CV_minus _ _ _ _ C4 (CV_mult _ _ _ _ (cv_const A) (CV_minus _ _ _ _ (cv_const 3) (CV_mult _ _ _ _ (cv_const 2) Q1))))]. intros n. cbv beta. ring. }
  assert (T2 : Un_cv (fun n => A * ((18 + 3 * h - 2 * qsum h (S n)) / 16 - hsum h (S n))) (Length2 a e - L)).
  { apply (cv_shift (fun n => A * ((18 + 3 * h - 2 * qsum h n) / 16 - hsum h n))). rewrite E2. replace (A * ((18 + 3 * h - 2 * sqrt (1 - h)) / 16)) with (A / 16 * (18 + 3 * h - 2 * sqrt (1 - h))) by field.
    eapply cv_ext; [|apply (CV_minus _ _ _ _ (CV_mult _ _ _ _ (cv_const (A / 16)) (CV_minus _ _ _ _ (cv_const (18 + 3 * h)) (CV_mult _ _ _ _ (cv_const 2) Q2))) C4)]. intros n. cbv beta. field. }
  split; split.
  - refine (Rle_cv_lim _ (cv_const 0) T1). intros n. cbv beta. apply Rmult_le_pos; [lra|]. apply one_terms. lra.
  - refine (Rle_cv_lim _ T1 (cv_const _)). intros n. cbv beta. apply Rmult_le_compat_l; [lra|]. apply one_terms. lra.
  - refine (Rle_cv_lim _ (cv_const 0) T2). intros n. cbv beta. apply Rmult_le_pos; [lra|]. apply two_terms. lra.
  - refine (Rle_cv_lim _ T2 (cv_const _)). intros n. cbv beta. apply Rmult_le_compat_l; [lra|]. rewrite (Rmult_comm (3 / 64)). apply two_terms. lra.
Qed.
(** The length is at least twice the long axis and at most the circle around the ellipse. *)
Lemma perimeter_range a b L : 0 < b <= a -> perimeter a b L -> 4 * a <= L <= 2 * PI * a.
Proof.
  intros H [s [Ds ->]]. pose proof PI_RGT_0 as P.
  assert (Up : forall t, speed a b t <= a).
  { intros t. unfold speed. rewrite <- (sqrt_Rsqr a) at 2 by lra. apply sqrt_le_1_alt. pose proof (sin2_cos2 t) as E. unfold Rsqr in *. pose proof (Rle_0_sqr (cos t)) as C0. unfold Rsqr in C0. replace ((a * sin t) ^ 2 + (b * cos t) ^ 2) with (a * a * (sin t * sin t + cos t * cos t) - (a - b) * (a + b) * (cos t * cos t)) by ring. rewrite E. assert (0 <= (a - b) * (a + b)) by nra. nra. }
  assert (Lo : forall t, a * Rabs (sin t) <= speed a b t).
  { intros t. unfold speed. replace (a * Rabs (sin t)) with (sqrt (Rsqr (a * sin t))) by (rewrite sqrt_Rsqr_abs, Rabs_mult, (Rabs_pos_eq a) by lra; reflexivity). apply sqrt_le_1_alt. unfold Rsqr. pose proof (pow2_ge_0 (b * cos t)). lra. }
  split.
  - assert (G : forall x y c, 0 <= x -> x < y -> y <= 2 * PI -> (forall t, x <= t <= y -> c * sin t <= speed a b t) -> c * (cos x - cos y) <= s y - s x).
    { intros x y c Hx Hxy Hy Hc. destruct (MVT_cor2 (fun t => s t - c * - cos t) (fun t => speed a b t - c * - - sin t) x y Hxy) as [z [E Hz]].
      - intros t Ht. apply (derivable_pt_lim_minus s (fun t => c * - cos t)); [apply Ds; lra|]. apply (derivable_pt_lim_scal (fun t => - cos t)). apply (derivable_pt_lim_opp cos). apply derivable_pt_lim_cos.
      - cbv beta in E. specialize (Hc z ltac:(lra)). assert (0 <= (speed a b z - c * - - sin z) * (y - x)) by (apply Rmult_le_pos; lra). lra. }
    pose proof (G 0 PI a ltac:(lra) P ltac:(lra)) as G1. pose proof (G PI (2 * PI) (- a) ltac:(lra) ltac:(lra) ltac:(lra)) as G2. rewrite cos_0, cos_PI in G1. rewrite cos_PI, cos_2PI in G2.
    assert (X1 : a * (1 - -1) <= s PI - s 0). { apply G1. intros t Ht. eapply Rle_trans; [|apply Lo]. apply Rmult_le_compat_l; [lra|apply Rle_abs]. }
    assert (X2 : - a * (-1 - 1) <= s (2 * PI) - s PI). { apply G2. intros t Ht. eapply Rle_trans; [|apply Lo]. replace (- a * sin t) with (a * - sin t) by ring. apply Rmult_le_compat_l; [lra|]. rewrite <- Rabs_Ropp. apply Rle_abs. }
    lra.
  - destruct (MVT_cor2 s (speed a b) 0 (2 * PI) ltac:(lra) Ds) as [z [E Hz]]. rewrite E. pose proof (Up z). nra.
Qed.
Lemma perimeter_unique a b L1 L2 : perimeter a b L1 -> perimeter a b L2 -> L1 = L2.
Proof.
  intros [s1 [D1 ->]] [s2 [D2 ->]]. pose proof PI_RGT_0 as P. destruct (MVT_cor2 (fun t => s1 t - s2 t) (fun t => speed a b t - speed a b t) 0 (2 * PI) ltac:(lra)) as [z [E Hz]].
  - intros t Ht. apply (derivable_pt_lim_minus s1 s2); [apply D1|apply D2]; exact Ht.
  - cbv beta in E. rewrite (Rminus_diag_eq (speed a b z)), Rmult_0_l in E by reflexivity. lra.
Qed.
Lemma perimeter_spec a e : 0 < a -> 0 <= e < 1 -> let b := a * sqrt (1 - e * e) in
  exists L, perimeter a b L /\ (forall L', perimeter a b L' -> L' = L) /\ 4 * a <= L <= 2 * PI * a.
Proof.
  intros Ha He b. destruct (perimeter_exists a b) as [L HL]. exists L. split; [exact HL|]. split; [intros L' H'; exact (perimeter_unique a b L' L H' HL)|]. apply (perimeter_range a b L); [apply minor_axis; assumption|exact HL].
Qed.
