(** Lemmas for moonposition and moon. *)
From Coq Require Import ZArith Reals Lra Lia List Psatz.
From Flocq Require Import Core.
From Verif Require Import GoFloat GoMath S_Sphere S_precess M_base M_coord M_precess M_vsop M_light M_moonconst M_solar M_moon M_physical S_solar S_physical S_moon
  L_trig L_angle L_vec L_coord L_precess L_elements L_light L_moonconst L_solar L_refraction L_parallactic L_solardisk L_physical.
Import ListNotations.
Local Open Scope R_scope.

(** ** Series *)
Definition wE (m : Z) : Z := match Z.abs m with 0%Z => 100 | 1%Z => 105 | 2%Z => 111 | _ => 0 end.
Lemma moonE_range T : Rabs T <= 20 -> 0.94 <= moonE T <= 1.05.
Proof. intros H. apply Rabs_le_inv in H. unfold moonE. rewrite HornerR3. decimals. nra. Qed.
Lemma Efactor_bound T m : Rabs T <= 20 -> Rabs (Efactor (moonE T) m) <= IZR (wE m) / 100.
Proof.
  intros H. pose proof (moonE_range T H) as K. decimals_in K. set (E := moonE T) in *. clearbody E. unfold Efactor, wE. destruct (Z.abs m) as [|q|q].
  - rewrite Rabs_R1. lra.
  - destruct q as [q|q|]; [rewrite Rabs_R0; lra| |rewrite Rabs_pos_eq; lra]. destruct q; [rewrite Rabs_R0; lra|rewrite Rabs_R0; lra|]. rewrite Rabs_pos_eq by nra. nra.
  - rewrite Rabs_R0. lra.
Qed.
Lemma term_bound E m w c t : Rabs t <= 1 -> Rabs (Efactor E m) <= IZR w / 100 -> Rabs (IZR c * t * Efactor E m) <= IZR (w * Z.abs c) / 100.
Proof.
  intros Ht HE. rewrite !Rabs_mult, mult_IZR, abs_IZR. pose proof (Rabs_pos t). pose proof (Rabs_pos (Efactor E m)). pose proof (Rabs_pos (IZR c)).
  assert (0 <= Rabs (IZR c) * Rabs t <= Rabs (IZR c)) by nra. nra.
Qed.
Lemma sumA_bound T D M N F : Rabs T <= 20 -> forall l sl sr bl br, Rabs sl <= IZR bl / 100 -> Rabs sr <= IZR br / 100 ->
  let r := fold_left (fun acc row => let '(d, m, n, f, cl, cr) := row in let '(sl, sr) := acc in
      let a := D * IZR d + M * IZR m + N * IZR n + F * IZR f in
      (sl + IZR cl * sin a * Efactor (moonE T) m, sr + IZR cr * cos a * Efactor (moonE T) m)) l (sl, sr) in
  Rabs (fst r) <= IZR (fold_left (fun s row => let '(d, m, n, f, cl, cr) := row in s + wE m * Z.abs cl)%Z l bl) / 100 /\
  Rabs (snd r) <= IZR (fold_left (fun s row => let '(d, m, n, f, cl, cr) := row in s + wE m * Z.abs cr)%Z l br) / 100.
Proof.
  intros HT. induction l as [|[[[[[d m] n] f] cl] cr] l IH]; intros sl sr bl br Hl Hr; cbn [fold_left]; [split; assumption|]. cbv zeta. apply IH.
  - eapply Rle_trans; [apply Rabs_triang|]. pose proof (term_bound (moonE T) m (wE m) cl (sin (D * IZR d + M * IZR m + N * IZR n + F * IZR f)) (abs_sin _) (Efactor_bound T m HT)). rewrite plus_IZR. lra.
  - eapply Rle_trans; [apply Rabs_triang|]. pose proof (term_bound (moonE T) m (wE m) cr (cos (D * IZR d + M * IZR m + N * IZR n + F * IZR f)) (abs_cos _) (Efactor_bound T m HT)). rewrite plus_IZR. lra.
Qed.
Lemma sumB_bound T D M N F : Rabs T <= 20 -> forall l sb bb, Rabs sb <= IZR bb / 100 ->
  Rabs (fold_left (fun sb row => let '(d, m, n, f, cb) := row in sb + IZR cb * sin (D * IZR d + M * IZR m + N * IZR n + F * IZR f) * Efactor (moonE T) m) l sb)
  <= IZR (fold_left (fun s row => let '(d, m, n, f, cb) := row in s + wE m * Z.abs cb)%Z l bb) / 100.
Proof.
  intros HT. induction l as [|[[[[d m] n] f] cb] l IH]; intros sb bb Hb; cbn [fold_left]; [assumption|]. apply IH.
  eapply Rle_trans; [apply Rabs_triang|]. pose proof (term_bound (moonE T) m (wE m) cb (sin (D * IZR d + M * IZR m + N * IZR n + F * IZR f)) (abs_sin _) (Efactor_bound T m HT)). rewrite plus_IZR. lra.
Qed.
Lemma k_sin k x : Rabs (k * sin x) <= Rabs k.
Proof. rewrite Rabs_mult. pose proof (abs_sin x). pose proof (Rabs_pos k). nra. Qed.
Lemma k_sin_le k x : 0 <= k -> - k <= k * sin x <= k.
Proof. intros H. pose proof (SIN_bound x). nra. Qed.
Lemma k_cos_le k x : 0 <= k -> - k <= k * cos x <= k.
Proof. intros H. pose proof (COS_bound x). nra. Qed.
Lemma MoonPosition_range jde : let T := (jde - 2451545) / 36525 in Rabs T <= 20 -> let '(lam, be, D) := MoonPosition jde in
  355277 <= D <= 414724 /\ Rabs be <= degrees 6.09 /\ near_turns (lam - moonL T) (degrees 9.2251).
Proof.
  intros T HT. unfold MoonPosition. rewrite century. fold T. destruct (dmf T) as [[[D M] N] F]. cbv zeta.
  set (sl0 := 3958 * sin (moonA1 T) + 1962 * sin (moonL T - F) + 318 * sin (moonA2 T)).
  set (sb0 := - 2235 * sin (moonL T) + 382 * sin (moonA3 T) + 175 * sin (moonA1 T - F) + 175 * sin (moonA1 T + F) + 127 * sin (moonL T - N) - 115 * sin (moonL T + N)).
  assert (Hl : Rabs sl0 <= IZR 623800 / 100).
  { unfold sl0. pose proof (k_sin_le 3958 (moonA1 T) ltac:(lra)). pose proof (k_sin_le 1962 (moonL T - F) ltac:(lra)). pose proof (k_sin_le 318 (moonA2 T) ltac:(lra)). apply Rabs_le. lra. }
  assert (Hb : Rabs sb0 <= IZR 320900 / 100).
  { unfold sb0. pose proof (k_sin_le 2235 (moonL T) ltac:(lra)). pose proof (k_sin_le 382 (moonA3 T) ltac:(lra)). pose proof (k_sin_le 175 (moonA1 T - F) ltac:(lra)). pose proof (k_sin_le 175 (moonA1 T + F) ltac:(lra)).
    pose proof (k_sin_le 127 (moonL T - N) ltac:(lra)). pose proof (k_sin_le 115 (moonL T + N) ltac:(lra)). apply Rabs_le. lra. }
  pose proof (sumA_bound T D M N F HT ta sl0 0 623800 0 Hl ltac:(rewrite Rabs_R0; lra)) as A. pose proof (sumB_bound T D M N F HT tb sb0 320900 Hb) as B. cbv zeta in A.
  change (fold_left (fun acc row => let '(d, m, n, f, cl, cr) := row in let '(sl, sr) := acc in
      (sl + IZR cl * sin (D * IZR d + M * IZR m + N * IZR n + F * IZR f) * Efactor (moonE T) m, sr + IZR cr * cos (D * IZR d + M * IZR m + N * IZR n + F * IZR f) * Efactor (moonE T) m)) ta) with (sumA D M N F (moonE T)) in A.
  change (fold_left (fun sb row => let '(d, m, n, f, cb) := row in sb + IZR cb * sin (D * IZR d + M * IZR m + N * IZR n + F * IZR f) * Efactor (moonE T) m) tb) with (sumB D M N F (moonE T)) in B.
  destruct (sumA D M N F (moonE T) (sl0, 0)) as [sl sr]. set (sb := sumB D M N F (moonE T) sb0) in *. cbn [fst snd] in A. destruct A as [A1 A2].
  assert (E1 : fold_left (fun s row => let '(d, m, n, f, cl, cr) := row in s + wE m * Z.abs cl)%Z ta 623800%Z = 922502324%Z) by (vm_compute; reflexivity).
  assert (E2 : fold_left (fun s row => let '(d, m, n, f, cl, cr) := row in s + wE m * Z.abs cr)%Z ta 0%Z = 2972275855%Z) by (vm_compute; reflexivity).
  assert (E3 : fold_left (fun s row => let '(d, m, n, f, cb) := row in s + wE m * Z.abs cb)%Z tb 320900%Z = 608912344%Z) by (vm_compute; reflexivity).
  rewrite E1 in A1. rewrite E2 in A2. rewrite E3 in B. apply Rabs_le_inv in A2. pose proof PI_RGT_0 as HP. clear E1 E2 E3 Hl Hb. clearbody sl0 sb0 sb. split; [clear - A2; lra|]. split.
  - unfold AngleFromDeg, degrees. rewrite !Rabs_mult, (Rabs_pos_eq (1 / 1000000)), (Rabs_pos_eq (PI / 180)) by lra. apply Rmult_le_compat_r; [lra|]. decimals. clear - B. lra.
  - destruct (Mod1_same (moonL T)) as (k & Ek). exists k. rewrite Ek. replace (moonL T + IZR k * (2 * PI) + AngleFromDeg (sl * (1 / 1000000)) - moonL T - IZR k * (2 * PI)) with (AngleFromDeg (sl * (1 / 1000000))) by ring.
    unfold AngleFromDeg, degrees. rewrite !Rabs_mult, (Rabs_pos_eq (1 / 1000000)), (Rabs_pos_eq (PI / 180)) by lra. apply Rmult_le_compat_r; [lra|]. decimals. clear - A1. lra.
Qed.
