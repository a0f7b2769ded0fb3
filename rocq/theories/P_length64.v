(** Property theorems: the length of an ellipse in double precision (C108). *)
From Coq Require Import ZArith Bool Reals Lra.
From Flocq Require Import Core IEEE754.BinarySingleNaN.
From Verif Require Import GoInt GoFloat M_length S_float64 S_ellipse L_ellipse L_length64 L_length64b.
Local Open Scope R_scope.

(** The calls that return: a finite and not 0, the eccentricity from -1 to 1.  Every other call runs for ever. *)
Theorem C108_returns_iff : forall a e : float64,
  (exists fuel r, Length4 (fl := BFlt) fuel a e = Some r) <-> is_finite a = true /\ B2R a <> 0 /\ is_finite e = true /\ Rabs (B2R e) <= 1.
Proof. exact Length4_returns_iff. Qed.
Print Assumptions C108_returns_iff.
(** A call that returns does so within 131072 rounds. *)
Theorem C108_rounds : forall a e : float64, is_finite a = true -> B2R a <> 0 -> is_finite e = true -> Rabs (B2R e) <= 1 ->
  exists r, forall fuel, (131072 <= Z.of_nat fuel)%Z -> Length4 (fl := BFlt) fuel a e = Some r.
Proof. exact Length4_returns. Qed.
Print Assumptions C108_rounds.
(** The result of a call with n rounds. *)
Theorem C108_accuracy : forall (a e : float64) n r L, is_finite a = true -> bpow radix2 (-900) <= B2R a <= bpow radix2 1000 -> is_finite e = true -> 0 <= B2R e < 1 ->
  Length4 (fl := BFlt) n a e = Some r -> perimeter (B2R a) (B2R a * sqrt (1 - B2R e * B2R e)) L ->
  is_finite r = true /\ Rabs (B2R r - L) <= (6 * INR n + 26 + 4.1 / sqrt (1 - B2R e * B2R e)) * / 2 ^ 53 * L /\ Rabs (B2R r - L) <= 5e-8 * L.
Proof. exact accuracy_n. Qed.
Print Assumptions C108_accuracy.
(** Eccentricities up to 0.91. *)
Theorem C108_planets : forall a e : float64, is_finite a = true -> bpow radix2 (-900) <= B2R a <= bpow radix2 1000 -> is_finite e = true -> 0 <= B2R e <= 0.91 ->
  exists r, is_finite r = true /\ (forall n, (15 <= n)%nat -> Length4 (fl := BFlt) n a e = Some r) /\
    forall L, perimeter (B2R a) (B2R a * sqrt (1 - B2R e * B2R e)) L -> Rabs (B2R r - L) <= 1.4e-14 * L.
Proof. exact within_15. Qed.
Print Assumptions C108_planets.

(** The unit orbit of eccentricity 1/2 meets the hypotheses, and has a length. *)
Example C108_nonvacuous : let a := fconst (Flt := BFlt) 1 1 in let e := fconst (Flt := BFlt) 1 2 in
  is_finite a = true /\ bpow radix2 (-900) <= B2R a <= bpow radix2 1000 /\ is_finite e = true /\ 0 <= B2R e <= 0.91 /\ exists L, perimeter (B2R a) (B2R a * sqrt (1 - B2R e * B2R e)) L.
Proof.
  intros a e. destruct (isint_const 1 eq_refl) as [Fa Ea]. fold a in Fa, Ea.
  assert (Q : B2SF e = SpecFloat.S754_finite false 4503599627370496 (-53)) by (vm_compute; reflexivity).
  assert (E : is_finite e = true /\ B2R e = / 2).
  { clearbody e. destruct e as [s|s| |s m ex p]; cbn in Q; try discriminate Q. injection Q as -> -> ->. split; [reflexivity|]. cbn. unfold F2R. cbn. lra. }
  split; [exact Fa|]. split; [rewrite Ea; change 1 with (bpow radix2 0); split; apply bpow_le; discriminate|]. split; [apply E|]. split; [rewrite (proj2 E); lra|]. apply perimeter_exists.
Qed.
(** An eccentricity above 1 never returns. *)
Example C108_hyperbola : forall fuel, Length4 (fl := BFlt) fuel (fconst (Flt := BFlt) 1 1) (fconst (Flt := BFlt) 2 1) = None.
Proof. intros fuel. apply Length4_hangs. right. right. right. rewrite (proj2 (isint_const 2 eq_refl)). rewrite Rabs_pos_eq; lra. Qed.
