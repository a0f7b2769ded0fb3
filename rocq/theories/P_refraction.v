(** Property theorems: atmospheric refraction (C80). *)
From Coq Require Import Reals.
From Verif Require Import GoMath S_solar M_refraction L_refraction L_refraction2 L_refraction3 L_refraction4 L_refraction5.
Local Open Scope R_scope.

(** Refraction decreases with altitude, so corrected altitudes keep the order of the given ones. *)
Theorem C80_above_15 : forall g h, degrees 15 <= g -> g < h -> h <= degrees 90 ->
  0 <= Gt15True h < Gt15True g /\ 0 <= Gt15Apparent h < Gt15Apparent g.
Proof. exact Gt15_decr. Qed.
Print Assumptions C80_above_15.
Theorem C80_decreasing : forall g h, degrees (-1) <= g -> g < h -> h <= degrees 90 ->
  Bennett h < Bennett g /\ Bennett2 h < Bennett2 g /\ Saemundsson h < Saemundsson g.
Proof. exact (fun g h A B C => conj (Bennett_decr g h A B C) (conj (Bennett2_decr g h A B C) (Saem_decr g h A B C))). Qed.
Print Assumptions C80_decreasing.
Theorem C80_order : forall g h, degrees (-1) <= g -> g < h -> h <= degrees 90 ->
  g - Bennett g < h - Bennett h /\ g + Saemundsson g < h + Saemundsson h.
Proof. exact (fun g h A B C => conj (Bennett_order g h A B C) (Saem_order g h A B C)). Qed.
Print Assumptions C80_order.

(** Refraction raises a body, except near the zenith. *)
Theorem C80_positive_partial : forall h, degrees (-1) <= h ->
  (h <= degrees 89.92 -> 0 < Bennett h) /\ (h <= degrees 89 -> 0 < Bennett2 h) /\ (h <= degrees 89.89 -> 0 < Saemundsson h).
Proof. exact (fun h A => conj (fun B => Bennett_pos h (conj A B)) (conj (fun B => Bennett2_pos h (conj A B)) (fun B => Saem_pos h (conj A B)))). Qed.
Print Assumptions C80_positive_partial.
Theorem C80_positive_refuted : Bennett (PI / 2) < 0 /\ Bennett2 (PI / 2) < 0 /\ Saemundsson (PI / 2) < 0.
Proof. exact zenith_negative. Qed.
Print Assumptions C80_positive_refuted.

(** The two formulas for high altitudes are inverse to each other within 0.03 arc seconds, and
    Bennett2 differs from Bennett by at most 0.06 arc minutes. *)
Theorem C80_inverse : forall h0, degrees 15 <= h0 <= degrees 90 -> Rabs (Gt15Apparent (h0 - Gt15True h0) - Gt15True h0) <= arcsec 0.03.
Proof. exact Gt15_inverse. Qed.
Print Assumptions C80_inverse.
Theorem C80_bennett2 : forall h, Rabs (Bennett2 h - Bennett h) <= AngleFromMin 0.06.
Proof. exact Bennett2_close. Qed.
Print Assumptions C80_bennett2.

(** Bennett's and Saemundsson's formulas agree within 4 arc seconds: either one recovers the refraction given by the other. *)
Theorem C80_saemundsson_bennett :
  (forall h0, 0 <= h0 <= degrees 89.9 -> Rabs (Saemundsson (h0 - Bennett h0) - Bennett h0) <= arcsec 4) /\
  (forall h, degrees (-0.6) <= h <= degrees 90 -> Rabs (Bennett (h + Saemundsson h) - Saemundsson h) <= arcsec 4).
Proof. exact (conj Saem_Bennett Bennett_Saem). Qed.
Print Assumptions C80_saemundsson_bennett.

(** At the horizon refraction is between 34 and 35 arc minutes. *)
Example C80_nonvacuous : AngleFromMin 34 < Bennett 0 < AngleFromMin 35.
Proof. exact Bennett_horizon. Qed.
Print Assumptions C80_nonvacuous.
