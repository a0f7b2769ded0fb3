(** C123: above the standard altitude exactly from rising to setting. *)
From Coq Require Import ZArith Reals List Lra.
From Verif Require Import GoFloat GoMath M_coord M_rise S_Sphere S_rise L_trig L_rise L_rise2 L_rise4.
Local Open Scope R_scope.

(** Rising and setting are equally far from transit, and in the day around the
    transit the body is above h0 between them, below h0 outside, highest at the
    transit, and equally high before and after it. *)
Theorem C123_above : forall p h0 Th0 a d tr tm ts, - (PI / 2) < Lat p < PI / 2 -> - (PI / 2) < d < PI / 2 ->
  ApproxTimes p h0 Th0 a d = Some (tr, tm, ts) ->
  let alt t := sin_alt (Lat p) d (hour_angle 1 Th0 (Lon p) a t) in
  exists half, 0 <= half <= 43200 /\ same_time tr (tm - half) /\ same_time ts (tm + half) /\
    forall s, Rabs s <= 43200 ->
      (Rabs s < half -> sin h0 < alt (tm + s)) /\ (half < Rabs s -> alt (tm + s) < sin h0) /\ (Rabs s = half -> alt (tm + s) = sin h0) /\
      alt (tm + s) = alt (tm - s) /\ alt (tm + s) <= alt tm.
Proof. exact ApproxTimes_above. Qed.
Print Assumptions C123_above.

(** With an error the body stays on one side of h0. *)
Theorem C123_circumpolar : forall p h0 Th0 a d, - (PI / 2) < Lat p < PI / 2 -> - (PI / 2) < d < PI / 2 ->
  ApproxTimes p h0 Th0 a d = None ->
  (forall H, sin h0 < sin_alt (Lat p) d H) \/ (forall H, sin_alt (Lat p) d H < sin h0).
Proof. exact ApproxTimes_never. Qed.
Print Assumptions C123_circumpolar.

Example C123_nonvacuous : ApproxTimes (mkCoord 0 0) 0 43200 0 0 = Some (21600, 43200, 64800).
Proof. destruct example_times as (? & ? & ? & E & _). exact E. Qed.
Example C123_circumpolar_nonvacuous : ApproxTimes (mkCoord (PI / 3) 0) 0 0 0 (PI / 3) = None.
Proof. exact never_example. Qed.
