(** C124: only the position of the sky relative to the observer's meridian matters. *)
From Coq Require Import ZArith Reals List Lra.
From Verif Require Import GoFloat GoMath M_coord M_rise S_Sphere S_rise L_trig L_rise L_rise2 L_rise5.
Import ListNotations.
Local Open Scope R_scope.

(** Sidereal time x later, right ascension y larger and observer z further west:
    the times are later by the time of rotation through y + z, less x. *)
Theorem C124_shift : forall p h0 Th0 a d x y z, let s := (y + z) * (43200 / PI) - x in
  match ApproxTimes p h0 Th0 a d, ApproxTimes (mkCoord (Lat p) (Lon p + z)) h0 (Th0 + x) (a + y) d with
  | Some (tr, tm, ts), Some (tr', tm', ts') => same_time tr' (tr + s) /\ same_time tm' (tm + s) /\ same_time ts' (ts + s)
  | None, None => True
  | _, _ => False
  end.
Proof. exact ApproxTimes_shift. Qed.
Print Assumptions C124_shift.

(** If these compensate, up to n turns, the times are the same, *)
Theorem C124_approximate : forall p h0 Th0 a d x y z n, y + z = x * (PI / 43200) + IZR n * (2 * PI) ->
  ApproxTimes (mkCoord (Lat p) (Lon p + z)) h0 (Th0 + x) (a + y) d = ApproxTimes p h0 Th0 a d.
Proof. exact ApproxTimes_turn. Qed.
Print Assumptions C124_approximate.

(** and so are those of Times; the transit only up to whole days. *)
Theorem C124_corrected : forall p DT h0 Th0 a0 a1 a2 d0 d1 d2 x y z n, y + z = x * (PI / 43200) + IZR n * (2 * PI) ->
  match Times p DT h0 Th0 [a0; a1; a2] [d0; d1; d2], Times (mkCoord (Lat p) (Lon p + z)) DT h0 (Th0 + x) [a0 + y; a1 + y; a2 + y] [d0; d1; d2] with
  | Ret (tr, tm, ts), Ret (tr', tm', ts') => tr' = tr /\ same_time tm' tm /\ ts' = ts
  | Fail, Fail => True
  | _, _ => False
  end.
Proof. exact Times_turn. Qed.
Print Assumptions C124_corrected.

(** Six hours of sidereal time, an eighth of a turn in each of the others, a turn more in right ascension. *)
Example C124_nonvacuous : (PI / 4 + 2 * PI) + PI / 4 = 21600 * (PI / 43200) + IZR 1 * (2 * PI) /\
  exists tr tm ts, Times (mkCoord 0 0) 60 0 43200 [- (1 / 100); 0; 1 / 100] [0; 0; 0] = Ret (tr, tm, ts).
Proof. split; [field|]. destruct example_times as (r & t & s & _ & E & _). exists r, t, s. exact E. Qed.
