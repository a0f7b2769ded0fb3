(** Model of package conjunction (v3/conjunction/conjunction.go).  Angles are their value in
    radians (unit.Angle is a float64, Rad is the identity). *)
From Coq Require Import ZArith Bool List.
From Verif Require Import GoInt GoFloat M_base M_interp.
Import ListNotations.

(** conjunction/conjunction.go:31, 50: errors of this package, besides those of interp. *)
Inductive cerror := ErrorRows | ErrorInterp (e : error).

Section Generic.
Context {fl : Flt}.
Local Open Scope flt_scope.
Local Notation f0 := (fconst 0 1).

(** The loops at conjunction/conjunction.go:36-39, 55-58: elementwise differences. *)
Definition diffs (l2 l1 : list F) : list F := map (fun p => fst p - snd p) (combine l2 l1).

(** conjunction/conjunction.go:62-75.  The results are t, Δd and the error, if any. *)
Definition conj (t1 t5 : F) (dr dd : list F) : F * F * option cerror :=
  match NewLen5 t1 t5 dr with
  | Err e => (f0, f0, Some (ErrorInterp e))
  | Ok l5 =>
      match Len5_Zero l5 true with
      | Err e => (f0, f0, Some (ErrorInterp e))
      | Ok t =>
          match NewLen5 t1 t5 dd with
          | Err e => (t, f0, Some (ErrorInterp e))
          | Ok l5 =>
              match Len5_InterpolateXStrict l5 t with
              | Err e => (t, f0, Some (ErrorInterp e))
              | Ok d => (t, d, None)
              end
          end
      end
  end.

Definition five (l : list F) : bool := Nat.eqb (length l) 5.

(** conjunction/conjunction.go:29-41 *)
Definition Planetary (t1 t5 : F) (r1 d1 r2 d2 : list F) : F * F * option cerror :=
  if negb (five r1) || negb (five d1) || negb (five r2) || negb (five d2) then (f0, f0, Some ErrorRows)
  else conj t1 t5 (diffs r2 r1) (diffs d2 d1).

(** conjunction/conjunction.go:47-60 *)
Definition Stellar (t1 t5 : F) (r1 d1 : F) (r2 d2 : list F) : F * F * option cerror :=
  if negb (five r2) || negb (five d2) then (f0, f0, Some ErrorRows)
  else conj t1 t5 (map (fun r => r - r1) r2) (map (fun d => d - d1) d2).

End Generic.
