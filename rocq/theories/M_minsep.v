(** Model of angle.MinSepRect (v3/angle/angle.go). *)
From Coq Require Import ZArith Reals Bool List.
From Verif Require Import GoInt GoFloat GoMath S_minsep M_interp M_angle.
Import ListNotations.

(** angle/angle.go:103-117, the loop; [None] is the failure to converge.  The pair is (u, v)
    at the end. *)
Section Generic.
Context {fl : Flt}.
Local Open Scope flt_scope.
Fixpoint MinSepRect_loop (u3 v3 : Len3) (up0 vp0 up1 vp1 n dn : F) (fuel : nat) : option (F * F) :=
  match fuel with
  | O => None
  | S fuel =>
      let u := Len3_InterpolateN u3 n in
      let v := Len3_InterpolateN v3 n in
      if fabs dn <? fconst 1 100000 then Some (u, v)
      else
        let up := up0 + n * up1 in
        let vp := vp0 + n * vp1 in
        let dn := fneg (u * up + v * vp) / (up * up + vp * vp) in
        MinSepRect_loop u3 v3 up0 vp0 up1 vp1 (n + dn) dn fuel
  end.
(** angle/angle.go:84-117, after the rectangular coordinates.  The panics cannot happen: the
    slices have three elements and the interval is -1 to 1. *)
Definition MinSepRect_min (u0 u1 u2 v0 v1 v2 : F) : option (F * F) :=
  match NewLen3 (fconst (-1) 1) (fconst 1 1) [u0; u1; u2], NewLen3 (fconst (-1) 1) (fconst 1 1) [v0; v1; v2] with
  | Ok u3, Ok v3 =>
      let up0 := (u2 - u0) / fconst 2 1 in
      let vp0 := (v2 - v0) / fconst 2 1 in
      let up1 := u0 + u2 - fconst 2 1 * u1 in
      let vp1 := v0 + v2 - fconst 2 1 * v1 in
      let dn := fneg (u1 * up0 + v1 * vp0) / (up0 * up0 + vp0 * vp0) in
      MinSepRect_loop u3 v3 up0 vp0 up1 vp1 dn dn 10
  | _, _ => None
  end.
End Generic.

(** math.Hypot on reals with infinities. *)
Definition xhypot (a b : xreal) : xreal :=
  match a, b with
  | Fin x, Fin y => Fin (hypot x y)
  | XInf _, _ | _, XInf _ => XInf false
  | _, _ => XNaN
  end.

Inductive rect_result := RectNot3 | RectNoConverge | RectOk (sep : xreal).
(** angle/angle.go:69-118.  Reals with infinities and NaN, because the loop may divide by zero.
    jd1 and jd3 are not used. *)
Definition MinSepRect (jd1 jd3 : R) (r1 d1 r2 d2 : list R) : rect_result :=
  match r1, d1, r2, d2 with
  | [r10; r11; r12], [d10; d11; d12], [r20; r21; r22], [d20; d21; d22] =>
      let '(u0, v0) := MinSepRect_uv r10 d10 r20 d20 in
      let '(u1, v1) := MinSepRect_uv r11 d11 r21 d21 in
      let '(u2, v2) := MinSepRect_uv r12 d12 r22 d22 in
      match MinSepRect_min (fl := XFlt) (Fin u0) (Fin u1) (Fin u2) (Fin v0) (Fin v1) (Fin v2) with
      | None => RectNoConverge
      | Some (u, v) => RectOk (xhypot u v)
      end
  | _, _, _, _ => RectNot3
  end.

(** The rectangular coordinates of row k, and the path through the three rows that
    angle/angle.go:86-96 interpolates.  Not used by the model above. *)
Local Open Scope R_scope.
Definition row_uv (r1 d1 r2 d2 : list R) (k : nat) : R * R := MinSepRect_uv (nth k r1 0) (nth k d1 0) (nth k r2 0) (nth k d2 0).
Definition track_u (r1 d1 r2 d2 : list R) : R -> R := parabola (fst (row_uv r1 d1 r2 d2 0)) (fst (row_uv r1 d1 r2 d2 1)) (fst (row_uv r1 d1 r2 d2 2)).
Definition track_v (r1 d1 r2 d2 : list R) : R -> R := parabola (snd (row_uv r1 d1 r2 d2 0)) (snd (row_uv r1 d1 r2 d2 1)) (snd (row_uv r1 d1 r2 d2 2)).
