(** Model of package deltat (v3/deltat/deltat.go). *)
From Coq Require Import ZArith Bool List.
From Verif Require Import GoInt GoFloat M_base M_interp M_julian.
Import ListNotations.

(** deltat/deltat.go:33-57, in tenths of a second. *)
Definition table10A_tenths : list Z :=
  ([1210; 1120; 1030; 950; 880; 820; 770; 720; 680; 630; 600; 560; 530; 510; 480; 460;
     440; 420; 400; 380; 350; 330; 310; 290; 260; 240; 220; 200; 180; 160; 140; 120;
     110; 100; 90; 80; 70; 70; 70; 70; 70; 70; 80; 80; 90; 90; 90; 90;
     90; 100; 100; 100; 100; 100; 100; 100; 100; 110; 110; 110; 110; 110; 120; 120;
     120; 120; 130; 130; 130; 140; 140; 140; 140; 150; 150; 150; 150; 150; 160; 160;
     160; 160; 160; 160; 160; 160; 150; 150; 140; 130; 131; 125; 122; 120; 120; 120;
     120; 120; 120; 119; 116; 110; 102; 92; 82; 71; 62; 56; 54; 53; 54; 56;
     59; 62; 65; 68; 71; 73; 75; 76; 77; 73; 62; 52; 27; 14; -12; -28;
     -38; -48; -55; -53; -56; -57; -59; -60; -63; -65; -62; -47; -28; -1; 26; 53;
     77; 104; 133; 160; 182; 202; 211; 224; 235; 238; 243; 240; 239; 239; 237; 240;
     243; 253; 262; 273; 282; 291; 300; 307; 314; 322; 331; 340; 350; 365; 383; 402;
     422; 445; 465; 485; 505; 522; 538; 549; 558; 569; 583; 600; 616; 630; 638; 643;
     646; 648; 655; 661])%Z.

Section Generic.
Context {fl : Flt}.
Local Open Scope flt_scope.

(** deltat/deltat.go:31-32 *)
Definition tableYear1 : F := fconst 1620 1.
Definition tableYearN : F := fconst 2010 1.
Definition table10A : list F := map (fun n => fconst n 10) table10A_tenths.

(** deltat/deltat.go:61-76.  [None]: a conversion to int out of range, or the panic. *)
Definition Interp10A (unspec : F -> Z) (jde : F) : option F :=
  match JDToCalendar jde with
  | None => None
  | Some (y, m, d) =>
      let l := LeapYearGregorian y in
      let yl := if l then fconst 365 1 + fconst 1 1 else fconst 365 1 in
      match fint64 (d + fconst 5 10) with
      | None => None
      | Some di =>
          let yf := fofZ y + fofZ (DayOfYear y m di l) / yl in
          match Len3ForInterpolateX unspec yf tableYear1 tableYearN table10A with
          | Err _ => None
          | Ok d3 => Some (Len3_InterpolateX d3 yf)
          end
      end
  end.

(** deltat/deltat.go:81-83 *)
Definition c2000 (y : F) : F := (y - fconst 2000 1) * fconst 1 100.

(** deltat/deltat.go:87-90 *)
Definition PolyBefore948 (year : F) : F := horner (c2000 year) [fconst 2177 1; fconst 497 1; fconst 441 10].

(** deltat/deltat.go:94-97 *)
Definition Poly948to1600 (year : F) : F := horner (c2000 year) [fconst 102 1; fconst 102 1; fconst 253 10].

(** deltat/deltat.go:101-107 *)
Definition PolyAfter2000 (year : F) : F :=
  let dT := Poly948to1600 year in
  if year <? fconst 2100 1 then dT + fconst 37 100 * (year - fconst 2100 1) else dT.

(** base/julian.go:17, deltat/deltat.go:112-114 *)
Definition J1900 : F := fconst 2415020 1.
Definition jc1900 (jde : F) : F := (jde - J1900) / JulianCentury.

(** deltat/deltat.go:120-125 *)
Definition Poly1800to1997 (jde : F) : F := horner (jc1900 jde)
  [fconst (-102) 100; fconst 9102 100; fconst 2659 10; fconst (-83916) 100; fconst (-15452) 10; fconst 360362 100; fconst 438598 100; fconst (-699323) 100; fconst (-609004) 100; fconst 629812 100; fconst 410286 100; fconst (-213764) 100; fconst (-108151) 100].

(** deltat/deltat.go:131-136 *)
Definition Poly1800to1899 (jde : F) : F := horner (jc1900 jde)
  [fconst (-25) 10; fconst 22895 100; fconst 521861 100; fconst 5628284 100; fconst 32401178 100; fconst 106166075 100; fconst 208729889 100; fconst 251380778 100; fconst 181896141 100; fconst 72705863 100; fconst 12356395 100].

(** deltat/deltat.go:142-147 *)
Definition Poly1900to1997 (jde : F) : F := horner (jc1900 jde)
  [fconst (-244) 100; fconst 8724 100; fconst 8152 10; fconst (-26378) 10; fconst (-1875633) 100; fconst 12490615 100; fconst (-30319119) 100; fconst 37291988 100; fconst (-23242466) 100; fconst 5835342 100].

End Generic.
