(** Model of planetelements over the real numbers.  None is a panic. *)
From Coq Require Import ZArith Reals List.
From Verif Require Import GoFloat GoMath M_base.
Import ListNotations.
Local Open Scope R_scope.

(** planetelements/planetelements.go:14-24 *)
Definition Mercury : Z := 0. Definition Venus : Z := 1. Definition Earth : Z := 2. Definition Mars : Z := 3.
Definition Jupiter : Z := 4. Definition Saturn : Z := 5. Definition Uranus : Z := 6. Definition Neptune : Z := 7.

(** planetelements/planetelements.go:32-39 *)
Record Elements := mkElements { eLon : R; eAxis : R; eEcc : R; eInc : R; eNode : R; ePeri : R }.
(** planetelements/planetelements.go:41-43; a nil slice is the empty list. *)
Record c6 := mkC6 { cL : list R; ca : list R; ce : list R; ci : list R; cO : list R; cp : list R }.

(** planetelements/planetelements.go:46-111 *)
Definition cMean : list c6 := [
  (* Mercury *) mkC6 [252250906 / 1000000; 1494740722491 / 10000000; 3035 / 10000000; 18 / 1000000000]
    [38709831 / 100000000]
    [20563175 / 100000000; 20407 / 1000000000; - (283 / 10000000000); - (18 / 100000000000)]
    [7004986 / 1000000; 18215 / 10000000; - (181 / 10000000); 56 / 1000000000]
    [48330893 / 1000000; 11861883 / 10000000; 17542 / 100000000; 215 / 1000000000]
    [77456119 / 1000000; 15564776 / 10000000; 29544 / 100000000; 9 / 1000000000];
  (* Venus *) mkC6 [181979801 / 1000000; 585192130302 / 10000000; 31014 / 100000000; 15 / 1000000000]
    [72332982 / 100000000]
    [677192 / 100000000; - (47765 / 1000000000); 981 / 10000000000; 46 / 100000000000]
    [3394662 / 1000000; 10037 / 10000000; - (88 / 100000000); - (7 / 1000000000)]
    [7667992 / 100000; 9011206 / 10000000; 40618 / 100000000; - (93 / 1000000000)]
    [131563703 / 1000000; 14022288 / 10000000; - (107618 / 100000000); - (5678 / 1000000000)];
  (* Earth *) mkC6 [100466457 / 1000000; 360007698278 / 10000000; 30322 / 100000000; 2 / 100000000]
    [1000001018 / 1000000000]
    [1670863 / 100000000; - (42037 / 1000000000); - (1267 / 10000000000); 14 / 100000000000]
    [0]
    []
    [102937348 / 1000000; 17195366 / 10000000; 45688 / 100000000; - (18 / 1000000000)];
  (* Mars *) mkC6 [355433 / 1000; 191416964471 / 10000000; 31052 / 100000000; 16 / 1000000000]
    [1523679342 / 1000000000]
    [9340065 / 100000000; 90484 / 1000000000; - (806 / 10000000000); - (25 / 100000000000)]
    [1849726 / 1000000; - (6011 / 10000000); 1276 / 100000000; - (7 / 1000000000)]
    [49558093 / 1000000; 7720959 / 10000000; 1557 / 100000000; 2267 / 1000000000]
    [336060234 / 1000000; 18410449 / 10000000; 13477 / 100000000; 536 / 1000000000];
  (* Jupiter *) mkC6 [34351519 / 1000000; 30363027748 / 10000000; 2233 / 10000000; 37 / 1000000000]
    [5202603209 / 1000000000; 1913 / 10000000000]
    [4849793 / 100000000; 163225 / 1000000000; - (4714 / 10000000000); - (201 / 100000000000)]
    [1303267 / 1000000; - (54965 / 10000000); 466 / 100000000; - (2 / 1000000000)]
    [100464407 / 1000000; 10209774 / 10000000; 40315 / 100000000; 404 / 1000000000]
    [14331207 / 1000000; 16126352 / 10000000; 103042 / 100000000; - (4464 / 1000000000)];
  (* Saturn *) mkC6 [50077444 / 1000000; 12235110686 / 10000000; 51908 / 100000000; - (3 / 100000000)]
    [9554909192 / 1000000000; - (21390 / 10000000000); 4 / 1000000000]
    [5554814 / 100000000; - (346641 / 1000000000); - (6436 / 10000000000); 34 / 10000000000]
    [2488879 / 1000000; - (37362 / 10000000); - (1519 / 100000000); 87 / 1000000000]
    [113665503 / 1000000; 877088 / 1000000; - (12176 / 100000000); - (2249 / 1000000000)]
    [93057237 / 1000000; 19637613 / 10000000; 83753 / 100000000; 4928 / 1000000000];
  (* Uranus *) mkC6 [314055005 / 1000000; 4298640561 / 10000000; 3039 / 10000000; 26 / 1000000000]
    [19218446062 / 1000000000; - (372 / 10000000000); 98 / 100000000000]
    [4638122 / 100000000; - (27293 / 1000000000); 789 / 10000000000; 24 / 100000000000]
    [773197 / 1000000; 7744 / 10000000; 3749 / 100000000; - (92 / 1000000000)]
    [74005957 / 1000000; 5211278 / 10000000; 133947 / 100000000; 18484 / 1000000000]
    [173005291 / 1000000; 1486379 / 1000000; 21406 / 100000000; 434 / 1000000000];
  (* Neptune *) mkC6 [304348665 / 1000000; 2198833092 / 10000000; 30882 / 100000000; 18 / 1000000000]
    [30110386869 / 1000000000; - (1663 / 10000000000); 69 / 100000000000]
    [945575 / 100000000; 6033 / 1000000000; 0; - (5 / 100000000000)]
    [1769953 / 1000000; - (93082 / 10000000); - (708 / 100000000); 27 / 1000000000]
    [131784057 / 1000000; 11022039 / 10000000; 25952 / 100000000; - (637 / 1000000000)]
    [48120276 / 1000000; 14262957 / 10000000; 38434 / 100000000; 2 / 100000000]].

(** cMean[p] *)
Definition row (p : Z) : option c6 := if (p <? 0)%Z then None else nth_error cMean (Z.to_nat p).
Definition bind {A B} (o : option A) (f : A -> option B) : option B := match o with Some a => f a | None => None end.
Local Notation "'do' x <- o ; k" := (bind o (fun x => k)) (at level 200, x name, o at level 100, k at level 200).

(** planetelements/planetelements.go:121-130; the result parameter is the result. *)
Definition Mean (p : Z) (jde : R) : option Elements :=
  let T := J2000Century (fl := RFlt) jde in
  do c <- row p;
  do l <- Horner (fl := RFlt) T (cL c);
  do a <- Horner (fl := RFlt) T (ca c);
  do e <- Horner (fl := RFlt) T (ce c);
  do i <- Horner (fl := RFlt) T (ci c);
  do o <- Horner (fl := RFlt) T (cO c);
  do w <- Horner (fl := RFlt) T (cp c);
  Some (mkElements (Mod1 (AngleFromDeg l)) a e (AngleFromDeg i) (AngleFromDeg o) (AngleFromDeg w)).

(** planetelements/planetelements.go:136-138 *)
Definition Inc (p : Z) (jde : R) : option R :=
  do c <- row p; do i <- Horner (fl := RFlt) (J2000Century (fl := RFlt) jde) (ci c); Some (AngleFromDeg i).
(** planetelements/planetelements.go:144-146 *)
Definition Node (p : Z) (jde : R) : option R :=
  do c <- row p; do o <- Horner (fl := RFlt) (J2000Century (fl := RFlt) jde) (cO c); Some (AngleFromDeg o).
