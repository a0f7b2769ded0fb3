(** Model of solstice over the real numbers.  Years are integers; the sums y-2000 cannot wrap for
    the years considered. *)
From Coq Require Import ZArith Reals List.
From Flocq Require Import Core.
From Verif Require Import GoFloat GoMath M_base M_coord M_precess M_vsop M_solar.
Import ListNotations.
Local Open Scope R_scope.

(** solstice/solstice.go:16-26 *)
Definition mc0 := [172113929189 / 100000; 36524213740 / 100000; 6134 / 100000; 111 / 100000; - (71 / 100000)].
Definition jc0 := [172123325401 / 100000; 36524172562 / 100000; - (5232 / 100000); 907 / 100000; 25 / 100000].
Definition sc0 := [172132570455 / 100000; 36524249558 / 100000; - (11677 / 100000); - (297 / 100000); 74 / 100000].
Definition dc0 := [172141439987 / 100000; 36524288257 / 100000; - (769 / 100000); - (933 / 100000); - (6 / 100000)].
Definition mc2 := [245162380984 / 100000; 36524237404 / 100000; 5169 / 100000; - (411 / 100000); - (57 / 100000)].
Definition jc2 := [245171656767 / 100000; 36524162603 / 100000; 325 / 100000; 888 / 100000; - (30 / 100000)].
Definition sc2 := [245181021715 / 100000; 36524201767 / 100000; - (11575 / 100000); 337 / 100000; 78 / 100000].
Definition dc2 := [245190005952 / 100000; 36524274049 / 100000; - (6223 / 100000); - (823 / 100000); 32 / 100000].

(** solstice/solstice.go:32-59: a; b in hundredths, c in thousandths. *)
Definition season_terms : list (Z * Z * Z) := ([
  (485, 32496, 1934136); (203, 33723, 32964467); (199, 34208, 20186); (182, 2785, 445267112);
  (156, 7314, 45036886); (136, 17152, 22518443); (77, 22254, 65928934); (74, 29672, 3034906);
  (70, 24358, 9037513); (58, 11981, 33718147); (52, 29717, 150678); (50, 2102, 2281226);
  (45, 24754, 29929562); (44, 32515, 31555956); (29, 6093, 4443417); (18, 15512, 67555328);
  (17, 28879, 4562452); (16, 19804, 62894029); (14, 19976, 31436921); (12, 9539, 14577848);
  (12, 28711, 31931756); (12, 32081, 34777259); (9, 22773, 1222114); (8, 1545, 16859074)])%Z.

(** solstice/solstice.go:109-120 *)
Definition season_sum (T : R) : R :=
  fold_left (fun s t => let '(a, b, c) := t in s + IZR a * cos ((IZR b / 100 + IZR c / 1000 * T) * PI / 180)) (rev season_terms) 0.
Definition season_dl (T : R) : R :=
  let W := 35999373 / 1000 * PI / 180 * T - 247 / 100 * PI / 180 in
  1 + 334 / 10000 * cos W + 7 / 10000 * cos (2 * W).
Definition season_eq (y : Z) (c : list R) : R :=
  let J0 := HornerR (IZR y * (1 / 1000)) c in
  let T := J2000Century (fl := RFlt) J0 in
  J0 + 1 / 100000 * season_sum T / season_dl T.

(** solstice/solstice.go:66-71, 78-83, 90-95, 102-107 *)
Definition by_year (c0 c2 : list R) (y : Z) : R := if (y <? 1000)%Z then season_eq y c0 else season_eq (y - 2000) c2.
Definition March := by_year mc0 mc2.
Definition June := by_year jc0 jc2.
Definition September := by_year sc0 sc2.
Definition December := by_year dc0 dc2.

(** solstice/solstice.go:190-201: the loop, for an apparent longitude of the Sun as a function of time;
    None: no result within fuel steps. *)
Fixpoint season_loop (lam : R -> R) (q : R) (fuel : nat) (J0 : R) : option R :=
  match fuel with
  | O => None
  | S n => let c := 58 * sin (q - lam J0) in
           if Rlt_bool (Rabs c) (5 / 1000000) then Some (J0 + c) else season_loop lam q n (J0 + c)
  end.
Definition season_eq2 (lam : R -> R) (fuel : nat) (q : R) (y : Z) (c : list R) : option R :=
  season_loop lam q fuel (HornerR (IZR y * (1 / 1000)) c).
(** solstice/solstice.go:135-140, 148-153, 166-171, 184-189 *)
Definition by_year2 (lam : R -> R) (fuel : nat) (q : R) (c0 c2 : list R) (y : Z) : option R :=
  if (y <? 1000)%Z then season_eq2 lam fuel q y c0 else season_eq2 lam fuel q (y - 2000) c2.
Definition sun_longitude (e : @V87Planet R) (jde : R) : R := fst (fst (ApparentVSOP87 e jde)).
Definition March2 (fuel : nat) (y : Z) (e : @V87Planet R) := by_year2 (sun_longitude e) fuel 0 mc0 mc2 y.
Definition June2 (fuel : nat) (y : Z) (e : @V87Planet R) := by_year2 (sun_longitude e) fuel (PI / 2) jc0 jc2 y.
Definition September2 (fuel : nat) (y : Z) (e : @V87Planet R) := by_year2 (sun_longitude e) fuel PI sc0 sc2 y.
Definition December2 (fuel : nat) (y : Z) (e : @V87Planet R) := by_year2 (sun_longitude e) fuel (PI * 3 / 2) dc0 dc2 y.
