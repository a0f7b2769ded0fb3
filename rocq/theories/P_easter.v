(** Property theorems: package easter (C08, C09). *)
From Coq Require Import ZArith Bool Lia.
From Verif Require Import GoInt S_Calendar S_Easter L_easter.
From Verif Require M_easter.
Local Open Scope Z_scope.

(** ** C08 *)
Theorem C08_gregorian_easter : forall y, 0 <= y < two63 ->
  let '(m, d) := M_easter.Gregorian y in is_easter Gregorian y m d.
Proof. exact Gregorian_easter. Qed.
Print Assumptions C08_gregorian_easter.

(** The rules determine the date, so C08 and C09 say which date it is. *)
Theorem C08_C09_easter_unique : forall c y m d m' d',
  is_easter c y m d -> is_easter c y m' d' -> m = m' /\ d = d'.
Proof. exact is_easter_unique. Qed.
Print Assumptions C08_C09_easter_unique.

Example C08_nonvacuous : 0 <= 1818 < two63 /\ M_easter.Gregorian 1818 = (3, 22) /\
  M_easter.Gregorian 1954 = (4, 18) /\ M_easter.Gregorian 2038 = (4, 25).
Proof. unfold two63. repeat split; lia. Qed.

(** ** C09 *)
Theorem C09_julian_easter : forall y, 0 <= y < two63 ->
  let '(m, d) := M_easter.Julian y in is_easter Julian y m d.
Proof. exact Julian_easter. Qed.
Print Assumptions C09_julian_easter.

Example C09_nonvacuous : M_easter.Julian 179 = (4, 12) /\ M_easter.Julian 711 = (4, 12) /\
  M_easter.Julian 1243 = (4, 12).
Proof. repeat split; reflexivity. Qed.
