(** Property theorems: names of the Moslem months (C117). *)
From Coq Require Import ZArith Bool List String Lia.
From Verif Require Import GoInt GoFloat M_jm S_Calendar S_Moslem L_jm_moslem L_jm_month.
Local Open Scope Z_scope.

(** A name exactly for the months 1 to 12; [None] is a panic. *)
Theorem C117_names : forall m, - two63 <= m < two63 ->
  (MMonth_String m = None <-> m < 1 \/ 12 < m).
Proof. exact String_none. Qed.
Print Assumptions C117_names.

Theorem C117_names_differ : forall m m' s, - two63 <= m < two63 -> - two63 <= m' < two63 ->
  MMonth_String m = Some s -> MMonth_String m' = Some s -> m = m'.
Proof. exact String_inj. Qed.
Print Assumptions C117_names_differ.

(** In the order of the calendar. *)
Theorem C117_order : forall m, 1 <= m <= 12 ->
  MMonth_String m = nth_error ("Muḥarram" :: "Ṣafar" :: "Rabīʿ I" :: "Rabīʿ II" :: "Jumādā I" :: "Jumādā II" :: "Rajab" ::
    "Shaʿbān" :: "Ramaḍān" :: "Shawwāl" :: "Dhū al-Qaʿda" :: "Dhū al-Ḥijja" :: nil)%string (Z.to_nat (m - 1)).
Proof. exact String_index. Qed.
Print Assumptions C117_order.

(** The month of a converted date cannot always be printed: 1844 January 1 gets the month 0. *)
Theorem C117_converted_refuted :
  ~ (forall x, 623 <= d_y x <= 2000 -> valid_date Julian x = true ->
       exists y m d s, JulianToMoslem (fl := BFlt) (d_y x) (d_m x) (d_d x) = Some (y, m, d) /\ MMonth_String m = Some s).
Proof.
  intros H. destruct (H (mkdate 1844 1 1) ltac:(cbn; lia) eq_refl) as (y & m & d & s & E & Es).
  vm_compute in E. injection E as <- <- <-. vm_compute in Es. discriminate.
Qed.
Print Assumptions C117_converted_refuted.

(** Exactly when it panics: the date lies before the first day of the Moslem year in which the
    program places January 1, or 355 days or more after the day it takes for the last of that year. *)
Theorem C117_converted_partial : forall x,
  623 <= d_y x <= 1000000000000000 -> valid_date Julian x = true ->
  let first := m_jdn (mkdate (code_year (jdn Julian (mkdate (d_y x) 1 1))) 1 1) in
  exists y m d, JulianToMoslem (fl := BFlt) (d_y x) (d_m x) (d_d x) = Some (y, m, d) /\ 0 <= m <= 13 /\
    (MMonth_String m = None <->
     jdn Julian x < first \/ first + m_year_length (m_leap (d_y x)) + 355 <= jdn Julian x).
Proof. intros x. exact (month_of BFlt x C2_B). Qed.
Print Assumptions C117_converted_partial.

Example C117_nonvacuous :
  MMonth_String 9 = Some "Ramaḍān"%string /\
  JulianToMoslem (fl := BFlt) 1844 1 1 = Some (1260, 0, 21) /\
  jdn Julian (mkdate 1844 1 1) < m_jdn (mkdate (code_year (jdn Julian (mkdate 1844 1 1))) 1 1) /\
  JulianToMoslem (fl := BFlt) 1877 12 31 = Some (1294, 13, 8) /\
  m_jdn (mkdate (code_year (jdn Julian (mkdate 1877 1 1))) 1 1) + 354 + 355 <= jdn Julian (mkdate 1877 12 31).
Proof. repeat split; vm_compute; try reflexivity; intros A; discriminate A. Qed.
