(** Property theorems: VSOP87 files (C52). *)
From Coq Require Import ZArith Bool List Ascii Arith Lia.
From Verif Require Import M_vsop S_vsop L_vsop.
Import ListNotations.

(** A well-formed file (series of variables 1, 2, 3 in this order, at most one of each power)
    yields exactly its terms. *)
Theorem C52_well_formed : forall {F} (pf : list ascii -> option F) ibody ss1 ss2 ss3 rest lines fuel, (0 <= ibody < 8)%Z ->
  (forall s, In s ss1 -> well_formed pf (b7 ibody) "1"%char s) -> (forall s, In s ss2 -> well_formed pf (b7 ibody) "2"%char s) ->
  (forall s, In s ss3 -> well_formed pf (b7 ibody) "3"%char s) ->
  NoDup (map s_power ss1) -> NoDup (map s_power ss2) -> NoDup (map s_power ss3) ->
  (forall l, hd_error rest = Some l -> (length l < 132)%nat) ->
  lines = lines_of ss1 ++ lines_of ss2 ++ lines_of ss3 ++ rest -> lines <> [] -> (forall l, In l lines -> ~ In line_feed l) ->
  (length lines < fuel)%nat ->
  exists v, LoadPlanetPath pf fuel ibody (Some (file_of lines)) = Some (LPlanet v) /\
    length (v_l v) = 6%nat /\ length (v_b v) = 6%nat /\ length (v_r v) = 6%nat /\
    forall k, terms_of ss1 k (nth k (v_l v) []) /\ terms_of ss2 k (nth k (v_b v) []) /\ terms_of ss3 k (nth k (v_r v) []).
Proof. exact @Load_file. Qed.
Print Assumptions C52_well_formed.

(** A missing file, a bad planet number, or any file whose header lines are sound (whatever
    its other lines contain): the load ends with a table or an error. *)
Theorem C52_no_crash_partial : forall {F} (pf : list ascii -> option F) ibody file fuel,
  (forall content, file = Some content -> sound_headers (b7 ibody) (split_lines content) /\ (length (split_lines content) < fuel)%nat) ->
  exists r, LoadPlanetPath pf fuel ibody file = Some r /\ r <> LPanic.
Proof. exact @Load_safe. Qed.
Print Assumptions C52_no_crash_partial.

(** A header that declares no terms is read again and again. *)
Theorem C52_zero_terms : forall {F} (pf : list ascii -> option F) ibody h ls, (0 <= ibody < 8)%Z -> (forall l, In l (h :: ls) -> ~ In line_feed l) ->
  header_of (b7 ibody) h -> column 41 h = Some "1"%char -> declares h 0 ->
  forall fuel, LoadPlanetPath pf fuel ibody (Some (file_of (h :: ls))) = None.
Proof. exact @Load_hangs. Qed.
Print Assumptions C52_zero_terms.
Theorem C52_terminates_refuted : exists content, forall fuel, LoadPlanetPath (@Some (list ascii)) fuel 2 (Some content) = None.
Proof. exact ex_hangs. Qed.
Print Assumptions C52_terminates_refuted.

(** One line missing at the end of the file, a line cut off, too many terms, a power over 5:
    a panic, not an error. *)
Theorem C52_missing_line : forall {F} (pf : list ascii -> option F) ibody h ls, (0 <= ibody < 8)%Z -> (forall l, In l (h :: ls) -> ~ In line_feed l) ->
  header_of (b7 ibody) h -> column 41 h = Some "1"%char -> declares h (Z.of_nat (length ls) + 1) ->
  forall fuel, LoadPlanetPath pf (S fuel) ibody (Some (file_of (h :: ls))) = Some LPanic.
Proof. exact @Load_short_file. Qed.
Print Assumptions C52_missing_line.
Theorem C52_short_line : forall {F} (pf : list ascii -> option F) ibody h d ls v, (0 <= ibody < 8)%Z -> (forall l, In l (h :: d :: ls) -> ~ In line_feed l) ->
  header_of (b7 ibody) h -> column 41 h = Some "1"%char -> declares h v -> (1 <= v <= 1 + Z.of_nat (length ls))%Z -> (length d < 97)%nat ->
  forall fuel, LoadPlanetPath pf (S fuel) ibody (Some (file_of (h :: d :: ls))) = Some LPanic.
Proof. exact @Load_short_line. Qed.
Print Assumptions C52_short_line.
Theorem C52_too_many_terms : forall {F} (pf : list ascii -> option F) ibody h ls (ts : list (F * F * F)) rest, (0 <= ibody < 8)%Z -> (forall l, In l (h :: ls ++ rest) -> ~ In line_feed l) ->
  header_of (b7 ibody) h -> column 41 h = Some "1"%char -> declares h (Z.of_nat (length ts)) -> Forall2 (data_line pf) ls ts -> (2047 < length ts)%nat ->
  forall fuel, LoadPlanetPath pf (S fuel) ibody (Some (file_of (h :: ls ++ rest))) = Some LPanic.
Proof. exact @Load_many. Qed.
Print Assumptions C52_too_many_terms.
Theorem C52_high_power : forall {F} (pf : list ascii -> option F) ibody h ls (ts : list (F * F * F)) rest p, (0 <= ibody < 8)%Z -> (forall l, In l (h :: ls ++ rest) -> ~ In line_feed l) ->
  header_of (b7 ibody) h -> column 41 h = Some "1"%char -> declares h (Z.of_nat (length ts)) -> Forall2 (data_line pf) ls ts -> (1 <= length ts <= 2047)%nat ->
  (6 <= p <= 9)%nat -> column 59 h = Some (ascii_of_nat (48 + p)) ->
  forall fuel, LoadPlanetPath pf (S fuel) ibody (Some (file_of (h :: ls ++ rest))) = Some LPanic.
Proof. exact @Load_power. Qed.
Print Assumptions C52_high_power.

(** A file that loads, and panics when its last line is lost. *)
Theorem C52_no_panic_refuted : exists content rest, (exists fuel v, LoadPlanetPath (@Some (list ascii)) fuel 2 (Some (content ++ rest)) = Some (LPlanet v)) /\
  forall fuel, LoadPlanetPath (@Some (list ascii)) (S fuel) 2 (Some content) = Some LPanic.
Proof. exact ex_truncated. Qed.
Print Assumptions C52_no_panic_refuted.

(** A file for the Earth with one series of longitudes and one of radii, and an empty last line. *)
Example C52_nonvacuous : well_formed (@Some (list ascii)) (b7 2) "1"%char ex_s1 /\ well_formed (@Some (list ascii)) (b7 2) "3"%char ex_s3 /\
  forall l, In l (lines_of [ex_s1] ++ lines_of (@nil (@series (list ascii))) ++ lines_of [ex_s3] ++ [[]]) -> ~ In line_feed l.
Proof. exact (conj (proj1 ex_wf) (conj (proj2 ex_wf) ex_no_feed)). Qed.
Print Assumptions C52_nonvacuous.
