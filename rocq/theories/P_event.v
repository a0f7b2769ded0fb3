(** C48 (index nearest to the year), C56 (perihelion search: result), C68 (perihelion
    search: termination), C69 (accuracy of the mean phases), C70 (order of the events). *)
From Coq Require Import ZArith Reals List Lra Lia.
From Verif Require Import GoMath M_lunar M_planetary M_eclipse S_event L_precess L_event L_event2 L_event3 L_perihelion.
Import ListNotations.
Local Open Scope R_scope.

(** ** C48 *)
Theorem C48_mean_phases : forall y,
  nearest_phase 0 y (MeanNew y) /\ nearest_phase 0.25 y (MeanFirst y) /\ nearest_phase 0.5 y (MeanFull y) /\ nearest_phase 0.75 y (MeanLast y).
Proof. exact mean_phases. Qed.
Print Assumptions C48_mean_phases.

Theorem C48_mean_apsides : forall y, nearest_apsis 0 y (MeanPerigee y) /\ nearest_apsis 0.5 y (MeanApogee y).
Proof. exact mean_apsides. Qed.
Print Assumptions C48_mean_apsides.

Theorem C48_eclipse_index : forall y q, nearest_index q ((y - 2000) * 12.3685) (ec_snap y q).
Proof. exact (fun y q => snap_nearest q ((y - 2000) * 12.3685)). Qed.
Print Assumptions C48_eclipse_index.

Theorem C48_nodes : forall y h, exists k,
  nearest_index h ((y - 2000.05) * 13.4223) k /\ (exists n : Z, k = IZR n + h) /\ node_ y h = node_ (draconic_year k) h.
Proof. exact node_nearest. Qed.
Print Assumptions C48_nodes.

Theorem C48_declinations : forall y c, exists k, nearest_index 0 ((y - 2000.03) * 13.3686) k /\ md_max y c = md_max (tropical_year k) c.
Proof. exact maxdec_nearest. Qed.
Print Assumptions C48_declinations.

(** planetary: the mean configuration nearest to the date of the year. *)
Theorem C48_planetary : forall y a, 0 < caB a ->
  nearest_event (fun n => caA a + IZR n * caB a) (365.2425 * y + 1721060) (pl_J y a) /\
  Rabs (pl_J y a - (365.2425 * y + 1721060)) <= caB a / 2.
Proof. exact pl_J_nearest. Qed.
Print Assumptions C48_planetary.

Theorem C48_planetary_no_panic : forall y,
  plMercuryInfConj y <> None /\ plMercurySupConj y <> None /\ plVenusInfConj y <> None /\ plMarsOpp y <> None /\
  plJupiterOpp y <> None /\ plSaturnOpp y <> None /\ plSaturnConj y <> None /\ plUranusOpp y <> None /\ plNeptuneOpp y <> None /\
  plMercuryEastElongation y <> None /\ plMercuryWestElongation y <> None /\ plMarsStation2 y <> None.
Proof. exact planetary_total. Qed.
Print Assumptions C48_planetary_no_panic.

Theorem C48_perihelion_index : forall p y, let ab := nth (pidx p) pe_ka (0, 0) in
  exists k, nearest_index 0 (fst ab * (y - snd ab)) k /\
    Perihelion p y = pe_mean p k + match p with Earth => pe_corr pe_ep k | _ => 0 end.
Proof. exact Perihelion_nearest. Qed.
Print Assumptions C48_perihelion_index.
Theorem C48_aphelion_index : forall p y, let ab := nth (pidx p) pe_ka (0, 0) in
  exists k, nearest_index 0.5 (fst ab * (y - snd ab)) k /\
    Aphelion p y = pe_mean p k + match p with Earth => pe_corr pe_ea k | _ => 0 end.
Proof. exact Aphelion_nearest. Qed.
Print Assumptions C48_aphelion_index.

(** In days the event returned is near the date of the year, ... *)
Theorem C48_phase_date : forall y q, 1001 <= y <= 2999 -> Rabs (mp_mean (mp_snap y q * mp_ck) - yearJDE y) <= 21.
Proof. exact mp_date. Qed.
Print Assumptions C48_phase_date.
Theorem C48_perigee_date : forall y, 1300 <= y <= 2700 -> Rabs (Perigee y - yearJDE y) <= 18.
Proof. exact Perigee_date. Qed.
Theorem C48_apogee_date : forall y, 1300 <= y <= 2700 -> Rabs (Apogee y - yearJDE y) <= 16.
Proof. exact Apogee_date. Qed.
Theorem C48_node_date : forall y h, 1300 <= y <= 2700 -> 0 <= h <= 0.5 -> Rabs (node_ y h - yearJDE y) <= 17.2.
Proof. exact node_date. Qed.
Print Assumptions C48_node_date.

(** ... but not always the nearest event: the indices are counted from the start of the
    year 2000, the events from the first one after it. *)
Theorem C48_nearest_date_refuted : let y := 2000 + 1600 / 36525 in
  MeanNew y = mp_mean (1 * mp_ck) /\ yearJDE y = 2451561 /\
  Rabs (mp_mean (0 * mp_ck) - 2451561) < 11 /\ 18 < Rabs (MeanNew y - 2451561).
Proof. exact MeanNew_not_nearest. Qed.
Print Assumptions C48_nearest_date_refuted.

Theorem C48_nearest_declination_refuted : let y := 2000 + 2400 / 36525 in
  yearJDE y = 2451569 /\ maxdecSouth y = maxdecSouth (tropical_year 0) /\
  17 < Rabs (fst (maxdecSouth y) - 2451569) /\ Rabs (fst (maxdecSouth (tropical_year 1)) - 2451569) < 10.
Proof. exact South_not_nearest. Qed.
Print Assumptions C48_nearest_declination_refuted.

Example C48_nonvacuous : 0 < caB micA /\ nearest_index 0.25 5.3 5.25.
Proof.
  split; [cbn; decimals; lra|]. split; [exists 5%Z; decimals; lra|]. intros n.
  assert (C : (n <= 4 \/ n = 5 \/ 6 <= n)%Z) by lia. destruct C as [C|[->|C]].
  - apply IZR_le in C. unfold Rabs. repeat destruct Rcase_abs; revert C; decimals; intros; lra.
  - right. f_equal. decimals. lra.
  - apply IZR_le in C. unfold Rabs. repeat destruct Rcase_abs; revert C; decimals; intros; lra.
Qed.

(** ** C56.  The result of a search with step d: an extremum of the parabola through
    three samples around the grid point m, at least as extreme as the sample. *)
Theorem C56_search_result : forall fuel r j1 d far, d <> 0 ->
  ap2a fuel r j1 d far = Running \/
  exists m x v, ap2a fuel r j1 d far = Found (x, v) /\ (exists z : Z, m = j1 + IZR z * d) /\
    more_extreme far (r m) (r (m - d)) /\ more_extreme far (r m) (r (m + d)) /\
    Rabs (x - m) < Rabs d / 2 /\ (if far then r m <= v else v <= r m).
Proof. exact ap2a_result. Qed.
Print Assumptions C56_search_result.

Theorem C56_no_panic : forall fuel p y d r,
  Perihelion2 fuel p y d r <> Panicked /\ Aphelion2 fuel p y d r <> Panicked.
Proof. exact ap2_no_panic. Qed.
Print Assumptions C56_no_panic.

(** The searches of Perihelion2 and Aphelion2 start at the mean event; for Neptune there are two, and the more extreme result is taken. *)
Theorem C56_from_mean_event : forall fuel p y d r x v, p <> Neptune -> d <> 0 ->
  (Perihelion2 fuel p y d r = Found (x, v) -> extremum_near false r d (Perihelion p y) x v) /\
  (Aphelion2 fuel p y d r = Found (x, v) -> extremum_near true r d (Aphelion p y) x v).
Proof. exact Perihelion2_found. Qed.
Print Assumptions C56_from_mean_event.

Theorem C56_neptune : forall fuel y d r x v, d <> 0 ->
  (Perihelion2 fuel Neptune y d r = Found (x, v) ->
    exists x1 v1 x2 v2, extremum_near false r d (Perihelion Neptune y - 5000) x1 v1 /\ extremum_near false r d (Perihelion Neptune y + 5000) x2 v2 /\
      ((x, v) = (x1, v1) \/ (x, v) = (x2, v2)) /\ v <= v1 /\ v <= v2) /\
  (Aphelion2 fuel Neptune y d r = Found (x, v) ->
    exists x1 v1 x2 v2, extremum_near true r d (Aphelion Neptune y - 5000) x1 v1 /\ extremum_near true r d (Aphelion Neptune y + 5000) x2 v2 /\
      ((x, v) = (x1, v1) \/ (x, v) = (x2, v2)) /\ v1 <= v /\ v2 <= v).
Proof. exact Neptune_found. Qed.
Print Assumptions C56_neptune.

(** ** C68.  Termination of the search. *)
Theorem C68_unimodal_ends : forall (r : R -> R) (d c : R) (far : bool), 0 < d ->
  (forall x y, x < y -> y <= c -> more_extreme far (r y) (r x)) ->
  (forall x y, c <= x -> x < y -> more_extreme far (r x) (r y)) ->
  forall j1, (forall z : Z, r (j1 + IZR z * d) <> r (j1 + IZR (z + 1) * d)) ->
  forall n, Rabs (c - j1) < INR n * d -> ap2a n r j1 d far <> Running.
Proof. exact unimodal_ends. Qed.
Print Assumptions C68_unimodal_ends.

Example C68_nonvacuous : let r := fun x => (x - 1 / 3) * (x - 1 / 3) in
  (forall x y, x < y -> y <= 1 / 3 -> more_extreme false (r y) (r x)) /\
  (forall x y, 1 / 3 <= x -> x < y -> more_extreme false (r x) (r y)) /\
  (forall z : Z, r (0 + IZR z * 1) <> r (0 + IZR (z + 1) * 1)).
Proof.
  cbn. repeat split; intros; unfold more_extreme; try nra.
  rewrite plus_IZR. intros E. assert (K : 2 * IZR z + 1 / 3 = 0) by nra.
  assert (Z6 : (6 * z + 1 = 0)%Z). { apply eq_IZR. rewrite plus_IZR, mult_IZR. lra. } lia.
Qed.

(** With a zero step the search never ends, and neither does it when the two most
    extreme samples are equal: it steps back and forth. *)
Theorem C68_zero_step_refuted : forall fuel r j1 far, ap2a fuel r j1 0 far = Running.
Proof. exact ap2a_zero. Qed.
Print Assumptions C68_zero_step_refuted.
Theorem C68_equal_samples_far_refuted : forall fuel (r : R -> R) j1 d,
  r (j1 - d) < r j1 -> r (j1 + d) = r j1 -> r (j1 + 2 * d) < r j1 -> ap2a fuel r j1 d true = Running.
Proof. exact ap2a_tie. Qed.
Print Assumptions C68_equal_samples_far_refuted.
Theorem C68_equal_samples_near_refuted : forall fuel (r : R -> R) j1 d,
  r j1 < r (j1 - d) -> r (j1 + d) = r j1 -> r j1 < r (j1 + 2 * d) -> ap2a fuel r j1 d false = Running.
Proof. exact ap2a_tie_min. Qed.
Print Assumptions C68_equal_samples_near_refuted.

(** ** C69.  True against mean phases: the documentation says within half a day. *)
Theorem C69_new_full : forall y, 1001 <= y <= 2999 -> Rabs (mpNew y - MeanNew y) <= 0.638 /\ Rabs (mpFull y - MeanFull y) <= 0.638.
Proof. exact (fun y H => conj (New_mean y H) (Full_mean y H)). Qed.
Print Assumptions C69_new_full.
Theorem C69_quarters : forall y, 1001 <= y <= 2999 -> Rabs (mpFirst y - MeanFirst y) <= 0.854 /\ Rabs (mpLast y - MeanLast y) <= 0.854.
Proof. exact (fun y H => conj (First_mean y H) (Last_mean y H)). Qed.
Print Assumptions C69_quarters.
Theorem C69_half_day_new_refuted : let y := 2009.2 in 0.52 < mpNew y - MeanNew y.
Proof. exact New_half_day. Qed.
Print Assumptions C69_half_day_new_refuted.
Theorem C69_half_day_first_refuted : let y := 2002.2 in 0.7 < mpFirst y - MeanFirst y.
Proof. exact First_half_day. Qed.
Print Assumptions C69_half_day_first_refuted.

(** ** C70.  The events follow each other. *)
Theorem C70_phases : forall n : Z, (Z.abs n <= 12350)%Z ->
  let d q := lunation_year (IZR n + q) in
  5.8 < mpFirst (d 0.25) - mpNew (d 0) < 8.91 /\ 5.8 < mpFull (d 0.5) - mpFirst (d 0.25) < 8.91 /\
  5.8 < mpLast (d 0.75) - mpFull (d 0.5) < 8.91 /\ 5.8 < mpNew (lunation_year (IZR (n + 1))) - mpLast (d 0.75) < 8.91.
Proof. exact phases_follow. Qed.
Print Assumptions C70_phases.
Theorem C70_apsides : forall n : Z, (Z.abs n <= 9998)%Z ->
  9.9 < Apogee (anomalistic_year (IZR n + 0.5)) - Perigee (anomalistic_year (IZR n + 0)) < 17.6 /\
  9.9 < Perigee (anomalistic_year (IZR (n + 1) + 0)) - Apogee (anomalistic_year (IZR n + 0.5)) < 17.6.
Proof. exact apsides_follow. Qed.
Print Assumptions C70_apsides.
Theorem C70_nodes : forall n : Z, (Z.abs n <= 9998)%Z ->
  11.9 < nodeDescending (draconic_year (IZR n + 0.5)) - nodeAscending (draconic_year (IZR n + 0)) < 15.3 /\
  11.9 < nodeAscending (draconic_year (IZR (n + 1) + 0)) - nodeDescending (draconic_year (IZR n + 0.5)) < 15.3.
Proof. exact nodes_follow. Qed.
Print Assumptions C70_nodes.
Theorem C70_declinations : forall n : Z, (Z.abs n <= 9998)%Z ->
  let north k := fst (maxdecNorth (tropical_year k)) in let south k := fst (maxdecSouth (tropical_year k)) in
  9.4 < north (IZR n) - south (IZR n) < 18 /\ 9.4 < south (IZR (n + 1)) - north (IZR n) < 18.
Proof. exact maxdec_follow. Qed.
Print Assumptions C70_declinations.
Theorem C70_declination_range : forall y, 1300 <= y <= 2700 ->
  17.7 * p_ < snd (maxdecNorth y) < 29.7 * p_ /\ - (29.7 * p_) < snd (maxdecSouth y) < - (17.7 * p_).
Proof. exact maxdec_range. Qed.
Print Assumptions C70_declination_range.
