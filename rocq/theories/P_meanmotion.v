(** Property theorems: lunar events (C95) and planetary events (C96) agree with the mean motions. *)
From Coq Require Import ZArith Reals List Lra.
From Verif Require Import GoMath M_lunar M_eclipse M_moon M_planetary M_planetelements S_solar S_moon S_meanmotion L_precess L_moon2 L_meanmotion3 L_meanmotion5.
Import ListNotations.
Local Open Scope R_scope.

(** The mean phases fall where the mean elongation of the Moon is 0, 90, 180 and 270 degrees, to .0057 degrees (41 seconds of time). *)
Theorem C95_phases : forall year, Rabs (year - 2000) <= 2000 ->
  let on jde e := near_turns (degrees (elongation (centuries jde) - e)) (degrees 0.00567) in
  on (MeanNew year) 0 /\ on (MeanFirst year) 90 /\ on (MeanFull year) 180 /\ on (MeanLast year) 270.
Proof. exact phases. Qed.
Print Assumptions C95_phases.
(** The arguments of the periodic terms, polynomials in the number of lunations, are the anomalies, the distance
    from the node and the longitude of the node at that instant; eclipse uses the same ones. *)
Theorem C95_phase_arguments : forall year q, Rabs (year - 2000) <= 2000 -> let T := mp_snap year q * mp_ck in let t := centuries (mp_mean T) in
  near_turns (degrees (sun_anomaly t) - mp_M T) (degrees 0.00024) /\ near_turns (degrees (moon_anomaly t) - mp_M1 T) (degrees 0.00029) /\
  near_turns (degrees (node_distance t) - mp_F T) (degrees 0.00015) /\ near_turns (degrees (node_longitude t) - mp_Om T) (degrees 0.00275).
Proof. exact phase_arguments. Qed.
Print Assumptions C95_phase_arguments.
Theorem C95_eclipse_arguments : forall T, ec_ck = mp_ck /\ ec_M T = mp_M T /\ ec_M1 T = mp_M1 T /\ ec_F T = mp_F T /\ ec_Om T = mp_Om T /\ forall y q, ec_snap y q = mp_snap y q.
Proof. exact eclipse_arguments. Qed.
Print Assumptions C95_eclipse_arguments.
(** Perigee and apogee: mean anomaly 0 and 180 degrees. *)
Theorem C95_apsides : forall year, Rabs (year - 2000) <= 2000 ->
  let on jde e := near_turns (degrees (moon_anomaly (centuries jde) - e)) (degrees 0.00225) in
  on (MeanPerigee year) 0 /\ on (MeanApogee year) 180.
Proof. exact apsides. Qed.
Print Assumptions C95_apsides.
Theorem C95_apsis_arguments : forall year q, Rabs (year - 2000) <= 2000 -> let T := ap_snap year q * ap_ck in let t := centuries (ap_mean T) in
  near_turns (degrees (elongation t) - ap_D T) (degrees 0.00275) /\ near_turns (degrees (sun_anomaly t) - ap_M T) (degrees 0.00218) /\ near_turns (degrees (node_distance t) - ap_F T) (degrees 0.01514).
Proof. exact apsis_arguments. Qed.
Print Assumptions C95_apsis_arguments.
(** Passages through the nodes: mean distance from the ascending node 0 and 180 degrees. *)
Theorem C95_nodes : forall year, Rabs (year - 2000) <= 2000 ->
  let on h e := near_turns (degrees (node_distance (centuries (no_mean (no_snap year h * no_ck))) - e)) (degrees 0.00103) in
  on 0 0 /\ on 0.5 180.
Proof. exact node_passages. Qed.
Print Assumptions C95_nodes.
Theorem C95_node_arguments : forall year h, Rabs (year - 2000) <= 2000 -> let T := no_snap year h * no_ck in let t := centuries (no_mean T) in
  near_turns (degrees (elongation t) - no_D T) (degrees 0.00101) /\ near_turns (degrees (sun_anomaly t) - no_M T) (degrees 0.00024) /\
  near_turns (degrees (moon_anomaly t) - no_M1 T) (degrees 0.00126) /\ near_turns (degrees (node_longitude t) - no_Om T) (degrees 0.00034).
Proof. exact node_arguments. Qed.
Print Assumptions C95_node_arguments.
(** Greatest declinations: mean longitude 90 and 270 degrees, and the arguments of the terms. *)
Theorem C95_declinations : forall year, Rabs (year - 2000) <= 2000 ->
  let on c e := let T := md_snap year * md_ck in let t := centuries (md_mean c T) in
    near_turns (degrees (moon_longitude t - e)) (degrees 0.088) /\ near_turns (degrees (elongation t) - md_D c T) (degrees 0.081) /\ near_turns (degrees (sun_anomaly t) - md_M c T) (degrees 0.0076) /\
    near_turns (degrees (moon_anomaly t) - md_M1 c T) (degrees 0.0972) /\ near_turns (degrees (node_distance t) - md_F c T) (degrees 0.087) in
  on md_north 90 /\ on md_south 270.
Proof. exact declinations. Qed.
Print Assumptions C95_declinations.
(** The same motions underlie moonposition. *)
Theorem C95_position : forall T, dmf_D T = degrees (elongation T) /\ dmf_N T = degrees (moon_anomaly T) /\ dmf_F T = degrees (node_distance T) /\ moonL T = degrees (moon_longitude T) /\
  (Rabs T <= 20 -> Rabs (dmf_M T - degrees (sun_anomaly T)) <= degrees 0.0001).
Proof. exact position_arguments. Qed.
Print Assumptions C95_position.
Example C95_nonvacuous : Rabs (1582.75 - 2000) <= 2000.
Proof. decimals. apply Rabs_le. lra. Qed.

(** At the mean instant of a conjunction or opposition the planet and the Earth have, seen from the Sun, mean
    longitudes equal (0) or opposite (180), by the elements of planetelements; the argument M of the periodic
    terms is the mean anomaly of the Earth at that instant. *)
Theorem C96_mean_events : forall y, Rabs (y - 2000) <= 2000 ->
  let at_event p a q err := exists e, Mean p (pl_J y a) = Some e /\ near_turns (eLon e - degrees (earth_longitude (centuries (pl_J y a)) + q)) (degrees err) /\
     near_turns (degrees (sun_anomaly (centuries (pl_J y a))) - pl_M y a) (degrees 0.0645) in
  at_event M_planetelements.Mercury micA 0 0.0075 /\ at_event M_planetelements.Mercury mscA 180 0.0067 /\ at_event M_planetelements.Venus vicA 0 0.0033 /\ at_event M_planetelements.Mars moA 0 0.0035 /\
  at_event M_planetelements.Jupiter joA 0 0.033 /\ at_event M_planetelements.Saturn soA 0 0.0892 /\ at_event M_planetelements.Saturn scA 180 0.0892 /\ at_event M_planetelements.Uranus uoA 0 0.0016 /\ at_event M_planetelements.Neptune noA 0 0.0037.
Proof. exact mean_events. Qed.
Print Assumptions C96_mean_events.
(** At Perihelion the mean longitude by planetelements is that of the perihelion, at Aphelion the opposite one. *)
Theorem C96_perihelia : forall p y, p <> M_planetary.Earth /\ p <> EMBary -> Rabs (y - 2000) <= 2000 -> let err := degrees (nth (pidx p) [0.00557; 0.06268; 0.00062; 0.00590; 0.05264; 0.05361; 0.00694; 0.00191] 0) in
  (exists e, Mean (Z.of_nat (pidx p)) (Perihelion p y) = Some e /\ near_turns (eLon e - ePeri e) err) /\
  (exists e, Mean (Z.of_nat (pidx p)) (Aphelion p y) = Some e /\ near_turns (eLon e - ePeri e - PI) err).
Proof. exact perihelia. Qed.
Print Assumptions C96_perihelia.
(** The Earth-Moon barycentre. *)
Theorem C96_barycentre : forall y, Rabs (y - 2000) <= 2000 -> near_turns (degrees (sun_anomaly (centuries (Perihelion EMBary y)))) (degrees 0.00062) /\ near_turns (degrees (sun_anomaly (centuries (Aphelion EMBary y)) - 180)) (degrees 0.00062).
Proof. exact embary. Qed.
Print Assumptions C96_barycentre.
Example C96_nonvacuous : M_planetary.Neptune <> M_planetary.Earth /\ M_planetary.Neptune <> EMBary /\ Rabs (0.5 - 2000) <= 2000.
Proof. repeat split; try discriminate. decimals. apply Rabs_le. lra. Qed.
