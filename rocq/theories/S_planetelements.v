(** Specification data for planetary orbits: tropical periods in days and mean distances in
    astronomical units, Mercury to Neptune (rounded, from general references). *)
From Coq Require Import Reals List.
Import ListNotations.
Local Open Scope R_scope.
Definition tropical_period : list R := [87.968; 224.695; 365.242; 686.973; 4330.595; 10746.94; 30588.740; 59799.9].
Definition mean_distance : list R := [0.387; 0.723; 1; 1.524; 5.203; 9.555; 19.218; 30.11].
