(** Mean events and the index nearest to the year. *)
From Coq Require Import ZArith Reals List Lra Lia Bool.
From Flocq Require Import Core.
From Verif Require Import GoFloat GoMath M_base M_precess M_interp M_lunar M_planetary M_eclipse S_event L_trig L_precess L_event L_event2 L_perihelion.
Import ListNotations.
Local Open Scope R_scope.
Lemma mp_nearest q y : nearest_phase q y (mp_mean (mp_snap y q * mp_ck)).
Proof.
  exists (mp_snap y q). split; [apply snap_nearest|]. rewrite mp_mean_poly. unfold mean_lunation. cbv zeta. unfold mp_ck.
  set (k := mp_snap y q). clearbody k. decimals. field.
Qed.
Lemma ap_nearest q y : nearest_apsis q y (ap_mean (ap_snap y q * ap_ck)).
Proof.
  exists (ap_snap y q). split; [apply snap_nearest|]. unfold ap_mean. rewrite Hor5. unfold mean_apsis. cbv zeta. unfold ap_ck.
  set (k := ap_snap y q). clearbody k. decimals. field.
Qed.
Lemma mean_phases y :
  nearest_phase 0 y (MeanNew y) /\ nearest_phase 0.25 y (MeanFirst y) /\ nearest_phase 0.5 y (MeanFull y) /\ nearest_phase 0.75 y (MeanLast y).
Proof. repeat split; apply mp_nearest. Qed.
Lemma mean_apsides y : nearest_apsis 0 y (MeanPerigee y) /\ nearest_apsis 0.5 y (MeanApogee y).
Proof. split; apply ap_nearest. Qed.
(** The computed events depend on the year only through the nearest index. *)
Lemma index_unique q x k k' : nearest_index q x k -> nearest_index q x k' -> Rabs (k - x) = Rabs (k' - x).
Proof. intros [[n ->] H] [[n' ->] H']. apply Rle_antisym; [apply H|apply H']. Qed.
Lemma node_nearest y h : exists k, nearest_index h ((y - 2000.05) * 13.4223) k /\ (exists n : Z, k = IZR n + h) /\ node_ y h = node_ (draconic_year k) h.
Proof.
  destruct (snap_as_index 2000.05 13.4223 h y ltac:(decimals; lra)) as [n [S1 [N S2]]]. exists (IZR n + h).
  split; [rewrite <- S1; apply snap_nearest|]. split; [now exists n|].
  unfold node_. cbv zeta. replace (no_snap y h) with (no_snap (draconic_year (IZR n + h)) h); [reflexivity|]. rewrite no_snap_year. symmetry. exact S1.
Qed.
Lemma maxdec_nearest y c : exists k, nearest_index 0 ((y - 2000.03) * 13.3686) k /\ md_max y c = md_max (tropical_year k) c.
Proof.
  destruct (snap_as_index 2000.03 13.3686 0 y ltac:(decimals; lra)) as [n [S1 [N S2]]]. exists (IZR n).
  split; [pose proof (snap_nearest 0 ((y - 2000.03) * 13.3686)) as H; rewrite S1, Rplus_0_r in H; exact H|].
  unfold md_max. cbv zeta. replace (md_snap y) with (md_snap (tropical_year (IZR n))); [reflexivity|]. rewrite md_snap_year. symmetry.
  unfold md_snap. cbv zeta. rewrite !Rplus_0_r, Rminus_0_r in S1. exact S1.
Qed.
Lemma Perihelion_nearest p y : let ab := nth (pidx p) pe_ka (0, 0) in
  exists k, nearest_index 0 (fst ab * (y - snd ab)) k /\
    Perihelion p y = pe_mean p k + match p with Earth => pe_corr pe_ep k | _ => 0 end.
Proof.
  intros ab. exists (pf (fst ab * (y - snd ab))). split; [apply pf_nearest|]. unfold Perihelion, pe_ap, pe_k. subst ab. destruct (nth _ _ _) as [a b]. reflexivity.
Qed.
Lemma Aphelion_nearest p y : let ab := nth (pidx p) pe_ka (0, 0) in
  exists k, nearest_index 0.5 (fst ab * (y - snd ab)) k /\
    Aphelion p y = pe_mean p k + match p with Earth => pe_corr pe_ea k | _ => 0 end.
Proof.
  intros ab. exists (af (fst ab * (y - snd ab))). split; [apply af_nearest|]. unfold Aphelion, pe_ap, pe_k. subst ab. destruct (nth _ _ _) as [a b]. reflexivity.
Qed.
